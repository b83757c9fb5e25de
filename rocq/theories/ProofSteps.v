(* Flat data that is set again, replaced and set in steps. *)
From Verif Require Import PyBase PyBaseFacts PyList ModelMap SpecScalar ProofScalar ModelPaths SpecPaths ModelScalar ModelCompound ModelFlat SpecFlat ProofFlat ProofFlat2 ProofFlat3 ProofFlat9 SpecSteps.

(* ---------------- again ---------------- *)
Lemma go_other sep ps fs k : forall items, ~ In k (map fname fs) -> aget name_eqb k (fst (dict_go sep ps fs items)) = aget name_eqb k items.
Proof.
  induction fs as [|[b f] fs IH]; intros items N; [easy|]. cbn [dict_go]. cbn [map] in N.
  assert (N' : ~ In k (map fname fs)) by (intros H; apply N; now right).
  assert (A : forall u, aget name_eqb k (aset name_eqb (schema_name f) u items) = aget name_eqb k items).
  { intros u. apply (aget_aset_neq name_eqb name_eqb_eq'). intros E. apply N. left. unfold fname. cbn. congruence. }
  destruct (accumulate (schema_name f) ps) as [[|p acc]|x]; [now apply IH| |easy].
  destruct (set_flat f sep _ (p :: acc)) as [u [|]]; [|apply A]. rewrite IH by easy. apply A.
Qed.
Lemma go_again sep ps fs : NoDup (map fname fs) ->
  (forall b f, In (b, f) fs -> forall e l, set_flat f sep (fst (set_flat f sep e l)) l = set_flat f sep e l) ->
  forall items, dict_go sep ps fs (fst (dict_go sep ps fs items)) = dict_go sep ps fs items.
Proof.
  induction fs as [|[b f] fs IH]; intros ND H items; [easy|].
  cbn [map] in ND. apply NoDup_cons_iff in ND as [NI ND]. unfold fname at 1 in NI. cbn [snd] in NI.
  assert (IH' : forall items, dict_go sep ps fs (fst (dict_go sep ps fs items)) = dict_go sep ps fs items).
  { apply IH; [easy|]. intros b' g I. apply (H b' g). now right. }
  cbn [dict_go]. destruct (accumulate (schema_name f) ps) as [[|p acc]|x]; [apply IH'| |easy].
  set (old := match aget name_eqb (schema_name f) items with Some u => u | None => fresh f end).
  pose proof (H b f (or_introl eq_refl) old (p :: acc)) as S. destruct (set_flat f sep old (p :: acc)) as [u r]. cbn [fst] in S.
  destruct r as [[]|x].
  - assert (A : aget name_eqb (schema_name f) (fst (dict_go sep ps fs (aset name_eqb (schema_name f) u items))) = Some u).
    { rewrite go_other by easy. apply (aget_aset_eq name_eqb name_eqb_eq'). }
    rewrite A, S, (aset_same _ _ _ A). apply IH'.
  - cbn [fst]. assert (A : aget name_eqb (schema_name f) (aset name_eqb (schema_name f) u items) = Some u) by apply (aget_aset_eq name_eqb name_eqb_eq').
    rewrite A, S, (aset_same _ _ _ A). reflexivity.
Qed.
Lemma scalar_again k st v : scalar_set k (fst (scalar_set k st v)) v = scalar_set k st v.
Proof. unfold scalar_set. destruct (adapt k v) as [n|[]]; reflexivity. Qed.
Lemma scalar_set_raw k st raw v : scalar_set k (Scalar raw (s_value st) (s_u st)) v = scalar_set k st v.
Proof. unfold scalar_set. destruct (adapt k v) as [n|[]]; reflexivity. Qed.
Lemma again_lemma s : named_fields s -> forall sep e ps, set_flat s sep (fst (set_flat s sep e ps)) ps = set_flat s sep e ps.
Proof.
  induction s as [n k|n cp fs IH|n p z m IH|n p m IH|n jd] using schema_ind'; intros N sep e ps.
  - destruct e as [m st| | | |]; try easy. cbn [set_flat]. destruct (flat_first m ps) as [v|] eqn:F.
    + pose proof (scalar_again k (Scalar None (s_value st) (s_u st)) v) as A. destruct (scalar_set k (Scalar None (s_value st) (s_u st)) v) as [st' r] eqn:E. cbn [fst] in *.
      cbn [set_flat]. rewrite F, scalar_set_raw, A. reflexivity.
    + cbn [fst set_flat]. rewrite F. reflexivity.
  - destruct e as [|m cq items| | |]; try easy. apply named_dict in N as [ND N]. rewrite set_flat_dict.
    destruct (match m with None => Ok ps | Some x => possibles (x ++ sep) ps end) as [[|q qs]|x] eqn:P; cbn [fst]; try (rewrite set_flat_dict, P; reflexivity).
    assert (G : dict_go sep (q :: qs) fs (fst (dict_go sep (q :: qs) fs items)) = dict_go sep (q :: qs) fs items).
    { apply go_again; [easy|]. intros b f I e l. rewrite Forall_forall in IH. apply (IH _ I). now destruct (N _ _ I). }
    destruct (dict_go sep (q :: qs) fs items) as [items' r]. cbn [fst] in *. rewrite set_flat_dict, P, G. reflexivity.
  - destruct e as [| |m' l| |]; try easy. cbn [set_flat]. destruct (collect m' sep p [] ps) as [[|g gs]|x] eqn:C; cbn [fst set_flat]; try (rewrite C; reflexivity).
    destruct (build _ _ _) as [l' r] eqn:B. cbn [fst set_flat]. rewrite C, B. reflexivity.
  - destruct e as [| | |m' l|]; try easy. cbn [set_flat]. destruct (is_container m) eqn:C; [reflexivity|].
    destruct (array_members (array_pair m' (schema_name m) sep p) (set_flat m (lit "_") (fresh m)) ps) as [l' r] eqn:A. cbn [fst set_flat]. try rewrite C. rewrite A. reflexivity.
  - destruct e as [| | | |m j l]; try easy. cbn [set_flat]. destruct (flat_first m ps) as [v|] eqn:F.
    + destruct (joined_set (j_glue jd) (j_how jd) (j_kind jd) (j_prune jd) l (joined_input v)) as [l' r] eqn:E. cbn [fst set_flat]. rewrite F.
      unfold joined_set in *. destruct (joined_values _ _ _) as [vs|x]; [rewrite E; reflexivity|]. injection E as <- <-. reflexivity.
    + cbn [fst set_flat]. rewrite F. reflexivity.
Qed.

(* ---------------- elements stay of their schema ---------------- *)
Definition holds (fs : list (bool * schema)) (items : list (name * element)) : Prop :=
  NoDup (map fst items) /\ (forall k, In k (map fst items) -> In k (map fname fs))
  /\ forall b f, In (b, f) fs -> (forall u, In (schema_name f, u) items -> is_of f u) /\ (b = true -> In (schema_name f) (map fst items)).
Lemma of_dict cp cq n fs m items : is_of (SDict n cp fs) (EDict m cq items) <-> m = n /\ cq = cp /\ holds fs items.
Proof. rewrite is_of_dict. unfold holds. tauto. Qed.
Lemma of_fresh s : named_fields s -> is_of s (fresh s).
Proof.
  induction s as [n k|n cp fs IH|n p z m IH|n p m IH|n jd] using schema_ind'; intros N; try (now repeat constructor).
  apply named_dict in N as [ND N].
  change (fresh (SDict n cp fs)) with (EDict n cp (match fresh (SDict n cp fs) with EDict _ _ l => l | _ => [] end)).
  apply of_dict. split; [easy|]. split; [easy|]. repeat split.
  - cbn. clear IH N. induction fs as [|[b f] fs IHf]; cbn; [constructor|]. cbn in ND. apply NoDup_cons_iff in ND as [NI ND]. destruct b; [|now apply IHf].
    cbn. constructor; [|now apply IHf]. intros I. apply NI. apply in_map_iff in I as ([k u] & E & I). cbn in E. subst k.
    apply in_flat_map in I as ([b g] & G & I). destruct b; [|easy]. destruct I as [I|[]]. injection I as I _. unfold fname. cbn. rewrite <- I. apply in_map_iff. now exists (true, g).
  - intros k I. apply in_map_iff in I as ([k' u] & <- & I). apply In_fresh in I as (f & F & -> & _). apply in_map_iff. now exists (true, f).
  - intros u U. apply In_fresh in U as (g & G & E & ->). destruct (field_unique fs b f true g ND H G E) as [-> ->].
    rewrite Forall_forall in IH. apply (IH _ H). now destruct (N _ _ H).
  - intros ->. apply in_map_iff. exists (schema_name f, fresh f). split; [easy|]. apply In_fresh. now exists f.
Qed.
Lemma holds_go sep all ps : NoDup (map fname all) ->
  (forall b f, In (b, f) all -> forall e qs, is_of f e -> is_of f (fst (set_flat f sep e qs))) ->
  (forall b f, In (b, f) all -> is_of f (fresh f)) ->
  forall fs items, (forall x, In x fs -> In x all) -> holds all items -> holds all (fst (dict_go sep ps fs items)).
Proof.
  intros ND IH N. induction fs as [|[b f] fs IHf]; intros items S H; cbn [dict_go]; [exact H|].
  assert (In (b, f) all) as If by (apply S; now left). assert (forall x, In x fs -> In x all) as S' by (intros; apply S; now right).
  destruct (accumulate (schema_name f) ps) as [[|p acc]|x] eqn:A; [now apply IHf| |exact H].
  set (old := match aget name_eqb (schema_name f) items with Some u => u | None => fresh f end).
  assert (is_of f old) as Io.
  { unfold old. destruct (aget name_eqb (schema_name f) items) as [w|] eqn:W; [|eapply N; eauto].
    apply (aget_In name_eqb name_eqb_eq') in W. destruct H as (_ & _ & F). now apply (F _ _ If). }
  pose proof (IH _ _ If old (p :: acc) Io) as Iu. destruct (set_flat f sep old (p :: acc)) as [u r]. cbn [fst] in Iu.
  assert (holds all (aset name_eqb (schema_name f) u items)) as H'.
  { destruct H as (D & K & F). split; [now apply (NoDup_keys_aset name_eqb name_eqb_eq')|]. split.
    - intros k I. apply (In_keys_aset name_eqb name_eqb_eq') in I as [->|I]; [|now apply K]. apply in_map_iff. now exists (b, f).
    - intros b' g Ig. destruct (F _ _ Ig) as [F1 F2]. split.
      + intros w W. apply In_aset in W as [[E ->]|W]; [|now apply F1]. now destruct (field_unique all b f b' g ND If Ig (eq_sym E)) as [_ <-].
      + intros B. apply (In_keys_aset name_eqb name_eqb_eq'). right. now apply F2. }
  destruct r; [now apply IHf|exact H'].
Qed.
Lemma of_set s : named_fields s -> forall sep e ps, is_of s e -> is_of s (fst (set_flat s sep e ps)).
Proof.
  induction s as [n k|n cp fs IH|n p z m IH|n p m IH|n jd] using schema_ind'; intros N sep e ps H.
  - destruct e as [m st| | | |]; try easy. cbn in H. subst m. cbn [set_flat]. destruct (flat_first n ps) as [v|]; [|easy]. now destruct (scalar_set _ _ _).
  - destruct e as [|m cq items| | |]; try easy. apply of_dict in H as (-> & -> & H). apply named_dict in N as [ND N]. rewrite set_flat_dict.
    destruct (match n with None => Ok ps | Some x => possibles (x ++ sep) ps end) as [[|q qs]|x] eqn:P; try (apply of_dict; easy).
    assert (holds fs (fst (dict_go sep (q :: qs) fs items))) as H'.
    { apply holds_go; try easy.
      - intros b f I e qs' He. rewrite Forall_forall in IH. apply (IH _ I); try easy. now destruct (N _ _ I).
      - intros b f I. apply of_fresh. now destruct (N _ _ I). }
    destruct (dict_go sep (q :: qs) fs items) as [items' r]. now apply of_dict.
  - destruct e as [| |m' l| |]; try easy. destruct H as [-> H]. cbn [set_flat].
    destruct (collect n sep p [] ps) as [[|g gs]|x] eqn:C; [now split| |now split].
    pose proof (build_Forall (is_of m) (fresh m) (set_flat m sep (fresh m)) (list_plan p z (g :: gs)) (of_fresh m N)) as B.
    destruct (build _ _ _) as [l' r]. split; [easy|]. apply B. intros qs. apply IH; [easy|now apply of_fresh].
  - destruct e as [| | |m' l|]; try easy. destruct H as [-> H]. cbn [set_flat]. destruct (is_container m); [now split|].
    pose proof (members_Forall (is_of m) (array_pair n (schema_name m) sep p) (set_flat m (lit "_") (fresh m)) ps) as B.
    destruct (array_members _ _ ps) as [l' r]. split; [easy|]. apply B. intros qs. apply IH; [easy|now apply of_fresh].
  - destruct e as [| | | |m j l]; try easy. destruct H as [-> ->]. cbn [set_flat]. destruct (flat_first n ps); [|now split]. destruct (joined_set _ _ _ _ _ _). now split.
Qed.
Lemma same_refl s : named_fields s -> forall e, is_of s e -> same e e.
Proof.
  induction s as [n k|n cp fs IH|n p z m IH|n p m IH|n jd] using schema_ind'; intros N e H.
  - destruct e; try easy. now constructor.
  - destruct e as [|m cq items| | |]; try easy. apply of_dict in H as (-> & -> & ND & K & F). apply named_dict in N as [_ N]. constructor; [easy|].
    intros k u u' I I'. apply (In_aget name_eqb name_eqb_eq') in I as A, I' as A'; try exact ND. assert (u' = u) as -> by congruence.
    assert (J : In k (map fname fs)) by (apply K, in_map_iff; now exists (k, u)). apply in_map_iff in J as ([b f] & E & J). unfold fname in E. cbn in E. subst k.
    rewrite Forall_forall in IH. apply (IH _ J); [now destruct (N _ _ J)|]. now apply (F _ _ J).
  - destruct e as [| |m' l| |]; try easy. destruct H as [-> H]. constructor. induction H; constructor; auto.
  - destruct e as [| | |m' l|]; try easy. destruct H as [-> H]. constructor. induction H; constructor; auto.
  - destruct e as [| | | |m j l]; try easy. constructor. clear H. induction l; constructor; [now split|easy].
Qed.

(* ---------------- mappings, field by field ---------------- *)
Definition before (f : schema) (items : list (name * element)) : element :=
  match aget name_eqb (schema_name f) items with Some u => u | None => fresh f end.
Lemma go_ok sep ps fs : text_keys ps -> NoDup (map fname fs) -> (forall b f, In (b, f) fs -> schema_name f <> None) ->
  forall items, (forall b f x, In (b, f) fs -> schema_name f = Some x -> starting x ps <> [] -> snd (set_flat f sep (before f items) (starting x ps)) = Ok tt) ->
  snd (dict_go sep ps fs items) = Ok tt.
Proof.
  intros T. induction fs as [|[b f] fs IH]; intros ND NN items H; [easy|]. cbn [map] in ND. apply NoDup_cons_iff in ND as [NI ND]. unfold fname at 1 in NI. cbn [snd] in NI.
  cbn [dict_go]. destruct (schema_name f) as [x|] eqn:E; [|now specialize (NN b f (or_introl eq_refl))]. rewrite acc_text by easy.
  assert (NN' : forall b f, In (b, f) fs -> schema_name f <> None) by (intros; eapply NN; right; eassumption).
  pose proof (H b f x (or_introl eq_refl) E) as Hf. unfold before in Hf. rewrite E in Hf.
  destruct (starting x ps) as [|p l] eqn:L.
  - apply IH; try easy. intros b' g y I. apply (H b' g y). now right.
  - specialize (Hf ltac:(easy)). destruct (set_flat f sep _ (p :: l)) as [u r]. cbn [snd] in Hf. subst r.
    apply IH; try easy. intros b' g y I Eg Ne. specialize (H b' g y (or_intror I) Eg Ne). rewrite <- H. unfold before.
    rewrite (aget_aset_neq name_eqb name_eqb_eq'); [easy|]. intros X. apply NI. apply in_map_iff. exists (b', g). split; [exact X|easy].
Qed.
(* what a field holds afterwards *)
Lemma go_field sep ps fs : text_keys ps -> NoDup (map fname fs) -> (forall b f, In (b, f) fs -> schema_name f <> None) ->
  forall items items', dict_go sep ps fs items = (items', Ok tt) -> forall b f x, In (b, f) fs -> schema_name f = Some x ->
  match starting x ps with
  | [] => aget name_eqb (Some x) items' = aget name_eqb (Some x) items
  | l => exists u, set_flat f sep (before f items) l = (u, Ok tt) /\ aget name_eqb (Some x) items' = Some u
  end.
Proof.
  intros T. induction fs as [|[b f] fs IH]; intros ND NN items items' G b' g y I Eg; [easy|]. cbn [map] in ND. apply NoDup_cons_iff in ND as [NI ND]. unfold fname at 1 in NI. cbn [snd] in NI.
  cbn [dict_go] in G. destruct (schema_name f) as [x|] eqn:E; [|now specialize (NN b f (or_introl eq_refl))]. rewrite acc_text in G by easy.
  assert (NN' : forall b f, In (b, f) fs -> schema_name f <> None) by (intros; eapply NN; right; eassumption).
  assert (Oth : forall (z : element) it, In (b', g) fs -> aget name_eqb (Some y) (aset name_eqb (Some x) z it) = aget name_eqb (Some y) it).
  { intros z it J. apply (aget_aset_neq name_eqb name_eqb_eq'). intros X. apply NI. apply in_map_iff. exists (b', g). split; [unfold fname; cbn [snd]; congruence|easy]. }
  destruct (starting x ps) as [|p l] eqn:L.
  - destruct I as [[= <- <-]|I]; [|now apply (IH ND NN' _ _ G b' g y I Eg)].
    assert (y = x) as -> by congruence. rewrite L. pose proof (go_other sep ps fs (Some x) items NI) as O. rewrite G in O. exact O.
  - destruct (set_flat f sep _ (p :: l)) as [u [[]|e]] eqn:F; [|easy].
    destruct I as [[= <- <-]|I].
    + assert (y = x) as -> by congruence. rewrite L. exists u. split; [unfold before; rewrite E; exact F|].
      pose proof (go_other sep ps fs (Some x) (aset name_eqb (Some x) u items) NI) as O. rewrite G in O. cbn [fst] in O. rewrite O. apply (aget_aset_eq name_eqb name_eqb_eq').
    + pose proof (IH ND NN' _ _ G b' g y I Eg) as R. unfold before in *. rewrite Eg in *. rewrite !(Oth u items I) in R. exact R.
Qed.
(* whether it raises or not *)
Lemma go_some sep ps fs : text_keys ps -> NoDup (map fname fs) -> (forall b f, In (b, f) fs -> schema_name f <> None) ->
  forall items b f x, In (b, f) fs -> schema_name f = Some x ->
  let items' := fst (dict_go sep ps fs items) in
  aget name_eqb (Some x) items' = aget name_eqb (Some x) items
  \/ starting x ps <> [] /\ aget name_eqb (Some x) items' = Some (fst (set_flat f sep (before f items) (starting x ps))).
Proof.
  intros T. induction fs as [|[b f] fs IH]; intros ND NN items b' g y I Eg; [easy|]. cbn [map] in ND. apply NoDup_cons_iff in ND as [NI ND]. unfold fname at 1 in NI. cbn [snd] in NI.
  cbn [dict_go]. destruct (schema_name f) as [x|] eqn:E; [|now specialize (NN b f (or_introl eq_refl))]. rewrite acc_text by easy.
  assert (NN' : forall b f, In (b, f) fs -> schema_name f <> None) by (intros; eapply NN; right; eassumption).
  assert (Oth : forall (z : element) it, In (b', g) fs -> aget name_eqb (Some y) (aset name_eqb (Some x) z it) = aget name_eqb (Some y) it).
  { intros z it J. apply (aget_aset_neq name_eqb name_eqb_eq'). intros X. apply NI. apply in_map_iff. exists (b', g). split; [unfold fname; cbn [snd]; congruence|easy]. }
  destruct (starting x ps) as [|p l] eqn:L.
  - destruct I as [[= <- <-]|I]; [|now apply (IH ND NN' items b' g y I Eg)].
    assert (y = x) as -> by congruence. left. now apply go_other.
  - destruct (set_flat f sep _ (p :: l)) as [u r] eqn:F.
    assert (D : (exists x', r = Err x') \/ r = Ok tt) by (destruct r as [[]|x']; eauto).
    destruct I as [[= <- <-]|I].
    + assert (y = x) as -> by congruence. right. rewrite L. split; [easy|]. unfold before. rewrite E, F. cbn [fst].
      destruct D as [[x' ->]| ->]; cbn [fst]; [|rewrite go_other by easy]; apply (aget_aset_eq name_eqb name_eqb_eq').
    + destruct D as [[x' ->]| ->]; cbn [fst]; [left; now apply Oth|].
      pose proof (IH ND NN' (aset name_eqb (Some x) u items) b' g y I Eg) as R. cbv zeta in R. unfold before in *. rewrite Eg in *. rewrite !(Oth u items I) in R. exact R.
Qed.
Lemma same_items cp n fs l l' : holds fs l -> holds fs l' ->
  (forall b f, In (b, f) fs -> match aget name_eqb (schema_name f) l, aget name_eqb (schema_name f) l' with
                               | Some u, Some u' => same u u' | None, None => True | _, _ => False end) ->
  same (EDict n cp l) (EDict n cp l').
Proof.
  intros (D & K & _) (D' & K' & _) H. constructor.
  - assert (W : forall m k, In k (map fst m) <-> aget name_eqb k m <> (None : option element)).
    { intros m k. pose proof (aget_None name_eqb name_eqb_eq' k m) as X. unfold keys in X. destruct (aget name_eqb k m) eqn:A; split; intros Y; try easy.
      - apply (aget_In name_eqb name_eqb_eq') in A. apply in_map_iff. now exists (k, e).
      - intros _. apply (proj1 X); [easy|exact Y]. }
    intros k. split; intros I.
    + specialize (K k I). apply in_map_iff in K as ([b f] & E & J). unfold fname in E. cbn in E. subst k. specialize (H _ _ J). apply W in I. apply W.
      destruct (aget name_eqb (schema_name f) l), (aget name_eqb (schema_name f) l'); easy.
    + specialize (K' k I). apply in_map_iff in K' as ([b f] & E & J). unfold fname in E. cbn in E. subst k. specialize (H _ _ J). apply W in I. apply W.
      destruct (aget name_eqb (schema_name f) l), (aget name_eqb (schema_name f) l'); easy.
  - intros k u u' I I'. assert (J : In k (map fname fs)) by (apply K, in_map_iff; now exists (k, u)). apply in_map_iff in J as ([b f] & E & J). unfold fname in E. cbn in E. subst k.
    specialize (H _ _ J). apply (In_aget name_eqb name_eqb_eq') in I, I'; try easy. now rewrite I, I' in H.
Qed.
Lemma holds_before fs items b f : holds fs items -> In (b, f) fs -> named_fields f -> is_of f (before f items).
Proof.
  intros (_ & _ & F) I N. unfold before. destruct (aget name_eqb (schema_name f) items) as [u|] eqn:A; [|now apply of_fresh].
  apply (aget_In name_eqb name_eqb_eq') in A. now apply (F _ _ I).
Qed.
Lemma ok_pair {A} (p : A * res unit) : snd p = Ok tt -> p = (fst p, Ok tt).
Proof. destruct p. cbn. now intros ->. Qed.

(* ---------------- replaced ---------------- *)
Lemma again_first n ps qs : named_again ps qs -> flat_first n qs = None -> flat_first n ps = None.
Proof.
  intros S H. assert (W : forall l, flat_first n l = None <-> ~ In n (map fst l)).
  { induction l as [|[k v] l IH]; cbn; [easy|]. destruct (name_eqb_spec k n) as [->|X]; [intuition discriminate|]. rewrite IH. intuition. }
  apply W in H. apply W. intros I. now apply H, S.
Qed.
Lemma again_own n sep ps qs : named_again ps qs -> named_again (own_part n sep ps) (own_part n sep qs).
Proof.
  intros S. destruct n as [o|]; [|exact S]. cbn [own_part]. intros k I. unfold stripped in *. apply in_map_iff in I as ([k' v] & <- & I). apply in_flat_map in I as ([c w] & J & I).
  cbn [fst] in I. destruct c as [c|]; [|easy]. destruct (starts_with (o ++ sep) c) eqn:E; [|easy]. destruct I as [[= <- <-]|[]].
  assert (Q : In (Some c) (map fst qs)) by (apply S, in_map_iff; now exists (Some c, w)). apply in_map_iff in Q as ([d w'] & Ed & Q). cbn in Ed. subst d.
  apply in_map_iff. exists (Some (skipn (List.length (o ++ sep)) c), w'). split; [easy|]. apply in_flat_map. exists (Some c, w'). split; [easy|]. cbn [fst]. rewrite E. now left.
Qed.
Lemma again_start x ps qs : named_again ps qs -> named_again (starting x ps) (starting x qs).
Proof.
  intros S k I. unfold starting in *. apply in_map_iff in I as ([k' v] & <- & I). apply filter_In in I as [I W]. cbn [fst] in *.
  assert (Q : In k' (map fst qs)) by (apply S, in_map_iff; now exists (k', v)). apply in_map_iff in Q as ([d w'] & Ed & Q). cbn in Ed. subst d.
  apply in_map_iff. exists (k', w'). split; [easy|]. now apply filter_In.
Qed.
Lemma again_text ps qs : named_again ps qs -> text_keys qs -> text_keys ps.
Proof.
  unfold text_keys. rewrite !Forall_forall. intros S H [k v] I. cbn. assert (Q : In k (map fst qs)) by (apply S, in_map_iff; now exists (k, v)).
  apply in_map_iff in Q as ([d w'] & Ed & Q). cbn in Ed. subst d. exact (H _ Q).
Qed.
Lemma starting_text x ps : text_keys ps -> text_keys (starting x ps).
Proof. unfold text_keys. rewrite !Forall_forall. intros H p I. apply filter_In in I as [I _]. now apply H. Qed.
Lemma replaced s : named_fields s -> forall sep e ps qs e2, is_of s e -> text_keys qs -> named_again ps qs ->
  set_flat s sep e qs = (e2, Ok tt) ->
  exists e3, set_flat s sep (fst (set_flat s sep e ps)) qs = (e3, Ok tt) /\ same e3 e2.
Proof.
  induction s as [n k|n cp fs IH|n p z m IH|n p m IH|n jd] using schema_ind'; intros N sep e ps qs e2 H T S Q.
  - destruct e as [m st| | | |]; try easy. cbn in H. subst m. cbn [set_flat] in *. destruct (flat_first n qs) as [v|] eqn:F.
    + assert (X : exists st1, fst (match flat_first n ps with Some v => let '(st, r) := scalar_set k (Scalar None (s_value st) (s_u st)) v in (EScalar n st, rmap (fun _ => tt) r) | None => (EScalar n (Scalar None (s_value st) (s_u st)), Ok tt) end) = EScalar n st1).
      { clear Q. destruct (flat_first n ps); [|eexists; reflexivity]. destruct (scalar_set k _ _) as [st1 r]. now exists st1. }
      destruct X as [st1 ->]. cbn [set_flat]. rewrite F. unfold scalar_set in *. destruct (adapt k v) as [w|x].
      * injection Q as <-. eexists. split; [reflexivity|]. now constructor.
      * destruct x; try discriminate Q. injection Q as <-. eexists. split; [reflexivity|]. now constructor.
    + rewrite (again_first n ps qs S F). cbn [fst set_flat]. rewrite F. injection Q as <-. eexists. split; [reflexivity|]. now constructor.
  - destruct e as [|m cq items| | |]; try easy. pose proof H as H0. apply of_dict in H as (-> & -> & H). pose proof N as N0. apply named_dict in N as [ND N].
    pose proof (again_text _ _ S T) as Tp. rewrite set_flat_dict_text in Q by easy. rewrite (set_flat_dict_text _ _ _ _ _ ps) by easy.
    assert (Ha : holds fs (fst (dict_go sep (own_part n sep ps) fs items))).
    { apply holds_go; try easy.
      - intros b f I e qs' He. apply of_set; try easy. now destruct (N _ _ I).
      - intros b f I. apply of_fresh. now destruct (N _ _ I). }
    assert (NN : forall b f, In (b, f) fs -> schema_name f <> None) by (intros b f I; now destruct (N _ _ I)).
    set (P := own_part n sep ps) in *. set (R := own_part n sep qs) in *.
    assert (TP : text_keys P) by now apply own_part_text. assert (TR : text_keys R) by now apply own_part_text.
    assert (SR : named_again P R) by now apply again_own.
    destruct (dict_go sep R fs items) as [items2 r] eqn:G. injection Q as <- ->.
    pose proof (fun b f x => go_some sep P fs TP ND NN items b f x) as One. cbv zeta in One.
    destruct (dict_go sep P fs items) as [items1 r1] eqn:G1. cbn [fst] in *.
    rewrite set_flat_dict_text by easy. fold R.
    (* each field *)
    assert (Each : forall b f x, In (b, f) fs -> schema_name f = Some x -> starting x R <> [] ->
      exists u3 u2, set_flat f sep (before f items1) (starting x R) = (u3, Ok tt) /\ set_flat f sep (before f items) (starting x R) = (u2, Ok tt)
                    /\ aget name_eqb (Some x) items2 = Some u2 /\ same u3 u2).
    { intros b f x I E Ne. pose proof (go_field sep R fs TR ND NN _ _ G b f x I E) as Fi. destruct (starting x R) as [|q l] eqn:L; [easy|]. destruct Fi as (u2 & F2 & A2).
      destruct (N _ _ I) as [_ Nf]. pose proof (holds_before fs items b f H I Nf) as Ob.
      destruct (One b f x I E) as [U|[Ne' U]].
      - exists u2, u2. unfold before in *. rewrite E in *. rewrite U. split; [exact F2|]. split; [exact F2|]. split; [exact A2|].
        apply (same_refl f Nf). pose proof (of_set f Nf sep _ (q :: l) Ob) as O. rewrite F2 in O. exact O.
      - rewrite Forall_forall in IH. specialize (IH _ I). cbn [snd] in IH.
        destruct (IH Nf sep (before f items) (starting x P) (q :: l) u2 Ob) as (u3 & F3 & S3); try easy.
        + rewrite <- L. now apply starting_text.
        + rewrite <- L. now apply again_start.
        + exists u3, u2. split; [|easy]. unfold before at 1. rewrite E, U. exact F3. }
    assert (Ok3 : snd (dict_go sep R fs items1) = Ok tt).
    { apply go_ok; try easy. intros b f x I E Ne. destruct (Each b f x I E Ne) as (u3 & u2 & F3 & _). now rewrite F3. }
    apply ok_pair in Ok3. set (items3 := fst (dict_go sep R fs items1)) in *. exists (EDict n cp items3). rewrite Ok3. split; [reflexivity|].
    assert (HG : forall it, holds fs it -> holds fs (fst (dict_go sep R fs it))).
    { intros it Hi. apply holds_go; try easy.
      - intros b f I e qs' He. apply of_set; try easy. now destruct (N _ _ I).
      - intros b f I. apply of_fresh. now destruct (N _ _ I). }
    apply (same_items cp n fs); [now apply HG|pose proof (HG items H) as X; now rewrite G in X|].
    intros b f I. destruct (schema_name f) as [x|] eqn:E; [|now destruct (NN b f I E)].
    pose proof (go_field sep R fs TR ND NN _ _ Ok3 b f x I E) as F3. pose proof (go_field sep R fs TR ND NN _ _ G b f x I E) as F2.
    destruct (N _ _ I) as [_ Nf].
    destruct (starting x R) as [|q l] eqn:L.
    + rewrite F3, F2. destruct (One b f x I E) as [U|[Ne _]].
      * rewrite U. destruct (aget name_eqb (Some x) items) as [u|] eqn:A; [|easy]. apply (same_refl f Nf). apply (aget_In name_eqb name_eqb_eq') in A. destruct H as (_ & _ & F). rewrite <- E in A. now apply (F _ _ I).
      * exfalso. apply Ne. pose proof (again_start x P R SR) as A. rewrite L in A. destruct (starting x P) as [|y ys]; [easy|]. now destruct (A (fst y) (or_introl eq_refl)).
    + destruct F3 as (u3 & G3 & A3). destruct F2 as (u2 & G2 & A2). rewrite A3, A2.
      destruct (Each b f x I E) as (v3 & v2 & W3 & W2 & _ & Sm); [now rewrite L|]. rewrite L in *. congruence.
  - destruct e as [| |m' l| |]; try easy. destruct H as [-> H].
    assert (X : exists l1, fst (set_flat (SList n p z m) sep (EList n l) ps) = EList n l1).
    { clear Q. cbn [set_flat]. destruct (collect n sep p [] ps) as [[|g gs]|]; try (eexists; reflexivity). destruct (build _ _ _). eexists. reflexivity. }
    destruct X as [l1 ->]. exists e2. split; [exact Q|]. apply (same_refl (SList n p z m) N). pose proof (of_set (SList n p z m) N sep (EList n l) qs) as O. rewrite Q in O. apply O. now split.
  - destruct e as [| | |m' l|]; try easy. destruct H as [-> H].
    assert (X : exists l1, fst (set_flat (SArray n p m) sep (EArray n l) ps) = EArray n l1).
    { clear Q. cbn [set_flat]. destruct (is_container m); [eexists; reflexivity|]. destruct (array_members _ _ ps). eexists. reflexivity. }
    destruct X as [l1 ->]. exists e2. split; [exact Q|]. apply (same_refl (SArray n p m) N). pose proof (of_set (SArray n p m) N sep (EArray n l) qs) as O. rewrite Q in O. apply O. now split.
  - destruct e as [| | | |m j l]; try easy. destruct H as [-> ->]. assert (O : is_of (SJoined n jd) e2).
    { pose proof (of_set (SJoined n jd) N sep (EJoined n jd l) qs) as O. rewrite Q in O. apply O. now split. }
    apply (same_refl _ N) in O. cbn [set_flat] in *. destruct (flat_first n qs) as [v|] eqn:F.
    + assert (X : exists l1, fst (match flat_first n ps with Some v => let '(l, r) := joined_set (j_glue jd) (j_how jd) (j_kind jd) (j_prune jd) l (joined_input v) in (EJoined n jd l, rmap (fun _ => tt) r) | None => (EJoined n jd l, Ok tt) end) = EJoined n jd l1).
      { clear Q. destruct (flat_first n ps); [|eexists; reflexivity]. destruct (joined_set _ _ _ _ _ _) as [l1 r]. now exists l1. }
      destruct X as [l1 ->]. cbn [set_flat]. rewrite F. exists e2. split; [|exact O]. rewrite <- Q. unfold joined_set in *. destruct (joined_values _ _ _); [reflexivity|discriminate Q].
    + rewrite (again_first n ps qs S F). cbn [fst set_flat]. rewrite F. exists e2. now split.
Qed.

(* ---------------- in steps ---------------- *)
Lemma parted_dict sep n cp fs ps qs b f : parted sep (SDict n cp fs) ps qs -> In (b, f) fs ->
  forall x lp lq, schema_name f = Some x -> routes n sep x ps lp -> routes n sep x qs lq -> lp = [] \/ lq = [] \/ parted sep f lp lq.
Proof. cbn [parted]. induction fs as [|[c g] fs IH]; intros H I; [easy|]. destruct H as [H1 H2]. destruct I as [[= <- <-]|I]; [exact H1|now apply IH]. Qed.
Lemma first_app n ps qs : flat_first n (ps ++ qs) = match flat_first n ps with Some v => Some v | None => flat_first n qs end.
Proof. induction ps as [|[k v] ps IH]; cbn; [easy|]. destruct (name_eqb k n); [easy|exact IH]. Qed.
Lemma first_In n ps v : flat_first n ps = Some v -> In n (map fst ps).
Proof. induction ps as [|[k w] ps IH]; cbn; [easy|]. destruct (name_eqb_spec k n) as [->|X]; [now left|]. intros H. right. now apply IH. Qed.
Lemma own_app n sep ps qs : own_part n sep (ps ++ qs) = own_part n sep ps ++ own_part n sep qs.
Proof. destruct n; [|easy]. apply flat_map_app. Qed.
Lemma starting_app x ps qs : starting x (ps ++ qs) = starting x ps ++ starting x qs.
Proof. apply filter_app. Qed.
Lemma text_app ps qs : text_keys ps -> text_keys qs -> text_keys (ps ++ qs).
Proof. intros. now apply Forall_app. Qed.
Lemma stepped s : named_fields s -> forall sep e ps qs e1 e2, is_of s e -> text_keys ps -> text_keys qs -> parted sep s ps qs ->
  set_flat s sep e ps = (e1, Ok tt) -> set_flat s sep e1 qs = (e2, Ok tt) ->
  exists e3, set_flat s sep e (ps ++ qs) = (e3, Ok tt) /\ same e2 e3.
Proof.
  induction s as [n k|n cp fs IH|n p z m IH|n p m IH|n jd] using schema_ind'; intros N sep e ps qs e1 e2 H Tp Tq D Q1 Q2.
  - destruct e as [m st| | | |]; try easy. cbn in H. subst m. cbn [parted] in D. cbn [set_flat] in Q1 |- *. rewrite first_app.
    destruct (flat_first n ps) as [v|] eqn:F.
    + destruct (scalar_set k _ v) as [st1 r]. injection Q1 as <- R. cbn [set_flat] in Q2.
      destruct (flat_first n qs) as [w|] eqn:G; [exfalso; apply D; split; now apply first_In in F, G|]. injection Q2 as <-.
      eexists. split; [now rewrite R|]. now constructor.
    + injection Q1 as <-. cbn [set_flat] in Q2. cbn [s_value s_u] in Q2. destruct (flat_first n qs) as [w|] eqn:G.
      * destruct (scalar_set k _ w) as [st1 r]. injection Q2 as <- R. eexists. split; [now rewrite R|]. now constructor.
      * injection Q2 as <-. eexists. split; [reflexivity|]. now constructor.
  - destruct e as [|m cq items| | |]; try easy. apply of_dict in H as (-> & -> & H). apply named_dict in N as [ND N].
    rewrite set_flat_dict_text in Q1 by easy. rewrite set_flat_dict_text by now apply text_app. rewrite own_app.
    assert (NN : forall b f, In (b, f) fs -> schema_name f <> None) by (intros b f I; now destruct (N _ _ I)).
    assert (Rt : forall b f x, In (b, f) fs -> schema_name f = Some x -> let lp := starting x (own_part n sep ps) in let lq := starting x (own_part n sep qs) in lp = [] \/ lq = [] \/ parted sep f lp lq).
    { intros b f x I E. apply (parted_dict _ _ _ _ _ _ _ _ D I x); [easy| |]; now apply routes_lemma. }
    cbv zeta in Rt. set (P := own_part n sep ps) in *. 
    assert (TP : text_keys P) by now apply own_part_text. 
    destruct (dict_go sep P fs items) as [items1 r1] eqn:G1. injection Q1 as <- ->.
    rewrite set_flat_dict_text in Q2 by easy. set (R := own_part n sep qs) in *. assert (TR : text_keys R) by now apply own_part_text.
    destruct (dict_go sep R fs items1) as [items2 r2] eqn:G2. injection Q2 as <- ->.
    assert (TPR : text_keys (P ++ R)) by now apply text_app.
    assert (HG : forall l it, holds fs it -> holds fs (fst (dict_go sep l fs it))).
    { intros l it Hi. apply holds_go; try easy.
      - intros b f I e qs' He. apply of_set; try easy. now destruct (N _ _ I).
      - intros b f I. apply of_fresh. now destruct (N _ _ I). }
    pose proof (HG P items H) as H1. rewrite G1 in H1. cbn [fst] in H1. pose proof (HG R items1 H1) as H2. rewrite G2 in H2. cbn [fst] in H2.
    (* each field *)
    assert (Each : forall b f x, In (b, f) fs -> schema_name f = Some x -> starting x (P ++ R) <> [] ->
      exists u3 u2, set_flat f sep (before f items) (starting x (P ++ R)) = (u3, Ok tt) /\ aget name_eqb (Some x) items2 = Some u2 /\ same u2 u3).
    { intros b f x I E Ne. rewrite starting_app in *. destruct (N _ _ I) as [_ Nf].
      pose proof (go_field sep P fs TP ND NN _ _ G1 b f x I E) as F1. pose proof (go_field sep R fs TR ND NN _ _ G2 b f x I E) as F2.
      pose proof (Rt b f x I E) as Pa.
      pose proof (starting_text x P TP) as TxP. pose proof (starting_text x R TR) as TxR.
      pose proof (holds_before fs items b f H I Nf) as Ob.
      destruct (starting x P) as [|p lp] eqn:LP.
      - cbn [app] in *. destruct (starting x R) as [|q lq] eqn:LR; [easy|]. destruct F2 as (u2 & F2 & A2).
        assert (B : before f items1 = before f items) by (unfold before; now rewrite E, F1). rewrite B in F2. exists u2, u2. split; [exact F2|]. split; [exact A2|].
        apply (same_refl f Nf). pose proof (of_set f Nf sep _ (q :: lq) Ob) as O. rewrite F2 in O. exact O.
      - destruct F1 as (u1 & F1 & A1). assert (O1 : is_of f u1) by (pose proof (of_set f Nf sep _ (p :: lp) Ob) as O; rewrite F1 in O; exact O).
        destruct (starting x R) as [|q lq] eqn:LR.
        + rewrite app_nil_r. exists u1, u1. split; [exact F1|]. split; [congruence|]. now apply (same_refl f Nf).
        + destruct F2 as (u2 & F2 & A2). assert (B : before f items1 = u1) by (unfold before; now rewrite E, A1). rewrite B in F2.
          destruct Pa as [Pa|[Pa|Pa]]; try easy. rewrite Forall_forall in IH. specialize (IH _ I). cbn [snd] in IH.
          destruct (IH Nf sep _ (p :: lp) (q :: lq) u1 u2 Ob TxP TxR Pa F1 F2) as (u3 & F3 & S3). now exists u3, u2. }
    assert (Ok3 : snd (dict_go sep (P ++ R) fs items) = Ok tt).
    { apply go_ok; try easy. intros b f x I E Ne. destruct (Each b f x I E Ne) as (u3 & u2 & F3 & _). now rewrite F3. }
    apply ok_pair in Ok3. set (items3 := fst (dict_go sep (P ++ R) fs items)) in *. exists (EDict n cp items3). rewrite Ok3. split; [reflexivity|].
    apply (same_items cp n fs); [easy|now apply HG|].
    intros b f I. destruct (schema_name f) as [x|] eqn:E; [|now destruct (NN b f I E)]. destruct (N _ _ I) as [_ Nf].
    pose proof (go_field sep (P ++ R) fs TPR ND NN _ _ Ok3 b f x I E) as F3.
    destruct (starting x (P ++ R)) as [|q l] eqn:L.
    + pose proof L as L'. rewrite starting_app in L'. apply app_eq_nil in L' as [LP LR].
      pose proof (go_field sep P fs TP ND NN _ _ G1 b f x I E) as F1. pose proof (go_field sep R fs TR ND NN _ _ G2 b f x I E) as F2. rewrite LP in F1. rewrite LR in F2.
      rewrite F3, F2, F1. destruct (aget name_eqb (Some x) items) as [u|] eqn:A; [|easy]. apply (same_refl f Nf). apply (aget_In name_eqb name_eqb_eq') in A. destruct H as (_ & _ & F). rewrite <- E in A. now apply (F _ _ I).
    + destruct F3 as (u3 & G3 & A3). destruct (Each b f x I E) as (v3 & v2 & W3 & W2 & Sm); [now rewrite L|]. rewrite L in *. rewrite A3, W2. congruence.
  - easy.
  - easy.
  - destruct e as [| | | |m j l]; try easy. pose proof H as H0. destruct H as [-> ->]. cbn [parted] in D. cbn [set_flat] in Q1 |- *. rewrite first_app.
    destruct (flat_first n ps) as [v|] eqn:F.
    + destruct (joined_set _ _ _ _ l _) as [l1 r]. injection Q1 as <- R. cbn [set_flat] in Q2.
      destruct (flat_first n qs) as [w|] eqn:G; [exfalso; apply D; split; now apply first_In in F, G|]. injection Q2 as <-.
      eexists. split; [now rewrite R|]. now apply (same_refl (SJoined n jd)).
    + injection Q1 as <-. cbn [set_flat] in Q2. destruct (flat_first n qs) as [w|] eqn:G.
      * destruct (joined_set _ _ _ _ l _) as [l1 r]. injection Q2 as <- R. eexists. split; [now rewrite R|]. now apply (same_refl (SJoined n jd)).
      * injection Q2 as <-. eexists. split; [reflexivity|]. now apply (same_refl (SJoined n jd)).
Qed.

(* ---------------- samples ---------------- *)
Lemma routes_one n sep x ps l : routes n sep x ps l -> forall l', routes n sep x ps l' -> l = l'.
Proof.
  induction 1 as [|r v ps l R IH|k v ps l K R IH]; intros l' R'; inversion R' as [|r' v' ps' m R1 E|k' v' ps' m K1 R1]; subst; try easy.
  - assert (x ++ r' = x ++ r) as -> by (destruct n; cbn in *; [now apply app_inv_head, app_inv_head in E|easy]). f_equal. now apply IH.
  - now destruct (K1 r).
  - now destruct (K r').
  - now apply IH.
Qed.
Lemma sample_named : named_fields sample_schema.
Proof. cbn. repeat split; try easy; repeat constructor; cbn; intuition discriminate. Qed.
Lemma sample_parted : parted (lit "_") sample_schema first_step second_step.
Proof.
  cbn [parted sample_schema]. assert (T1 : text_keys first_step) by now repeat constructor. assert (T2 : text_keys second_step) by now repeat constructor.
  split; [|split; [|easy]]; intros x lp lq [= <-] R1 R2.
  - right. left. pose proof (routes_one _ _ _ _ _ R2 _ (routes_lemma _ _ _ _ T2)) as E. exact E.
  - left. pose proof (routes_one _ _ _ _ _ R1 _ (routes_lemma _ _ _ _ T1)) as E. exact E.
Qed.
