(* Submitting a form again. *)
From Verif Require Import PyBase PyBaseFacts PyList ModelMap SpecScalar ModelPaths SpecPaths ModelScalar ModelCompound ModelFlat SpecFlat
  ProofScalar ProofScalar3 ProofFlat ProofFlat2 ProofFlat4 ProofFlat5 ProofFlat6 ProofFlat8 SpecAgain.

(* ---------------- texts stay texts ---------------- *)
Lemma possibles_texts pre ps qs : possibles pre ps = Ok qs -> text_values ps -> text_values qs.
Proof.
  rewrite possibles_lemma. destruct (existsb none_key ps); [easy|]. intros [= <-] T. induction T as [|[k v] ps [t E] _ IH]; [constructor|].
  cbn in *. destruct k as [k|]; [|exact IH]. destruct (starts_with pre k); cbn [app]; [|exact IH]. constructor; [now exists t|exact IH].
Qed.
Lemma accumulate_texts x ps qs : accumulate x ps = Ok qs -> text_values ps -> text_values qs.
Proof.
  intros H T. revert qs H. induction T as [|[k v] ps E _ IH]; intros qs H; cbn in H; [injection H as <-; constructor|].
  destruct (py_startswith k x) as [b|]; [|easy]. cbn [bind] in H. destruct (accumulate x ps) as [l|]; [|easy]. cbn in H. injection H as <-.
  specialize (IH l eq_refl). destruct b; [constructor; easy|easy].
Qed.
Lemma collect_texts n sep prune ps : text_values ps -> forall g g', collect n sep prune g ps = Ok g' ->
  (forall i l, aget N.eqb i g = Some l -> text_values l) -> forall i l, aget N.eqb i g' = Some l -> text_values l.
Proof.
  induction 1 as [|[k v] ps E _ IH]; intros g g' H G; cbn [collect] in H; [now injection H as <-|].
  destruct (is_blank v && prune); [now apply (IH g)|]. destruct k as [k|]; [|easy]. destruct (list_key n sep k) as [[ds r]|]; [|now apply (IH g)].
  destruct (py_int ds) as [z|[]]; try easy; [|now apply (IH g)]. apply (IH _ _ H). intros i l. unfold add_index.
  rewrite (aget_aset N.eqb N.eqb_eq). destruct (N.eqb i (Z.to_N z)) eqn:Ei; [|apply G].
  apply N.eqb_eq in Ei as ->. intros [= <-]. destruct (aget N.eqb (Z.to_N z) g) as [l|] eqn:A.
  - apply Forall_app. split; [now apply (G _ _ A)|]. constructor; [exact E|constructor].
  - constructor; [exact E|constructor].
Qed.
Lemma plan_texts prune limit g ps : (forall i l, aget N.eqb i g = Some l -> text_values l) -> In (Some ps) (list_plan prune limit g) -> text_values ps.
Proof. intros G. unfold list_plan. destruct prune; intros I; apply in_map_iff in I as (i & E & _); exact (G _ _ E). Qed.
Lemma array_pair_texts n c sep prune p q : array_pair n c sep prune p = Ok (Some q) -> snd q = snd p.
Proof.
  unfold array_pair. destruct p as [k v]. destruct n as [[|c0 x]|].
  1,3: repeat match goal with |- context [if ?x then _ else _] => destruct x end; now intros [= <-].
  destruct k as [k|]; [|easy]. destruct (array_key (c0 :: x) sep k); [|easy].
  repeat match goal with |- context [if ?x then _ else _] => destruct x end; now intros [= <-].
Qed.
Lemma build_in (P : element -> Prop) mk set plan : P mk -> (forall ps, In (Some ps) plan -> P (fst (set ps))) -> Forall P (fst (build mk set plan)).
Proof.
  intros M. induction plan as [|o plan IH]; intros H; cbn; [constructor|]. assert (forall ps, In (Some ps) plan -> P (fst (set ps))) as H' by (intros; apply H; now right).
  specialize (IH H'). destruct (build mk set plan) as [l r]. cbn in IH. destruct o as [[|p ps]|]; cbn; try (now constructor).
  specialize (H _ (or_introl eq_refl)). destruct (set (p :: ps)) as [e [|]]; cbn; repeat constructor; easy.
Qed.
Lemma members_in (P : element -> Prop) make set ps : (forall p q, In p ps -> make p = Ok (Some q) -> P (fst (set [q]))) -> Forall P (fst (array_members make set ps)).
Proof.
  induction ps as [|p ps IH]; intros H; cbn; [constructor|]. assert (Forall P (fst (array_members make set ps))) as F by (apply IH; intros; apply (H p0 q); [now right|easy]).
  destruct (make p) as [[q|]|] eqn:E; cbn; [|exact F|constructor].
  specialize (H p q (or_introl eq_refl) E). destruct (set [q]) as [e [|]]; cbn; [|constructor]. destruct (array_members make set ps). cbn in *. now constructor.
Qed.
Lemma flat_first_texts n ps v : text_values ps -> flat_first n ps = Some v -> exists t, v = VText t.
Proof.
  induction 1 as [|[k w] ps E _ IH]; cbn; [easy|]. destruct (name_eqb k n); [|exact IH]. now intros [= <-].
Qed.

(* ---------------- what set_flat leaves ---------------- *)
Definition typed (k : kind) (st : scalar) : Prop :=
  (s_value st = VNone /\ s_u st = []) \/ exists t st' b, scalar_set k blank (VText t) = (st', Ok b) /\ alike st st'.
Fixpoint inv (s : schema) (e : element) : Prop :=
  match s, e with
  | SScalar n k, EScalar m st => m = n /\ typed k st
  | SDict n cp fields, EDict m cq items =>
      m = n /\ cq = cp /\ NoDup (map fst items)
      /\ (forall k, In k (map fst items) -> In k (map (fun f => schema_name (snd f)) fields))
      /\ (fix each (fs : list (bool * schema)) : Prop :=
            match fs with
            | [] => True
            | (there, f) :: fs' =>
                ((forall u, In (schema_name f, u) items -> inv f u)
                /\ (there = true -> In (schema_name f) (map fst items))) /\ each fs'
            end) fields
  | SList n _ _ mem, EList m l => m = n /\ Forall (inv mem) l
  | SArray n _ mem, EArray m l => m = n /\ Forall (inv mem) l
  | SJoined n j, EJoined m i _ => m = n /\ i = j
  | _, _ => False
  end.
Definition held (fs : list (bool * schema)) (items : list (name * element)) : Prop :=
  NoDup (map fst items) /\ (forall k, In k (map fst items) -> In k (map fname fs))
  /\ forall b f, In (b, f) fs -> (forall u, In (schema_name f, u) items -> inv f u) /\ (b = true -> In (schema_name f) (map fst items)).
Lemma inv_dict cp cq n fs m items : inv (SDict n cp fs) (EDict m cq items) <-> m = n /\ cq = cp /\ held fs items.
Proof.
  unfold held. cbn. unfold fname. do 4 apply and_iff_compat_l. generalize items as it. intros it. induction fs as [|[b f] fs IH]; cbn; [easy|]. rewrite IH. split.
  - intros [H1 H2] b' g [[= <- <-]|G]; eauto.
  - intros H. split; [exact (H b f (or_introl eq_refl))|]. intros; eapply H; eauto.
Qed.
Lemma inv_is_of s : forall e, inv s e -> is_of s e.
Proof.
  induction s as [n k|n cp fs IH|n p z m IH|n p m IH|n jd] using schema_ind'; intros e.
  - destruct e; cbn; easy.
  - destruct e as [|m cq items| | |]; try easy. intros H. apply inv_dict in H as (-> & -> & ND & K & F). apply is_of_dict.
    split; [easy|]. split; [easy|]. split; [exact ND|]. split; [exact K|]. intros b f I. destruct (F _ _ I) as [F1 F2]. split; [|exact F2].
    intros u U. rewrite Forall_forall in IH. apply (IH _ I). now apply F1.
  - destruct e; try easy. cbn. intros [-> F]. split; [easy|]. eapply Forall_impl; [|exact F]. exact IH.
  - destruct e; try easy. cbn. intros [-> F]. split; [easy|]. eapply Forall_impl; [|exact F]. exact IH.
  - destruct e; easy.
Qed.
Lemma inv_fresh s : named_fields s -> inv s (fresh s).
Proof.
  induction s as [n k|n cp fs IH|n p z m IH|n p m IH|n jd] using schema_ind'; intros N; try (now repeat constructor).
  apply named_dict in N as [ND N].
  change (fresh (SDict n cp fs)) with (EDict n cp (match fresh (SDict n cp fs) with EDict _ _ l => l | _ => [] end)).
  apply inv_dict. split; [easy|]. split; [easy|]. repeat split.
  - cbn. clear IH N. induction fs as [|[b f] fs IHf]; cbn; [constructor|]. cbn in ND. apply NoDup_cons_iff in ND as [NI ND]. destruct b; [|now apply IHf].
    cbn. constructor; [|now apply IHf]. intros I. apply NI. apply in_map_iff in I as ([k u] & E & I). cbn in E. subst k.
    apply in_flat_map in I as ([b g] & G & I). destruct b; [|easy]. destruct I as [I|[]]. injection I as I _. unfold fname. cbn. rewrite <- I. apply in_map_iff. now exists (true, g).
  - intros k I. apply in_map_iff in I as ([k' u] & <- & I). apply In_fresh in I as (f & F & -> & _). apply in_map_iff. now exists (true, f).
  - intros u U. apply In_fresh in U as (g & G & E & ->). destruct (field_unique fs b f true g ND H G E) as [-> ->].
    rewrite Forall_forall in IH. apply (IH _ H). now destruct (N _ _ H).
  - intros ->. apply in_map_iff. exists (schema_name f, fresh f). split; [easy|]. apply In_fresh. now exists f.
Qed.
Lemma typed_set k st t : typed k st -> typed k (fst (scalar_set k (Scalar None (s_value st) (s_u st)) (VText t))).
Proof.
  intros T. unfold scalar_set. destruct (adapt k (VText t)) as [n|x] eqn:E.
  - right. exists t. eexists _, true. unfold scalar_set. rewrite E. split; [reflexivity|]. now split.
  - destruct x; try exact T. right. exists t. eexists _, false. unfold scalar_set. rewrite E. split; [reflexivity|]. now split.
Qed.
Lemma held_go sep all ps : NoDup (map fname all) -> text_values ps ->
  (forall b f, In (b, f) all -> forall e qs, inv f e -> text_values qs -> inv f (fst (set_flat f sep e qs))) ->
  (forall b f, In (b, f) all -> inv f (fresh f)) ->
  forall fs items, (forall x, In x fs -> In x all) -> held all items -> held all (fst (dict_go sep ps fs items)).
Proof.
  intros ND T IH N. induction fs as [|[b f] fs IHf]; intros items S H; cbn [dict_go]; [exact H|].
  assert (In (b, f) all) as If by (apply S; now left). assert (forall x, In x fs -> In x all) as S' by (intros; apply S; now right).
  destruct (accumulate (schema_name f) ps) as [[|p acc]|x] eqn:A; [now apply IHf| |exact H].
  pose proof (accumulate_texts _ _ _ A T) as Ta. set (old := match aget name_eqb (schema_name f) items with Some u => u | None => fresh f end).
  assert (inv f old) as Io.
  { unfold old. destruct (aget name_eqb (schema_name f) items) as [w|] eqn:W; [|eapply N; eauto].
    apply (aget_In name_eqb name_eqb_eq') in W. destruct H as (_ & _ & F). now apply (F _ _ If). }
  pose proof (IH _ _ If old _ Io Ta) as Iu. destruct (set_flat f sep old (p :: acc)) as [u r]. cbn [fst] in Iu.
  assert (held all (aset name_eqb (schema_name f) u items)) as H'.
  { destruct H as (D & K & F). split; [now apply (NoDup_keys_aset name_eqb name_eqb_eq')|]. split.
    - intros k I. apply (In_keys_aset name_eqb name_eqb_eq') in I as [->|I]; [|now apply K]. apply in_map_iff. now exists (b, f).
    - intros b' g Ig. destruct (F _ _ Ig) as [F1 F2]. split.
      + intros w W. apply In_aset in W as [[E ->]|W]; [|now apply F1]. now destruct (field_unique all b f b' g ND If Ig (eq_sym E)) as [_ <-].
      + intros B. apply (In_keys_aset name_eqb name_eqb_eq'). right. now apply F2. }
  destruct r; [now apply IHf|exact H'].
Qed.
Lemma inv_set s : named_fields s -> forall sep e ps, inv s e -> text_values ps -> inv s (fst (set_flat s sep e ps)).
Proof.
  induction s as [n k|n cp fs IH|n p z m IH|n p m IH|n jd] using schema_ind'; intros N sep e ps H T.
  - destruct e as [m st| | | |]; try easy. destruct H as [-> H]. cbn [set_flat]. destruct (flat_first n ps) as [v|] eqn:F.
    + destruct (flat_first_texts _ _ _ T F) as [t ->]. pose proof (typed_set k st t H) as H'. destruct (scalar_set _ _ _) as [st' r]. now split.
    + split; [easy|]. exact H.
  - destruct e as [|m cq items| | |]; try easy. apply inv_dict in H as (-> & -> & H). apply named_dict in N as [ND N]. rewrite set_flat_dict.
    destruct (match n with None => Ok ps | Some x => possibles (x ++ sep) ps end) as [[|q qs]|x] eqn:P; try (apply inv_dict; easy).
    assert (text_values (q :: qs)) as Tq by (destruct n; [exact (possibles_texts _ _ _ P T)|now injection P as <-]).
    assert (held fs (fst (dict_go sep (q :: qs) fs items))) as H'.
    { apply held_go; try easy.
      - intros b f I e qs' He Tq'. rewrite Forall_forall in IH. apply (IH _ I); try easy. now destruct (N _ _ I).
      - intros b f I. apply inv_fresh. now destruct (N _ _ I). }
    destruct (dict_go sep (q :: qs) fs items) as [items' r]. now apply inv_dict.
  - destruct e as [| |m' l| |]; try easy. destruct H as [-> H]. cbn [set_flat].
    destruct (collect n sep p [] ps) as [[|g gs]|x] eqn:C; [now split| |now split].
    pose proof (build_in (inv m) (fresh m) (set_flat m sep (fresh m)) (list_plan p z (g :: gs)) (inv_fresh m N)) as B.
    destruct (build _ _ _) as [l' r]. split; [easy|]. apply B. intros qs I. apply IH; [easy|now apply inv_fresh|].
    apply (plan_texts p z (g :: gs)); [|exact I]. apply (collect_texts n sep p ps T [] _ C). easy.
  - destruct e as [| | |m' l|]; try easy. destruct H as [-> H]. cbn [set_flat]. destruct (is_container m); [now split|].
    pose proof (members_in (inv m) (array_pair n (schema_name m) sep p) (set_flat m (lit "_") (fresh m)) ps) as B.
    destruct (array_members _ _ ps) as [l' r]. split; [easy|]. apply B. intros a q I E. apply IH; [easy|now apply inv_fresh|]. constructor; [|constructor].
    rewrite (array_pair_texts _ _ _ _ _ _ E). unfold text_values in T. rewrite Forall_forall in T. exact (T _ I).
  - destruct e as [| | | |m j l]; try easy. destruct H as [-> ->]. cbn [set_flat]. destruct (flat_first n ps); [|now split]. destruct (joined_set _ _ _ _ _ _). now split.
Qed.
Lemma filled_inv s sep e : named_fields s -> filled s sep e -> inv s e.
Proof. intros N. induction 1; [now apply inv_fresh|now apply inv_set]. Qed.
Lemma filled_bounded s sep e : natural_limits s -> named_fields s -> filled s sep e -> bounded s e.
Proof. intros L N. induction 1; [now apply bounded_fresh|now apply bounded_lemma]. Qed.

(* ---------------- an element with the same texts that is kept ---------------- *)
Inductive mirrors : element -> element -> Prop :=
| mi_scalar n a b : s_u a = s_u b -> (s_u a <> [] -> s_value a = s_value b) -> mirrors (EScalar n a) (EScalar n b)
| mi_dict n cp l l' : Forall2 (fun x y => fst x = fst y /\ mirrors (snd x) (snd y)) l l' ->
    (forall f, cp = Some f -> f (scalars_of l) = f (scalars_of l')) -> mirrors (EDict n cp l) (EDict n cp l')
| mi_list n l l' : Forall2 mirrors l l' -> mirrors (EList n l) (EList n l')
| mi_array n l l' : Forall2 mirrors l l' -> mirrors (EArray n l) (EArray n l')
| mi_joined n j l : mirrors (EJoined n j l) (EJoined n j l).
Lemma some_of_F2 {A B} (R : A -> B -> Prop) l l' : Forall2 R l l' -> some_of l = some_of l'.
Proof. now destruct 1. Qed.
Lemma map_F2 {A B C} (R : A -> B -> Prop) (f : A -> C) (g : B -> C) l l' : Forall2 R l l' -> (forall x y, In x l -> R x y -> f x = g y) -> map f l = map g l'.
Proof. induction 1 as [|x y l l' H _ IH]; intros E; cbn; [easy|]. rewrite (E x y) by (try easy; now left). f_equal. apply IH. intros. apply E; [now right|easy]. Qed.
Lemma mirrors_tree e : forall e', mirrors e e' -> tree_of e = tree_of e'.
Proof.
  induction e as [n st|n cp l IH|n l IH|n l IH|n j l] using element_ind'; intros e' H.
  - now inversion H.
  - inversion H as [|? ? ? l' F C| | |]; subst. cbn [tree_of]. f_equal.
    + destruct cp as [f|]; [|now apply some_of_F2 with (1 := F)]. unfold composed. now rewrite (C f eq_refl).
    + apply map_F2 with (1 := F). intros x y I [E M]. rewrite Forall_forall in IH. now rewrite E, (IH _ I _ M).
  - inversion H as [| |? ? l' F| |]; subst. cbn [tree_of]. f_equal; [now apply some_of_F2 with (1 := F)|]. apply map_F2 with (1 := F). rewrite Forall_forall in IH. intros x y I M. now apply IH.
  - inversion H as [| | |? ? l' F|]; subst. cbn [tree_of]. f_equal; [now apply some_of_F2 with (1 := F)|]. apply map_F2 with (1 := F). rewrite Forall_forall in IH. intros x y I M. now apply IH.
  - now inversion H.
Qed.
Lemma nth_F2 {A B} (R : A -> B -> Prop) l l' i : Forall2 R l l' ->
  match nth_error l i, nth_error l' i with Some x, Some y => R x y | None, None => True | _, _ => False end.
Proof. intros H. revert i. induction H as [|x y l l' R0 _ IH]; intros [|i]; cbn; try easy. apply IH. Qed.
Definition same_shape (o o' : option element) : Prop :=
  match o, o' with Some u, Some u' => mirrors u u' | None, None => True | _, _ => False end.
Lemma mirrors_member e e' i : mirrors e e' -> same_shape (member e i) (member e' i).
Proof.
  intros H. inversion H as [|n cp l l' F C|n l l' F|n l l' F|n j l]; subst; cbn [member]; try easy.
  - pose proof (nth_F2 _ _ _ i F) as N. destruct (nth_error l i), (nth_error l' i); easy.
  - exact (nth_F2 _ _ _ i F).
  - exact (nth_F2 _ _ _ i F).
  - destruct (nth_error l i); [|easy]. now constructor.
Qed.
Lemma mirrors_part e e' p : mirrors e e' -> same_shape (part e p) (part e' p).
Proof.
  intros H. induction p as [|i p IH]; cbn [part]; [exact H|]. destruct (part e p) as [u|], (part e' p) as [u'|]; try easy. now apply mirrors_member.
Qed.
Lemma mirrors_text e e' : mirrors e e' -> own_text e = own_text e'.
Proof.
  intros H. inversion H as [n a b U V|n cp l l' F C|n l l' F|n l l' F|n j l]; subst; cbn [own_text]; try easy; [now f_equal|]. destruct cp as [f|]; [|easy]. unfold composed. now rewrite (C f eq_refl).
Qed.
Lemma mirrors_at e e' x : mirrors e e' -> text_at e x = text_at e' x /\ u_at e x = u_at e' x.
Proof.
  intros H. destruct x as [p|]; [|easy]. cbn. pose proof (mirrors_part e e' p H) as P. destruct (part e p), (part e' p); try easy. now rewrite (mirrors_text _ _ P).
Qed.
Lemma mirrors_deep e e' : mirrors e e' -> children_flattenable e = children_flattenable e'.
Proof. now inversion 1. Qed.
Lemma mirrors_shown pruned e e' : mirrors e e' -> shown pruned e -> shown pruned e'.
Proof.
  intros H (p & u & w & P & O & W). pose proof (mirrors_part e e' p H) as S. rewrite P in S. destruct (part e' p) as [u'|] eqn:P'; [|easy].
  exists p, u', w. split; [easy|]. split; [|easy]. now rewrite <- (mirrors_text _ _ S).
Qed.
Lemma steady_dict {cp} n fs : steady_schema (SDict n cp fs) <->
  (forall f, cp = Some f -> looks_at_values f /\ forall b n k, In (b, SScalar n k) fs -> vacant k) /\ forall b f, In (b, f) fs -> steady_schema f.
Proof.
  cbn [steady_schema]. apply and_iff_compat_l. induction fs as [|[b f] fs IH]; cbn; [easy|]. rewrite IH. split.
  - intros [H1 H2] b' g [[= <- <-]|G]; eauto.
  - intros H. split; [now apply (H b f); left|]. intros. eapply H; eauto.
Qed.
Lemma lasting_dict {cp} {cq} np n fs m items : lasting np (SDict n cp fs) (EDict m cq items) <->
  forall b f, In (b, f) fs -> forall u, In (schema_name f, u) items -> lasting np f u /\ (b = false -> shown np u).
Proof.
  cbn. induction fs as [|[b f] fs IH]; cbn; [easy|]. rewrite IH. split.
  - intros [H1 H2] b' g [[= <- <-]|G]; eauto.
  - intros H. split; [apply (H b f); now left|]. intros. eapply H; [right|]; eauto.
Qed.
(* an element of a vacant kind is mirrored with its value *)
Definition faithful (s : schema) (e e' : element) : Prop :=
  forall n k st n' st', s = SScalar n k -> vacant k -> e = EScalar n' st -> e' = EScalar n' st' -> alike st st'.
Lemma typed_vacant k st : vacant k -> typed k st -> s_u st = [] -> s_value st = VNone.
Proof. intros V [[H _]|(t & st' & b & H & Av & Au)] E; [easy|]. rewrite Av. apply (V _ _ _ H). congruence. Qed.
Lemma mirror_scalar pruned k st : steady k -> typed k st ->
  exists st', reads_back pruned k st' /\ s_u st = s_u st' /\ (s_u st <> [] -> s_value st = s_value st') /\ (vacant k -> alike st st').
Proof.
  intros [S (st0 & b0 & B & B0)] T. unfold reads_back.
  destruct (pruned && str_eqb (s_u st) []) eqn:E.
  - apply andb_true_iff in E as [-> E]. apply str_eqb_eq in E. exists (Scalar None VNone []). cbn. repeat split; try easy. now apply typed_vacant with (k := k).
  - destruct T as [[Tv Tu]|(t & st' & b & H & Av & Au)].
    + exists st0. rewrite B0, Tu in *. assert (pruned = false) as -> by (destruct pruned; easy). cbn [andb].
      split; [|split; [easy|split; [easy|]]].
      * pose proof (S _ _ _ B) as R. rewrite B0 in R. eexists _, b0. exact R.
      * intros V. split; [|now rewrite B0]. rewrite Tv. symmetry. exact (V _ _ _ B B0).
    + exists st. rewrite E. split; [|split; [easy|split; [easy|now split]]]. rewrite Av, Au. eexists _, b. exact (S _ _ _ H).
Qed.
Lemma F2_impl {A B} (P Q : A -> B -> Prop) l l' : (forall x y, P x y -> Q x y) -> Forall2 P l l' -> Forall2 Q l l'.
Proof. intros H. induction 1; constructor; auto. Qed.
Lemma F2_len {A B} (P : A -> B -> Prop) l l' : Forall2 P l l' -> List.length l = List.length l'.
Proof. induction 1; cbn; congruence. Qed.
Lemma F2_exists {A B} (R : A -> B -> Prop) l : (forall x, In x l -> exists y, R x y) -> exists l', Forall2 R l l'.
Proof.
  induction l as [|x l IH]; intros H; [exists []; constructor|]. destruct (H x (or_introl eq_refl)) as [y Y]. destruct IH as [l' L]; [intros; apply H; now right|].
  exists (y :: l'). now constructor.
Qed.
Lemma F2_keys {A B} (R : name * A -> name * B -> Prop) l l' : Forall2 R l l' -> (forall x y, R x y -> fst x = fst y) -> map fst l = map fst l'.
Proof. intros H E. apply map_F2 with (1 := H). intros. now apply E. Qed.
Lemma F2_in {A B} (R : A -> B -> Prop) l l' y : Forall2 R l l' -> In y l' -> exists x, In x l /\ R x y.
Proof. induction 1 as [|a b l l' H _ IH]; [easy|]. intros [<-|I]; [exists a; split; [now left|easy]|]. destruct (IH I) as (x & X & Rx). exists x. split; [now right|easy]. Qed.
Lemma faithful_scalars (l l' : list (name * element)) (fs : list (bool * schema)) : (forall b n k, In (b, SScalar n k) fs -> vacant k) ->
  Forall2 (fun x y : name * element => fst x = fst y /\ mirrors (snd x) (snd y) /\ exists b f, In (b, f) fs /\ is_of f (snd x) /\ faithful f (snd x) (snd y)) l l' ->
  Forall2 (fun x y => fst x = fst y /\ alike (snd x) (snd y)) (scalars_of l) (scalars_of l').
Proof.
  intros V. induction 1 as [|[k u] [k' u'] l l' (E & M & b & f & I & O & Fa) _ IH]; [constructor|]. cbn [fst snd] in *. subst k'. unfold scalars_of in *. cbn [flat_map fst snd].
  inversion M as [n x y U W|n cp m m' F C|n m m' F|n m m' F|n j m]; subst; try exact IH. cbn [app]. constructor; [|exact IH]. cbn [fst snd]. split; [easy|].
  destruct f as [n0 k0| | | |]; try easy. apply (Fa n0 k0 x n y eq_refl); try easy. exact (V _ _ _ I).
Qed.
Lemma mirror sep s : clear_schema sep s -> steady_schema s -> forall pruned e, inv s e -> bounded s e -> lasting pruned s e ->
  exists e', is_of s e' /\ kept pruned s e' /\ mirrors e e' /\ faithful s e e'.
Proof.
  induction s as [n k|n cp fs IH|n p z m IH|n p m IH|n jd] using schema_ind'; intros C S pruned e H B L.
  - destruct e as [m st| | | |]; try easy. destruct H as [-> T]. destruct (mirror_scalar pruned k st S T) as (st' & R & U & V & A).
    exists (EScalar n st'). split; [easy|]. split; [exact R|]. split; [now constructor|]. intros n0 k0 st0 n1 st1 [= <- <-] Va [= <- <-] [= <-]. now apply A.
  - destruct e as [|m cq items| | |]; try easy. apply inv_dict in H as (-> & -> & ND & K & F). apply clear_dict in C as (Cn & Df & _ & C). apply steady_dict in S as [Sc S].
    rewrite bounded_dict in B. rewrite lasting_dict in L. rewrite Forall_forall in IH.
    destruct (F2_exists (fun x y : name * element => fst x = fst y /\ exists b f, In (b, f) fs /\ schema_name f = fst x /\ inv f (snd x) /\ is_of f (snd y) /\ kept pruned f (snd y)
      /\ mirrors (snd x) (snd y) /\ faithful f (snd x) (snd y)) items) as [items' R].
    { intros [k u] I. assert (In k (map fst items)) as J by (apply in_map_iff; now exists (k, u)). apply K, in_map_iff in J as ([b f] & E & J). unfold fname in E. cbn [snd] in E. subst k.
      destruct (F _ _ J) as [F1 _]. destruct (C _ _ J) as [_ Cf]. destruct (L _ _ J _ I) as [Lf _].
      destruct (IH _ J Cf (S _ _ J) pruned u (F1 _ I) (B _ _ J _ I) Lf) as (u' & O' & K' & M' & Fa'). exists (schema_name f, u'). split; [easy|]. exists b, f. cbn [fst snd]. split; [easy|]. split; [easy|]. split; [now apply F1|]. easy. }
    assert (map fst items = map fst items') as Ek by (apply F2_keys with (1 := R); now intros x y [E _]).
    assert (forall b f, In (b, f) fs -> forall u', In (schema_name f, u') items' -> exists u, In (schema_name f, u) items /\ is_of f u' /\ kept pruned f u' /\ mirrors u u') as Back.
    { intros b f J u' I'. destruct (F2_in _ _ _ _ R I') as ([k u] & I & E & b' & g & G & En & _ & O & Kg & M & _). cbn [fst snd] in *. subst k.
      destruct (field_unique fs b f b' g Df J G (eq_sym En)) as [<- <-]. now exists u. }
    exists (EDict n cp items'). split; [|split; [|split]].
    + apply is_of_dict. rewrite <- Ek. split; [easy|]. split; [easy|]. split; [exact ND|]. split; [exact K|]. intros b f J. destruct (F _ _ J) as [_ F2]. split; [|exact F2].
      intros u' I'. now destruct (Back _ _ J _ I') as (u & _ & O & _).
    + apply kept_dict. intros b f J u' I'. destruct (Back _ _ J _ I') as (u & I & _ & Kf & M). split; [exact Kf|]. intros ->. apply (mirrors_shown pruned u u' M). now apply (L _ _ J _ I).
    + constructor.
      * eapply F2_impl; [|exact R]. intros x y (E & b & f & _ & _ & _ & _ & _ & M & _). now split.
      * intros f ->. destruct (Sc f eq_refl) as [Lo V]. apply Lo. apply faithful_scalars with (fs := fs); [exact V|]. eapply F2_impl; [|exact R].
        intros x y (E & b & g & G & _ & Iv & _ & _ & M & Fa). split; [easy|]. split; [easy|]. exists b, g. split; [easy|]. split; [now apply inv_is_of|easy].
    + intros n0 k0 st0 n1 st1 E. discriminate.
  - destruct e as [| |m' l| |]; try easy. destruct H as [-> H]. destruct B as [Bz B]. destruct L as [L Sh]. cbn [clear_schema] in C. destruct C as (_ & C & _).
    destruct (F2_exists (fun x y => is_of m y /\ kept (pruned || p) m y /\ mirrors x y) l) as [l' R].
    { intros u I. rewrite Forall_forall in H, B, L. destruct (IH C S (pruned || p) u (H _ I) (B _ I) (L _ I)) as (u' & O & Kf & M & _). now exists u'. }
    exists (EList n l'). split; [|split; [|split]].
    + split; [easy|]. apply Forall_forall. intros y I. now destruct (F2_in _ _ _ _ R I) as (x & _ & O & _).
    + cbn [kept]. split; [|split].
      * rewrite <- (F2_len _ _ _ R). exact Bz.
      * apply Forall_forall. intros y I. now destruct (F2_in _ _ _ _ R I) as (x & _ & _ & Kf & _).
      * destruct p.
        -- apply Forall_forall. intros y I. destruct (F2_in _ _ _ _ R I) as (x & Ix & _ & _ & M). rewrite Forall_forall in Sh. exact (mirrors_shown _ _ _ M (Sh _ Ix)).
        -- intros l2 u' ->. apply Forall2_app_inv_r in R as (l1 & lx & _ & R & ->). inversion R as [|x y lx' ly' (_ & _ & M) R']; subst. inversion R'; subst.
           apply (mirrors_shown pruned x u' M). now apply (Sh l1 x).
    + constructor. eapply F2_impl; [|exact R]. now intros x y (_ & _ & M).
    + intros n0 k0 st0 n1 st1 E. discriminate.
  - destruct e as [| | |m' l|]; try easy. destruct H as [-> H]. cbn [lasting] in L. cbn [bounded] in B. cbn [clear_schema] in C. destruct C as (_ & C & Ct).
    destruct (F2_exists (fun x y => is_of m y /\ kept (pruned || p) m y /\ mirrors x y) l) as [l' R].
    { intros u I. rewrite Forall_forall in H, B. destruct (IH C S (pruned || p) u (H _ I) (B _ I)) as (u' & O & Kf & M & _); [|now exists u']. destruct m; easy. }
    exists (EArray n l'). split; [|split; [|split]].
    + split; [easy|]. apply Forall_forall. intros y I. now destruct (F2_in _ _ _ _ R I) as (x & _ & O & _).
    + cbn [kept]. split; apply Forall_forall; intros y I; destruct (F2_in _ _ _ _ R I) as (x & Ix & _ & Kf & M); [exact Kf|]. rewrite Forall_forall in L. exact (mirrors_shown _ _ _ M (L _ Ix)).
    + constructor. eapply F2_impl; [|exact R]. now intros x y (_ & _ & M).
    + intros n0 k0 st0 n1 st1 E. discriminate.
  - destruct e as [| | | |m j l]; try easy. destruct H as [-> ->]. exists (EJoined n jd l). split; [easy|]. split; [exact L|]. split; [constructor|]. intros n0 k0 st0 n1 st1 E. discriminate.
Qed.

(* ---------------- the round trip ---------------- *)
Lemma F2_in_l {A B} (R : A -> B -> Prop) l l' x : Forall2 R l l' -> In x l -> exists y, In y l' /\ R x y.
Proof. induction 1 as [|a b l l' H _ IH]; [easy|]. intros [<-|I]; [exists b; split; [now left|easy]|]. destruct (IH I) as (y & Y & Ry). exists y. split; [now right|easy]. Qed.
Lemma F2_trans {A} (P Q R : A -> A -> Prop) l : (forall x y z, In x l -> P x y -> Q y z -> R x z) -> forall l1 l2, Forall2 P l l1 -> Forall2 Q l1 l2 -> Forall2 R l l2.
Proof.
  induction l as [|x l IH]; intros H l1 l2 F G; inversion F; subst; inversion G; subst; constructor.
  - eapply H; eauto. now left.
  - eapply IH; eauto. intros. eapply H; eauto. now right.
Qed.
Lemma mirrors_same e : forall e2 e', mirrors e e2 -> same e2 e' -> retold e e'.
Proof.
  induction e as [n st|n cp l IH|n l IH|n l IH|n j l] using element_ind'; intros e2 e' M S.
  - inversion M as [? a b U V| | | |]; subst. inversion S as [? ? c V' U'| | | |]; subst. constructor; [congruence|]. intros N. rewrite <- V'. now apply V.
  - inversion M as [|? ? ? l2 F C| | |]; subst. inversion S as [|? ? ? l' K R| | |]; subst. constructor.
    + intros k. rewrite <- K. now rewrite (F2_keys _ _ _ F) by (now intros x y [E _]).
    + intros k u u' I I'. destruct (F2_in_l _ _ _ _ F I) as ([k2 u2] & I2 & E & Mu). cbn [fst snd] in *. subst k2.
      rewrite Forall_forall in IH. apply (IH _ I u2 u' Mu). now apply (R k).
  - inversion M as [| |? ? l2 F| |]; subst. inversion S as [| |? ? l' G| |]; subst. constructor. rewrite Forall_forall in IH.
    apply (F2_trans mirrors same retold l) with (2 := F) (3 := G). intros x y z I. now apply IH.
  - inversion M as [| | |? ? l2 F|]; subst. inversion S as [| | |? ? l' G|]; subst. constructor. rewrite Forall_forall in IH.
    apply (F2_trans mirrors same retold l) with (2 := F) (3 := G). intros x y z I. now apply IH.
  - inversion M; subst. inversion S; subst. now constructor.
Qed.
Lemma clear_named sep s : clear_schema sep s -> named_fields s.
Proof.
  induction s as [n k|n cp fs IH|n p z m IH|n p m IH|n jd] using schema_ind'; intros C; try easy.
  - apply clear_dict in C as (_ & ND & _ & C). apply named_dict. split; [exact ND|]. intros b f I. destruct (C _ _ I) as [Nn Cf]. split; [easy|].
    rewrite Forall_forall in IH. now apply (IH _ I).
  - cbn in C. now apply IH.
  - cbn in C. now apply IH.
Qed.
Lemma filled_mirror sep s e : clear_schema sep s -> natural_limits s -> steady_schema s -> filled s sep e -> lasting false s e ->
  exists e2, is_of s e2 /\ kept false s e2 /\ mirrors e e2.
Proof.
  intros C L S F La. pose proof (clear_named _ _ C) as N. destruct (mirror sep s C S false e) as (e2 & O & K & M & _).
  - now apply filled_inv with (sep := sep).
  - now apply filled_bounded with (sep := sep).
  - exact La.
  - now exists e2.
Qed.
Lemma filter_eq {A} (f g : A -> bool) l : (forall x, f x = g x) -> filter f l = filter g l.
Proof. intros H. induction l as [|x l IH]; cbn; [easy|]. now rewrite H, IH. Qed.
Lemma mirrors_flatten fuel e e' sep : mirrors e e' -> flatten_element fuel e sep = flatten_element fuel e' sep.
Proof.
  intros M. unfold flatten_element, flatten. rewrite <- (mirrors_tree _ _ M), <- (mirrors_deep _ _ M).
  destruct (mirrors_at e e' (Node []) M) as [T U]. rewrite T, U.
  destruct (children_flattenable e); [|reflexivity]. destruct (all_children (tree_of e) fuel (Node [])) as [l|]; [|reflexivity]. cbn [rmap]. do 2 f_equal.
  rewrite (filter_eq (text_at e) (text_at e')) by (intros; now apply mirrors_at). apply map_ext. intros x. f_equal. now apply mirrors_at.
Qed.
Lemma again sep s e : separator sep -> clear_schema sep s -> shows s -> natural_limits s -> steady_schema s -> filled s sep e -> lasting false s e ->
  exists f fl, (forall fuel, (f <= fuel)%nat -> flatten_element fuel e sep = Ok fl)
  /\ exists e', set_flat s sep (fresh s) (as_flat fl) = (e', Ok tt) /\ retold e e'.
Proof.
  intros Sp C W L S F La. destruct (filled_mirror sep s e C L S F La) as (e2 & O & K & M).
  destruct (flatten_back_lemma sep s e2 Sp C W O K) as (f & fl & H & e' & E & Sa). exists f, fl. split.
  - intros fuel Fu. rewrite (mirrors_flatten fuel e e2 sep M). now apply H.
  - exists e'. split; [exact E|]. now apply (mirrors_same e e2).
Qed.

(* ---------------- kinds ---------------- *)
Lemma text_lossless k t n : text_kind k -> adapt k (VText t) = Ok n -> n <> VNone -> lossless k n.
Proof.
  induction k as [st|nt sg|tr ts fa fs|tk st|c IH valid|c IH vals|own]; intros X H Hn; cbn [text_kind lossless] in *; try easy.
  - exact (exact_lossless (KNumber nt sg) (VText t) n X H Hn).
  - rewrite adapt_temporal_text in H. pose proof (parse_real _ _ _ H) as (Hr & Ht & _).
    destruct Ht as [s' d Hf _|s' x Hf _|s1 s2 d x Hf Hg _ _]; cbn [lossless]; eauto.
    + exists x. split; [easy|]. now destruct Hf.
    + exists d, x. split; [easy|]. now destruct Hg.
  - cbn [adapt] in H. destruct (adapt c (VText t)) as [m|] eqn:E; [|easy]. cbn [bind] in H.
    destruct (valid m) as [[]|]; try easy. injection H as ->. now apply IH.
  - cbn [adapt] in H. destruct (adapt c (VText t)) as [m|] eqn:E; [|easy]. cbn [bind] in H.
    destruct (py_in m vals); try easy. injection H as ->. now apply IH.
Qed.
Lemma text_sound k : text_kind k -> sound_texts k.
Proof. induction k; cbn; try easy. intros [H _]. now apply IHk. Qed.
Lemma text_some k t n : text_kind k -> adapt k (VText t) = Ok n -> n <> VNone.
Proof.
  revert n. induction k as [st|nt sg|tr ts fa fs|tk st|c IH valid|c IH vals|own]; intros n X H; cbn [text_kind] in *.
  - cbn in H. destruct st; injection H as <-; discriminate.
  - subst nt. pose proof (proj2 (integer_history sg [VText t] blank (fun z (E : VNone = VInt z) => ltac:(discriminate)) (or_intror eq_refl))) as G.
    cbn [adapt] in H. cbn in H. destruct (py_int (strip t)) as [z|[]]; try easy; cbn in H; destruct sg; try easy; [now injection H as <-|]. destruct (z <? 0)%Z; [easy|now injection H as <-].
  - cbn [adapt] in H. destruct (_ || _); [injection H as <-; discriminate|]. destruct (_ || _); [injection H as <-; discriminate|easy].
  - rewrite adapt_temporal_text in H. now pose proof (parse_real _ _ _ H) as (_ & _ & Hn).
  - cbn [adapt] in H. destruct (adapt c (VText t)) as [m|]; [|easy]. cbn [bind] in H. destruct (valid m) as [[]|]; try easy. injection H as <-. now apply IH.
  - cbn [adapt] in H. destruct (adapt c (VText t)) as [m|]; [|easy]. cbn [bind] in H. destruct (py_in m vals); try easy. injection H as <-. now apply IH.
  - easy.
Qed.
Lemma text_blank k : text_kind k ->
  (exists n, adapt k (VText []) = Ok n /\ serialize k n = []) \/ adapt k (VText []) = Err AdaptErr.
Proof.
  induction k as [st|nt sg|tr ts fa fs|tk st|c IH valid|c IH vals|own]; intros X; cbn [text_kind] in *.
  - left. cbn. destruct st; eexists; (split; [reflexivity|]); reflexivity.
  - subst nt. right. destruct sg; reflexivity.
  - cbn [adapt]. destruct X as (Ne & Ni & X1 & X2). destruct (str_eqb [] tr || memb str_eqb [] ts) eqn:E1.
    + left. exists (VBool true). split; [easy|]. cbn. apply orb_true_iff in E1 as [E|E]; [now apply str_eqb_eq in E|]. apply X1. apply memb_In in E; [easy|]. intros. apply str_eqb_eq.
    + apply orb_false_iff in E1 as [E _]. apply str_eqb_neq in E. destruct (str_eqb [] fa || memb str_eqb [] fs) eqn:E2; [|now right].
      left. exists (VBool false). split; [easy|]. cbn. apply orb_true_iff in E2 as [E2|E2]; [now apply str_eqb_eq in E2|]. apply memb_In in E2; [|intros; apply str_eqb_eq].
      destruct (X2 E2) as [Z1|Z1]; [exact Z1|]. now rewrite Z1 in E.
  - right. rewrite adapt_temporal_text. destruct tk, st; reflexivity.
  - destruct X as [X V]. cbn [adapt serialize]. destruct (IH X) as [(n & Ea & E)|Ea]; rewrite Ea; cbn [bind]; [|now right]. destruct (V n) as [[] ->]; cbn [bind]; [|now right]. left. now exists n.
  - cbn [adapt serialize]. destruct (IH X) as [(n & Ea & E)|Ea]; rewrite Ea; cbn [bind]; [|now right]. destruct (py_in n vals); [|now right]. left. now exists n.
  - easy.
Qed.
Lemma is_none_some n : n <> VNone -> is_none n = false.
Proof. now destruct n. Qed.
Lemma kinds_steady k : text_kind k -> steady k.
Proof.
  intros X. split.
  - intros t st b H. unfold scalar_set in H. destruct (adapt k (VText t)) as [n|[]] eqn:E; try discriminate.
    + injection H as <- <-. pose proof (text_some k t n X E) as Hn. cbn [s_u s_value]. rewrite (is_none_some n Hn).
      unfold scalar_set. rewrite (roundtrip_adapt k (VText t) n E Hn Logic.I (text_lossless k t n X E Hn) (text_sound k X)). now rewrite (is_none_some n Hn).
    + injection H as <- <-. cbn. unfold scalar_set. now rewrite E.
  - unfold scalar_set. destruct (text_blank k X) as [(n & Ea & E)|Ea]; rewrite Ea.
    + eexists _, true. split; [reflexivity|]. cbn. now destruct (is_none n).
    + now eexists _, false.
Qed.
