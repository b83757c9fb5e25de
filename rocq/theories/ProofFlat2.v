(* The loop of mappings; bounds; irrelevant pairs. *)
From Verif Require Import PyBase PyBaseFacts PyList ModelMap SpecScalar ProofScalar ModelPaths SpecPaths ModelScalar ModelFlat SpecFlat ProofFlat.

(* ---------------- possibles and accumulate ---------------- *)
Definition none_key (p : name * pyval) : bool := match fst p with None => true | _ => false end.
Definition stripped (pre : str) (ps : flat_pairs) : flat_pairs :=
  flat_map (fun p => match fst p with
                     | Some k => if starts_with pre k then [(Some (skipn (List.length pre) k), snd p)] else []
                     | None => []
                     end) ps.
Definition starting (x : str) (ps : flat_pairs) : flat_pairs :=
  filter (fun p => match fst p with Some k => starts_with x k | None => false end) ps.
Lemma possibles_lemma pre ps :
  possibles pre ps = if existsb none_key ps then Err AttributeErr else Ok (stripped pre ps).
Proof.
  induction ps as [|[[k|] v] ps IH]; cbn; [easy| |easy]. rewrite IH.
  destruct (existsb none_key ps); cbn; [easy|]. destruct (starts_with pre k); easy.
Qed.
Lemma accumulate_lemma x ps :
  accumulate (Some x) ps = if existsb none_key ps then Err AttributeErr else Ok (starting x ps).
Proof.
  induction ps as [|[[k|] v] ps IH]; cbn; [easy| |easy]. rewrite IH.
  destruct (existsb none_key ps); cbn; [easy|]. destruct (starts_with x k); easy.
Qed.
Lemma stripped_text pre ps : existsb none_key (stripped pre ps) = false.
Proof.
  induction ps as [|[[k|] v] ps IH]; cbn; [easy| |easy]. destruct (starts_with pre k); cbn; easy.
Qed.
Lemma text_none ps : text_keys ps <-> existsb none_key ps = false.
Proof.
  split.
  - induction 1 as [|[k v] ps H _ IH]; cbn; [easy|]. rewrite IH. unfold none_key. destruct k; easy.
  - induction ps as [|[k v] ps IH]; cbn; [constructor|]. intros H. apply orb_false_iff in H as [H1 H2].
    constructor; [|now apply IH]. destruct k; easy.
Qed.

(* ---------------- the loop ---------------- *)
Definition dict_go (sep : str) (ps : flat_pairs) :=
  fix go (fs : list (bool * schema)) (items : list (name * element)) : list (name * element) * res unit :=
    match fs with
    | [] => (items, Ok tt)
    | (_, f) :: fs' =>
        match accumulate (schema_name f) ps with
        | Err x => (items, Err x)
        | Ok [] => go fs' items
        | Ok acc =>
            let old := match aget name_eqb (schema_name f) items with Some u => u | None => fresh f end in
            let '(u, r) := set_flat f sep old acc in
            let items := aset name_eqb (schema_name f) u items in
            match r with Ok _ => go fs' items | Err x => (items, Err x) end
        end
    end.
Lemma set_flat_dict {cp} {cq} n fields sep m items pairs :
  set_flat (SDict n cp fields) sep (EDict m cq items) pairs =
  match (match m with None => Ok pairs | Some x => possibles (x ++ sep) pairs end) with
  | Err x => (EDict m cq items, Err x)
  | Ok [] => (EDict m cq items, Ok tt)
  | Ok ps => let '(items, r) := dict_go sep ps fields items in (EDict m cq items, r)
  end.
Proof. reflexivity. Qed.
Lemma name_eqb_eq' a b : name_eqb a b = true <-> a = b.
Proof. apply name_eqb_eq. Qed.
Definition fname (f : bool * schema) : name := schema_name (snd f).

Lemma In_aset {A} k (u : A) items k' u' : In (k', u') (aset name_eqb k u items) -> (k' = k /\ u' = u) \/ In (k', u') items.
Proof.
  induction items as [|[a b] l IH]; cbn.
  - intros [[= <- <-]|[]]. now left.
  - destruct (name_eqb_spec k a) as [->|]; cbn.
    + intros [[= <- <-]|H]; auto.
    + intros [[= <- <-]|H]; auto. destruct (IH H) as [?|?]; auto.
Qed.
Lemma dict_go_items sep ps fs items items' r : NoDup (map fname fs) -> dict_go sep ps fs items = (items', r) ->
  forall k u, In (k, u) items' -> In (k, u) items \/
    exists there f p acc, In (there, f) fs /\ k = schema_name f /\ accumulate k ps = Ok (p :: acc)
      /\ u = fst (set_flat f sep (match aget name_eqb k items with Some u => u | None => fresh f end) (p :: acc)).
Proof.
  revert items. induction fs as [|[b f] fs IH]; intros items ND E k u I; cbn [dict_go] in E.
  { injection E as <- <-. now left. }
  cbn [map fname snd] in ND. apply NoDup_cons_iff in ND as [NI ND].
  destruct (accumulate (schema_name f) ps) as [[|p acc]|x] eqn:A.
  - destruct (IH _ ND E k u I) as [H|(b' & g & q & acc & G & Hk & Ha & Hu)]; [now left|]. right. exists b', g, q, acc.
    repeat split; try easy. now right.
  - set (old := match aget name_eqb (schema_name f) items with Some u => u | None => fresh f end) in *.
    destruct (set_flat f sep old (p :: acc)) as [w r0] eqn:W.
    assert (HERE : forall k u, In (k, u) (aset name_eqb (schema_name f) w items) -> In (k, u) items \/
              exists there g q acc, In (there, g) ((b, f) :: fs) /\ k = schema_name g /\ accumulate k ps = Ok (q :: acc)
              /\ u = fst (set_flat g sep (match aget name_eqb k items with Some u => u | None => fresh g end) (q :: acc))).
    { intros k0 u0 H. apply In_aset in H as [[-> ->]|H]; [|now left]. right. exists b, f, p, acc.
      split; [now left|]. split; [easy|]. split; [easy|]. fold old. now rewrite W. }
    destruct r0 as [[]|x].
    + destruct (IH _ ND E k u I) as [H|(b' & g & q & acc' & G & Hk & Ha & Hu)]; [now apply HERE|].
      right. exists b', g, q, acc'. split; [now right|]. split; [easy|]. split; [easy|].
      rewrite Hu. f_equal. f_equal.
      rewrite (aget_aset_neq name_eqb name_eqb_eq'); [easy|]. subst k. intros H. apply NI.
      apply in_map_iff. exists (b', g). split; [unfold fname; cbn; congruence|easy].
    + injection E as <- <-. now apply HERE.
  - injection E as <- <-. now left.
Qed.

(* the nested recursions of the specification, flattened *)
Lemma bounded_dict {cp} {cq} n fs m items : bounded (SDict n cp fs) (EDict m cq items) <->
  forall b f, In (b, f) fs -> forall u, In (schema_name f, u) items -> bounded f u.
Proof.
  cbn. induction fs as [|[b f] fs IH]; cbn; [easy|]. rewrite IH. split.
  - intros [H1 H2] b' g [[= <- <-]|G]; eauto.
  - intros H. split; [now apply (H b f); left|]. intros. eapply H; [right; eauto|easy].
Qed.
Lemma limits_dict {cp} n fs : natural_limits (SDict n cp fs) <-> forall b f, In (b, f) fs -> natural_limits f.
Proof.
  cbn. induction fs as [|[b f] fs IH]; cbn; [easy|]. rewrite IH. split.
  - intros [H1 H2] b' g [[= <- <-]|G]; eauto.
  - intros H. split; [now apply (H b f); left|]. intros. eapply H; eauto.
Qed.
Lemma named_dict {cp} n fs : named_fields (SDict n cp fs) <->
  NoDup (map fname fs) /\ forall b f, In (b, f) fs -> schema_name f <> None /\ named_fields f.
Proof.
  cbn. unfold fname at 1. apply and_iff_compat_l. induction fs as [|[b f] fs IH]; cbn; [easy|]. rewrite IH. split.
  - intros (H1 & H2 & H3) b' g [[= <- <-]|G]; eauto.
  - intros H. destruct (H b f (or_introl eq_refl)). repeat split; try easy; intros; eapply H; right; eauto.
Qed.
Lemma is_of_dict {cp} {cq} n fs m items : is_of (SDict n cp fs) (EDict m cq items) <->
  m = n /\ cq = cp /\ NoDup (map fst items) /\ (forall k, In k (map fst items) -> In k (map fname fs))
  /\ forall b f, In (b, f) fs -> (forall u, In (schema_name f, u) items -> is_of f u) /\ (b = true -> In (schema_name f) (map fst items)).
Proof.
  cbn. unfold fname. do 4 apply and_iff_compat_l. induction fs as [|[b f] fs IH]; cbn; [easy|]. rewrite IH. split.
  - intros (H1 & H2 & H3) b' g [[= <- <-]|G]; eauto.
  - intros H. destruct (H b f (or_introl eq_refl)). repeat split; try easy; intros; eapply H; eauto.
Qed.
Lemma In_field b f (fs : list (bool * schema)) P : In (b, f) fs -> Forall (fun f => P (snd f)) fs -> P f.
Proof. intros I F. rewrite Forall_forall in F. exact (F _ I). Qed.

Lemma field_unique fs b f b' g : NoDup (map fname fs) -> In (b, f) fs -> In (b', g) fs -> schema_name f = schema_name g ->
  b = b' /\ f = g.
Proof.
  intros ND. induction fs as [|h fs IH]; [easy|]. cbn [map] in ND. apply NoDup_cons_iff in ND as [NI ND].
  intros [->|I] [H|J] E.
  - now injection H.
  - exfalso. apply NI. apply in_map_iff. exists (b', g). split; [unfold fname; cbn; congruence|easy].
  - subst h. exfalso. apply NI. apply in_map_iff. exists (b, f). split; [unfold fname; cbn; congruence|easy].
  - now apply IH.
Qed.
Lemma In_fresh {cp} n fs k u : In (k, u) (match fresh (SDict n cp fs) with EDict _ _ l => l | _ => [] end) <->
  exists f, In (true, f) fs /\ k = schema_name f /\ u = fresh f.
Proof.
  cbn. rewrite in_flat_map. split.
  - intros ([[] f] & I & H); cbn in H; [|easy]. destruct H as [[= <- <-]|[]]. eauto.
  - intros (f & I & -> & ->). exists (true, f). split; [easy|]. now left.
Qed.

(* C26 *)
Lemma bounded_fresh s : natural_limits s -> named_fields s -> bounded s (fresh s).
Proof.
  induction s as [n k|n cp fs IH|n p z m IH|n p m IH|n jd] using schema_ind'; try easy.
  - intros L N. pose proof (proj1 (limits_dict n fs) L) as L'. apply named_dict in N as [ND N].
    change (fresh (SDict n cp fs)) with (EDict n cp (match fresh (SDict n cp fs) with EDict _ _ l => l | _ => [] end)).
    apply bounded_dict. intros b f I u U. apply In_fresh in U as (g & G & E & ->).
    destruct (field_unique fs b f true g ND I G E) as [-> ->].
    rewrite Forall_forall in IH; specialize (IH _ I); cbn [snd] in IH. apply IH; [eapply L'; eauto|eapply N; eauto].
  - cbn. intros [L ?] N. split; [easy|constructor].
  - cbn. constructor.
Qed.
Lemma build_length mk set plan : (List.length (fst (build mk set plan)) <= List.length plan)%nat.
Proof.
  induction plan as [|o plan IH]; cbn; [easy|]. destruct (build mk set plan) as [l r]. cbn in IH.
  destruct o as [[|p ps]|]; cbn; try lia. destruct (set (p :: ps)) as [e [|]]; cbn; lia.
Qed.
Lemma build_Forall (P : element -> Prop) mk set plan : P mk -> (forall ps, P (fst (set ps))) -> Forall P (fst (build mk set plan)).
Proof.
  intros M H. induction plan as [|o plan IH]; cbn; [constructor|]. destruct (build mk set plan) as [l r]. cbn in IH.
  destruct o as [[|p ps]|]; cbn; try (now constructor). specialize (H (p :: ps)). destruct (set (p :: ps)) as [e [|]]; cbn; repeat constructor; easy.
Qed.
Lemma members_Forall (P : element -> Prop) make set ps : (forall ps, P (fst (set ps))) -> Forall P (fst (array_members make set ps)).
Proof.
  intros H. induction ps as [|p ps IH]; cbn; [constructor|]. destruct (make p) as [[q|]|]; cbn; [|easy|constructor].
  specialize (H [q]). destruct (set [q]) as [e [|]]; cbn; [|constructor]. destruct (array_members make set ps). cbn in *. now constructor.
Qed.
Lemma plan_length prune limit g : (0 <= limit)%Z -> (Z.of_nat (List.length (list_plan prune limit g)) <= limit)%Z.
Proof.
  intros L. unfold list_plan. destruct prune; rewrite map_length.
  - rewrite up_to_firstn by easy. rewrite firstn_length. lia.
  - rewrite seq_length. lia.
Qed.
Lemma bounded_lemma s : natural_limits s -> named_fields s -> forall sep e ps, bounded s e -> bounded s (fst (set_flat s sep e ps)).
Proof.
  induction s as [n k|n cp fs IH|n p z m IH|n p m IH|n jd] using schema_ind'; intros L N sep e ps B.
  - destruct e; easy.
  - destruct e as [|m cq items| | |]; try easy. rewrite set_flat_dict.
    destruct (match m with None => Ok ps | Some x => possibles (x ++ sep) ps end) as [[|q qs]|x]; try easy.
    destruct (dict_go sep (q :: qs) fs items) as [items' r] eqn:E. cbn [fst].
    apply bounded_dict. intros b f I u U. apply named_dict in N as [ND N]. pose proof (proj1 (limits_dict n fs) L b f I) as L'.
    rewrite bounded_dict in B.
    destruct (dict_go_items sep (q :: qs) fs items items' r ND E _ _ U) as [H|(b' & g & p & acc & G & Hk & Ha & Hu)].
    + eapply B; eauto.
    + destruct (field_unique fs b f b' g ND I G Hk) as [<- <-]. rewrite Hu.
      rewrite Forall_forall in IH; specialize (IH _ I); cbn [snd] in IH. apply IH; [easy|eapply N; eauto|].
      destruct (aget name_eqb (schema_name f) items) as [w|] eqn:W.
      * apply (aget_In name_eqb name_eqb_eq') in W. eapply B; eauto.
      * apply bounded_fresh; [easy|eapply N; eauto].
  - destruct e as [| |m' l| |]; try easy. cbn [set_flat]. cbn in L. destruct L as [L1 L2].
    destruct (collect m' sep p [] ps) as [[|g gs]|x]; [cbn; split; [easy|constructor]| |cbn; split; [easy|constructor]].
    pose proof (build_length (fresh m) (set_flat m sep (fresh m)) (list_plan p z (g :: gs))) as BL.
    pose proof (build_Forall (bounded m) (fresh m) (set_flat m sep (fresh m)) (list_plan p z (g :: gs))) as BF.
    destruct (build _ _ _) as [l' r]. cbn [fst] in *. cbn. pose proof (plan_length p z (g :: gs) L1). split; [lia|].
    apply BF; [now apply bounded_fresh|]. intros. apply IH; [easy..|now apply bounded_fresh].
  - destruct e as [| | |m' l|]; try easy. cbn [set_flat]. destruct (is_container m); [constructor|].
    pose proof (members_Forall (bounded m) (array_pair m' (schema_name m) sep p) (set_flat m (lit "_") (fresh m)) ps) as MF.
    destruct (array_members _ _ ps) as [l' r]. cbn in *. apply MF. intros. apply IH; [easy..|now apply bounded_fresh].
  - destruct e; easy.
Qed.

(* ---------------- C25 ---------------- *)
Lemma thinned_text P ps qs : thinned P ps qs -> text_keys ps -> text_keys qs.
Proof.
  induction 1; intros T; [constructor|constructor|]; inversion T; subst; auto. now apply IHthinned.
Qed.
Lemma thinned_stripped P pre ps qs : thinned P ps qs ->
  thinned (fun r => P (pre ++ r)) (stripped pre ps) (stripped pre qs).
Proof.
  induction 1 as [|[k v] ps qs _ IH|k v ps qs N _ IH]; cbn; [constructor| |].
  - destruct k as [k|]; [|easy]. destruct (starts_with pre k); cbn; [now constructor|easy].
  - destruct (starts_with pre k) eqn:E; cbn; [|easy]. apply thin_drop; [|easy].
    apply starts_with_iff in E as [r ->]. now rewrite skipn_app_len.
Qed.
Lemma thinned_impl (P Q : str -> Prop) ps qs : (forall k, Q k -> P k) -> thinned P ps qs -> thinned Q ps qs.
Proof. intros H. induction 1; [constructor|now constructor|]. apply thin_drop; [|easy]. intros X. auto. Qed.
Lemma thinned_eq (P : str -> Prop) ps qs : thinned P ps qs -> (forall k v, In (Some k, v) ps -> P k) -> ps = qs.
Proof.
  induction 1 as [|p ps qs _ IH|k v ps qs N _ IH]; intros H; [easy| |].
  - f_equal. apply IH. intros. eapply H. right. eauto.
  - exfalso. apply N. eapply H. now left.
Qed.
Lemma thinned_starting P x ps qs : thinned P ps qs -> (forall k, starts_with x k = true -> P k) -> starting x ps = starting x qs.
Proof.
  unfold starting. induction 1 as [|[k v] ps qs _ IH|k v ps qs N _ IH]; intros H; cbn; [easy| |].
  - destruct k as [k|]; [destruct (starts_with x k)|]; rewrite (IH H); easy.
  - destruct (starts_with x k) eqn:E; [|now apply IH]. exfalso. auto.
Qed.
Lemma flat_first_thin n ps qs : thinned (fun k => n = Some k) ps qs -> flat_first n ps = flat_first n qs.
Proof.
  induction 1 as [|[k v] ps qs _ IH|k v ps qs N _ IH]; cbn [flat_first]; [easy| |].
  - now rewrite IH.
  - destruct (name_eqb_spec (Some k) n) as [E|]; [|exact IH]. exfalso. apply N. now symmetry.
Qed.
Lemma collect_thin n sep prune ps qs : separator sep -> thinned (fun k => exists i r, reads n sep k i r) ps qs ->
  forall g, collect n sep prune g ps = collect n sep prune g qs.
Proof.
  intros S. induction 1 as [|[k v] ps qs _ IH|k v ps qs N _ IH]; intros g; cbn [collect]; [easy| |].
  - destruct (is_blank v && prune); [easy|]. destruct k as [k|]; [|easy]. destruct (list_key n sep k) as [[ds r]|]; [|easy].
    destruct (py_int ds) as [i|[]]; easy.
  - destruct (is_blank v && prune); [easy|]. destruct (list_key_rd n sep k S) as [[-> _]|(ds & r & i & _ & _ & E)]; [easy|].
    exfalso. apply N. apply rd_reads in E; [|easy]. eauto.
Qed.
Lemma array_pair_skip n m sep prune k v : is_container m = false -> ~ concerns sep (SArray n prune m) k ->
  array_pair n (schema_name m) sep prune (Some k, v) = Ok None.
Proof.
  intros C N. cbn in N. unfold array_pair. destruct n as [[|c x]|].
  - destruct (prune && is_blank v && name_eqb (Some k) _); [easy|].
    destruct (schema_name m) as [[|d y]|] eqn:E; [exfalso; apply N; right; right; split; auto| |exfalso; apply N; right; right; split; auto].
    set (kk := if name_eqb (Some k) (Some []) then None else Some k).
    match goal with |- context [name_eqb kk ?z] => destruct (name_eqb kk z) eqn:F end; [|reflexivity].
    exfalso. apply N. right. right. split; [auto|]. right. right. apply name_eqb_eq in F. unfold kk in F. destruct (name_eqb (Some k) (Some [])); [easy|]. now symmetry.
  - destruct (array_key (c :: x) sep k) as [r|] eqn:E; [|easy]. exfalso. apply N. right. left. exists (c :: x).
    split; [easy|]. split; [easy|]. unfold array_key in E. destruct (starts_with (c :: x) k) eqn:W; [|easy].
    apply starts_with_iff in W as [t ->]. rewrite skipn_app_len in E. apply after_sep_elim in E as [-> | [[-> _]|(-> & _)]].
    + right. right. now exists r.
    + left. now rewrite app_nil_r.
    + right. now left.
  - destruct (prune && is_blank v && name_eqb (Some k) _); [easy|].
    destruct (schema_name m) as [[|d y]|] eqn:E; [exfalso; apply N; right; right; split; auto| |exfalso; apply N; right; right; split; auto].
    set (kk := if name_eqb (Some k) (Some []) then None else Some k).
    match goal with |- context [name_eqb kk ?z] => destruct (name_eqb kk z) eqn:F end; [|reflexivity].
    exfalso. apply N. right. right. split; [auto|]. right. right. apply name_eqb_eq in F. unfold kk in F. destruct (name_eqb (Some k) (Some [])); [easy|]. now symmetry.
Qed.
Lemma array_thin n m sep prune set ps qs : is_container m = false ->
  thinned (concerns sep (SArray n prune m)) ps qs ->
  array_members (array_pair n (schema_name m) sep prune) set ps = array_members (array_pair n (schema_name m) sep prune) set qs.
Proof.
  intros C. induction 1 as [|[k v] ps qs _ IH|k v ps qs N _ IH]; cbn [array_members]; [easy| |].
  - now rewrite IH.
  - now rewrite array_pair_skip.
Qed.
Lemma dict_go_ext sep ps qs fs : (forall f, In f fs -> accumulate (fname f) ps = accumulate (fname f) qs) ->
  forall items, dict_go sep ps fs items = dict_go sep qs fs items.
Proof.
  induction fs as [|[b f] fs IH]; intros H items; [easy|]. cbn [dict_go].
  pose proof (H (b, f) (or_introl eq_refl)) as E. unfold fname in E. cbn [snd] in E. rewrite <- E.
  assert (IH' : forall items, dict_go sep ps fs items = dict_go sep qs fs items) by (apply IH; intros; apply H; now right).
  destruct (accumulate (schema_name f) ps) as [[|p acc]|x]; [apply IH'| |easy].
  destruct (set_flat _ _ _ _) as [u [|]]; [apply IH'|easy].
Qed.
Lemma dict_go_nil sep fs items : dict_go sep [] fs items = (items, Ok tt).
Proof.
  induction fs as [|[b f] fs IH]; [easy|]. cbn [dict_go]. destruct (schema_name f); cbn; exact IH.
Qed.
Definition own_part (m : name) (sep : str) (ps : flat_pairs) : flat_pairs :=
  match m with None => ps | Some x => stripped (x ++ sep) ps end.
Lemma own_pairs m sep pairs : text_keys pairs ->
  (match m with None => Ok pairs | Some x => possibles (x ++ sep) pairs end)
  = Ok (own_part m sep pairs).
Proof. intros T. destruct m; [|easy]. rewrite possibles_lemma. apply text_none in T. now rewrite T. Qed.
Lemma set_flat_dict_text {cp} {cq} n fields sep m items pairs : text_keys pairs ->
  set_flat (SDict n cp fields) sep (EDict m cq items) pairs =
  (let '(items, r) := dict_go sep (own_part m sep pairs) fields items in (EDict m cq items, r)).
Proof.
  intros T. rewrite set_flat_dict, own_pairs by easy.
  assert (A : forall X, match X with [] => (EDict m cq items, Ok tt) | _ => let '(items, r) := dict_go sep X fields items in (EDict m cq items, r) end
                        = let '(items, r) := dict_go sep X fields items in (EDict m cq items, r)).
  { intros [|p X]; [now rewrite dict_go_nil|reflexivity]. }
  apply A.
Qed.
Lemma own_part_text m sep pairs : text_keys pairs -> text_keys (own_part m sep pairs).
Proof. destruct m; [|easy]. intros _. apply text_none. apply stripped_text. Qed.

Lemma acc_text x ps : text_keys ps -> accumulate (Some x) ps = Ok (starting x ps).
Proof. intros T. rewrite accumulate_lemma. apply text_none in T. now rewrite T. Qed.
Lemma concerns_lemma s sep e ps qs : separator sep -> named_fields s -> element_name e = schema_name s -> text_keys ps ->
  thinned (concerns sep s) ps qs -> set_flat s sep e ps = set_flat s sep e qs.
Proof.
  intros S N EN T H. destruct s as [n k|n cp fs|n prune limit m|n prune m|n jd], e; try easy; cbn in EN; subst.
  - cbn [set_flat]. cbn in H. now rewrite (flat_first_thin n ps qs H).
  - rewrite !set_flat_dict_text by (try easy; now apply (thinned_text _ _ _ H)).
    rewrite (dict_go_ext sep _ (own_part n sep qs) fs); [easy|].
    intros [b f] I. apply named_dict in N as [_ N]. destruct (N b f I) as [NN _]. unfold fname. cbn [snd].
    destruct (schema_name f) as [x|] eqn:E; [|easy]. pose proof (thinned_text _ _ _ H T) as TQ.
    rewrite (acc_text x _ (own_part_text n sep ps T)), (acc_text x _ (own_part_text n sep qs TQ)).
    f_equal. destruct n as [o|].
    + eapply thinned_starting; [apply thinned_stripped; exact H|]. intros k W. apply starts_with_iff in W as [y ->].
      exists b, f, x, y. repeat split; try easy. now rewrite <- app_assoc.
    + eapply thinned_starting; [exact H|]. intros k W. apply starts_with_iff in W as [y ->]. now exists b, f, x, y.
  - cbn [set_flat]. cbn in H. now rewrite (collect_thin n sep prune ps qs S H).
  - cbn [set_flat]. destruct (is_container m) eqn:C; [easy|]. now rewrite (array_thin n m sep prune _ ps qs C H).
  - cbn [set_flat]. cbn in H. now rewrite (flat_first_thin n ps qs H).
Qed.
