(* JoinedString *)
From Verif Require Import PyBase PyBaseFacts ModelScalar SpecScalar ProofScalar ProofScalar2 ProofScalar3 ModelCompound SpecCompound.

Lemma app_same_len {A} (a a' b b' : list A) : a ++ b = a' ++ b' -> List.length a = List.length a' -> a = a' /\ b = b'.
Proof.
  revert a'; induction a as [|x a IH]; intros [|y a'] E L; try discriminate L; [easy|].
  injection E as -> E. injection L as L. now destruct (IH a' E L) as [-> ->].
Qed.
Lemma split_go_pieces sep n s cur : sep <> [] -> (List.length s <= n)%nat ->
  (forall a b, rev cur ++ s = a ++ sep ++ b -> (List.length cur <= List.length a)%nat) ->
  pieces sep (rev cur ++ s) (split_go sep s 0 cur).
Proof.
  intros Hs. revert s cur. induction n as [|n IH]; intros s cur L F.
  - destruct s as [|c s]; [|cbn in L; lia]. cbn [split_go]. rewrite app_nil_r in *.
    apply pc_last. intros (a & b & E). specialize (F a b E). apply (f_equal (@List.length N)) in E.
    rewrite rev_length, !app_length in E. destruct sep; [easy|cbn in E; lia].
  - destruct s as [|c s].
    { cbn [split_go]. rewrite app_nil_r in *.
      apply pc_last. intros (a & b & E). specialize (F a b E). apply (f_equal (@List.length N)) in E.
      rewrite rev_length, !app_length in E. destruct sep; [easy|cbn in E; lia]. }
    cbn [split_go]. destruct (starts_with sep (c :: s)) eqn:W.
    + apply starts_with_iff in W as (r & W). rewrite W in *.
      destruct sep as [|x sep']; [easy|]. injection W as -> W. cbn [List.length]. rewrite Nat.sub_succ, Nat.sub_0_r.
      rewrite W. rewrite split_go_skip. apply pc_cut.
      * intros a' b' E. rewrite rev_length. now apply (F a' b').
      * apply (IH r []); [|intros; cbn; lia]. cbn in L. rewrite app_length in L. lia.
    + replace (rev cur ++ c :: s) with (rev (c :: cur) ++ s) by (cbn [rev]; now rewrite <- app_assoc).
      apply IH; [cbn in L; lia|]. intros a b E. cbn [rev] in E. rewrite <- app_assoc in E. cbn [app] in E.
      pose proof (F a b E) as Le. cbn [List.length]. destruct (Nat.eq_dec (List.length cur) (List.length a)) as [Q|Q]; [|lia].
      exfalso. rewrite <- rev_length in Q. apply app_same_len in E as [_ E]; [|easy].
      assert (starts_with sep (c :: s) = true) by (apply starts_with_iff; now exists b). congruence.
Qed.
Lemma split_pieces sep s : sep <> [] -> pieces sep s (split sep s).
Proof. intros H. apply (split_go_pieces sep (List.length s) s [] H); [lia|]. intros; cbn; lia. Qed.
Lemma pieces_fun sep s l l' : sep <> [] -> pieces sep s l -> pieces sep s l' -> l = l'.
Proof.
  intros Hs H. revert l'. induction H as [s N|a r l F H IH]; intros l' H'.
  - inversion H' as [s' N'|a r l2 F2 H2]; subst; [easy|]. exfalso. apply N. now exists a, r.
  - inversion H' as [s' N'|a' r' l2 F2 H2 E]; subst.
    + exfalso. apply N'. now exists a, r.
    + assert (Q : List.length a = List.length a').
      { apply Nat.le_antisymm; [apply (F a' r'); now rewrite E|apply (F2 a r); now rewrite E]. }
      apply app_same_len in E as [-> E]; [|easy]. apply app_inv_head in E. subst r'. f_equal. now apply IH.
Qed.
Lemma split_iff sep s l : sep <> [] -> split sep s = l <-> pieces sep s l.
Proof.
  intros H. split; [intros <-; now apply split_pieces|]. intros P.
  apply (pieces_fun sep s); [easy|now apply split_pieces|easy].
Qed.
Lemma joins_iff sep l s : join sep l = s <-> joins sep l s.
Proof.
  split.
  - intros <-. induction l as [|a l IH]; [constructor|]. destruct l as [|b l]; [constructor|].
    change (join sep (a :: b :: l)) with (a ++ sep ++ join sep (b :: l)). now constructor.
  - intros H. induction H as [|s|a l s N H IH]; [easy|easy|]. destruct l as [|b l]; [easy|].
    change (join sep (a :: b :: l)) with (a ++ sep ++ join sep (b :: l)). now rewrite IH.
Qed.
Lemma value_joins sep sts : joins sep (map s_u sts) (joined_value sep sts).
Proof. apply joins_iff. reflexivity. Qed.

(* ---- set ---- *)
Definition is_kept (prune : bool) (v : pyval) : bool := negb (prune && negb (vtruth v)).
Lemma kept_iff prune l l' : kept_values prune l l' <-> l' = filter (is_kept prune) l.
Proof.
  assert (X : forall v, is_kept prune v = true <-> prune = false \/ truthy v).
  { intros v. unfold is_kept. rewrite <- vtruth_iff. destruct prune, (vtruth v); cbn; split; try tauto; intros [|]; easy. }
  split.
  - intros H. induction H as [|v l l' P T H IH|v l l' K H IH]; [easy| |]; cbn [filter].
    + destruct (is_kept prune v) eqn:E; [|easy]. apply X in E as [E|E]; [congruence|easy].
    + apply X in K. rewrite K. now subst.
  - intros ->. induction l as [|v l IH]; [constructor|]. cbn [filter]. destruct (is_kept prune v) eqn:E.
    + constructor; [now apply X|easy].
    + unfold is_kept in E. apply negb_false_iff, andb_true_iff in E as [-> E]. constructor; [easy| |easy].
      rewrite <- vtruth_iff. now apply negb_true_iff in E as ->.
Qed.
Lemma members_filter k prune l : joined_members k prune l = joined_members k false (filter (is_kept prune) l).
Proof.
  induction l as [|v l IH]; [easy|]. cbn [joined_members filter]. unfold is_kept at 1.
  destruct (prune && negb (vtruth v)) eqn:E; cbn [negb]; [easy|]. cbn [joined_members andb].
  destruct (scalar_set k blank v) as [st [b|e]]; [|easy]. now rewrite IH.
Qed.
Lemma members_ok k l sts bs : Forall2 (fun v x => member_of k v (fst x) (snd x)) l (combine sts bs) ->
  List.length sts = List.length bs -> joined_members k false l = (sts, Ok (forallb (fun b => b) bs)).
Proof.
  revert sts bs. induction l as [|v l IH]; intros [|st sts] [|b bs] H L; try discriminate L; inversion H as [|? ? ? ? M H']; subst.
  - easy.
  - cbn [joined_members andb]. unfold member_of in M. cbn [fst snd] in M. rewrite M.
    rewrite (IH sts bs H'); [|now injection L]. easy.
Qed.
Lemma set_ok sep how k prune old a vs l sts bs :
  joined_values sep how a = Ok vs -> kept_values prune vs l ->
  Forall2 (fun v x => member_of k v (fst x) (snd x)) l (combine sts bs) -> List.length sts = List.length bs ->
  joined_set sep how k prune old a = (sts, Ok (forallb (fun b => b) bs)).
Proof.
  intros V K F L. unfold joined_set. rewrite V, members_filter. apply kept_iff in K. rewrite <- K. now apply members_ok.
Qed.
Lemma members_exist k l : (forall v, exists st b, member_of k v st b) ->
  exists sts bs, List.length sts = List.length bs /\ Forall2 (fun v x => member_of k v (fst x) (snd x)) l (combine sts bs).
Proof.
  intros T. induction l as [|v l (sts & bs & L & F)].
  - exists [], []. split; [easy|constructor].
  - destruct (T v) as (st & b & M). exists (st :: sts), (b :: bs). split; [cbn; now f_equal|]. now constructor.
Qed.
Lemma set_raises sep how k prune old a vs l1 v l2 st e sts bs :
  joined_values sep how a = Ok vs -> kept_values prune vs (l1 ++ v :: l2) ->
  Forall2 (fun v x => member_of k v (fst x) (snd x)) l1 (combine sts bs) -> List.length sts = List.length bs ->
  scalar_set k blank v = (st, Err e) ->
  joined_set sep how k prune old a = (sts, Err e).
Proof.
  intros V K F L E. unfold joined_set. rewrite V, members_filter. apply kept_iff in K. rewrite <- K. clear V K.
  revert sts bs F L. induction l1 as [|w l1 IH]; intros [|s sts] [|b bs] F L; try discriminate L; inversion F as [|? ? ? ? M F']; subst.
  - cbn [app joined_members andb]. now rewrite E.
  - cbn [app joined_members andb]. unfold member_of in M. cbn [fst snd] in M. rewrite M.
    rewrite (IH sts bs F'); [easy|now injection L].
Qed.
Lemma values_text sep s : sep <> [] -> forall l, pieces sep s l -> joined_values sep Static (JText s) = Ok (map VText l).
Proof.
  intros H l P. cbn [joined_values]. apply split_iff in P; [|easy]. destruct sep; [easy|]. now rewrite P.
Qed.

(* ---- round trip ---- *)
Lemma join_pieces sep l s : sep <> [] -> l <> [] -> Forall (apart sep) l -> joins sep l s -> pieces sep s l.
Proof.
  intros Hs Hl A J. induction J as [|s|a l s N J IH]; [easy| |].
  - apply pc_last. inversion A as [|? ? Ha _]; subst. intros (x & y & ->). destruct sep as [|c sep]; [easy|].
    apply (Ha c); [now left|]. apply in_or_app; right; now left.
  - inversion A as [|? ? Ha A']; subst. apply pc_cut; [|now apply IH].
    intros a' b' E. destruct (Nat.le_gt_cases (List.length a) (List.length a')) as [C|C]; [easy|exfalso].
    destruct sep as [|c sep]; [easy|]. apply (Ha c); [now left|].
    assert (X : nth_error (a ++ (c :: sep) ++ s) (List.length a') = Some c).
    { rewrite E, nth_error_app2, Nat.sub_diag by lia. easy. }
    rewrite nth_error_app1 in X by easy. now apply nth_error_In in X.
Qed.
Lemma joined_roundtrip sep k prune sts : sep <> [] -> sts <> [] -> Forall (stable k) sts ->
  Forall (fun st => apart sep (s_u st)) sts -> (prune = true -> Forall (fun st => s_u st <> []) sts) ->
  forall old, exists sts', joined_set sep Static k prune old (JText (joined_value sep sts)) = (sts', Ok true)
    /\ same_members sts' sts /\ joined_value sep sts' = joined_value sep sts.
Proof.
  intros Hs Hl St A P old.
  assert (Pc : pieces sep (joined_value sep sts) (map s_u sts)).
  { apply join_pieces; [easy|now destruct sts|now apply Forall_map|apply value_joins]. }
  assert (Kp : kept_values prune (map VText (map s_u sts)) (map VText (map s_u sts))).
  { clear - P. induction sts as [|st sts IH]; cbn [map]; [constructor|]. apply kv_keep.
    - destruct prune; [right|now left]. specialize (P eq_refl). inversion P; subst. now constructor.
    - apply IH. intros E. specialize (P E). now inversion P. }
  assert (M : exists sts', Forall2 (fun v x => member_of k v (fst x) (snd x)) (map VText (map s_u sts)) (combine sts' (map (fun _ => true) sts'))
              /\ same_members sts' sts).
  { clear - St. induction St as [|st sts (st' & E & V & U) St (sts' & F & SV & SU)].
    - exists []. split; [constructor|easy].
    - exists (st' :: sts'). split; [now constructor|]. split; cbn [map]; congruence. }
  destruct M as (sts' & F & Sm). exists sts'. split; [|split; [easy|]].
  - rewrite (set_ok sep Static k prune old _ _ _ sts' (map (fun _ => true) sts') (values_text sep _ Hs _ Pc) Kp F);
      [|now rewrite map_length]. do 2 f_equal. clear. induction sts'; easy.
  - unfold joined_value. destruct Sm as [_ ->]. easy.
Qed.
Lemma stable_lossless k v st : member_of k v st true -> s_value st <> VNone -> real_val v ->
  lossless k (s_value st) -> sound_texts k -> stable k st.
Proof.
  intros M N R L T. eexists. split; [apply (roundtrip k blank v st blank M N R L T)|easy].
Qed.
Lemma stable_exact k v st : member_of k v st true -> s_value st <> VNone -> real_val v ->
  exact_type k -> sound_texts k -> stable k st.
Proof.
  intros M N R L T. eexists. split; [apply (roundtrip_exact k blank v st blank M N R L T)|easy].
Qed.

(* ---- set_flat ---- *)
Lemma flat_first nm sep how k prune old pre a post : Forall (fun p => fst p <> nm) pre ->
  joined_set_flat nm sep how k prune old (pre ++ (nm, a) :: post) =
  (fst (joined_set sep how k prune old a), rmap (fun _ => tt) (snd (joined_set sep how k prune old a))).
Proof.
  induction pre as [|[key x] pre IH]; intros H; cbn [app joined_set_flat].
  - rewrite (proj2 (name_eqb_eq nm nm) eq_refl). now destruct (joined_set sep how k prune old a).
  - inversion H as [|? ? N H']; subst. destruct (name_eqb key nm) eqn:E; [apply name_eqb_eq in E; easy|]. now apply IH.
Qed.
Lemma flat_absent nm sep how k prune old pairs : Forall (fun p => fst p <> nm) pairs ->
  joined_set_flat nm sep how k prune old pairs = (old, Ok tt).
Proof.
  induction pairs as [|[key x] pre IH]; intros H; cbn [joined_set_flat]; [easy|].
  inversion H as [|? ? N H']; subst. destruct (name_eqb key nm) eqn:E; [apply name_eqb_eq in E; easy|]. now apply IH.
Qed.
