(* Lemmas about PyBase. *)
From Verif Require Import PyBase.
From Coq Require Permutation.
Global Arguments memb : simpl never.
Global Arguments Z.add : simpl never.
Global Arguments Z.sub : simpl never.
Global Arguments Z.mul : simpl never.
Global Arguments Z.div : simpl never.
Global Arguments Z.modulo : simpl never.
Global Arguments N.add : simpl never.
Global Arguments N.sub : simpl never.
Global Arguments N.mul : simpl never.
Global Arguments N.div : simpl never.
Global Arguments N.modulo : simpl never.
Ltac Zify.zify_post_hook ::= Z.div_mod_to_equations.

Lemma str_eqb_eq a b : str_eqb a b = true <-> a = b.
Proof.
  revert b; induction a as [|x a IH]; intros [|y b]; simpl; split; intros H;
    try easy.
  - apply andb_true_iff in H as [H1 H2]. apply N.eqb_eq in H1.
    apply IH in H2. congruence.
  - inversion H; subst. rewrite N.eqb_refl. simpl. now apply IH.
Qed.
Lemma str_eqb_refl a : str_eqb a a = true.
Proof. now apply str_eqb_eq. Qed.
Lemma str_eqb_neq a b : str_eqb a b = false <-> a <> b.
Proof.
  rewrite <- str_eqb_eq. destruct (str_eqb a b); split; congruence.
Qed.
Lemma str_eqb_sym a b : str_eqb a b = str_eqb b a.
Proof.
  destruct (str_eqb a b) eqn:E.
  - apply str_eqb_eq in E. subst. now rewrite str_eqb_refl.
  - symmetry. apply str_eqb_neq. apply str_eqb_neq in E. congruence.
Qed.
Lemma str_eqb_spec a b : reflect (a = b) (str_eqb a b).
Proof.
  destruct (str_eqb a b) eqn:E; constructor.
  - now apply str_eqb_eq. - now apply str_eqb_neq.
Qed.
Lemma name_eqb_eq a b : name_eqb a b = true <-> a = b.
Proof.
  destruct a, b; simpl; split; intros H; try easy.
  - apply str_eqb_eq in H. congruence.
  - inversion H. apply str_eqb_refl.
Qed.
Lemma name_eqb_refl a : name_eqb a a = true.
Proof. now apply name_eqb_eq. Qed.
Lemma name_eqb_spec a b : reflect (a = b) (name_eqb a b).
Proof.
  destruct (name_eqb a b) eqn:E; constructor.
  - now apply name_eqb_eq.
  - intros H. apply name_eqb_eq in H. congruence.
Qed.

Lemma memb_In {A} (eqb : A -> A -> bool)
  (Heq : forall x y, eqb x y = true <-> x = y) x l :
  memb eqb x l = true <-> In x l.
Proof.
  unfold memb. rewrite existsb_exists. split.
  - intros (y & Hy & E). apply Heq in E. now subst.
  - intros H. exists x. split; [easy|]. now apply Heq.
Qed.

(* ---------------- prefixes ---------------- *)
Lemma starts_with_app p s : starts_with p (p ++ s) = true.
Proof. induction p; simpl; [easy|]. now rewrite N.eqb_refl. Qed.
Lemma starts_with_iff p s :
  starts_with p s = true <-> exists r, s = p ++ r.
Proof.
  split.
  - revert s; induction p as [|x p IH]; intros s H; simpl in *.
    + now exists s.
    + destruct s as [|y s]; [easy|]. apply andb_true_iff in H as [H1 H2].
      apply N.eqb_eq in H1. apply IH in H2 as [r ->]. exists r. now subst.
  - intros [r ->]. apply starts_with_app.
Qed.

(* ---------------- split / join ---------------- *)
Lemma join_cons sep x xs :
  xs <> [] -> join sep (x :: xs) = x ++ sep ++ join sep xs.
Proof. destruct xs; [easy|reflexivity]. Qed.

Lemma split_go_nonempty sep s k cur : split_go sep s k cur <> [].
Proof.
  revert k cur; induction s as [|c s IH]; intros k cur; simpl; [easy|].
  destruct k; [|apply IH].
  destruct (starts_with sep (c :: s)); [easy|apply IH].
Qed.
Lemma split_nonempty sep s : split sep s <> [].
Proof. apply split_go_nonempty. Qed.

Lemma split_go_skip sep a s cur :
  split_go sep (a ++ s) (List.length a) cur = split_go sep s 0 cur.
Proof. induction a as [|x a IH]; simpl; [easy|apply IH]. Qed.

Lemma starts_with_single c s :
  starts_with [c] s = match s with x :: _ => N.eqb c x | [] => false end.
Proof. destruct s; simpl; [easy|]. now rewrite andb_true_r. Qed.

(* splitting on a one-character separator *)
Lemma split_go_nosep c p rest cur :
  ~ In c p ->
  split_go [c] (p ++ rest) 0 cur = split_go [c] rest 0 (rev p ++ cur).
Proof.
  revert cur; induction p as [|x p IH]; intros cur H; [easy|].
  simpl. destruct (N.eqb_spec c x) as [->|Hne].
  - exfalso. apply H. now left.
  - simpl. rewrite IH.
    + simpl. now rewrite <- app_assoc.
    + intros Hin. apply H. now right.
Qed.

Lemma split_join1 c parts :
  parts <> [] -> Forall (fun p => ~ In c p) parts ->
  split [c] (join [c] parts) = parts.
Proof.
  unfold split. intros Hne H.
  induction parts as [|p parts IH]; [easy|].
  inversion H as [|? ? Hp Hps]; subst.
  destruct parts as [|q parts].
  - simpl. rewrite <- (app_nil_r p) at 1. rewrite split_go_nosep by easy.
    simpl. rewrite app_nil_r, rev_involutive. easy.
  - rewrite join_cons by easy. rewrite split_go_nosep by easy.
    cbn [app split_go starts_with]. rewrite N.eqb_refl. cbn [andb].
    rewrite app_nil_r, rev_involutive. f_equal.
    apply IH; easy.
Qed.

(* general: joining the pieces of a split gives the text back *)
Lemma split_go_join sep s cur :
  sep <> [] ->
  forall k, k <= List.length s ->
  join sep (split_go sep s k cur) = rev cur ++ skipn k s.
Proof.
  intros Hsep. revert cur. induction s as [|c s IH]; intros cur k Hk.
  - simpl in *. destruct k; simpl; now rewrite app_nil_r.
  - destruct k as [|k].
    + cbn [split_go skipn].
      destruct (starts_with sep (c :: s)) eqn:E.
      * rewrite join_cons by apply split_go_nonempty.
        apply starts_with_iff in E as [r Er].
        destruct sep as [|x sep]; [easy|]. simpl in Er.
        injection Er as <- Er.
        cbn [List.length]. rewrite Nat.sub_succ, Nat.sub_0_r.
        rewrite IH by (rewrite Er, app_length; lia).
        simpl. rewrite Er at 1. rewrite Er.
        rewrite skipn_app, skipn_all, Nat.sub_diag. simpl. easy.
      * rewrite IH by lia. simpl. now rewrite <- app_assoc.
    + cbn [split_go skipn]. apply IH. simpl in Hk. lia.
Qed.
Lemma join_split sep s : sep <> [] -> join sep (split sep s) = s.
Proof. intros H. unfold split. rewrite split_go_join by (easy || lia). easy. Qed.

Lemma split_go_pieces_nosep c s cur :
  ~ In c cur ->
  Forall (fun p => ~ In c p) (split_go [c] s 0 cur).
Proof.
  revert cur; induction s as [|x s IH]; intros cur H.
  - simpl. constructor; [|easy]. now rewrite <- in_rev.
  - cbn [split_go starts_with]. destruct (N.eqb_spec c x) as [->|Hne].
    + cbn. constructor; [now rewrite <- in_rev|]. now apply IH.
    + cbn. apply IH. simpl. intros [E|E]; [congruence|easy].
Qed.
Lemma split_pieces_nosep c s : Forall (fun p => ~ In c p) (split [c] s).
Proof. now apply split_go_pieces_nosep. Qed.

(* ---------------- strip ---------------- *)
Definition headp (f : N -> bool) (s : str) : bool :=
  match s with c :: _ => f c | [] => false end.
Definition lastp (f : N -> bool) (s : str) : bool := headp f (rev s).

Lemma lstrip_decomp f s :
  exists a, s = a ++ lstrip_by f s /\ forallb f a = true.
Proof.
  induction s as [|c s [a [E H]]]; simpl.
  - now exists [].
  - destruct (f c) eqn:Ec.
    + exists (c :: a). simpl. rewrite Ec, H. split; [|easy]. now f_equal.
    + now exists [].
Qed.
Lemma lstrip_head f s : headp f (lstrip_by f s) = false.
Proof. induction s as [|c s IH]; simpl; [easy|]. destruct (f c) eqn:E; easy. Qed.
Lemma lstrip_id f s : headp f s = false -> lstrip_by f s = s.
Proof. destruct s; simpl; [easy|]. intros ->. easy. Qed.
Lemma rstrip_decomp f s :
  exists b, s = rstrip_by f s ++ b /\ forallb f b = true.
Proof.
  unfold rstrip_by. destruct (lstrip_decomp f (rev s)) as [a [E H]].
  exists (rev a). split.
  - rewrite <- (rev_involutive s) at 1. rewrite E at 1. now rewrite rev_app_distr.
  - rewrite forallb_forall in *. intros x Hx. apply H. now apply in_rev.
Qed.
Lemma rstrip_last f s : lastp f (rstrip_by f s) = false.
Proof. unfold lastp, rstrip_by. rewrite rev_involutive. apply lstrip_head. Qed.
Lemma rstrip_id f s : lastp f s = false -> rstrip_by f s = s.
Proof. unfold rstrip_by, lastp. intros H. rewrite lstrip_id by easy. apply rev_involutive. Qed.
Lemma rstrip_head f s : headp f s = false -> headp f (rstrip_by f s) = false.
Proof.
  intros H. destruct (rstrip_decomp f s) as [b [E Hb]].
  destruct (rstrip_by f s) as [|c r] eqn:Er; [easy|].
  rewrite E in H. simpl in *. easy.
Qed.
Lemma strip_ends s :
  headp is_space (strip s) = false /\ lastp is_space (strip s) = false.
Proof.
  unfold strip. split; [apply rstrip_head, lstrip_head | apply rstrip_last].
Qed.
Lemma strip_id s :
  headp is_space s = false -> lastp is_space s = false -> strip s = s.
Proof. intros H1 H2. unfold strip. now rewrite lstrip_id, rstrip_id. Qed.
Lemma strip_idem s : strip (strip s) = strip s.
Proof. destruct (strip_ends s). now apply strip_id. Qed.
Lemma strip_decomp s :
  exists a b, s = a ++ strip s ++ b /\ forallb is_space a = true
              /\ forallb is_space b = true.
Proof.
  destruct (lstrip_decomp is_space s) as [a [E Ha]].
  destruct (rstrip_decomp is_space (lstrip_by is_space s)) as [b [E' Hb]].
  exists a, b. split; [|easy]. unfold strip. now rewrite <- E'.
Qed.
Lemma lstrip_app_all f a s :
  forallb f a = true -> lstrip_by f (a ++ s) = lstrip_by f s.
Proof.
  induction a as [|x a IH]; simpl; [easy|].
  intros H. apply andb_true_iff in H as [-> H]. now apply IH.
Qed.
Lemma rstrip_app_all f b s :
  forallb f b = true -> rstrip_by f (s ++ b) = rstrip_by f s.
Proof.
  intros H. unfold rstrip_by. rewrite rev_app_distr, lstrip_app_all; [easy|].
  rewrite forallb_forall in *. intros x Hx. apply H. now apply in_rev.
Qed.
(* strip is determined by the decomposition *)
Lemma strip_unique a t b :
  forallb is_space a = true -> forallb is_space b = true ->
  headp is_space t = false -> lastp is_space t = false ->
  strip (a ++ t ++ b) = t.
Proof.
  intros Ha Hb H1 H2. unfold strip. rewrite lstrip_app_all by easy.
  destruct t as [|c t].
  - simpl. assert (lstrip_by is_space b = []) as ->.
    { clear -Hb. induction b as [|x b IH]; simpl in *; [easy|].
      apply andb_true_iff in Hb as [-> Hb]. now apply IH. }
    easy.
  - rewrite lstrip_id by easy. rewrite rstrip_app_all by easy.
    now apply rstrip_id.
Qed.

(* ---------------- digits ---------------- *)
Lemma digit_val_ascii d : (d < 10)%N -> digit_val (48 + d) = Some d.
Proof.
  intros H. unfold digit_val, nd_zeros. cbn [digit_in].
  replace ((0x30 <=? 48 + d) && (48 + d <? 0x30 + 10))%N with true by lia.
  f_equal. lia.
Qed.
Lemma digit_in_lt zs c d : digit_in zs c = Some d -> (d < 10)%N.
Proof.
  induction zs as [|z zs IH]; simpl; [easy|].
  destruct ((z <=? c) && (c <? z + 10))%N eqn:E; [|apply IH].
  intros [= <-]. lia.
Qed.
Lemma digit_val_lt c d : digit_val c = Some d -> (d < 10)%N.
Proof. apply digit_in_lt. Qed.

Lemma digits_val_app s t acc :
  digits_val acc (s ++ t) =
  match digits_val acc s with Some a => digits_val a t | None => None end.
Proof.
  revert acc; induction s as [|c s IH]; intros acc; simpl; [easy|].
  destruct (digit_val c); [apply IH|easy].
Qed.

Lemma dec_aux_val fuel n :
  (n < 2 ^ N.of_nat fuel)%N -> digits_val 0 (dec_aux fuel n) = Some n.
Proof.
  revert n; induction fuel as [|f IH]; intros n H.
  - simpl in *. assert (n = 0%N) by lia. now subst.
  - cbn [dec_aux]. destruct (N.ltb_spec n 10) as [Hlt|Hge].
    + cbn [digits_val]. rewrite digit_val_ascii by easy. f_equal; lia.
    + rewrite digits_val_app, IH.
      * cbn [digits_val]. rewrite digit_val_ascii by lia. f_equal. lia.
      * rewrite Nat2N.inj_succ, N.pow_succ_r' in H. lia.
Qed.
Lemma size_nat_bound n : (n < 2 ^ N.of_nat (N.size_nat n))%N.
Proof.
  assert (N.of_nat (N.size_nat n) = N.size n) as ->.
  { destruct n as [|p]; [easy|]. simpl. induction p; simpl in *; lia. }
  apply N.size_gt.
Qed.
Lemma dec_val n : digits_val 0 (dec n) = Some n.
Proof.
  unfold dec. apply dec_aux_val. rewrite Nat2N.inj_succ, N.pow_succ_r'.
  pose proof (size_nat_bound n). lia.
Qed.
Lemma dec_aux_nonempty f n : dec_aux (S f) n <> [].
Proof.
  cbn [dec_aux]. destruct (n <? 10)%N; [easy|].
  intros E. now apply app_eq_nil in E as [_ E].
Qed.
Lemma dec_nonempty n : dec n <> [].
Proof. apply dec_aux_nonempty. Qed.
Definition is_adigit (c : N) : bool := ((48 <=? c) && (c <=? 57))%N.
Lemma dec_aux_ascii f n : forallb is_adigit (dec_aux f n) = true.
Proof.
  revert n; induction f as [|f IH]; intros n; [easy|]. cbn [dec_aux].
  destruct (N.ltb_spec n 10).
  - unfold is_adigit. cbn [forallb]. lia.
  - rewrite forallb_app, IH. cbn [forallb andb]. unfold is_adigit. lia.
Qed.
Lemma dec_ascii n : forallb is_adigit (dec n) = true.
Proof. apply dec_aux_ascii. Qed.
Lemma adigit_not_space c : is_adigit c = true -> is_space c = false.
Proof. unfold is_adigit, is_space. lia. Qed.
Lemma adigit_val c : is_adigit c = true -> digit_val c = Some (c - 48)%N.
Proof.
  unfold is_adigit. intros H. replace c with (48 + (c - 48))%N at 1 by lia.
  apply digit_val_ascii. lia.
Qed.
Lemma adigit_digit c : is_adigit c = true -> is_digit c = true.
Proof. intros H. unfold is_digit. now rewrite adigit_val. Qed.

Lemma ascii_no_space_ends s :
  forallb is_adigit s = true ->
  headp is_space s = false /\ lastp is_space s = false.
Proof.
  intros H. rewrite forallb_forall in H. split.
  - destruct s as [|c s]; [easy|]. simpl. apply adigit_not_space, H. now left.
  - unfold lastp. destruct (rev s) as [|c r] eqn:E; [easy|]. simpl.
    apply adigit_not_space, H. apply in_rev. rewrite E. now left.
Qed.

Lemma strip_dec n : strip (dec n) = dec n.
Proof. destruct (ascii_no_space_ends _ (dec_ascii n)). now apply strip_id. Qed.

Lemma py_int_dec n : py_int (dec n) = Ok (Z.of_N n).
Proof.
  unfold py_int. rewrite strip_dec.
  pose proof (dec_nonempty n) as Hne. pose proof (dec_ascii n) as Ha.
  pose proof (dec_val n) as Hv.
  assert (int_unsigned (dec n) = Ok (Z.of_N n)) as Hu.
  { unfold int_unsigned. destruct (dec n) eqn:E; [easy|].
    rewrite Hv. easy. }
  destruct (dec n) as [|c s] eqn:E; [easy|].
  simpl in Ha. apply andb_true_iff in Ha as [Hc _]. unfold is_adigit in Hc.
  destruct c as [|p]; [lia|].
  repeat (destruct p as [p|p|]; try exact Hu; try lia).
Qed.

Lemma py_int_dec_z z : py_int (dec_z z) = Ok z.
Proof.
  destruct z as [|p|p]; simpl.
  - apply py_int_dec.
  - apply (py_int_dec (Npos p)).
  - unfold py_int.
    assert (strip (45%N :: dec (Npos p)) = 45%N :: dec (Npos p)) as ->.
    { apply strip_id; [easy|].
      destruct (ascii_no_space_ends _ (dec_ascii (Npos p))) as [_ H].
      unfold lastp in *. simpl. destruct (rev (dec (N.pos p))) eqn:E; easy. }
    unfold int_unsigned. pose proof (dec_nonempty (Npos p)) as Hne.
    pose proof (dec_val (Npos p)) as Hv.
    destruct (dec (N.pos p)) eqn:E; [easy|]. rewrite Hv. easy.
Qed.

Lemma dec_inj m n : dec m = dec n -> m = n.
Proof. intros H. pose proof (dec_val m). rewrite H, dec_val in H0. congruence. Qed.
Lemma dec_nat_inj m n : dec_nat m = dec_nat n -> m = n.
Proof. unfold dec_nat. intros H. apply dec_inj in H. lia. Qed.
Lemma dec_z_inj m n : dec_z m = dec_z n -> m = n.
Proof. intros H. pose proof (py_int_dec_z m). rewrite H, py_int_dec_z in H0. congruence. Qed.

(* ---------------- association lists ---------------- *)
Section AssocFacts.
  Context {K V : Type} (eqb : K -> K -> bool).
  Hypothesis Heq : forall x y, eqb x y = true <-> x = y.
  Notation aget := (@aget K V eqb). Notation aset := (@aset K V eqb).
  Notation adel := (@adel K V eqb).
  Lemma aeqb_refl x : eqb x x = true.
  Proof. now apply Heq. Qed.
  Lemma aeqb_false x y : x <> y -> eqb x y = false.
  Proof. intros H. destruct (eqb x y) eqn:E; [|easy]. apply Heq in E. easy. Qed.
  Lemma aeqb_neq x y : eqb x y = false -> x <> y.
  Proof. intros H ->. rewrite aeqb_refl in H. easy. Qed.
  Lemma aget_aset_eq k v m : aget k (aset k v m) = Some v.
  Proof.
    induction m as [|[k' v'] m IH]; simpl.
    - now rewrite aeqb_refl.
    - destruct (eqb k k') eqn:E; simpl; now rewrite E.
  Qed.
  Lemma aget_aset_neq k k' v m : k <> k' -> aget k (aset k' v m) = aget k m.
  Proof.
    intros Hne. induction m as [|[k2 v2] m IH]; simpl.
    - now rewrite aeqb_false.
    - destruct (eqb k' k2) eqn:E; simpl.
      + apply Heq in E; subst. now rewrite aeqb_false.
      + destruct (eqb k k2); easy.
  Qed.
  Lemma aget_aset k k' v m :
    aget k (aset k' v m) = if eqb k k' then Some v else aget k m.
  Proof.
    destruct (eqb k k') eqn:E.
    - apply Heq in E. subst. apply aget_aset_eq.
    - apply aget_aset_neq. now apply aeqb_neq.
  Qed.
  Lemma aget_adel_eq k m : aget k (adel k m) = None.
  Proof.
    induction m as [|[k' v'] m IH]; simpl; [easy|].
    destruct (eqb k k') eqn:E; [easy|]. simpl. now rewrite E.
  Qed.
  Lemma aget_adel_neq k k' m : k <> k' -> aget k (adel k' m) = aget k m.
  Proof.
    intros Hne. induction m as [|[k2 v2] m IH]; simpl; [easy|].
    destruct (eqb k' k2) eqn:E; simpl.
    - apply Heq in E; subst. now rewrite aeqb_false.
    - destruct (eqb k k2); easy.
  Qed.
  Lemma aget_adel k k' m :
    aget k (adel k' m) = if eqb k k' then None else aget k m.
  Proof.
    destruct (eqb k k') eqn:E.
    - apply Heq in E. subst. apply aget_adel_eq.
    - apply aget_adel_neq. now apply aeqb_neq.
  Qed.
  Lemma aget_In k v m : aget k m = Some v -> In (k, v) m.
  Proof.
    induction m as [|[k' v'] m IH]; simpl; [easy|].
    destruct (eqb k k') eqn:E.
    - apply Heq in E. intros [= ->]. subst. now left.
    - intros H. right. now apply IH.
  Qed.
  Lemma aget_None k m : aget k m = None <-> ~ In k (keys m).
  Proof.
    induction m as [|[k' v'] m IH]; simpl; [easy|].
    destruct (eqb k k') eqn:E.
    - apply Heq in E. split; [easy|]. intros H. exfalso. apply H. now left.
    - rewrite IH. split; [|tauto]. intros H [->|H']; [|easy].
      now rewrite aeqb_refl in E.
  Qed.
  Lemma aget_Some_keys k m : (exists v, aget k m = Some v) <-> In k (keys m).
  Proof.
    destruct (aget k m) eqn:E; split; intros H.
    - apply aget_In in E. unfold keys. apply in_map_iff. now exists (k, v).
    - now exists v.
    - destruct H; easy.
    - apply aget_None in E. easy.
  Qed.
  Lemma keys_aset_in k v m : In k (keys m) -> keys (aset k v m) = keys m.
  Proof.
    induction m as [|[k' v'] m IH]; simpl; [easy|].
    destruct (eqb k k') eqn:E; simpl; [easy|].
    intros [->|H]; [now rewrite aeqb_refl in E|]. now rewrite IH.
  Qed.
  Lemma keys_aset_notin k v m :
    ~ In k (keys m) -> keys (aset k v m) = keys m ++ [k].
  Proof.
    induction m as [|[k' v'] m IH]; simpl; [easy|].
    intros H. destruct (eqb k k') eqn:E.
    - apply Heq in E. subst. exfalso. apply H. now left.
    - simpl. rewrite IH; [easy|]. intros H'. apply H. now right.
  Qed.
  Lemma In_keys_aset k k' v m :
    In k (keys (aset k' v m)) <-> k = k' \/ In k (keys m).
  Proof.
    rewrite <- !aget_Some_keys.
    destruct (eqb k k') eqn:E.
    - apply Heq in E. subst. rewrite aget_aset_eq. split; [tauto|eauto].
    - apply aeqb_neq in E. rewrite aget_aset_neq by easy. tauto.
  Qed.
  Lemma In_keys_adel k k' m :
    In k (keys (adel k' m)) <-> k <> k' /\ In k (keys m).
  Proof.
    rewrite <- !aget_Some_keys.
    destruct (eqb k k') eqn:E.
    - apply Heq in E. subst. rewrite aget_adel_eq.
      split; [intros [? ?]; easy | tauto].
    - apply aeqb_neq in E. rewrite aget_adel_neq by easy. tauto.
  Qed.
  Lemma ahas_In k (m : list (K * V)) : ahas eqb k m = true <-> In k (keys m).
  Proof.
    unfold ahas. destruct (aget k m) eqn:E.
    - split; [|easy]. intros _. apply aget_Some_keys. eauto.
    - apply aget_None in E. easy.
  Qed.
  Lemma ahas_false k (m : list (K * V)) : ahas eqb k m = false <-> ~ In k (keys m).
  Proof. rewrite <- ahas_In. destruct (ahas eqb k m); split; congruence. Qed.
  Lemma NoDup_keys_aset k v m : NoDup (keys m) -> NoDup (keys (aset k v m)).
  Proof.
    intros H. destruct (ahas eqb k m) eqn:E.
    - apply ahas_In in E. now rewrite keys_aset_in.
    - apply ahas_false in E. rewrite keys_aset_notin by easy.
      apply (Permutation.Permutation_NoDup (Permutation.Permutation_cons_append (keys m) k)).
      now constructor.
  Qed.
  Lemma NoDup_keys_adel k m : NoDup (keys m) -> NoDup (keys (adel k m)).
  Proof.
    induction m as [|[k' v'] m IH]; simpl; [easy|]. intros H.
    inversion H as [|? ? H1 H2]; subst.
    destruct (eqb k k') eqn:E; [now apply IH|]. simpl. constructor.
    - intros Hin. apply In_keys_adel in Hin. tauto.
    - now apply IH.
  Qed.
  Lemma In_aget k v m : NoDup (keys m) -> In (k, v) m -> aget k m = Some v.
  Proof.
    induction m as [|[k' v'] m IH]; simpl; [easy|]. intros H Hin.
    inversion H as [|? ? H1 H2]; subst. destruct Hin as [[= -> ->]|Hin].
    - now rewrite aeqb_refl.
    - rewrite aeqb_false; [now apply IH|]. intros ->. apply H1.
      apply in_map_iff. now exists (k', v).
  Qed.
End AssocFacts.
