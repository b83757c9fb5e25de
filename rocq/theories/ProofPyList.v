From Verif Require Import PyBase PyBaseFacts PyList PyListFacts SpecPyList.
From Coq Require Import Permutation Sorting.Sorted.

Lemma norm_index_spec n i k : norm_index n i = Some k <->
  (k < n /\ (i = Z.of_nat k \/ i = Z.of_nat k - Z.of_nat n)%Z).
Proof.
  unfold norm_index. destruct (Z.ltb_spec i 0); cbn zeta.
  - destruct (Z.leb_spec 0 (i + Z.of_nat n)), (Z.ltb_spec (i + Z.of_nat n) (Z.of_nat n)); cbn;
      split; intros Hk; try easy; try (injection Hk as <-); try lia; f_equal; lia.
  - destruct (Z.leb_spec 0 i), (Z.ltb_spec i (Z.of_nat n)); cbn;
      split; intros Hk; try easy; try (injection Hk as <-); try lia; f_equal; lia.
Qed.
Lemma norm_index_None n i : norm_index n i = None <-> (i < - Z.of_nat n \/ Z.of_nat n <= i)%Z.
Proof.
  unfold norm_index. destruct (Z.ltb_spec i 0); cbn zeta.
  - destruct (Z.leb_spec 0 (i + Z.of_nat n)), (Z.ltb_spec (i + Z.of_nat n) (Z.of_nat n)); cbn; split; intros; try easy; lia.
  - destruct (Z.leb_spec 0 i), (Z.ltb_spec i (Z.of_nat n)); cbn; split; intros; try easy; lia.
Qed.
Section A.
Context {A : Type}.
Implicit Types (l : list A).

Lemma nth_cut l k y : nth_error l k = Some y -> l = firstn k l ++ y :: skipn (S k) l.
Proof.
  revert l; induction k; intros [|x l] H; cbn in H; try easy; cbn.
  - now injection H as ->.
  - f_equal. now apply IHk.
Qed.
Lemma at_index_split l i a y b : at_index l i a y b <->
  exists k, norm_index (List.length l) i = Some k /\ nth_error l k = Some y /\ a = firstn k l /\ b = skipn (S k) l.
Proof.
  split.
  - intros [-> H]. exists (List.length a). rewrite norm_index_spec.
    rewrite nth_error_app2, Nat.sub_diag by lia. rewrite firstn_app, Nat.sub_diag, firstn_all, app_nil_r.
    rewrite skipn_app, skipn_all2 by lia. replace (S (List.length a) - List.length a) with 1 by lia.
    split; [|easy]. split; [rewrite app_length; cbn; lia|easy].
  - intros (k & Hk & Hn & -> & ->). apply norm_index_spec in Hk. destruct Hk as [Hk Hi]. split.
    + now apply nth_cut.
    + rewrite firstn_length_le by lia. easy.
Qed.
Lemma no_index_norm l i : no_index l i <-> norm_index (List.length l) i = None.
Proof. symmetry. apply norm_index_None. Qed.

Lemma get_lemma l i r : pl_get l i = r <->
  match r with Ok y => exists a b, at_index l i a y b | Err e => e = IndexErr /\ no_index l i end.
Proof.
  unfold pl_get. split.
  - intros <-. destruct (norm_index _ _) as [k|] eqn:Ek.
    + destruct (nth_error l k) as [y|] eqn:Ey.
      * do 2 eexists. apply at_index_split. exists k. repeat split; eauto.
      * apply norm_index_spec in Ek. apply nth_error_None in Ey. lia.
    + split; [easy|]. now apply no_index_norm.
  - destruct r as [y|e].
    + intros (a & b & H). apply at_index_split in H. destruct H as (k & -> & -> & _). easy.
    + intros [-> H]. apply no_index_norm in H. now rewrite H.
Qed.
Lemma upd_split l k y x : nth_error l k = Some y -> upd_nth k x l = firstn k l ++ x :: skipn (S k) l.
Proof.
  intros H. unfold upd_nth. f_equal. revert l H. induction k; intros [|z l] H; cbn in *; try easy. now apply IHk.
Qed.
Lemma set_lemma l i x r : pl_set l i x = r <->
  match r with Ok l' => exists a y b, at_index l i a y b /\ l' = a ++ x :: b | Err e => e = IndexErr /\ no_index l i end.
Proof.
  unfold pl_set. split.
  - intros <-. destruct (norm_index _ _) as [k|] eqn:Ek.
    + destruct (nth_error l k) as [y|] eqn:Ey.
      * do 3 eexists. split; [apply at_index_split; exists k; repeat split; eauto|]. eapply upd_split; eauto.
      * apply norm_index_spec in Ek. apply nth_error_None in Ey. lia.
    + split; [easy|]. now apply no_index_norm.
  - destruct r as [l'|e].
    + intros (a & y & b & H & ->). apply at_index_split in H. destruct H as (k & -> & Hn & -> & ->).
      f_equal. eapply upd_split; eauto.
    + intros [-> H]. apply no_index_norm in H. now rewrite H.
Qed.
Lemma del_lemma l i r : pl_del l i = r <->
  match r with Ok l' => exists a y b, at_index l i a y b /\ l' = a ++ b | Err e => e = IndexErr /\ no_index l i end.
Proof.
  unfold pl_del. split.
  - intros <-. destruct (norm_index _ _) as [k|] eqn:Ek.
    + destruct (nth_error l k) as [y|] eqn:Ey.
      * do 3 eexists. split; [apply at_index_split; exists k; repeat split; eauto|]. easy.
      * apply norm_index_spec in Ek. apply nth_error_None in Ey. lia.
    + split; [easy|]. now apply no_index_norm.
  - destruct r as [l'|e].
    + intros (a & y & b & H & ->). apply at_index_split in H. destruct H as (k & -> & Hn & -> & ->). easy.
    + intros [-> H]. apply no_index_norm in H. now rewrite H.
Qed.
Lemma pop_lemma l i r : pl_pop l i = r <->
  match r with Ok (y, l') => exists a b, at_index l i a y b /\ l' = a ++ b | Err e => e = IndexErr /\ no_index l i end.
Proof.
  unfold pl_pop, pl_get, pl_del. split.
  - intros <-. destruct (norm_index _ _) as [k|] eqn:Ek.
    + destruct (nth_error l k) as [y|] eqn:Ey; cbn.
      * do 2 eexists. split; [apply at_index_split; exists k; repeat split; eauto|]. easy.
      * apply norm_index_spec in Ek. apply nth_error_None in Ey. lia.
    + split; [easy|]. now apply no_index_norm.
  - destruct r as [[y l']|e].
    + intros (a & b & H & ->). apply at_index_split in H. destruct H as (k & -> & -> & -> & ->). easy.
    + intros [-> H]. apply no_index_norm in H. now rewrite H.
Qed.
Lemma insert_lemma l i x : exists a b, l = a ++ b /\ pl_insert l i x = a ++ x :: b
  /\ Z.of_nat (List.length a) = (if i <? 0 then Z.max 0 (i + Z.of_nat (List.length l)) else Z.min i (Z.of_nat (List.length l)))%Z.
Proof.
  unfold pl_insert. set (k := insert_pos _ _). exists (firstn k l), (skipn k l).
  split; [now rewrite firstn_skipn|]. split; [easy|].
  assert (k <= List.length l) by (unfold k, insert_pos; destruct (i <? 0)%Z eqn:E; [apply Z.ltb_lt in E|apply Z.ltb_ge in E]; lia).
  rewrite firstn_length_le by easy. unfold k, insert_pos. destruct (i <? 0)%Z eqn:E; [apply Z.ltb_lt in E|apply Z.ltb_ge in E]; lia.
Qed.
End A.

(* ---------------- slices ---------------- *)
Lemma range_len_pos start stop step c : (0 < step)%Z ->
  (c < range_len start stop step <-> (start + Z.of_nat c * step < stop)%Z).
Proof.
  intros Hs. unfold range_len. destruct (Z.ltb_spec 0 step); [|lia].
  set (q := ((stop - start + step - 1) / step)%Z).
  pose proof (Z.div_mod (stop - start + step - 1) step ltac:(lia)) as H1.
  pose proof (Z.mod_pos_bound (stop - start + step - 1) step ltac:(lia)) as H2. fold q in H1. nia.
Qed.
Lemma range_len_neg start stop step c : (step < 0)%Z ->
  (c < range_len start stop step <-> (stop < start + Z.of_nat c * step)%Z).
Proof.
  intros Hs. unfold range_len. destruct (Z.ltb_spec 0 step); [lia|].
  set (q := ((start - stop - step - 1) / - step)%Z).
  pose proof (Z.div_mod (start - stop - step - 1) (- step) ltac:(lia)) as H1.
  pose proof (Z.mod_pos_bound (start - stop - step - 1) (- step) ltac:(lia)) as H2. fold q in H1. nia.
Qed.
Lemma In_range start stop step x : In x (range start stop step) <->
  exists c, c < range_len start stop step /\ x = (start + Z.of_nat c * step)%Z.
Proof.
  unfold range. rewrite in_map_iff. split; intros (c & H1 & H2); exists c.
  - apply in_seq in H2. split; [lia|easy].
  - split; [easy|]. apply in_seq. lia.
Qed.
Lemma clamp_end n g d lo hi e : (lo <= hi)%Z ->
  slice_end n g d lo hi e <->
  e = match g with None => d | Some x => clampZ lo hi (if (x <? 0)%Z then x + n else x)%Z end.
Proof.
  intros H. unfold slice_end, clampZ. destruct g as [x|]; [|easy]. cbn zeta.
  set (y := (if (x <? 0)%Z then x + n else x)%Z). lia.
Qed.
Lemma slice_indices_ok n s : step_of s <> 0%Z ->
  exists i j, slice_indices n s = Ok (i, j, step_of s)
    /\ (if (0 <? step_of s)%Z
        then slice_end (Z.of_nat n) (sl_start s) 0 0 (Z.of_nat n) i /\ slice_end (Z.of_nat n) (sl_stop s) (Z.of_nat n) 0 (Z.of_nat n) j
             /\ (0 <= i /\ j <= Z.of_nat n)%Z
        else slice_end (Z.of_nat n) (sl_start s) (Z.of_nat n - 1) (-1) (Z.of_nat n - 1) i
             /\ slice_end (Z.of_nat n) (sl_stop s) (-1) (-1) (Z.of_nat n - 1) j
             /\ (i <= Z.of_nat n - 1 /\ -1 <= j)%Z).
Proof.
  unfold slice_indices, step_of. set (st := match sl_step s with None => 1%Z | Some k => k end). intros Hs.
  destruct (Z.eqb_spec st 0); [easy|]. do 2 eexists. split; [reflexivity|].
  destruct (Z.ltb_spec 0 st), (Z.ltb_spec st 0); try lia; (split; [apply clamp_end; [lia|easy]|split; [apply clamp_end; [lia|easy]|]]).
  - destruct (sl_start s), (sl_stop s); unfold clampZ; lia.
  - destruct (sl_start s), (sl_stop s); unfold clampZ; lia.
Qed.
Lemma slice_end_unique n g d lo hi e e' : (lo <= hi)%Z -> slice_end n g d lo hi e -> slice_end n g d lo hi e' -> e = e'.
Proof. intros H A B. apply clamp_end in A; [|easy]. apply clamp_end in B; [|easy]. congruence. Qed.
Lemma sorted_map_seq (f : nat -> nat) (R : nat -> nat -> Prop) m b :
  (forall x y, x < y < b + m -> b <= x -> R (f x) (f y)) -> StronglySorted R (map f (seq b m)).
Proof.
  revert b; induction m as [|m IH]; intros b H; cbn; [constructor|]. constructor.
  - apply IH. intros x y Hx Hb. apply H; lia.
  - apply Forall_forall. intros z Hz. apply in_map_iff in Hz. destruct Hz as (y & <- & Hy). apply in_seq in Hy.
    apply H; lia.
Qed.
Lemma positions_lemma n s : match slice_positions n s with
  | Err e => e = ValueErr /\ step_of s = 0%Z
  | Ok ps => step_of s <> 0%Z /\ (forall x, In x ps <-> selected n s x) /\ in_order s ps /\ (forall x, In x ps -> x < n)
  end.
Proof.
  unfold slice_positions. destruct (Z.eq_dec (step_of s) 0) as [E|E].
  - unfold slice_indices. unfold step_of in E. rewrite E. cbn. easy.
  - destruct (slice_indices_ok n s E) as (i & j & -> & H). cbn [rmap]. split; [easy|].
    assert (forall x, In x (map Z.to_nat (range i j (step_of s))) -> x < n) as Hb.
    { intros x Hx. apply in_map_iff in Hx. destruct Hx as (z & <- & Hz). apply In_range in Hz. destruct Hz as (c & Hc & ->).
      destruct (Z.ltb_spec 0 (step_of s)) as [Hp|Hp].
      - apply range_len_pos in Hc; [|easy]. lia.
      - apply range_len_neg in Hc; [|lia]. nia. }
    split; [|split; [|exact Hb]].
    + intros x. rewrite in_map_iff. unfold selected. destruct (Z.ltb_spec 0 (step_of s)) as [Hp|Hp].
      * split.
        -- intros (z & <- & Hz). apply In_range in Hz. destruct Hz as (c & Hc & ->). apply range_len_pos in Hc; [|easy].
           exists i, j, (Z.of_nat c). rewrite Z2Nat.id by nia. repeat split; try easy; nia.
        -- intros (i' & j' & c & [Hx Hc] & Hi & Hj & Hr).
           assert (i' = i) as -> by (eapply slice_end_unique; [|exact Hi|apply H]; lia).
           assert (j' = j) as -> by (eapply slice_end_unique; [|exact Hj|apply H]; lia).
           exists (Z.of_nat x). split; [lia|]. apply In_range. exists (Z.to_nat c). rewrite range_len_pos by easy. lia.
      * split.
        -- intros (z & <- & Hz). apply In_range in Hz. destruct Hz as (c & Hc & ->). apply range_len_neg in Hc; [|lia].
           exists i, j, (Z.of_nat c). rewrite Z2Nat.id by nia. repeat split; try easy; nia.
        -- intros (i' & j' & c & [Hx Hc] & Hi & Hj & Hr).
           assert (i' = i) as -> by (eapply slice_end_unique; [|exact Hi|apply H]; lia).
           assert (j' = j) as -> by (eapply slice_end_unique; [|exact Hj|apply H]; lia).
           exists (Z.of_nat x). split; [lia|]. apply In_range. exists (Z.to_nat c). rewrite range_len_neg by lia. lia.
    + unfold in_order, range. rewrite map_map. destruct (Z.ltb_spec 0 (step_of s)) as [Hp|Hp].
      * apply sorted_map_seq. intros x y Hxy _. assert (y < range_len i j (step_of s)) as Hy by lia.
        apply range_len_pos in Hy; [|easy]. nia.
      * apply sorted_map_seq. intros x y Hxy _. assert (y < range_len i j (step_of s)) as Hy by lia.
        apply range_len_neg in Hy; [|lia]. unfold gt. nia.
Qed.
Lemma seq_map_add n : forall a, map (fun k => a + k) (seq 0 n) = seq a n.
Proof.
  induction n; intros a; cbn; [easy|]. f_equal; [lia|]. rewrite <- (IHn (S a)), <- seq_shift, map_map.
  apply map_ext. intros; lia.
Qed.
Section B.
Context {A : Type}.
Implicit Types (l xs : list A).
Lemma pick_forall2 l ps : (forall p, In p ps -> p < List.length l) -> Forall2 (fun p x => nth_error l p = Some x) ps (pick l ps).
Proof.
  induction ps as [|p ps IH]; intros H; cbn; [constructor|].
  destruct (nth_error l p) eqn:E; [|apply nth_error_None in E; specialize (H p (or_introl eq_refl)); lia].
  constructor; [easy|]. apply IH. intros q Hq. apply H. now right.
Qed.
Lemma getslice_lemma l s ps : slice_positions (List.length l) s = Ok ps ->
  exists xs, get_slice l s = Ok xs /\ Forall2 (fun p x => nth_error l p = Some x) ps xs.
Proof.
  intros H. unfold get_slice. rewrite H. cbn. eexists. split; [reflexivity|]. apply pick_forall2.
  intros p Hp. pose proof (positions_lemma (List.length l) s) as Hl. rewrite H in Hl. now apply Hl.
Qed.
Lemma getslice_err l s e : slice_positions (List.length l) s = Err e -> get_slice l s = Err e.
Proof. intros H. unfold get_slice. now rewrite H. Qed.
Lemma upd_nth_length k x l : List.length (upd_nth k x l) = List.length l.
Proof.
  revert l; induction k; intros [|y l]; try easy. unfold upd_nth in *. cbn. now rewrite IHk.
Qed.
Lemma upd_nth_nth k x l i : nth_error (upd_nth k x l) i = if Nat.eqb i k then (if Nat.ltb k (List.length l) then Some x else None) else nth_error l i.
Proof.
  revert l i; induction k; intros [|y l] [|i]; try easy.
  - cbn. destruct (Nat.eqb i k); easy.
  - unfold upd_nth in *. cbn. rewrite IHk. easy.
Qed.
Lemma upd_all_length ps xs l : List.length (upd_all ps xs l) = List.length l.
Proof.
  revert xs l; induction ps as [|p ps IH]; intros [|x xs] l; try easy. cbn. rewrite IH. apply upd_nth_length.
Qed.
Lemma upd_all_other ps xs l i : ~ In i ps -> nth_error (upd_all ps xs l) i = nth_error l i.
Proof.
  revert xs l; induction ps as [|p ps IH]; intros [|x xs] l Hi; try easy. cbn.
  rewrite IH by (intros H; apply Hi; now right). rewrite upd_nth_nth.
  destruct (Nat.eqb_spec i p) as [->|]; [|easy]. exfalso. apply Hi. now left.
Qed.
Lemma upd_all_at ps xs l : NoDup ps -> (forall p, In p ps -> p < List.length l) -> List.length xs = List.length ps ->
  Forall2 (fun p x => nth_error (upd_all ps xs l) p = Some x) ps xs.
Proof.
  revert xs l; induction ps as [|p ps IH]; intros [|x xs] l Hn Hb Hl; try easy.
  inversion Hn; subst. cbn. constructor.
  - rewrite upd_all_other by easy. rewrite upd_nth_nth, Nat.eqb_refl.
    specialize (Hb p (or_introl eq_refl)). destruct (Nat.ltb_spec p (List.length l)); [easy|lia].
  - apply IH; [easy| |cbn in Hl; lia]. intros q Hq. rewrite upd_nth_length. apply Hb. now right.
Qed.
Lemma in_order_NoDup s ps : in_order s ps -> NoDup ps.
Proof.
  unfold in_order. destruct (0 <? step_of s)%Z; induction 1; constructor; auto; intros Hi;
    rewrite Forall_forall in H0; specialize (H0 _ Hi); lia.
Qed.
Lemma setslice_lemma l s xs ps : slice_positions (List.length l) s = Ok ps ->
  if (step_of s =? 1)%Z
  then exists a m b, l = a ++ m ++ b /\ pl_setslice l s xs = Ok (a ++ xs ++ b)
       /\ ps = seq (List.length a) (List.length m)
       /\ (m = [] -> slice_end (Z.of_nat (List.length l)) (sl_start s) 0 0 (Z.of_nat (List.length l)) (Z.of_nat (List.length a)))
  else if Nat.eqb (List.length xs) (List.length ps)
       then exists l', pl_setslice l s xs = Ok l' /\ List.length l' = List.length l
            /\ Forall2 (fun p x => nth_error l' p = Some x) ps xs
            /\ (forall i, ~ In i ps -> nth_error l' i = nth_error l i)
       else pl_setslice l s xs = Err ValueErr.
Proof.
  intros Hps. pose proof (positions_lemma (List.length l) s) as Hl. rewrite Hps in Hl. destruct Hl as (Hs & Hsel & Ho & Hb).
  unfold slice_positions in Hps. destruct (slice_indices_ok (List.length l) s Hs) as (i & j & Ei & H).
  rewrite Ei in Hps. cbn in Hps. injection Hps as <-. unfold pl_setslice. rewrite Ei. cbn [bind].
  destruct (Z.eqb_spec (step_of s) 1) as [E|E].
  - rewrite E in *. change (0 <? 1)%Z with true in H. cbv iota in H. destruct H as (Hi & Hj & Hi0 & Hjn).
    assert (i <= Z.of_nat (List.length l))%Z as Hin.
    { apply clamp_end in Hi; [|lia]. destruct (sl_start s); unfold clampZ in Hi; lia. }
    assert (0 <= j)%Z as Hj0.
    { apply clamp_end in Hj; [|lia]. destruct (sl_stop s); unfold clampZ in Hj; lia. }
    set (a := Z.to_nat i). set (b := Z.to_nat (Z.max i j)).
    assert (a <= b <= List.length l) as Hab by lia.
    exists (firstn a l), (firstn (b - a) (skipn a l)), (skipn b l).
    assert (List.length (firstn a l) = a) as La by (apply firstn_length_le; lia).
    assert (List.length (firstn (b - a) (skipn a l)) = b - a) as Lm by (apply firstn_length_le; rewrite skipn_length; lia).
    split; [|split; [easy|split]].
    + replace (skipn b l) with (skipn (b - a) (skipn a l)).
      * now rewrite firstn_skipn, firstn_skipn.
      * rewrite skipn_skipn. f_equal. lia.
    + rewrite La, Lm. unfold range. rewrite map_map.
      assert (range_len i j 1 = b - a) as ->.
      { unfold range_len. change (0 <? 1)%Z with true. cbv iota. rewrite Z.div_1_r. lia. }
      replace (seq a (b - a)) with (map (fun k => a + k) (seq 0 (b - a))).
      * apply map_ext. intros k. lia.
      * apply seq_map_add.
    + intros _. rewrite La. unfold a. rewrite Z2Nat.id by lia. easy.
  - set (ps := map Z.to_nat (range i j (step_of s))) in *. destruct (Nat.eqb_spec (List.length xs) (List.length ps)) as [El|]; [|easy].
    eexists. split; [reflexivity|]. split; [apply upd_all_length|]. split.
    + apply upd_all_at; auto. eapply in_order_NoDup; eauto.
    + intros k Hk. now apply upd_all_other.
Qed.
Lemma setslice_err l s xs e : slice_positions (List.length l) s = Err e -> pl_setslice l s xs = Err e.
Proof. unfold slice_positions, pl_setslice. destruct (slice_indices _ _) as [[[? ?] ?]|]; cbn; [easy|]. now intros [= ->]. Qed.

Lemma drop_at_spec ps l : forall i, exists qs, StronglySorted lt qs
  /\ (forall k, In k qs <-> i <= k < i + List.length l /\ ~ In k ps)
  /\ Forall2 (fun k x => nth_error l (k - i) = Some x) qs (drop_at ps i l).
Proof.
  induction l as [|x l IH]; intros i.
  - exists []. split; [constructor|]. split; [|constructor]. intros k. split; [easy|]. cbn [List.length]. lia.
  - destruct (IH (S i)) as (qs & S1 & S2 & S3). cbn [drop_at].
    assert (Forall2 (fun k y => nth_error (x :: l) (k - i) = Some y) qs (drop_at ps (S i) l)) as S4.
    { assert (forall k, In k qs -> i < k) as Hlt by (intros k Hk; apply S2 in Hk; lia).
      clear S1 S2. induction S3; constructor.
      - assert (i < x0) by (apply Hlt; now left). replace (x0 - i) with (S (x0 - S i)) by lia. easy.
      - apply IHS3. intros k Hk. apply Hlt. now right. }
    destruct (memb Nat.eqb i ps) eqn:E.
    + rewrite (memb_In _ Nat.eqb_eq) in E. exists qs. split; [easy|]. split; [|easy].
      intros k. rewrite S2. cbn [List.length]. split; [intros [? ?]; split; [lia|easy]|].
      intros [? Hk]. split; [|easy]. destruct (Nat.eq_dec k i) as [->|]; [easy|lia].
    + assert (~ In i ps) as Hi by (intros H; rewrite <- (memb_In _ Nat.eqb_eq) in H; congruence).
      exists (i :: qs). split; [|split].
      * constructor; [easy|]. apply Forall_forall. intros k Hk. apply S2 in Hk. lia.
      * intros k. cbn [In List.length]. rewrite S2. split.
        -- intros [<-|[? ?]]; (split; [lia|easy]).
        -- intros [? ?]. destruct (Nat.eq_dec k i) as [->|]; [now left|right]. split; [lia|easy].
      * constructor; [|easy]. now rewrite Nat.sub_diag.
Qed.
Lemma delslice_lemma l s ps : slice_positions (List.length l) s = Ok ps ->
  exists l', pl_delslice l s = Ok l' /\ outside l ps l'.
Proof.
  intros H. unfold pl_delslice. rewrite H. cbn. eexists. split; [reflexivity|].
  destruct (drop_at_spec ps l 0) as (qs & S1 & S2 & S3). exists qs. split; [easy|]. split.
  - intros k. rewrite S2. split; intros [? ?]; (split; [lia|easy]).
  - clear S1 S2. induction S3; constructor; [now rewrite Nat.sub_0_r in H0|easy].
Qed.
Lemma delslice_err l s e : slice_positions (List.length l) s = Err e -> pl_delslice l s = Err e.
Proof. intros H. unfold pl_delslice. now rewrite H. Qed.

(* ---------------- searching ---------------- *)
Lemma find_index_lemma (p : A -> bool) l : match find_index p l with
  | Some i => exists a x b, l = a ++ x :: b /\ List.length a = i /\ p x = true /\ forall y, In y a -> p y = false
  | None => forall y, In y l -> p y = false end.
Proof.
  induction l as [|x l IH]; cbn; [easy|]. destruct (p x) eqn:E.
  - exists [], x, l. easy.
  - destruct (find_index p l) as [i|]; cbn.
    + destruct IH as (a & y & b & -> & <- & H1 & H2). exists (x :: a), y, b. repeat split; auto.
      intros z [<-|Hz]; auto.
    + intros y [<-|Hy]; auto.
Qed.
Lemma index_lemma (p : A -> bool) l : match pl_index p l with
  | Ok i => exists a x b, l = a ++ x :: b /\ List.length a = i /\ p x = true /\ forall y, In y a -> p y = false
  | Err e => e = ValueErr /\ forall y, In y l -> p y = false end.
Proof. unfold pl_index. pose proof (find_index_lemma p l) as H. destruct (find_index p l); easy. Qed.
Lemma remove_lemma (p : A -> bool) l : match pl_remove p l with
  | Ok l' => exists a x b, l = a ++ x :: b /\ l' = a ++ b /\ p x = true /\ forall y, In y a -> p y = false
  | Err e => e = ValueErr /\ forall y, In y l -> p y = false end.
Proof.
  unfold pl_remove. pose proof (index_lemma p l) as H. destruct (pl_index p l); cbn; [|easy].
  destruct H as (x & y & b & -> & <- & H1 & H2). exists x, y, b. repeat split; auto.
  unfold del_nth. rewrite firstn_app, Nat.sub_diag, firstn_all, app_nil_r.
  rewrite skipn_app, skipn_all2 by lia. now replace (S (List.length x) - List.length x) with 1 by lia.
Qed.
Lemma count_cons (p : A -> bool) x l : pl_count p (x :: l) = (if p x then 1 else 0) + pl_count p l.
Proof. unfold pl_count. cbn. now destruct (p x). Qed.
Lemma contains_lemma (p : A -> bool) l : pl_contains p l = true <-> exists x, In x l /\ p x = true.
Proof. apply existsb_exists. Qed.

(* ---------------- sorting ---------------- *)
Definition kle (x y : Z * A) : Prop := (fst x <= fst y)%Z.
Lemma sort_insert_sorted k x (l : list (Z * A)) : StronglySorted kle l -> StronglySorted kle (sort_insert k x l).
Proof.
  induction 1 as [|[k' y] l H IH Hf]; cbn; [repeat constructor|]. destruct (Z.leb_spec k k').
  - constructor; [now constructor|]. constructor; [easy|]. eapply Forall_impl; [|exact Hf]. intros [? ?]. unfold kle. cbn. lia.
  - constructor; [easy|]. apply Forall_forall. intros z Hz.
    apply (Permutation_in _ (perm_sort_insert k x l)) in Hz. destruct Hz as [<-|Hz]; [unfold kle; cbn; lia|].
    rewrite Forall_forall in Hf. now apply Hf.
Qed.
Lemma sort_keyed_sorted (l : list (Z * A)) : StronglySorted kle (sort_keyed l).
Proof. induction l as [|[k x] l IH]; cbn; [constructor|]. now apply sort_insert_sorted. Qed.
Definition keyed (k : Z) (x : Z * A) : bool := (fst x =? k)%Z.
Lemma sort_insert_stable k x (l : list (Z * A)) c : filter (keyed c) (sort_insert k x l) = filter (keyed c) ((k, x) :: l).
Proof.
  induction l as [|[k' y] l IH]; [easy|]. cbn [sort_insert]. destruct (Z.leb_spec k k'); [easy|].
  cbn [filter]. rewrite IH. unfold keyed. cbn. destruct (Z.eqb_spec k c), (Z.eqb_spec k' c); try easy. lia.
Qed.
Lemma sort_keyed_stable (l : list (Z * A)) c : filter (keyed c) (sort_keyed l) = filter (keyed c) l.
Proof. induction l as [|[k x] l IH]; [easy|]. cbn [sort_keyed]. rewrite sort_insert_stable. cbn. now rewrite IH. Qed.
Lemma map_keys_pairs key l kl : map_keys key l = Ok kl -> map snd kl = l /\ Forall (fun p => key (snd p) = Ok (fst p)) kl.
Proof.
  revert kl; induction l as [|x l IH]; intros kl; cbn.
  - intros [= <-]. easy.
  - destruct (key x) eqn:E; [|easy]. cbn. destruct (map_keys key l); [|easy]. cbn. intros [= <-].
    destruct (IH _ eq_refl) as [H1 H2]. cbn. split; [now f_equal|]. now constructor.
Qed.
Lemma filter_rev {B} (f : B -> bool) (l : list B) : filter f (rev l) = rev (filter f l).
Proof.
  induction l as [|x l IH]; [easy|]. cbn. rewrite filter_app, IH. cbn. destruct (f x); cbn; [easy|now rewrite app_nil_r].
Qed.
Lemma filter_keys key kl c : Forall (fun p => key (snd p) = Ok (fst p)) kl ->
  filter (fun x => match key x with Ok k' => (k' =? c)%Z | Err _ => false end) (map snd kl) = map snd (filter (keyed c) kl).
Proof.
  induction 1 as [|[k x] kl H Hf IH]; [easy|]. cbn. cbn in H. rewrite H. unfold keyed at 1. cbn.
  destruct (k =? c)%Z; cbn; now rewrite IH.
Qed.
Lemma sorted_rev {B} (R : B -> B -> Prop) (l : list B) : StronglySorted R l -> StronglySorted (fun x y => R y x) (rev l).
Proof.
  induction 1 as [|x l H IH Hf]; cbn; [constructor|]. clear H. apply (Permutation_Forall (Permutation_rev l)) in Hf.
  induction (rev l) as [|y r IHr]; cbn; [repeat constructor|]. inversion IH; subst. inversion Hf; subst.
  constructor; [auto|]. apply Forall_app. split; [easy|]. repeat constructor. easy.
Qed.
Lemma sort_lemma key r l : match pl_sort key r l with
  | Ok l' => Permutation l' l /\ sorted_by key r l l'
  | Err e => exists a x b, l = a ++ x :: b /\ key x = Err e /\ forall y, In y a -> exists k, key y = Ok k
  end.
Proof.
  destruct (pl_sort key r l) as [l'|e] eqn:E.
  - split; [eapply perm_sort; eauto|]. unfold pl_sort in E. destruct (map_keys key l) as [kl|] eqn:Ek; [|easy].
    cbn in E. injection E as <-. destruct (map_keys_pairs _ _ _ Ek) as [H1 H2].
    assert (forall kl', Permutation kl' kl -> Forall (fun p => key (snd p) = Ok (fst p)) kl') as Hp.
    { intros kl' P. eapply Permutation_Forall; [apply Permutation_sym; exact P|exact H2]. }
    destruct r.
    + set (sk := sort_keyed (rev kl)).
      assert (Permutation sk kl) as P by (eapply Permutation_trans; [apply perm_sort_keyed|apply Permutation_sym, Permutation_rev]).
      rewrite <- map_rev. assert (Permutation (rev sk) kl) as P' by (eapply Permutation_trans; [apply Permutation_sym, Permutation_rev|exact P]).
      specialize (Hp _ P'). split.
      * pose proof (sorted_rev _ _ (sort_keyed_sorted (rev kl))) as S. fold sk in S.
        clear -S Hp. induction S as [|x l H IH Hf]; cbn; [constructor|]. inversion Hp; subst. constructor; [auto|].
        apply Forall_forall. intros y Hy. apply in_map_iff in Hy. destruct Hy as (p & <- & Hin).
        exists (fst x), (fst p). rewrite Forall_forall in H3, Hf. repeat split; auto. apply (Hf p Hin).
      * intros k. rewrite <- H1. rewrite !filter_keys by easy. f_equal. rewrite filter_rev. unfold sk.
        rewrite sort_keyed_stable, filter_rev. apply rev_involutive.
    + set (sk := sort_keyed kl). assert (Permutation sk kl) as P by apply perm_sort_keyed. specialize (Hp _ P). split.
      * pose proof (sort_keyed_sorted kl) as S. fold sk in S.
        clear -S Hp. induction S as [|x l H IH Hf]; cbn; [constructor|]. inversion Hp; subst. constructor; [auto|].
        apply Forall_forall. intros y Hy. apply in_map_iff in Hy. destruct Hy as (p & <- & Hin).
        exists (fst x), (fst p). rewrite Forall_forall in H3, Hf. repeat split; auto. apply (Hf p Hin).
      * intros k. rewrite <- H1. rewrite !filter_keys by easy. f_equal. apply sort_keyed_stable.
  - unfold pl_sort in E. destruct (map_keys key l) as [kl|e'] eqn:Ek; [easy|]. cbn in E. injection E as ->.
    revert Ek. induction l as [|x l IH]; cbn; [easy|]. destruct (key x) as [k|e'] eqn:Ex; cbn.
    + destruct (map_keys key l); cbn; [easy|]. intros [= ->]. destruct (IH eq_refl) as (a & y & b & -> & H1 & H2).
      exists (x :: a), y, b. repeat split; auto. intros z [<-|Hz]; eauto.
    + intros [= ->]. exists [], x, l. easy.
Qed.
End B.
