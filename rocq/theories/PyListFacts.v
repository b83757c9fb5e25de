From Verif Require Import PyBase PyBaseFacts PyList.
From Coq Require Import Permutation Sorted.

(* ---------------- naturality: the operations do not look at members ---------------- *)
Section Nat.
Context {A B : Type} (f : A -> B).
Lemma map_upd_nth i x l : map f (upd_nth i x l) = upd_nth i (f x) (map f l).
Proof. unfold upd_nth. rewrite map_app, firstn_map, skipn_map. destruct (skipn i l); easy. Qed.
Lemma map_del_nth i l : map f (del_nth i l) = del_nth i (map f l).
Proof. unfold del_nth. now rewrite map_app, firstn_map, skipn_map. Qed.
Lemma pl_get_map l i : pl_get (map f l) i = rmap f (pl_get l i).
Proof.
  unfold pl_get. rewrite map_length. destruct (norm_index _ _) as [k|]; [|easy].
  rewrite nth_error_map. destruct (nth_error l k); easy.
Qed.
Lemma pl_set_map l i x : pl_set (map f l) i (f x) = rmap (map f) (pl_set l i x).
Proof. unfold pl_set. rewrite map_length. destruct (norm_index _ _); simpl; [|easy]. now rewrite map_upd_nth. Qed.
Lemma pl_del_map l i : pl_del (map f l) i = rmap (map f) (pl_del l i).
Proof. unfold pl_del. rewrite map_length. destruct (norm_index _ _); simpl; [|easy]. now rewrite map_del_nth. Qed.
Lemma pl_pop_map l i : pl_pop (map f l) i = rmap (fun p => (f (fst p), map f (snd p))) (pl_pop l i).
Proof.
  unfold pl_pop. rewrite pl_get_map, pl_del_map. destruct (pl_get l i); [|easy]. simpl.
  destruct (pl_del l i); easy.
Qed.
Lemma pl_insert_map l i x : pl_insert (map f l) i (f x) = map f (pl_insert l i x).
Proof. unfold pl_insert. rewrite map_length, map_app, firstn_map. simpl. now rewrite skipn_map. Qed.
Lemma upd_all_map ps xs l : upd_all ps (map f xs) (map f l) = map f (upd_all ps xs l).
Proof.
  revert xs l; induction ps as [|p ps IH]; intros [|x xs] l; try easy. simpl. now rewrite <- map_upd_nth, IH.
Qed.
Lemma pl_setslice_map l s xs : pl_setslice (map f l) s (map f xs) = rmap (map f) (pl_setslice l s xs).
Proof.
  unfold pl_setslice. rewrite !map_length. destruct (slice_indices _ _) as [[[a b] c]|]; [|easy]. simpl.
  destruct (c =? 1)%Z; simpl.
  - now rewrite !map_app, firstn_map, skipn_map.
  - destruct (Nat.eqb _ _); simpl; [|easy]. now rewrite upd_all_map.
Qed.
Lemma drop_at_map ps i l : drop_at ps i (map f l) = map f (drop_at ps i l).
Proof.
  revert i; induction l as [|x l IH]; intros i; simpl; [easy|].
  destruct (memb _ _ _); simpl; now rewrite IH.
Qed.
Lemma pl_delslice_map l s : pl_delslice (map f l) s = rmap (map f) (pl_delslice l s).
Proof.
  unfold pl_delslice. rewrite map_length. destruct (slice_positions _ _); simpl; [|easy]. now rewrite drop_at_map.
Qed.
Lemma find_index_map p (p' : A -> bool) l : (forall x, In x l -> p' x = p (f x)) ->
  find_index p (map f l) = find_index p' l.
Proof.
  induction l as [|x l IH]; intros H; simpl; [easy|]. rewrite (H x) by now left.
  destruct (p (f x)); [easy|]. rewrite IH; [easy|]. intros y Hy. apply H. now right.
Qed.
Lemma pl_index_map p (p' : A -> bool) l : (forall x, In x l -> p' x = p (f x)) ->
  pl_index p (map f l) = pl_index p' l.
Proof. intros H. unfold pl_index. now rewrite (find_index_map p p'). Qed.
Lemma pl_remove_map p (p' : A -> bool) l : (forall x, In x l -> p' x = p (f x)) ->
  pl_remove p (map f l) = rmap (map f) (pl_remove p' l).
Proof.
  intros H. unfold pl_remove. rewrite (pl_index_map p p') by easy. destruct (pl_index p' l); simpl; [|easy].
  now rewrite map_del_nth.
Qed.
Lemma pl_count_map p (p' : A -> bool) l : (forall x, In x l -> p' x = p (f x)) ->
  pl_count p (map f l) = pl_count p' l.
Proof.
  unfold pl_count. induction l as [|x l IH]; intros H; simpl; [easy|]. rewrite (H x) by now left.
  assert (forall y, In y l -> p' y = p (f y)) as H' by (intros; apply H; now right).
  destruct (p (f x)); simpl; now rewrite IH.
Qed.
Lemma pl_contains_map p (p' : A -> bool) l : (forall x, In x l -> p' x = p (f x)) ->
  pl_contains p (map f l) = pl_contains p' l.
Proof.
  unfold pl_contains. induction l as [|x l IH]; intros H; simpl; [easy|]. rewrite (H x) by now left.
  rewrite IH; [easy|]. intros; apply H; now right.
Qed.
Let g (p : Z * A) : Z * B := (fst p, f (snd p)).
Lemma sort_insert_map k x l : sort_insert k (f x) (map g l) = map g (sort_insert k x l).
Proof. induction l as [|[k' y] l IH]; simpl; [easy|]. destruct (k <=? k')%Z; simpl; [easy|]. now rewrite IH. Qed.
Lemma sort_keyed_map l : sort_keyed (map g l) = map g (sort_keyed l).
Proof. induction l as [|[k x] l IH]; simpl; [easy|]. now rewrite IH, sort_insert_map. Qed.
Lemma map_keys_map key (key' : A -> res Z) l : (forall x, In x l -> key' x = key (f x)) ->
  map_keys key (map f l) = rmap (map g) (map_keys key' l).
Proof.
  induction l as [|x l IH]; intros H; simpl; [easy|]. rewrite (H x) by now left.
  destruct (key (f x)); simpl; [|easy]. rewrite IH by (intros; apply H; now right).
  destruct (map_keys key' l); easy.
Qed.
Lemma pl_sort_map key (key' : A -> res Z) r l : (forall x, In x l -> key' x = key (f x)) ->
  pl_sort key r (map f l) = rmap (map f) (pl_sort key' r l).
Proof.
  intros H. unfold pl_sort. rewrite (map_keys_map key key') by easy.
  destruct (map_keys key' l) as [kl|]; simpl; [|easy]. f_equal.
  assert (forall x, map snd (map g x) = map f (map snd x)) as Hs.
  { intros x. rewrite !map_map. easy. }
  destruct r.
  - now rewrite <- (map_rev g), sort_keyed_map, Hs, map_rev.
  - now rewrite sort_keyed_map, Hs.
Qed.
End Nat.

Lemma skipn_skipn {A} x y (l : list A) : skipn x (skipn y l) = skipn (x + y) l.
Proof.
  revert l; induction y as [|y IH]; intros l; [now rewrite Nat.add_0_r|].
  destruct l as [|a l]; [now rewrite !skipn_nil|]. rewrite Nat.add_succ_r. simpl. apply IH.
Qed.

(* ---------------- nothing appears or is doubled ---------------- *)
Definition subm {A} (x base : list A) : Prop := exists r, Permutation (x ++ r) base.
Lemma subm_incl {A} (x base : list A) : subm x base -> incl x base.
Proof. intros [r H] y Hy. eapply Permutation_in; [exact H|]. apply in_or_app. now left. Qed.
Lemma subm_NoDup {A} (x base : list A) : subm x base -> NoDup base -> NoDup x.
Proof.
  intros [r H] Hn. apply Permutation_sym in H. apply (Permutation_NoDup H) in Hn.
  clear H. induction x as [|a x IH]; [constructor|]. inversion Hn; subst. constructor; [|auto].
  intros Hx. apply H1. apply in_or_app. now left.
Qed.
Lemma subm_perm {A} (x base : list A) : Permutation x base -> subm x base.
Proof. intros H. exists []. now rewrite app_nil_r. Qed.
Lemma subm_trans {A} (x y z : list A) : subm x y -> subm y z -> subm x z.
Proof.
  intros [r H] [r' H']. exists (r ++ r'). rewrite app_assoc. eapply Permutation_trans; [|exact H'].
  now apply Permutation_app_tail.
Qed.
Lemma subm_del_nth {A} i (l : list A) : subm (del_nth i l) l.
Proof.
  unfold del_nth. rewrite <- (firstn_skipn i l) at 3. destruct (skipn i l) as [|x t] eqn:E.
  - exists []. rewrite app_nil_r.
    assert (skipn (S i) l = []) as ->; [|easy].
    apply skipn_all2. pose proof (skipn_length i l) as H. rewrite E in H. simpl in H. lia.
  - exists [x]. assert (skipn (S i) l = t) as ->.
    { replace (S i) with (1 + i) by lia. rewrite <- skipn_skipn, E. easy. }
    rewrite <- app_assoc. apply Permutation_app_head. apply Permutation_sym, Permutation_cons_append.
Qed.
Lemma subm_drop_at {A} ps i (l : list A) : subm (drop_at ps i l) l.
Proof.
  revert i; induction l as [|x l IH]; intros i; simpl; [exists []; easy|].
  destruct (IH (S i)) as [r H]. destruct (memb _ _ _).
  - exists (x :: r). apply Permutation_sym. eapply Permutation_trans; [|apply Permutation_middle].
    constructor. now apply Permutation_sym.
  - exists r. simpl. now constructor.
Qed.
Lemma perm_insert {A} (l : list A) i x : Permutation (pl_insert l i x) (x :: l).
Proof.
  unfold pl_insert. apply Permutation_sym. rewrite <- (firstn_skipn (insert_pos (List.length l) i) l) at 1.
  apply Permutation_middle.
Qed.
Lemma subm_upd_nth {A} i x (l : list A) : subm (upd_nth i x l) (x :: l).
Proof.
  unfold upd_nth. rewrite <- (firstn_skipn i l) at 3. destruct (skipn i l) as [|y t].
  - exists [x]. rewrite app_nil_r. apply Permutation_sym, Permutation_cons_append.
  - exists [y]. rewrite <- app_assoc. apply Permutation_sym. simpl.
    apply Permutation_cons_app. apply Permutation_app_head. apply Permutation_cons_append.
Qed.
Lemma subm_upd_all {A} ps xs (l : list A) : subm (upd_all ps xs l) (xs ++ l).
Proof.
  revert xs l; induction ps as [|p ps IH]; intros xs l; simpl.
  - exists xs. apply Permutation_app_comm.
  - destruct xs as [|x xs]; [exists []; now rewrite app_nil_r|].
    eapply subm_trans; [apply IH|]. destruct (subm_upd_nth p x l) as [r H]. exists r.
    rewrite <- app_assoc. eapply Permutation_trans; [apply Permutation_app_head; exact H|].
    apply Permutation_sym. simpl. apply Permutation_middle.
Qed.
Lemma subm_setslice {A} (l : list A) s xs l' : pl_setslice l s xs = Ok l' -> subm l' (xs ++ l).
Proof.
  unfold pl_setslice. destruct (slice_indices _ _) as [[[a b] c]|]; [|easy]. simpl.
  destruct (c =? 1)%Z.
  - intros [= <-]. set (i := Z.to_nat a). set (j := Z.to_nat (Z.max a b)).
    assert (i <= j) as Hij by (unfold i, j; lia).
    exists (firstn (j - i) (skipn i l)).
    rewrite <- !app_assoc. eapply Permutation_trans; [apply Permutation_app_swap_app|].
    apply Permutation_app_head. rewrite <- (firstn_skipn i l) at 4. apply Permutation_app_head.
    assert (skipn j l = skipn (j - i) (skipn i l)) as ->.
    { rewrite skipn_skipn. f_equal. lia. }
    eapply Permutation_trans; [apply Permutation_app_comm|]. now rewrite firstn_skipn.
  - destruct (Nat.eqb _ _); [|easy]. intros [= <-]. apply subm_upd_all.
Qed.
Lemma perm_sort_insert {A} k (x : A) l : Permutation (sort_insert k x l) ((k, x) :: l).
Proof.
  induction l as [|[k' y] l IH]; simpl; [easy|]. destruct (k <=? k')%Z; [easy|].
  eapply Permutation_trans; [constructor; exact IH|]. constructor.
Qed.
Lemma perm_sort_keyed {A} (l : list (Z * A)) : Permutation (sort_keyed l) l.
Proof.
  induction l as [|[k x] l IH]; simpl; [easy|].
  eapply Permutation_trans; [apply perm_sort_insert|]. now constructor.
Qed.
Lemma map_keys_snd {A} key (l : list A) kl : map_keys key l = Ok kl -> map snd kl = l.
Proof.
  revert kl; induction l as [|x l IH]; intros kl; simpl; [now intros [= <-]|].
  destruct (key x); [|easy]. simpl. destruct (map_keys key l); [|easy]. simpl. intros [= <-]. simpl.
  f_equal. now apply IH.
Qed.
Lemma perm_sort {A} key r (l l' : list A) : pl_sort key r l = Ok l' -> Permutation l' l.
Proof.
  unfold pl_sort. destruct (map_keys key l) as [kl|] eqn:E; [|easy]. simpl. intros [= <-].
  apply map_keys_snd in E. destruct r.
  - eapply Permutation_trans; [apply Permutation_sym, Permutation_rev|].
    rewrite <- E at 1. eapply Permutation_trans; [apply Permutation_map, perm_sort_keyed|].
    rewrite map_rev. apply Permutation_sym, Permutation_rev.
  - rewrite <- E at 1. apply Permutation_map, perm_sort_keyed.
Qed.
Lemma subm_remove {A} (p : A -> bool) l l' : pl_remove p l = Ok l' -> subm l' l.
Proof. unfold pl_remove. destruct (pl_index p l); [|easy]. simpl. intros [= <-]. apply subm_del_nth. Qed.
Lemma subm_del {A} (l : list A) i l' : pl_del l i = Ok l' -> subm l' l.
Proof. unfold pl_del. destruct (norm_index _ _); [|easy]. intros [= <-]. apply subm_del_nth. Qed.
Lemma subm_delslice {A} (l : list A) s l' : pl_delslice l s = Ok l' -> subm l' l.
Proof. unfold pl_delslice. destruct (slice_positions _ _); [|easy]. intros [= <-]. apply subm_drop_at. Qed.
Lemma subm_set {A} (l : list A) i x l' : pl_set l i x = Ok l' -> subm l' (x :: l).
Proof. unfold pl_set. destruct (norm_index _ _); [|easy]. intros [= <-]. apply subm_upd_nth. Qed.
Lemma pl_get_In {A} (l : list A) i x : pl_get l i = Ok x -> In x l.
Proof.
  unfold pl_get. destruct (norm_index _ _); [|easy]. destruct (nth_error l n) eqn:E; [|easy].
  intros [= <-]. eapply nth_error_In; eauto.
Qed.
Lemma pl_pop_spec {A} (l : list A) i x l' : pl_pop l i = Ok (x, l') -> Permutation (x :: l') l /\ In x l.
Proof.
  unfold pl_pop, pl_get, pl_del. destruct (norm_index _ _) as [k|]; [|easy].
  destruct (nth_error l k) eqn:E; [|easy]. simpl. intros [= <- <-]. split; [|eapply nth_error_In; eauto].
  apply nth_error_split in E as (l1 & l2 & -> & <-). unfold del_nth.
  assert (firstn (List.length l1) (l1 ++ a :: l2) = l1) as ->.
  { rewrite firstn_app, firstn_all, Nat.sub_diag. simpl. apply app_nil_r. }
  assert (skipn (S (List.length l1)) (l1 ++ a :: l2) = l2) as ->.
  { replace (S (List.length l1)) with (List.length (l1 ++ [a])) by (rewrite app_length; simpl; lia).
    change (a :: l2) with ([a] ++ l2). rewrite app_assoc, skipn_app, skipn_all, Nat.sub_diag. easy. }
  apply Permutation_middle.
Qed.
(* the slice [:] selects everything *)
Lemma drop_at_all {A} ps i (l : list A) : (forall j, i <= j < i + List.length l -> In j ps) -> drop_at ps i l = [].
Proof.
  revert i; induction l as [|x l IH]; intros i H; cbn [drop_at]; [easy|].
  assert (memb Nat.eqb i ps = true) as ->.
  { apply memb_In; [intros; apply Nat.eqb_eq|]. apply H. simpl. lia. }
  apply IH. intros j Hj. apply H. simpl. lia.
Qed.
Lemma del_whole {A} (l : list A) : pl_delslice l (Slice None None None) = Ok [].
Proof.
  unfold pl_delslice, slice_positions, slice_indices. simpl. f_equal. apply drop_at_all.
  intros j Hj. unfold range. rewrite map_map. apply in_map_iff. exists j. split; [lia|].
  apply in_seq. unfold range_len. simpl. rewrite Z.div_1_r. lia.
Qed.
