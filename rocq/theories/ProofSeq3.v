From Verif Require Import PyBase PyBaseFacts PyList PyListFacts ModelScalar ModelSeq SpecSeq SpecPyList ProofSeq ProofSeq2 ProofPyList.
From Coq Require Import Permutation.

Lemma linv_iff {M} (q : seqst M) : linv q <-> list_ok q /\ list_bounded q.
Proof.
  split.
  - intros H. split; [now apply linv_ok|]. destruct H as [(H1 & H2 & H3) Hn]. split; [|easy].
    intros s Hs. destruct (H2 s Hs) as (? & ? & _). easy.
  - intros [[H1 H2] [H3 H4]]. split; [split; [easy|split; [|easy]]|].
    + intros s Hs. destruct (H3 s Hs). apply In_nth_error in Hs. destruct Hs as [i Hi].
      destruct (H2 i s Hi) as (_ & ? & ?). easy.
    + intros i s Hi. now apply H2.
Qed.
Section P.
Context (V M : Type) (sch : mschema V M).
Implicit Types (q : seqst M).
Theorem list_numbering q os : fresh_seq q -> list_history sch q os -> list_ok (run_list sch q os).
Proof. intros H1 H2. apply linv_ok. apply run_list_inv; [now apply fresh_linv|easy]. Qed.
Theorem list_step_ok q o : list_ok q -> list_bounded q -> list_call q o ->
  list_ok (fst (l_step sch q o)) /\ list_bounded (fst (l_step sch q o))
  /\ q_self (fst (l_step sch q o)) = q_self q.
Proof.
  intros H1 H2 H3. pose proof (l_step_spec sch q o (proj2 (linv_iff q) (conj H1 H2)) H3) as H.
  destruct (l_step sch q o) as [q' r]. destruct H as [[A B] _]. apply linv_iff in A. easy.
Qed.
Theorem list_refines q o : list_ok q -> list_bounded q -> list_call q o ->
  let q' := fst (l_step sch q o) in
  plain_op sch (h_con (q_h q)) (list_in_place sch (h_con (q_h q))) (list_values q) o
  = (list_values q', rmap (out_map (fun s => h_con (q_h q') (h_elem (q_h q') s))) (snd (l_step sch q o))).
Proof.
  intros H1 H2 H3. pose proof (l_step_spec sch q o (proj2 (linv_iff q) (conj H1 H2)) H3) as H.
  destruct (l_step sch q o) as [q' r]. apply H.
Qed.
Theorem array_refines q o : (forall m, ms_eq sch m m = true) -> array_bounded q -> array_args q o -> listlike o ->
  let q' := fst (a_step sch q o) in
  plain_array_op sch (h_con (q_h q)) (array_values q) o
  = (array_values q', rmap (out_map (h_con (q_h q'))) (snd (a_step sch q o)))
  /\ array_bounded q'.
Proof.
  intros H0 H1 H2 H3. pose proof (a_step_spec sch q o H1 H2) as H.
  destruct (a_step sch q o) as [q' r]. destruct H as (A & _ & _ & B). split; [now apply B|].
  apply A. now destruct o.
Qed.
Theorem array_parents q os : fresh_seq q -> array_history sch q os -> array_ok (run_array sch q os).
Proof.
  intros [Hi _] H. apply run_array_inv; [| |easy]; intros e He; now rewrite Hi in He.
Qed.
Lemma run_self os : forall q, linv q -> list_history sch q os -> q_self (run_list sch q os) = q_self q.
Proof.
  unfold run_list. induction os as [|o os IH]; intros q Hq Hh; cbn [fold_left list_history] in *; [easy|].
  destruct Hh as [Hc Hh]. pose proof (l_step_spec sch q o Hq Hc) as H.
  destruct (l_step sch q o) as [q' r]. cbn [fst] in *. destruct H as [[A B] _]. rewrite IH; easy.
Qed.
Theorem list_parents q os : fresh_seq q -> list_history sch q os ->
  forall s, In s (q_items (run_list sch q os)) ->
    h_parent (q_h (run_list sch q os)) s = Some (q_self q)
    /\ h_parent (q_h (run_list sch q os)) (h_elem (q_h (run_list sch q os)) s) = Some s.
Proof.
  intros H1 H2 s Hs. pose proof (list_numbering q os H1 H2) as [_ H]. apply In_nth_error in Hs. destruct Hs as [i Hi].
  destruct (H i s Hi) as (_ & A & B). rewrite (run_self os q (fresh_linv q H1) H2) in A. easy.
Qed.
Theorem popped_slot q i s : snd (l_step sch q (Pop i)) = Ok (RItem s) -> h_parent (q_h (fst (l_step sch q (Pop i)))) s = None.
Proof.
  cbn. unfold l_pop. destruct (pl_pop (q_items q) i) as [[s' l]|]; [|easy]. cbn. intros [= ->]. apply fset_same.
Qed.
Lemma fill_repeat_ok n m u : ms_default sch (ms_new sch) = (m, Ok u) -> fill_all sch (repeat (ms_default sch) n) = (repeat m n, None).
Proof. intros H. induction n; [easy|]. cbn. now rewrite H, IHn. Qed.
Theorem list_default_int q z : list_ok q -> list_bounded q ->
  let q' := fst (l_step sch q (SetDefault (DInt z))) in
  let m := fst (ms_default sch (ms_new sch)) in
  match snd (ms_default sch (ms_new sch)) with
  | Ok _ => snd (l_step sch q (SetDefault (DInt z))) = Ok RNone
            /\ list_values q' = repeat m (Z.to_nat (Z.max z 0))
  | Err x => if (z <=? 0)%Z
             then snd (l_step sch q (SetDefault (DInt z))) = Ok RNone /\ list_values q' = []
             else snd (l_step sch q (SetDefault (DInt z))) = Err x /\ list_values q' = [m]
  end.
Proof.
  intros H1 H2. pose proof (l_step_spec sch q (SetDefault (DInt z)) (proj2 (linv_iff q) (conj H1 H2)) I) as H.
  destruct (l_step sch q (SetDefault (DInt z))) as [q' r]. cbn [fst snd]. destruct H as [_ H]. cbn [plain_op] in H.
  assert (forall r0 : res (out M), rmap (out_map (val (q_h q'))) r = Ok RNone -> r = Ok RNone) as Hr0.
  { intros _. destruct r as [[]|]; easy. }
  destruct (ms_default sch (ms_new sch)) as [m [u|x]] eqn:E; cbn [fst snd].
  - rewrite (fill_repeat_ok _ _ _ E) in H. injection H as Hv Hr. split; [apply Hr0; [exact (Ok RNone)|easy]|].
    rewrite <- Hv. f_equal. lia.
  - destruct (Z.leb_spec z 0).
    + replace (Z.to_nat z) with 0 in H by lia. cbn in H. injection H as Hv Hr. split; [apply Hr0; [exact (Ok RNone)|easy]|easy].
    + destruct (Z.to_nat z) as [|n] eqn:En; [lia|]. cbn in H. rewrite E in H. injection H as Hv Hr.
      split; [|easy]. destruct r; cbn in Hr; [easy|]. now injection Hr as ->.
Qed.
Theorem default_none q d : d = DNone \/ d = DUnspecified ->
  l_step sch q (SetDefault d) = (q, Ok RNone) /\ a_step sch q (SetDefault d) = (q, Ok RNone).
Proof. now intros [-> | ->]. Qed.
Lemma out_inv (r : res (out nat)) (f : nat -> M) (r' : res (out M)) : rmap (out_map f) r = r' ->
  match r' with Ok RNone => r = Ok RNone | Ok (RBool b) => r = Ok (RBool b) | Ok (RNat n) => r = Ok (RNat n)
              | Err x => r = Err x | _ => True end.
Proof. destruct r as [[]|]; cbn; intros <-; easy. Qed.
Theorem list_default_iter q it : list_ok q -> list_bounded q ->
  let q' := fst (l_step sch q (SetDefault (DIter it))) in
  let q2 := fst (l_step sch q (SetIt it)) in
  list_values q' = list_values q2
  /\ match snd (l_step sch q (SetIt it)) with
     | Ok _ => snd (l_step sch q (SetDefault (DIter it))) = Ok RNone
     | Err x => snd (l_step sch q (SetDefault (DIter it))) = Err x
     end.
Proof.
  intros H1 H2. pose proof (proj2 (linv_iff q) (conj H1 H2)) as Hq.
  pose proof (l_step_spec sch q (SetDefault (DIter it)) Hq I) as H.
  pose proof (l_step_spec sch q (SetIt it) Hq I) as H'.
  destruct (l_step sch q (SetDefault (DIter it))) as [q' r]. destruct (l_step sch q (SetIt it)) as [q2 r2].
  cbn [fst snd]. destruct H as [_ H], H' as [_ H']. cbn [plain_op] in H, H'. rewrite H' in H. injection H as Hv Hr.
  split; [easy|]. symmetry in Hr. apply out_inv in Hr. destruct r2; exact Hr.
Qed.
Theorem list_set_all q vs : list_ok q -> list_bounded q ->
  let q' := fst (l_step sch q (SetIt (Iter vs None))) in
  (forall v, In v vs -> exists b, snd (ms_set sch (ms_new sch) v) = Ok b) ->
  list_values q' = map (fun v => fst (ms_set sch (ms_new sch) v)) vs
  /\ snd (l_step sch q (SetIt (Iter vs None)))
     = Ok (RBool (forallb (fun v => match snd (ms_set sch (ms_new sch) v) with Ok b => b | Err _ => false end) vs)).
Proof.
  intros H1 H2 q' Hv. pose proof (proj2 (linv_iff q) (conj H1 H2)) as Hq.
  pose proof (l_step_spec sch q (SetIt (Iter vs None)) Hq I) as H. unfold q'.
  destruct (l_step sch q (SetIt (Iter vs None))) as [q1 r]. cbn [fst snd]. destruct H as [_ H].
  cbn [plain_op] in H. unfold set_plain in H. cbn [it_items it_end] in H.
  assert (set_all sch vs None = (map (fun v => fst (ms_set sch (ms_new sch) v)) vs,
     forallb (fun v => match snd (ms_set sch (ms_new sch) v) with Ok b => b | Err _ => false end) vs, None)) as E.
  { clear -Hv. induction vs as [|v vs IH]; [easy|]. cbn. destruct (Hv v (or_introl eq_refl)) as [b Hb].
    destruct (ms_set sch (ms_new sch) v) as [m r]. cbn in Hb. subst r. rewrite IH by (intros; apply Hv; now right). easy. }
  rewrite E in H. injection H as Ha Hb. symmetry in Hb. apply out_inv in Hb. easy.
Qed.
Theorem array_default_int q z : array_bounded q ->
  array_values (fst (a_step sch q (SetDefault (DInt z)))) = []
  /\ snd (a_step sch q (SetDefault (DInt z))) = Err TypeErr.
Proof.
  intros H. cbn [a_step a_set_default]. destruct (a_clear q H) as (q0 & -> & _ & _ & Hi & _). cbn. unfold array_values. now rewrite Hi.
Qed.
End P.
Theorem list_reads M (q : seqst M) i s :
  rmap (h_con (q_h q)) (l_getitem q i) = pl_get (list_values q) i
  /\ rmap (map (h_con (q_h q))) (l_getslice q s) = get_slice (list_values q) s
  /\ map (h_con (q_h q)) (l_members q) = list_values q.
Proof.
  unfold l_getitem, l_getslice, l_members. rewrite list_values_val. split; [|split].
  - rewrite pl_get_map. now destruct (pl_get _ _).
  - unfold get_slice. rewrite map_length. destruct (slice_positions _ _) as [ps|]; cbn; [|easy]. f_equal.
    rewrite map_map. unfold pick. induction ps as [|p ps IH]; [easy|]. cbn. rewrite map_app, IH. f_equal.
    rewrite nth_error_map. destruct (nth_error _ _); easy.
  - now rewrite map_map.
Qed.
Theorem getslice_all A (l : list A) s : match slice_positions (List.length l) s with
  | Err e => get_slice l s = Err e
  | Ok ps => exists xs, get_slice l s = Ok xs /\ Forall2 (fun p x => nth_error l p = Some x) ps xs
  end.
Proof. destruct (slice_positions _ _) eqn:E; [now apply getslice_lemma|now apply getslice_err]. Qed.
Theorem setslice_all A (l : list A) s xs : match slice_positions (List.length l) s with
  | Err e => pl_setslice l s xs = Err e
  | Ok ps =>
      if (step_of s =? 1)%Z
      then exists a m b, l = a ++ m ++ b /\ pl_setslice l s xs = Ok (a ++ xs ++ b)
           /\ ps = seq (List.length a) (List.length m)
           /\ (m = [] -> slice_end (Z.of_nat (List.length l)) (sl_start s) 0 0
                           (Z.of_nat (List.length l)) (Z.of_nat (List.length a)))
      else if Nat.eqb (List.length xs) (List.length ps)
           then exists l', pl_setslice l s xs = Ok l' /\ List.length l' = List.length l
                /\ Forall2 (fun p x => nth_error l' p = Some x) ps xs
                /\ (forall i, ~ In i ps -> nth_error l' i = nth_error l i)
           else pl_setslice l s xs = Err ValueErr
  end.
Proof. destruct (slice_positions _ _) eqn:E; [now apply setslice_lemma|now apply setslice_err]. Qed.
Theorem delslice_all A (l : list A) s : match slice_positions (List.length l) s with
  | Err e => pl_delslice l s = Err e
  | Ok ps => exists l', pl_delslice l s = Ok l' /\ outside l ps l'
  end.
Proof. destruct (slice_positions _ _) eqn:E; [now apply delslice_lemma|now apply delslice_err]. Qed.
Theorem search_all A (p : A -> bool) l :
  match pl_index p l with
  | Ok i => exists a x b, l = a ++ x :: b /\ List.length a = i /\ p x = true /\ forall y, In y a -> p y = false
  | Err e => e = ValueErr /\ forall y, In y l -> p y = false
  end
  /\ match pl_remove p l with
     | Ok l' => exists a x b, l = a ++ x :: b /\ l' = a ++ b /\ p x = true /\ forall y, In y a -> p y = false
     | Err e => e = ValueErr /\ forall y, In y l -> p y = false
     end
  /\ (pl_contains p l = true <-> exists x, In x l /\ p x = true)
  /\ pl_count p [] = 0 /\ forall x, pl_count p (x :: l) = (if p x then 1 else 0) + pl_count p l.
Proof.
  split; [apply index_lemma|]. split; [apply remove_lemma|]. split; [apply contains_lemma|]. split; [easy|].
  intros x. apply count_cons.
Qed.

(* ---------------- concrete states ---------------- *)
Lemma sample_fresh : fresh_seq sample. Proof. split; [easy|cbn; lia]. Qed.
Theorem append_twice : exists q e os,
  fresh_seq q /\ e < h_next (q_h q) /\ os = [Append (AElem e); Append (AElem e)]
  /\ ~ list_ok (run_list integers q os).
Proof.
  exists sample, 1. eexists. split; [apply sample_fresh|]. split; [cbn; lia|]. split; [reflexivity|].
  intros [_ H]. destruct (H 0 4 eq_refl) as (_ & _ & H'). easy.
Qed.
Theorem sort_raising : exists q vs ps x,
  fresh_seq q /\ ~ list_ok (run_list integers q [SetIt (Iter vs None); SortBroken ps x]).
Proof.
  exists sample, [VInt 1; VInt 2], [1; 0], TypeErr. split; [apply sample_fresh|].
  intros [_ H]. destruct (H 0 7 eq_refl) as (H' & _). vm_compute in H'. easy.
Qed.
Theorem imul_breaks : exists q vs n,
  fresh_seq q /\ ~ list_ok (run_list integers q [SetIt (Iter vs None); IMul n]).
Proof.
  exists sample, [VInt 1], 2%Z. split; [apply sample_fresh|]. intros [H _]. cbn in H. inversion H; subst.
  apply H2. now left.
Qed.
Theorem iadd_breaks : exists q e,
  fresh_seq q /\ e < h_next (q_h q) /\ ~ list_ok (run_list integers q [IAdd [e]]).
Proof.
  exists sample, 1. split; [apply sample_fresh|]. split; [cbn; lia|]. intros [_ H].
  destruct (H 0 1 eq_refl) as (_ & H' & _). easy.
Qed.
Theorem setitem_element : exists q e,
  fresh_seq q /\ e < h_next (q_h q) /\ s_value (h_con (q_h q) e) = VInt 5
  /\ values_of (run_list integers q [Append (AVal (VInt 1)); SetItem 0 (AElem e)]) = [VNone].
Proof. exists sample, 1. split; [apply sample_fresh|]. split; [cbn; lia|]. split; vm_compute; easy. Qed.
Theorem array_setitem : exists q e,
  fresh_seq q /\ e < h_next (q_h q)
  /\ ~ array_ok (run_array integers q [Append (AVal (VInt 1)); SetItem 0 (AElem e)]).
Proof.
  exists sample, 2. split; [apply sample_fresh|]. split; [cbn; lia|]. intros H. specialize (H 2 (or_introl eq_refl)). easy.
Qed.
Theorem array_iadd : exists q e,
  fresh_seq q /\ e < h_next (q_h q) /\ ~ array_ok (run_array integers q [IAdd [e]]).
Proof.
  exists sample, 2. split; [apply sample_fresh|]. split; [cbn; lia|]. intros H. specialize (H 2 (or_introl eq_refl)). easy.
Qed.
Lemma loose_vals {M} (q : seqst M) (l : list (arg pyval)) : arg_elems l = [] -> loose_all q l.
Proof. intros H. unfold loose_all. rewrite H. split; [constructor|easy]. Qed.
Theorem history_example :
  fresh_seq sample /\ list_history integers sample list_ops
  /\ map (h_name (q_h (run_list integers sample list_ops))) (q_items (run_list integers sample list_ops))
     = [lit "0"; lit "1"; lit "2"]
  /\ values_of (run_list integers sample list_ops) = [VInt 9; VInt 4; VInt 3].
Proof.
  split; [apply sample_fresh|]. split; [|split; vm_compute; easy].
  cbn [list_history list_ops]. split; [now apply loose_vals|]. split.
  - split; cbn [arg_elems flat_map app]; [repeat constructor; easy|]. intros e [<-|[]].
    split; [vm_compute; lia|]. split; [intros [H|[]]; discriminate H|intros s [<-|[]]; discriminate].
  - split; [now apply loose_vals|]. split; [easy|]. split; [now apply loose_vals|]. easy.
Qed.
Lemma eq_refl_int m : ms_eq integers m m = true.
Proof.
  cbn. rewrite str_eqb_refl, andb_true_r. destruct m as [r v u]. cbn. unfold py_eq.
  destruct v; cbn; try easy.
  all: rewrite ?Z.eqb_refl, ?str_eqb_refl, ?Nat.eqb_refl; try easy.
  all: unfold date_eqb, time_eqb; rewrite ?N.eqb_refl; easy.
Qed.
Theorem array_example :
  fresh_seq sample /\ array_bounded sample /\ array_history integers sample array_ops
  /\ map s_value (array_values (run_array integers sample array_ops)) = [VInt 8; VInt 6; VInt 5; VInt 5; VInt 4]
  /\ (forall m, ms_eq integers m m = true).
Proof.
  split; [apply sample_fresh|]. split; [easy|]. split; [|split; [vm_compute; easy|apply eq_refl_int]].
  cbn [array_history array_ops]. split; [easy|]. split; [easy|].
  split; [intros e [= <-]; vm_compute; lia|]. split; [intros e [= <-]; vm_compute; lia|].
  split; [|easy]. intros e [|[[= <-]|[]]]; [easy|vm_compute; lia].
Qed.
Theorem default_example :
  let q := run_list integers sample [Append (AVal (VInt 1)); SetDefault (DInt 3)] in
  list_ok q /\ list_bounded q /\ values_of q = [VInt 7; VInt 7; VInt 7]
  /\ values_of (run_list integers q [SetDefault (DInt (-2))]) = []
  /\ values_of (run_list integers q [SetDefault DUnspecified]) = [VInt 7; VInt 7; VInt 7]
  /\ values_of (run_list integers q [SetDefault (DIter (Iter [VText (lit "4"); VText (lit "x")] None))])
     = [VInt 4; VNone].
Proof.
  cbv zeta. assert (linv (run_list integers sample [Append (AVal (VInt 1)); SetDefault (DInt 3)])) as H.
  { apply run_list_inv; [apply fresh_linv, sample_fresh|]. cbn [list_history]. split; [now apply loose_vals|easy]. }
  apply linv_iff in H. destruct H as [A B]. repeat (split; [assumption|]). repeat split; vm_compute; reflexivity.
Qed.
