(* Properties of sequences: C15 (numbering), C16 (Python list semantics),
   C17 (back references), C18 (defaults). *)
From Verif Require Import PyBase PyList ModelScalar ModelSeq SpecSeq SpecPyList ProofSeq ProofSeq2 ProofSeq3 ProofPyList.
From Coq Require Import Permutation.

(* C15: whatever is done to a List, slots are named after their position and
   parents lead back to it. *)
Theorem C15_list_numbering : forall V M (sch : mschema V M) q os,
  fresh_seq q -> list_history sch q os -> list_ok (run_list sch q os).
Proof. exact list_numbering. Qed.
Print Assumptions C15_list_numbering.
(* the same from any well-numbered list whose objects exist *)
Theorem C15_list_step : forall V M (sch : mschema V M) q o,
  list_ok q -> list_bounded q -> list_call q o ->
  list_ok (fst (l_step sch q o)) /\ list_bounded (fst (l_step sch q o))
  /\ q_self (fst (l_step sch q o)) = q_self q.
Proof. exact list_step_ok. Qed.
Print Assumptions C15_list_step.
(* Findings: outside those calls numbering is lost: an element appended twice,
   a sort whose comparison raises, and *= (which Sequence does not override). *)
Theorem C15_append_twice_refuted : exists q e os,
  fresh_seq q /\ e < h_next (q_h q) /\ os = [Append (AElem e); Append (AElem e)]
  /\ ~ list_ok (run_list integers q os).
Proof. exact append_twice. Qed.
Print Assumptions C15_append_twice_refuted.
Theorem C15_sort_raising_refuted : exists q vs ps x,
  fresh_seq q /\ ~ list_ok (run_list integers q [SetIt (Iter vs None); SortBroken ps x]).
Proof. exact sort_raising. Qed.
Print Assumptions C15_sort_raising_refuted.
Theorem C15_imul_refuted : exists q vs n,
  fresh_seq q /\ ~ list_ok (run_list integers q [SetIt (Iter vs None); IMul n]).
Proof. exact imul_breaks. Qed.
Print Assumptions C15_imul_refuted.
Example C15_witness :
  fresh_seq sample /\ list_history integers sample list_ops
  /\ map (h_name (q_h (run_list integers sample list_ops))) (q_items (run_list integers sample list_ops))
     = [lit "0"; lit "1"; lit "2"]
  /\ values_of (run_list integers sample list_ops) = [VInt 9; VInt 4; VInt 3].
Proof. exact history_example. Qed.

(* C16: every List call does to the member values what the same call does to
   a plain list, with the same outcome. *)
Theorem C16_list_refines : forall V M (sch : mschema V M) q o,
  list_ok q -> list_bounded q -> list_call q o ->
  let q' := fst (l_step sch q o) in
  plain_op sch (h_con (q_h q)) (list_in_place sch (h_con (q_h q))) (list_values q) o
  = (list_values q', rmap (out_map (fun s => h_con (q_h q') (h_elem (q_h q') s))) (snd (l_step sch q o))).
Proof. exact list_refines. Qed.
Print Assumptions C16_list_refines.
(* reading: self[i], self[s], iteration *)
Theorem C16_list_reads : forall M (q : seqst M) i s,
  rmap (h_con (q_h q)) (l_getitem q i) = pl_get (list_values q) i
  /\ rmap (map (h_con (q_h q))) (l_getslice q s) = get_slice (list_values q) s
  /\ map (h_con (q_h q)) (l_members q) = list_values q.
Proof. exact list_reads. Qed.
Print Assumptions C16_list_reads.
Theorem C16_array_refines : forall V M (sch : mschema V M) q o,
  (forall m, ms_eq sch m m = true) ->
  array_bounded q -> array_args q o -> listlike o ->
  let q' := fst (a_step sch q o) in
  plain_array_op sch (h_con (q_h q)) (array_values q) o
  = (array_values q', rmap (out_map (h_con (q_h q'))) (snd (a_step sch q o)))
  /\ array_bounded q'.
Proof. exact array_refines. Qed.
Print Assumptions C16_array_refines.
(* Finding: += on a List stores the operand itself, not a member made from it *)
Theorem C16_iadd_refuted : exists q e,
  fresh_seq q /\ e < h_next (q_h q)
  /\ ~ list_ok (run_list integers q [IAdd [e]]).
Proof. exact iadd_breaks. Qed.
Print Assumptions C16_iadd_refuted.
(* Finding: self[i] = element does not store the element's value *)
Theorem C16_setitem_element_refuted : exists q e,
  fresh_seq q /\ e < h_next (q_h q) /\ s_value (h_con (q_h q) e) = VInt 5
  /\ values_of (run_list integers q [Append (AVal (VInt 1)); SetItem 0 (AElem e)]) = [VNone].
Proof. exact setitem_element. Qed.
Print Assumptions C16_setitem_element_refuted.

(* The plain list operations are Python's. *)
Theorem C16_python_getitem : forall A (l : list A) i r, pl_get l i = r <->
  match r with Ok y => exists a b, at_index l i a y b | Err e => e = IndexErr /\ no_index l i end.
Proof. exact @get_lemma. Qed.
Print Assumptions C16_python_getitem.
Theorem C16_python_setitem : forall A (l : list A) i x r, pl_set l i x = r <->
  match r with Ok l' => exists a y b, at_index l i a y b /\ l' = a ++ x :: b
  | Err e => e = IndexErr /\ no_index l i end.
Proof. exact @set_lemma. Qed.
Print Assumptions C16_python_setitem.
Theorem C16_python_delitem : forall A (l : list A) i r, pl_del l i = r <->
  match r with Ok l' => exists a y b, at_index l i a y b /\ l' = a ++ b
  | Err e => e = IndexErr /\ no_index l i end.
Proof. exact @del_lemma. Qed.
Print Assumptions C16_python_delitem.
Theorem C16_python_pop : forall A (l : list A) i r, pl_pop l i = r <->
  match r with Ok (y, l') => exists a b, at_index l i a y b /\ l' = a ++ b
  | Err e => e = IndexErr /\ no_index l i end.
Proof. exact @pop_lemma. Qed.
Print Assumptions C16_python_pop.
Theorem C16_python_insert : forall A (l : list A) i x, exists a b,
  l = a ++ b /\ pl_insert l i x = a ++ x :: b
  /\ Z.of_nat (List.length a)
     = (if i <? 0 then Z.max 0 (i + Z.of_nat (List.length l)) else Z.min i (Z.of_nat (List.length l)))%Z.
Proof. exact @insert_lemma. Qed.
Print Assumptions C16_python_insert.
Theorem C16_python_slice_positions : forall n s, match slice_positions n s with
  | Err e => e = ValueErr /\ step_of s = 0%Z
  | Ok ps => step_of s <> 0%Z /\ (forall x, In x ps <-> selected n s x) /\ in_order s ps
             /\ (forall x, In x ps -> x < n)
  end.
Proof. exact positions_lemma. Qed.
Print Assumptions C16_python_slice_positions.
Theorem C16_python_getslice : forall A (l : list A) s, match slice_positions (List.length l) s with
  | Err e => get_slice l s = Err e
  | Ok ps => exists xs, get_slice l s = Ok xs /\ Forall2 (fun p x => nth_error l p = Some x) ps xs
  end.
Proof. exact getslice_all. Qed.
Print Assumptions C16_python_getslice.
Theorem C16_python_setslice : forall A (l : list A) s xs, match slice_positions (List.length l) s with
  | Err e => pl_setslice l s xs = Err e
  | Ok ps =>
      if (step_of s =? 1)%Z
      then exists a m b, l = a ++ m ++ b /\ pl_setslice l s xs = Ok (a ++ xs ++ b)
           /\ ps = seq (List.length a) (List.length m)
           /\ (m = [] -> slice_end (Z.of_nat (List.length l)) (sl_start s) 0 0
                           (Z.of_nat (List.length l)) (Z.of_nat (List.length a)))
      else if Nat.eqb (List.length xs) (List.length ps)
           then exists l', pl_setslice l s xs = Ok l' /\ List.length l' = List.length l
                /\ Forall2 (fun p x => nth_error l' p = Some x) ps xs
                /\ (forall i, ~ In i ps -> nth_error l' i = nth_error l i)
           else pl_setslice l s xs = Err ValueErr
  end.
Proof. exact setslice_all. Qed.
Print Assumptions C16_python_setslice.
Theorem C16_python_delslice : forall A (l : list A) s, match slice_positions (List.length l) s with
  | Err e => pl_delslice l s = Err e
  | Ok ps => exists l', pl_delslice l s = Ok l' /\ outside l ps l'
  end.
Proof. exact delslice_all. Qed.
Print Assumptions C16_python_delslice.
Theorem C16_python_search : forall A (p : A -> bool) l,
  match pl_index p l with
  | Ok i => exists a x b, l = a ++ x :: b /\ List.length a = i /\ p x = true /\ forall y, In y a -> p y = false
  | Err e => e = ValueErr /\ forall y, In y l -> p y = false
  end
  /\ match pl_remove p l with
     | Ok l' => exists a x b, l = a ++ x :: b /\ l' = a ++ b /\ p x = true /\ forall y, In y a -> p y = false
     | Err e => e = ValueErr /\ forall y, In y l -> p y = false
     end
  /\ (pl_contains p l = true <-> exists x, In x l /\ p x = true)
  /\ pl_count p [] = 0 /\ forall x, pl_count p (x :: l) = (if p x then 1 else 0) + pl_count p l.
Proof. exact search_all. Qed.
Print Assumptions C16_python_search.
Theorem C16_python_sort : forall A key r (l : list A), match pl_sort key r l with
  | Ok l' => Permutation l' l /\ sorted_by key r l l'
  | Err e => exists a x b, l = a ++ x :: b /\ key x = Err e /\ forall y, In y a -> exists k, key y = Ok k
  end.
Proof. exact @sort_lemma. Qed.
Print Assumptions C16_python_sort.
Example C16_witness :
  get_slice [0;1;2;3;4;5] (Slice (Some (-1)) (Some 0) (Some (-2)))%Z = Ok [5;3;1]
  /\ pl_setslice [0;1;2;3] (Slice (Some 3) (Some 1) None)%Z [8;9] = Ok [0;1;2;8;9;3]
  /\ pl_setslice [0;1;2;3] (Slice None None (Some 2))%Z [8;9] = Ok [8;1;9;3]
  /\ pl_setslice [0;1;2;3] (Slice None None (Some 2))%Z [8] = Err ValueErr
  /\ pl_delslice [0;1;2;3;4] (Slice None None (Some (-2)))%Z = Ok [1;3]
  /\ pl_sort (fun x => Ok (Z.of_nat (Nat.modulo x 3))) true [3;1;4;2;5;6] = Ok [2;5;1;4;3;6]
  /\ pl_insert [0;1;2] (-1) 9 = [0;1;9;2] /\ pl_pop [0;1;2] (-3) = Ok (0, [1;2]).
Proof. repeat split. Qed.
Example C16_array_witness :
  fresh_seq sample /\ array_bounded sample /\ array_history integers sample array_ops
  /\ map s_value (array_values (run_array integers sample array_ops)) = [VInt 8; VInt 6; VInt 5; VInt 5; VInt 4]
  /\ (forall m, ms_eq integers m m = true).
Proof. exact array_example. Qed.

(* C17: members of an Array point back to it; for Lists this is list_ok. *)
Theorem C17_array_parents : forall V M (sch : mschema V M) q os,
  fresh_seq q -> array_history sch q os -> array_ok (run_array sch q os).
Proof. exact array_parents. Qed.
Print Assumptions C17_array_parents.
Theorem C17_list_parents : forall V M (sch : mschema V M) q os,
  fresh_seq q -> list_history sch q os ->
  forall s, In s (q_items (run_list sch q os)) ->
    h_parent (q_h (run_list sch q os)) s = Some (q_self q)
    /\ h_parent (q_h (run_list sch q os)) (h_elem (q_h (run_list sch q os)) s) = Some s.
Proof. exact list_parents. Qed.
Print Assumptions C17_list_parents.
(* a popped slot no longer points to the list *)
Theorem C17_popped_slot : forall V M (sch : mschema V M) q i s,
  snd (l_step sch q (Pop i)) = Ok (RItem s) -> h_parent (q_h (fst (l_step sch q (Pop i)))) s = None.
Proof. exact @popped_slot. Qed.
Print Assumptions C17_popped_slot.
(* Findings: item assignment of an element, and += *)
Theorem C17_setitem_element_refuted : exists q e,
  fresh_seq q /\ e < h_next (q_h q)
  /\ ~ array_ok (run_array integers q [Append (AVal (VInt 1)); SetItem 0 (AElem e)]).
Proof. exact array_setitem. Qed.
Print Assumptions C17_setitem_element_refuted.
Theorem C17_iadd_refuted : exists q e,
  fresh_seq q /\ e < h_next (q_h q) /\ ~ array_ok (run_array integers q [IAdd [e]]).
Proof. exact array_iadd. Qed.
Print Assumptions C17_iadd_refuted.

(* C18: defaults *)
Theorem C18_list_default_int : forall V M (sch : mschema V M) q z,
  list_ok q -> list_bounded q ->
  let q' := fst (l_step sch q (SetDefault (DInt z))) in
  let m := fst (ms_default sch (ms_new sch)) in
  match snd (ms_default sch (ms_new sch)) with
  | Ok _ => snd (l_step sch q (SetDefault (DInt z))) = Ok RNone
            /\ list_values q' = repeat m (Z.to_nat (Z.max z 0))
  | Err x => if (z <=? 0)%Z
             then snd (l_step sch q (SetDefault (DInt z))) = Ok RNone /\ list_values q' = []
             else snd (l_step sch q (SetDefault (DInt z))) = Err x /\ list_values q' = [m]
  end.
Proof. exact list_default_int. Qed.
Print Assumptions C18_list_default_int.
Theorem C18_default_none : forall V M (sch : mschema V M) q d,
  d = DNone \/ d = DUnspecified ->
  l_step sch q (SetDefault d) = (q, Ok RNone) /\ a_step sch q (SetDefault d) = (q, Ok RNone).
Proof. exact default_none. Qed.
Print Assumptions C18_default_none.
(* the members are then those of set(default), whose verdict is dropped *)
Theorem C18_list_default_iter : forall V M (sch : mschema V M) q it,
  list_ok q -> list_bounded q ->
  let q' := fst (l_step sch q (SetDefault (DIter it))) in
  let q2 := fst (l_step sch q (SetIt it)) in
  list_values q' = list_values q2
  /\ match snd (l_step sch q (SetIt it)) with
     | Ok _ => snd (l_step sch q (SetDefault (DIter it))) = Ok RNone
     | Err x => snd (l_step sch q (SetDefault (DIter it))) = Err x
     end.
Proof. exact list_default_iter. Qed.
Print Assumptions C18_list_default_iter.
(* set itself: members made from each value, True iff all converted; a
   TypeError means False and no members *)
Theorem C18_list_set : forall V M (sch : mschema V M) q vs,
  list_ok q -> list_bounded q ->
  let q' := fst (l_step sch q (SetIt (Iter vs None))) in
  (forall v, In v vs -> exists b, snd (ms_set sch (ms_new sch) v) = Ok b) ->
  list_values q' = map (fun v => fst (ms_set sch (ms_new sch) v)) vs
  /\ snd (l_step sch q (SetIt (Iter vs None)))
     = Ok (RBool (forallb (fun v => match snd (ms_set sch (ms_new sch) v) with Ok b => b | Err _ => false end) vs)).
Proof. exact list_set_all. Qed.
Print Assumptions C18_list_set.
(* an Array with an integer default raises TypeError, emptied *)
Theorem C18_array_default : forall V M (sch : mschema V M) q z,
  array_bounded q ->
  array_values (fst (a_step sch q (SetDefault (DInt z)))) = []
  /\ snd (a_step sch q (SetDefault (DInt z))) = Err TypeErr.
Proof. exact array_default_int. Qed.
Print Assumptions C18_array_default.
Example C18_witness :
  let q := run_list integers sample [Append (AVal (VInt 1)); SetDefault (DInt 3)] in
  list_ok q /\ list_bounded q /\ values_of q = [VInt 7; VInt 7; VInt 7]
  /\ values_of (run_list integers q [SetDefault (DInt (-2))]) = []
  /\ values_of (run_list integers q [SetDefault DUnspecified]) = [VInt 7; VInt 7; VInt 7]
  /\ values_of (run_list integers q [SetDefault (DIter (Iter [VText (lit "4"); VText (lit "x")] None))])
     = [VInt 4; VNone].
Proof. exact default_example. Qed.
