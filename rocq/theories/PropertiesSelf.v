(* C89 (sequences as their own argument; inherited methods of list), C90 (mappings). *)
From Verif Require Import PyBase PyList ModelScalar ModelSeq SpecSeq ModelMap SpecMap ModelSelf SpecSelf ProofSelf ProofSelf2.

Theorem C89_list_extend : forall (V M : Type) (sch : mschema V M), forall q fuel, list_bounded q -> q_items q <> [] ->
  let '(q', r) := l_extend_self sch fuel q in
  r = Err OutOfFuel /\ List.length (l_members q') = List.length (l_members q) + fuel
  /\ cycles (l_members q) (l_members q') /\ (numbered q -> numbered q') /\ q_self q' = q_self q.
Proof. exact @list_extend_endless. Qed.
Print Assumptions C89_list_extend.

Theorem C89_list_extend_empty : forall (V M : Type) (sch : mschema V M), forall q fuel, q_items q = [] -> l_extend_self sch fuel q = (q, Ok tt).
Proof. exact @list_extend_empty. Qed.
Print Assumptions C89_list_extend_empty.

Theorem C89_array_extend : forall (V M : Type) (sch : mschema V M), forall q fuel, q_items q <> [] ->
  let '(q', r) := a_extend_self sch fuel q in
  r = Err OutOfFuel /\ List.length (q_items q') = List.length (q_items q) + fuel
  /\ cycles (q_items q) (q_items q') /\ (array_ok q -> array_ok q') /\ contents_kept q q'.
Proof. exact @array_extend_endless. Qed.
Print Assumptions C89_array_extend.

Theorem C89_array_extend_empty : forall (V M : Type) (sch : mschema V M), forall q fuel, q_items q = [] -> a_extend_self sch fuel q = (q, Ok tt).
Proof. exact @array_extend_empty. Qed.
Print Assumptions C89_array_extend_empty.

Theorem C89_list_set : forall (V M : Type) (sch : mschema V M), forall q, l_set_self sch q = (Seq (q_h q) (q_self q) [], Ok true).
Proof. exact @list_set_self. Qed.
Print Assumptions C89_list_set.

Theorem C89_array_set : forall (V M : Type) (sch : mschema V M), forall q, a_set_self sch q = (Seq (q_h q) (q_self q) [], Ok true).
Proof. exact @array_set_self. Qed.
Print Assumptions C89_array_set.

Theorem C89_list_set_elements : forall (V M : Type) (sch : mschema V M), forall q es, list_ok q -> list_bounded q ->
  let '(q', r) := l_set_elements sch q es in
  list_ok q' /\ q_self q' = q_self q
  /\ let '(ms, c, x) := each_set sch (map (h_con (q_h q)) es) in
     match x with
     | None => list_values q' = ms /\ r = Ok c
     | Some x => list_values q' = [] /\ r = match x with TypeErr => Ok false | _ => Err x end
     end.
Proof. exact @list_set_elements. Qed.
Print Assumptions C89_list_set_elements.

Theorem C89_array_set_elements : forall (V M : Type) (sch : mschema V M), forall q es, array_bounded q ->
  let '(q', r) := a_set_elements sch q es in
  array_ok q' /\ q_self q' = q_self q
  /\ let '(ms, c, x) := each_set sch (map (h_con (q_h q)) es) in
     match x with
     | None => array_values q' = ms /\ r = Ok c
     | Some x => array_values q' = [] /\ r = match x with TypeErr => Ok false | _ => Err x end
     end.
Proof. exact @array_set_elements. Qed.
Print Assumptions C89_array_set_elements.

Theorem C89_list_slice : forall (V M : Type) (sch : mschema V M), forall q sl, NoDup (q_items q) -> list_bounded q -> numbered q ->
  let '(q', r) := l_setslice_self sch q sl in
  contents_kept q q'
  /\ match pl_setslice (l_members q) sl (l_members q) with
     | Ok ms => r = Ok tt /\ l_members q' = ms /\ numbered q'
     | Err x => r = Err x /\ l_members q' = l_members q /\ numbered q'
     end.
Proof. exact @list_slice_self. Qed.
Print Assumptions C89_list_slice.

Theorem C89_list_whole_slice : forall (V M : Type) (sch : mschema V M), forall q, list_ok q -> list_bounded q ->
  let '(q', r) := l_setslice_self sch q whole_slice in
  r = Ok tt /\ list_ok q' /\ l_members q' = l_members q /\ contents_kept q q'.
Proof. exact @list_whole_self. Qed.
Print Assumptions C89_list_whole_slice.

Theorem C89_array_slice : forall (V M : Type) (sch : mschema V M), forall q sl, let '(q', r) := a_setslice_self sch q sl in
  contents_kept q q' /\ (array_ok q -> array_ok q')
  /\ match pl_setslice (q_items q) sl (q_items q) with
     | Ok l => r = Ok tt /\ q_items q' = l
     | Err x => r = Err x /\ q_items q' = q_items q
     end.
Proof. exact @array_slice_self. Qed.
Print Assumptions C89_array_slice.

Theorem C89_list_hidden : forall (M : Type) (q : seqst M), list_bounded q ->
  (forall x, In x (raw_reversed q) \/ In x (raw_copy q) \/ (exists n, In x (raw_mul q n)) -> ~ In x (l_members q))
  /\ map (h_elem (q_h q)) (raw_reversed q) = rev (l_members q)
  /\ map (h_elem (q_h q)) (raw_copy q) = l_members q
  /\ (forall n, map (h_elem (q_h q)) (raw_mul q n) = List.concat (repeat (l_members q) (Z.to_nat n)))
  /\ (forall other, exists l, raw_add q other = l ++ other /\ map (h_elem (q_h q)) l = l_members q
                              /\ forall x, In x l -> ~ In x (l_members q)).
Proof. exact @list_raw. Qed.
Print Assumptions C89_list_hidden.

(* Finding: a slice assignment of the list to itself that raises ValueError leaves members that point to no slot of the list. *)

Theorem C89_failed_slice_refuted : exists q sl, list_ok q /\ list_bounded q
  /\ let '(q', r) := l_setslice_self integers q sl in r = Err ValueErr /\ ~ list_ok q'.
Proof. exact @failed_slice. Qed.
Print Assumptions C89_failed_slice_refuted.

Example C89_three : list_ok three /\ list_bounded three /\ values_of three = [VInt 1; VInt 2; VInt 3].
Proof.
  split; [split|split; [split|reflexivity]].
  - vm_compute. repeat constructor; cbn; lia.
  - intros [|[|[|i]]] s Hs; vm_compute in Hs; try (injection Hs as <-; vm_compute; auto); destruct i; discriminate.
  - intros s Hs. vm_compute in Hs. destruct Hs as [<-|[<-|[<-|[]]]]; vm_compute; lia.
  - intros s t Hs Ht. vm_compute in Hs, Ht. destruct Hs as [<-|[<-|[<-|[]]]]; destruct Ht as [<-|[<-|[<-|[]]]]; vm_compute; lia.
Qed.
(* extend, stopped after five members *)
Example C89_extend_five :
  values_of (fst (l_extend_self integers 5 three)) = map VInt [1; 2; 3; 1; 2; 3; 1; 2]%Z
  /\ map (h_name (q_h (fst (l_extend_self integers 5 three)))) (q_items (fst (l_extend_self integers 5 three)))
     = map lit ["0"; "1"; "2"; "3"; "4"; "5"; "6"; "7"]%string.
Proof. now vm_compute. Qed.
(* three[1:1] = three *)
Example C89_slice_inserted :
  values_of (fst (l_setslice_self integers three (Slice (Some 1) (Some 1) None)%Z)) = map VInt [1; 1; 2; 3; 2; 3]%Z.
Proof. now vm_compute. Qed.
(* numbers set to elements: none is accepted *)
Example C89_elements : let '(q, r) := l_set_elements integers three [1; 1] in
  values_of q = [VNone; VNone] /\ r = Ok false /\ s_value (h_con (q_h three) 1) = VInt 5.
Proof. now vm_compute. Qed.
Example C89_reversed : raw_reversed three <> rev (l_members three) /\ List.length (raw_reversed three) = 3.
Proof. split; [vm_compute; discriminate|reflexivity]. Qed.

(* ------------------------------ C90 ------------------------------ *)

Theorem C90_dict_set : forall (V M : Type) (cls : nat -> ecls V M) (fields : list field) (minf : minimum), NoDup (map f_name fields) -> forall own s given, dict_shape fields s -> given <> Some OtherPolicy ->
  let '(s', r) := dict_set_self cls fields minf IsDict own s given in
  dict_shape fields s' /\ untouched (m_h s) (m_h s')
  /\ set_self_outcome cls fields (match given with Some p => p | None => own end) (fun _ => true) s' r.
Proof. exact @dict_self. Qed.
Print Assumptions C90_dict_set.

Theorem C90_sparse_set : forall (V M : Type) (cls : nat -> ecls V M) (fields : list field) (minf : minimum), NoDup (map f_name fields) -> forall isa : nat -> nat -> bool, isa_refl isa -> forall own s given, sparse_shape isa fields s -> given <> Some OtherPolicy ->
  let needed := required cls minf in
  let '(s', r) := dict_set_self cls fields minf IsSparse own s given in
  sparse_shape isa fields s' /\ untouched (m_h s) (m_h s')
  /\ (forall f, In f fields -> (content s' (f_name f) = None <-> needed f = false))
  /\ if Nat.eqb (List.length (filter needed fields)) (List.length (m_items s))
     then set_self_outcome cls fields (match given with Some p => p | None => own end) needed s' r
     else r = Err RuntimeErr /\ forall f, In f fields -> content s' (f_name f) = if needed f then Some (c_new (cls (f_class f))) else None.
Proof. exact @sparse_self. Qed.
Print Assumptions C90_sparse_set.

Theorem C90_bad_policy : forall (V M : Type) (cls : nat -> ecls V M) (fields : list field) (minf : minimum), forall fl own s, dict_set_self cls fields minf fl own s (Some OtherPolicy) = (do_reset cls fields minf fl s, Err AssertErr).
Proof. exact @set_self_bad_policy. Qed.
Print Assumptions C90_bad_policy.

Theorem C90_dict_update : forall (V M : Type) (cls : nat -> ecls V M) (fields : list field), forall s, dict_shape fields s ->
  let '(s', r) := update_self (map_setitem cls) s in
  same_members s s' /\ dict_shape fields s'
  /\ (forall i, ~ In i (map snd (m_items s)) -> e_con (m_h s') i = e_con (m_h s) i)
  /\ match r with
     | Ok _ => forall e, In e (map snd (m_items s)) -> e_con (m_h s') e = fst (own_set cls s e) /\ exists b, snd (own_set cls s e) = Ok b
     | Err x => (exists e, In e (map snd (m_items s)) /\ snd (own_set cls s e) = Err x /\ e_con (m_h s') e = fst (own_set cls s e))
                /\ forall e, In e (map snd (m_items s)) -> e_con (m_h s') e = e_con (m_h s) e \/ e_con (m_h s') e = fst (own_set cls s e)
     end.
Proof. exact @dict_update_self. Qed.
Print Assumptions C90_dict_update.

Theorem C90_sparse_update : forall (V M : Type) (cls : nat -> ecls V M) (fields : list field), NoDup (map f_name fields) -> forall isa : nat -> nat -> bool, forall s, sparse_shape isa fields s ->
  let '(s', r) := update_self (sparse_setitem cls isa fields) s in same_mapping s s' /\ r = Ok tt.
Proof. exact @sparse_update_self. Qed.
Print Assumptions C90_sparse_update.

(* a Dict of two Integers holding 1 and 2 *)
Definition couple : mapst scalar :=
  run_dict sample_classes Nat.eqb sample_fields (nm "d") MinNone Subset
    (fst (construct_map sample_classes Nat.eqb sample_fields MinNone IsDict Subset (sample_heap false) 0 None))
    [MSet (Pairs (Iter [(nm "a", VInt 1); (nm "b", VInt 2)] None)) None].
Example C90_case : seen_values couple = [(nm "a", VInt 1); (nm "b", VInt 2)]
  /\ let '(s', r) := dict_set_self sample_classes sample_fields MinNone IsDict Subset couple None in
     seen_values s' = [(nm "a", VNone); (nm "b", VNone)] /\ r = Ok false.
Proof. now vm_compute. Qed.
(* as a SparseDict it had two members; only one is required *)
Example C90_sparse_case : snd (dict_set_self sample_classes sample_fields MinRequired IsSparse Subset couple None) = Err RuntimeErr.
Proof. reflexivity. Qed.
Example C90_shape : NoDup (map f_name sample_fields) /\ dict_shape sample_fields couple /\ sparse_shape Nat.eqb sample_fields couple
  /\ isa_refl Nat.eqb.
Proof.
  split; [|split; [|split]].
  - vm_compute. repeat constructor; cbn; intuition discriminate.
  - split; [|split; [|split]].
    + vm_compute. repeat constructor; cbn; intuition discriminate.
    + intros k. vm_compute. tauto.
    + vm_compute. repeat constructor; cbn; lia.
    + intros ke Hin. vm_compute in Hin. destruct Hin as [<-|[<-|[]]].
      * exists (Field (nm "a") 0). split; [now left|]. vm_compute. repeat split; lia.
      * exists (Field (nm "b") 1). split; [right; now left|]. vm_compute. repeat split; lia.
  - split; [vm_compute; repeat constructor; cbn; intuition discriminate|].
    intros k e Hin. vm_compute in Hin. destruct Hin as [[= <- <-]|[[= <- <-]|[]]].
    + split; [vm_compute; lia|]. split; [reflexivity|]. exists (Field (nm "a") 0). split; [now left|]. now split.
    + split; [vm_compute; lia|]. split; [reflexivity|]. exists (Field (nm "b") 1). split; [right; now left|]. now split.
  - exact Nat.eqb_refl.
Qed.
