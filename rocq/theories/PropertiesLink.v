(* C103: elements that name others by path. *)
From Verif Require Import PyBase ModelUtil ModelScalar ModelDsl ModelRef ModelMessage ModelValidators ModelPaths SpecScalar SpecValidators SpecPaths SpecRef ProofPaths ProofLink ModelLink.
Local Open Scope string_scope.
Local Open Scope list_scope.

(* C103 *)

Theorem C103_target : forall t self arrays p xs c (absolute : bool), proper t -> exists_in t self -> address t arrays p xs -> sep_free c xs ->
  Forall (fun x => x <> []) xs -> (absolute = true \/ xs <> []) ->
  exists path, target_path ((if absolute then [c] else []) ++ join [c] xs) [c] = Ok path /\ ref_target t self path = Ok (Node p).
Proof. exact @target_found. Qed.
Print Assumptions C103_target.

Theorem C103_fq_name : forall t self p xs c, proper t -> exists_in t self -> address t false p xs -> sep_free c xs -> Forall (fun x => x <> []) xs ->
  exists s path, fq_name t (Node p) [c] = Ok s /\ target_path s [c] = Ok path /\ ref_target t self path = Ok (Node p).
Proof. exact @target_of_fq_name. Qed.
Print Assumptions C103_fq_name.

Theorem C103_way : forall t self c (absolute : bool) xs e, proper t -> exists_in t self -> sep_free c xs -> Forall (fun x => x <> []) xs -> (absolute = true \/ xs <> []) ->
  exists path, target_path ((if absolute then [c] else []) ++ join [c] xs) [c] = Ok path /\ (ref_target t self path = Ok e <-> takes_all t (Node []) (map Some xs) e).
Proof. exact @target_takes. Qed.
Print Assumptions C103_way.

Theorem C103_missing : forall t self c (absolute : bool) xs, proper t -> exists_in t self -> sep_free c xs -> Forall (fun x => x <> []) xs ->
  (absolute = true \/ xs <> []) -> (forall e, ~ takes_all t (Node []) (map Some xs) e) ->
  exists path, target_path ((if absolute then [c] else []) ++ join [c] xs) [c] = Ok path /\ ref_target t self path = Err KeyErr.
Proof. exact @ref_nowhere. Qed.
Print Assumptions C103_missing.

Theorem C103_reads : forall t place number paths h i j w raw p fuel n, ref_target t (place i) (paths i) = Ok (Node p) -> number (Node p) = j ->
  nth_error h i = Some (OfRef w None raw) -> nth_error h j = Some n -> not_ref n -> 1 <= fuel ->
  exists h', get_value (ref_find t place number paths) fuel h i = (h', Ok (node_value n)) /\ get_u (ref_find t place number paths) fuel h i = (h', Ok (node_u n))
    /\ pinned h' i [w] j.
Proof. exact @ref_reads. Qed.
Print Assumptions C103_reads.

Theorem C103_fields : forall t describe p l ls q qs, proper t -> Forall2 (fun l q => SpecPaths.leads t p l q /\ SpecPaths.writable l) (l :: ls) (q :: qs) ->
  exists f, forall fuel, f <= fuel ->
    (exists b : bool, fields_equal fuel MValue t describe (Node p) (map (path_text false) (l :: ls)) = Ok (if b then Pass else unequal (map (fun q => describe (Node q)) (q :: qs)) (describe (Node q)))
       /\ (b = true <-> Forall (fun r => equal_values (fd_value (describe (Node r))) (fd_value (describe (Node q)))) qs))
    /\ (exists b : bool, fields_equal fuel MU t describe (Node p) (map (path_text false) (l :: ls)) = Ok (if b then Pass else unequal (map (fun q => describe (Node q)) (q :: qs)) (describe (Node q)))
       /\ (b = true <-> Forall (fun r => fd_u (describe (Node r)) = fd_u (describe (Node q))) qs)).
Proof. exact @fields_compared. Qed.
Print Assumptions C103_fields.

Theorem C103_field_missing : forall t describe p tf ls qs path post x, proper t -> Forall2 (fun l q => SpecPaths.leads t p l q /\ SpecPaths.writable l) ls qs ->
  finds [] t (Node p) path true true (Err x) ->
  exists f, forall fuel, f <= fuel -> fields_equal fuel tf t describe (Node p) (map (path_text false) ls ++ path :: post) = Err x.
Proof. exact @field_missing. Qed.
Print Assumptions C103_field_missing.

Theorem C103_field_nothing : forall t describe p tf ls qs path post, proper t -> Forall2 (fun l q => SpecPaths.leads t p l q /\ SpecPaths.writable l) ls qs ->
  finds [] t (Node p) path true true (Ok (One None)) ->
  exists f, forall fuel, f <= fuel -> fields_equal fuel tf t describe (Node p) (map (path_text false) ls ++ path :: post) = Err AttributeErr.
Proof. exact @field_nothing. Qed.
Print Assumptions C103_field_nothing.

(* in the tree of SpecPaths, a Ref among the members of the list l, to an element by its qualified name or relative to the root *)
Example C103_case :
  bind (target_path (lit ".l.2.s") (lit ".")) (ref_target sample_tree (Node [0; 0; 2])) = Ok (Node [0; 2; 2])
  /\ bind (target_path (lit "a") (lit ".")) (ref_target sample_tree (Node [0; 0; 2])) = Ok (Node [0])
  /\ bind (target_path (lit "l/1/s") (lit "/")) (ref_target sample_tree (SlotOf [1; 2])) = Ok (Node [0; 1; 2])
  /\ bind (target_path (lit ".l.7") (lit ".")) (ref_target sample_tree (Node [0])) = Err KeyErr.
Proof. vm_compute. repeat split. Qed.
(* equal texts at two paths, unequal values *)
Example C103_fields_case :
  let describe e := match e with Node [0; 0; 2] => ModelValidators.Found (ModelScalar.VInt 1) (lit "1") (lit "first") | Node [0; 1; 2] => ModelValidators.Found (ModelScalar.VText (lit "1")) (lit "1") (lit "second") | _ => ModelValidators.Found ModelScalar.VNone [] [] end in
  fields_equal 9 MU sample_tree describe (Node [2]) [lit "[0]/s"; lit "1/s"] = Ok Pass
  /\ fields_equal 9 MValue sample_tree describe (Node [2]) [lit "[0]/s"; lit "1/s"] = Ok (Fail (lit "unequal") [(lit "labels", ModelScalar.VText (lit "first")); (lit "last_label", ModelScalar.VText (lit "second"))])
  /\ fields_equal 9 MValue sample_tree describe (Node [2]) [lit "[0]/s"; lit "nobody"] = Err LookupErr
  /\ fields_equal 9 MValue sample_tree describe (Node [2]) [lit "[0]/s"; lit "[3:]"] = Err AttributeErr.
Proof. vm_compute. repeat split. Qed.
(* a Ref at l[0] that names the Integer 7 at a *)
Example C103_reads_case :
  let h := [OfScalar (KInteger true) (Scalar (Some (ModelScalar.VInt 7)) (ModelScalar.VInt 7) (lit "7")); OfRef WNo None None] in
  let place i := match i with 0 => Node [0] | _ => Node [0; 0; 2] end in
  let number e := match e with Node [0] => 0 | _ => 1 end in
  snd (get_value (ref_find sample_tree place number (fun _ => [None; Some (lit "a")])) 1 h 1) = Ok (ModelScalar.VInt 7).
Proof. vm_compute. reflexivity. Qed.
