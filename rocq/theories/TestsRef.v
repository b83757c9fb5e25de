(* The assertions of tests/schema/test_refs.py, computed on the models. *)
From Verif Require Import PyBase ModelUtil ModelScalar ModelRef.
Local Open Scope string_scope.

(* 0: main, 1: aux, 2: other *)
Definition find (r : nat) : res nat := Ok 0%nat.
Definition dict (w : writable) (main : pyval) : heap :=
  [OfScalar (KInteger true) (fst (scalar_set (KInteger true) blank main)); OfRef w None None; OfScalar (KInteger true) blank].
(* value and u of main and of aux *)
Definition seen (h : heap) : res pyval * res str * res pyval * res str :=
  (snd (get_value find 9 h 0), snd (get_u find 9 h 0), snd (get_value find 9 h 1), snd (get_u find 9 h 1)).
Definition both (v : pyval) (u : string) : res pyval * res str * res pyval * res str := (Ok v, Ok (lit u), Ok v, Ok (lit u)).
Example test_binops : seen (dict WIgnore (VInt 5)) = both (VInt 5) "5".
Proof. vm_compute. reflexivity. Qed.
Example test_writable_ignore : let '(h, r) := ref_set find 9 (dict WIgnore VNone) 1 (VInt 6) in
  r = Ok true /\ seen h = both VNone "".
Proof. split; vm_compute; reflexivity. Qed.
Example test_writable : let '(h, r) := ref_set find 9 (dict WYes VNone) 1 (VInt 6) in
  r = Ok true /\ seen h = both (VInt 6) "6".
Proof. split; vm_compute; reflexivity. Qed.
Example test_not_writable : snd (ref_set find 9 (dict WNo VNone) 1 (VInt 6)) = Err TypeErr.
Proof. vm_compute. reflexivity. Qed.
Example test_dereference_twice :
  let h1 := fst (ref_set find 9 (dict WYes VNone) 1 (VInt 1)) in
  let h2 := fst (ref_set find 9 h1 1 (VInt 1)) in
  seen h1 = both (VInt 1) "1" /\ seen h2 = both (VInt 1) "1"
  /\ snd (target find h2 1) = Ok 0%nat /\ snd (target find (fst (target find h2 1)) 1) = Ok 0%nat.
Proof. vm_compute. repeat split. Qed.
