(* The assertions of tests/schema/test_properties.py computed on the models.
   Left out: repr, the private _frames, Properties objects got at through
   __dict__ (test_perverse) and __slots__. *)
From Verif Require Import PyBase ModelUtil ModelSeq ModelProps.
Local Open Scope string_scope.

(* classes 0, 1 and 2: Base, Middle (or Sub) and Lowest (or Override), each a
   subclass of the one before; Base has a Properties; so has class 2 when
   [again] *)
Definition start (base : list (string * nat)) (again : option (list (string * nat))) : world nat :=
  let l d := map (fun p => (lit (fst p), Val (snd p))) d in
  World (fun c => match c with 0 => [0] | 1 => [1; 0] | 2 => [2; 1; 0] | _ => [] end)
        (fun c => match c with 0 => Some 0 | 2 => option_map (fun _ => 1) again | _ => None end)
        (fun d => d) (fun _ _ => None) 2
        (fun r => match r with 0 => l base | 1 => match again with Some d => l d | None => [] end | _ => [] end)
        (fun i => i) (fun _ => NoLocal).
(* calls, each with what it gave *)
Definition runs (w : world nat) (os : list (wop nat)) : world nat := fold_left (fun w o => fst (world_step w o)) os w.
Definition out (w : world nat) (o : wop nat) : res (pout nat) := snd (world_step w o).
(* Class.properties == {...}, instance.properties == {...}: the same items in
   any order.  Instance i is the first one of class i. *)
Definition eq_items (l : list (str * nat)) (m : list (string * nat)) : bool :=
  Nat.eqb (List.length l) (List.length m)
  && forallb (fun p => match aget str_eqb (lit (fst p)) l with Some v => Nat.eqb v (snd p) | None => false end) m.
Definition class_is (w : world nat) (c : nat) (m : list (string * nat)) : bool :=
  match out w (OnClass c PItems) with Ok (POItems l) => eq_items l m | _ => false end.
Definition inst_is (w : world nat) (i : nat) (m : list (string * nat)) : bool :=
  match out w (OnInst i PItems) with Ok (POItems l) => eq_items l m | _ => false end.
Definition k (s : string) : str := lit s.
Definition kw (l : list (string * nat)) : list (str * nat) := map (fun p => (lit (fst p), snd p)) l.
Definition blah := 0.

(* test_empty: an instance of Sub that is thrown away is instance 1, another one
   instance 4 *)
Example test_empty :
  let w := World (w_mro (start [] None)) (w_own (start [] None)) (w_init (start [] None)) (w_map (start [] None)) 2
                 (w_dict (start [] None)) (fun i => if Nat.eqb i 4 then 1 else i) (w_local (start [] None)) in
  map (out w) [OnClass 0 PBool; OnInst 0 PBool; OnClass 1 PBool; OnInst 1 PBool] = repeat (Ok (POBool false)) 4
  /\ (let w := runs w [OnInst 1 (PSet (k "abc") 123)] in
      class_is w 1 [] && inst_is w 4 [] && class_is w 0 [] && inst_is w 0 [] = true)
  /\ (let w := runs w [OnInst 1 (PSet (k "abc") 123); OnClass 1 (PSet (k "def") 456)] in
      class_is w 0 [] && inst_is w 0 [] = true).
Proof. repeat split; vm_compute; reflexivity. Qed.
(* test_dictlike *)
Example test_dictlike :
  let w := start [("def", 456); ("abc", 123)] None in
  class_is w 0 [("abc", 123); ("def", 456)] = true
  /\ map (out w) (map (OnClass 0)
       [PGetOr (k "abc") 0; PGetOr (k "blah") 5; PPopItem; PContains (k "abc"); PContains (k "ghi"); PBool])
     = [Ok (POSlot (Val 123)); Ok (POSlot (Val 5)); Err NotImplErr; Ok (POBool true); Ok (POBool false); Ok (POBool true)]
  /\ class_is w 0 [("ghi", 789)] = false
  /\ out (runs w [OnClass 0 PClear]) (OnClass 0 PBool) = Ok (POBool false).
Proof. repeat split; vm_compute; reflexivity. Qed.
(* test_instance_population *)
Example test_instance_population :
  let w := runs (start [] None) [OnInst 0 (PUpdate (kw [("a", 1); ("b", 2); ("c", 3)])); OnInst 1 (PSet (k "d") 4)] in
  inst_is w 0 [("a", 1); ("b", 2); ("c", 3)] && class_is w 0 [] && inst_is w 1 [("d", 4)] && class_is w 1 []
  && inst_is w 2 [] = true.
Proof. vm_compute. reflexivity. Qed.
(* test_instance_overlay: b is instance 0, the x of the test is 9 *)
Example test_instance_overlay :
  let steps := [OnClass 0 (PSet (k "a") 1); OnInst 0 (PSet (k "b") 2); OnInst 0 (PDel (k "a"));
                OnInst 0 (PUpdate (kw [("b", 9); ("c", 3); ("d", 4)])); OnInst 0 (PDel (k "b"));
                OnInst 0 (PSetdefault (k "e") 5); OnInst 0 (PSetdefault (k "e") blah); OnInst 0 (PPop (k "e") (Some blah));
                OnInst 0 (PPop (k "e") (Some blah)); OnInst 0 PClear; OnClass 0 (PSet (k "b") 2);
                OnClass 0 (PUpdate (kw [("c", 3); ("d", 4); ("e", 5)])); OnClass 0 (PDel (k "e"))] in
  let w n := runs (start [] None) (firstn n steps) in
  class_is (w 2) 0 [("a", 1)] && inst_is (w 2) 0 [("a", 1); ("b", 2)]
  && inst_is (w 3) 0 [("b", 2)] && class_is (w 3) 0 [("a", 1)]
  && inst_is (w 4) 0 [("b", 9); ("c", 3); ("d", 4)]
  && inst_is (w 5) 0 [("c", 3); ("d", 4)]
  && inst_is (w 7) 0 [("c", 3); ("d", 4); ("e", 5)]
  && inst_is (w 10) 0 [] && class_is (w 10) 0 [("a", 1)]
  && inst_is (w 11) 0 [("b", 2)] && class_is (w 11) 0 [("a", 1); ("b", 2)]
  && inst_is (w 13) 0 [("b", 2); ("c", 3); ("d", 4)]
  && class_is (w 13) 0 [("a", 1); ("b", 2); ("c", 3); ("d", 4)] = true
  /\ out (w 5) (OnInst 0 (PGet (k "b"))) = Err KeyErr
  /\ map (fun n => out (w n) (nth n steps (OnClass 0 PBool))) [5; 6; 7; 8]
     = [Ok (POSlot (Val 5)); Ok (POSlot (Val 5)); Ok (POSlot (Val 5)); Ok (POSlot (Val blah))]
  /\ out (w 9) (OnInst 0 (PPop (k "e") None)) = Err KeyErr.
Proof. repeat split; vm_compute; reflexivity. Qed.
(* test_instance_member_assignment: the text detached is 7 *)
Example test_instance_member_assignment :
  let w := start [("abc", 123)] None in
  let w2 := runs w [Assign 0 (kw [("abc", 7)]); OnClass 0 (PSet (k "def") 456)] in
  inst_is w 0 [("abc", 123)] && inst_is (runs w [Assign 0 (kw [("abc", 7)])]) 0 [("abc", 7)]
  && inst_is w2 0 [("abc", 7)] = true.
Proof. vm_compute. reflexivity. Qed.
(* test_subclass_overlay *)
Example test_subclass_overlay :
  let steps := [OnClass 2 (PSet (k "def") 456); OnClass 0 (PSet (k "abc") 123); OnClass 1 (PDel (k "abc"));
                OnClass 1 (PSetdefault (k "ghi") 789); OnClass 1 (PSetdefault (k "ghi") blah);
                OnClass 2 (PPop (k "def") (Some blah)); OnClass 2 (PPop (k "def") (Some blah)); OnClass 2 PClear] in
  let w n := runs (start [] None) (firstn n steps) in
  let are n a b c := class_is (w n) 0 a && class_is (w n) 1 b && class_is (w n) 2 c in
  are 1 [] [] [("def", 456)] && are 2 [("abc", 123)] [("abc", 123)] [("abc", 123); ("def", 456)]
  && are 3 [("abc", 123)] [] [("def", 456)]
  && are 5 [("abc", 123)] [("ghi", 789)] [("ghi", 789); ("def", 456)]
  && are 7 [("abc", 123)] [("ghi", 789)] [("ghi", 789)]
  && are 8 [("abc", 123)] [("ghi", 789)] [] = true
  /\ map (out (w 3)) [OnClass 0 (PContains (k "abc")); OnClass 1 (PContains (k "abc")); OnClass 1 (PGet (k "abc"));
                      OnClass 2 (PContains (k "abc")); OnClass 2 (PGet (k "abc"))]
     = [Ok (POBool true); Ok (POBool false); Err KeyErr; Ok (POBool false); Err KeyErr]
  /\ map (fun n => out (w n) (nth n steps (OnClass 0 PBool))) [5; 6] = [Ok (POSlot (Val 456)); Ok (POSlot (Val blah))]
  /\ out (w 7) (OnClass 2 (PPop (k "def") None)) = Err KeyErr.
Proof. repeat split; vm_compute; reflexivity. Qed.
(* test_subclass_override *)
Example test_subclass_override :
  let w := start [] (Some [("def", 456)]) in
  let w2 := runs w [OnClass 0 (PSet (k "abc") 123)] in
  class_is w 2 [("def", 456)] && class_is w 1 [] && class_is w 0 []
  && class_is w2 0 [("abc", 123)] && class_is w2 1 [("abc", 123)] && class_is w2 2 [("def", 456)] = true.
Proof. vm_compute. reflexivity. Qed.
(* test_initialization *)
Example test_initialization :
  let w := start [("abc", 123)] None in
  let w1 := runs w [OnClass 0 (PSet (k "def") 456)] in
  let w2 := runs w1 [OnClass 0 (PDel (k "abc"))] in
  class_is w 0 [("abc", 123)] && class_is w1 0 [("abc", 123); ("def", 456)] && class_is w2 0 [("def", 456)] = true.
Proof. vm_compute. reflexivity. Qed.
