(* The assertions of tests/schema/test_forms.py (inheritance) and of the dsl
   tests of tests/schema/test_base.py, test_containers.py and
   test_properties.py, computed on the models. *)
From Verif Require Import PyBase ModelUtil ModelSeq ModelProps ModelDsl SpecDsl.
Local Open Scope string_scope.

(* the classes of SpecDsl: Element 1, Dict 2, Sequence 3, String 4, Integer 5,
   Form 6, Enum 7, Ref 8 *)
Definition run (os : list (kop nat)) : classes nat := run_k no_text sample_classes os.
Definition outcome (os : list (kop nat)) (o : kop nat) : res nat := snd (kstep no_text (run os) o).
(* an attribute of the class the last call made *)
Definition attr (os : list (kop nat)) (c : nat) (a : string) : option (value nat) := getattr (run os) c (lit a).
Definition objs (l : list nat) : list (value nat) := map VObj l.

(* tests/schema/test_base.py test_dsl_validated_by; the validators are numbers,
   as in the tests; the classes made are numbered from 9 *)
Definition validators (os : list (kop nat)) : option (value nat) := attr os (8 + List.length os) "validators".
Example test_dsl_validated_by :
  let made := KCall 1 (lit "using") (AKw [(lit "validators", VSeq true (objs [123; 456]))]) in
  validators [made] = Some (VSeq false (objs [123; 456]))
  /\ validators [KCall 1 (lit "validated_by") (AVals (objs [123; 456]))] = Some (VSeq false (objs [123; 456]))
  /\ validators [made; KCall 9 (lit "validated_by") (AVals (objs [789]))] = Some (VSeq false (objs [789]))
  /\ outcome [] (KCall 1 (lit "validated_by") (AVals [VClass 0])) = Err TypeErr.
Proof. repeat split; vm_compute; reflexivity. Qed.
(* test_dsl_including_validators *)
Example test_dsl_including_validators :
  let base := KCall 1 (lit "validated_by") (AVals (objs [1; 2; 3])) in
  let including p := validators [base; KCall 9 (lit "including_validators") (ASplice (objs [4; 5; 6]) p false)] in
  validators [base] = Some (VSeq false (objs [1; 2; 3]))
  /\ including None = Some (VSeq false (objs [1; 2; 3; 4; 5; 6]))
  /\ including (Some 0%Z) = Some (VSeq false (objs [4; 5; 6; 1; 2; 3]))
  /\ including (Some 1%Z) = Some (VSeq false (objs [1; 4; 5; 6; 2; 3]))
  /\ including (Some (-2)%Z) = Some (VSeq false (objs [1; 2; 4; 5; 6; 3]))
  /\ validators [KCall 1 (lit "including_validators") (ASplice (objs [1]) None false)] = Some (VSeq false (objs [1])).
Proof. repeat split; vm_compute; reflexivity. Qed.
(* tests/schema/test_containers.py test_dsl_descent_validated_by,
   test_dsl_including_descent_validators; of Dict, where the tests use
   Sequence *)
Definition descent (os : list (kop nat)) : option (value nat) := attr os (8 + List.length os) "descent_validators".
Example test_dsl_descent_validators :
  let made := KCall 2 (lit "using") (AKw [(lit "descent_validators", VSeq true (objs [123; 456]))]) in
  let base := KCall 2 (lit "descent_validated_by") (AVals (objs [1; 2; 3])) in
  let including p := descent [base; KCall 9 (lit "including_descent_validators") (ASplice (objs [4; 5; 6]) p false)] in
  descent [made] = Some (VSeq true (objs [123; 456]))
  /\ descent [KCall 2 (lit "descent_validated_by") (AVals (objs [123; 456]))] = Some (VSeq false (objs [123; 456]))
  /\ descent [made; KCall 9 (lit "descent_validated_by") (AVals (objs [789]))] = Some (VSeq false (objs [789]))
  /\ outcome [] (KCall 2 (lit "descent_validated_by") (AVals [VClass 0])) = Err TypeErr
  /\ descent [base] = Some (VSeq false (objs [1; 2; 3]))
  /\ including None = Some (VSeq false (objs [1; 2; 3; 4; 5; 6]))
  /\ including (Some 0%Z) = Some (VSeq false (objs [4; 5; 6; 1; 2; 3]))
  /\ including (Some 1%Z) = Some (VSeq false (objs [1; 4; 5; 6; 2; 3]))
  /\ including (Some (-2)%Z) = Some (VSeq false (objs [1; 2; 4; 5; 6; 3]))
  /\ descent [KCall 2 (lit "including_descent_validators") (ASplice (objs [1]) None false)] = Some (VSeq false (objs [1])).
Proof. repeat split; vm_compute; reflexivity. Qed.
(* tests/schema/test_containers.py test_dsl_of *)
Definition named (c : nat) (s : string) : kop nat := KCall c (lit "named") (AOne (VText (lit s))).
Example test_dsl_of :
  outcome [] (KCall 3 (lit "of") (AVals [])) = Err TypeErr
  /\ attr [KCall 3 (lit "of") (AVals [VClass 5])] 9 "member_schema" = Some (VClass 5)
  /\ (let os := [named 5 "x"; named 5 "y"; KCall 3 (lit "of") (AVals [VClass 9; VClass 10])] in
      (* the Sequence is 11, the Dict made on the way 12 *)
      attr os 11 "member_schema" = Some (VClass 12)
      /\ mro (run os) 12 = [12; 2; 1; 0]
      /\ attr os 12 "field_schema" = Some (VSeq true [VClass 9; VClass 10])).
Proof. repeat split; vm_compute; reflexivity. Qed.
(* tests/schema/test_base.py test_naming *)
Example test_naming :
  attr [named 1 "unicode"] 9 "name" = Some (VText (lit "unicode"))
  /\ attr [KCall 1 (lit "named") (AOne VNone)] 9 "name" = Some VNone.
Proof. split; reflexivity. Qed.
(* tests/schema/test_properties.py test_dsl: String.with_properties is 9,
   using(properties=...) 10 *)
Definition class_items (os : list (kop nat)) (c : nat) : res (pout nat) :=
  snd (class_step c PItems (k_props (run os))).
Example test_dsl :
  let os := [KCall 4 (lit "with_properties") (AProps [(lit "abc", 123)]);
             KCall 9 (lit "using") (AKw [(lit "properties", VDict [(lit "def", 456)])])] in
  let k := run os in
  let later := fst (class_step 9 (PSet (lit "ghi") 789) (k_props k)) in
  class_items os 4 = Ok (POItems [(lit "label", 1)])
  /\ class_items os 9 = Ok (POItems [(lit "abc", 123); (lit "label", 1)])
  /\ class_items os 10 = Ok (POItems [(lit "def", 456)])
  /\ snd (class_step 10 PItems later) = Ok (POItems [(lit "def", 456)]).
Proof. repeat split; vm_compute; reflexivity. Qed.

(* tests/schema/test_forms.py test_inheritance_straight and
   test_inheritance_diamond: the names of the fields of a class, and which of
   String (4) and Integer (5) each field is *)
Definition field (k : classes nat) (v : value nat) : res (name * nat) :=
  match v with
  | VClass c => rmap (fun n => (n, if memb Nat.eqb 5 (mro k c) then 5 else 4)) (name_of k v)
  | _ => Err TypeErr
  end.
Definition fields (os : list (kop nat)) (c : nat) : list (res (name * nat)) :=
  match attr os c "field_schema" with Some (VSeq _ l) => map (field (run os)) l | _ => [] end.
Definition f (s : string) (c : nat) : res (name * nat) := Ok (Some (lit s), c).
Definition cls (bases : list nat) (members : list (string * value nat)) : kop nat :=
  KDeclare bases (map (fun p => (lit (fst p), snd p)) members) None.
Example test_inheritance_straight :
  (* Base is 10, Sub 12; each field is a renamed copy *)
  let os := [cls [6] [("base_member", VClass 4)]; cls [10] [("added_member", VClass 4)]] in
  fields [cls [6] [("base_member", VClass 4)]] 10 = [f "base_member" 4]
  /\ fields os 10 = [f "base_member" 4]
  /\ fields os 12 = [f "base_member" 4; f "added_member" 4].
Proof. repeat split; vm_compute; reflexivity. Qed.
Example test_inheritance_diamond :
  (* A is 10, B is 12 *)
  let ab := [cls [6] [("a_member", VClass 4)]; cls [6] [("b_member", VClass 4)]] in
  fields (ab ++ [cls [10; 12] []])%list 13 = [f "a_member" 4; f "b_member" 4]
  /\ fields (ab ++ [cls [12; 10] []])%list 13 = [f "b_member" 4; f "a_member" 4]
  /\ fields (ab ++ [cls [10; 12] [("ab_member", VClass 4)]])%list 14 = [f "a_member" 4; f "b_member" 4; f "ab_member" 4]
  /\ fields (ab ++ [cls [10; 12] [("a_member", VClass 5)]])%list 14 = [f "b_member" 4; f "a_member" 5]
  /\ fields (ab ++ [cls [12; 10] [("a_member", VClass 5); ("b_member", VClass 5)]])%list 15
     = [f "a_member" 5; f "b_member" 5]
  (* BA3 and BA4: Integer.named is 13 *)
  /\ fields (ab ++ [named 5 "b_member"; cls [12; 10] [("field_schema", VSeq false [VClass 13]); ("a_member", VClass 5)]])%list 15
     = [f "b_member" 5; f "a_member" 5]
  /\ fields (ab ++ [named 5 "ab_member"; cls [12; 10] [("field_schema", VSeq false [VClass 13]); ("ab_member", VClass 4)]])%list 15
     = [f "b_member" 4; f "a_member" 4; f "ab_member" 4].
Proof. repeat split; vm_compute; reflexivity. Qed.
