(* Assertions of tests/test_forms.py, tests/test_richtypes.py,
   tests/test_utils.py and tests/test_schema.py, computed on the models. *)
From Verif Require ModelPaths TestsSeq.
From Verif Require Import PyBase ModelUtil ModelScalar ModelFlat ModelNest ModelMessage ModelNetwork ModelDesc SpecMessage.
Local Open Scope string_scope.

Definition t (s : string) : pyval := VText (lit s).
Definition nm (s : string) : name := Some (lit s).

(* tests/test_forms.py *)
Definition request_data : list (string * pyval) :=
  map (fun p => (fst p, t (snd p)))
  [("abc", "123"); ("surname", "SN"); ("xjioj", "1232"); ("age", "99"); ("fname", "FN"); ("ns_fname", "ns_FN");
   ("ns_surname", "ns_SN"); ("ns_snacks_0_name", "cheez"); ("ns_snacks_1_name", "chipz"); ("ns_snacks_2_name", "chimp");
   ("ns_squiznart", "xyyzy"); ("ns_age", "23")].
Definition simple_form1 (n : name) : schema :=
  SDict n None [(true, SScalar (nm "fname") (KString true)); (true, SScalar (nm "surname") (KString true));
           (true, SScalar (nm "age") (KInteger true));
           (true, SList (nm "snacks") true 1024 (SScalar (nm "name") (KString true)))].
Definition form_value (f s : string) (age : Z) (snacks : list string) : data :=
  DMap [(nm "fname", DVal (t f)); (nm "surname", DVal (t s)); (nm "age", DVal (VInt age)); (nm "snacks", TestsSeq.texts snacks)].
Example test_straight_parse :
  TestsSeq.gives (simple_form1 None) request_data (form_value "FN" "SN" 99 [])
  && TestsSeq.flattens (simple_form1 None) request_data [("fname", "FN"); ("surname", "SN"); ("age", "99")] = true.
Proof. vm_compute. reflexivity. Qed.
Example test_namespaced_parse :
  TestsSeq.gives (simple_form1 (nm "ns")) request_data (form_value "ns_FN" "ns_SN" 23 ["cheez"; "chipz"; "chimp"])
  && TestsSeq.flattens (simple_form1 (nm "ns")) request_data
       [("ns_fname", "ns_FN"); ("ns_surname", "ns_SN"); ("ns_age", "23"); ("ns_snacks_0_name", "cheez");
        ("ns_snacks_1_name", "chipz"); ("ns_snacks_2_name", "chimp")] = true.
Proof. vm_compute. reflexivity. Qed.

(* tests/test_richtypes.py test_simple *)
Definition paid (v : pyval) : list str * res bool :=
  card_validate 60 [Visa; MasterCard; Amex; Discover] (labelled "num" VNone) [] (fst (card_set blank v)).
Example test_simple :
  card_validate 60 [Visa] (labelled "num" VNone) [] blank = ([lit "num may not be blank."], Ok false)
  /\ paid (t "asdf") = ([lit "num is not correct."], Ok false)
  /\ paid (t "1234") = paid (t "asdf")
  /\ paid (t "4100000000000009") = ([lit "The num was not entered correctly."], Ok false)
  /\ paid (t "4100000000000001") = ([], Ok true)
  /\ s_u (fst (card_set blank (t "4100000000000001"))) = lit "4100-0000-0000-0001".
Proof. repeat split; vm_compute; reflexivity. Qed.

(* tests/test_utils.py *)
Example test_luhn10 : luhn10 60 0 = Ok true /\ luhn10 60 4100000000000001 = Ok true /\ luhn10 60 4100000000000009 = Ok false.
Proof. repeat split; vm_compute; reflexivity. Qed.
Definition pairs : list (string * Z) := [("a", 1); ("b", 2); ("c", 3); ("d", 4); ("d", 4); ("d", 5)]%Z.
Definition slice include omit rename key := keyslice_pairs String.eqb pairs include omit rename key.
Example test_keyslice_conflict : keyslice_pairs Nat.eqb ([] : list (nat * nat)) (Some [1%nat]) (Some [2%nat]) None None = Err TypeErr.
Proof. reflexivity. Qed.
Example test_keyslice_pairs : slice None None None None = Ok pairs.
Proof. reflexivity. Qed.
Definition just (l : list string) := slice (Some l) None None None.
Example test_keyslice_include :
  just [] = Ok pairs /\ just ["a"] = Ok [("a", 1%Z)] /\ just ["a"; "b"] = Ok [("a", 1%Z); ("b", 2%Z)]
  /\ just ["d"] = Ok [("d", 4%Z); ("d", 4%Z); ("d", 5%Z)] /\ just ["a"; "e"] = Ok [("a", 1%Z)].
Proof. repeat split. Qed.
Definition but (l : list string) := slice None (Some l) None None.
Example test_keyslice_omit :
  but [] = Ok pairs /\ but ["d"] = Ok [("a", 1%Z); ("b", 2%Z); ("c", 3%Z)] /\ but ["c"; "d"] = Ok [("a", 1%Z); ("b", 2%Z)]
  /\ but ["c"; "d"; "e"] = Ok [("a", 1%Z); ("b", 2%Z)] /\ but ["a"; "b"; "c"; "d"] = Ok [].
Proof. repeat split. Qed.
Definition renamed l := slice None None (Some l) None.
Example test_keyslice_rename :
  let wanted := Ok [("a", 1); ("b", 2); ("c", 3); ("Z", 4); ("Z", 4); ("Z", 5)]%Z in
  renamed [("d", "Z")] = wanted /\ renamed [("d", "Z"); ("e", "Y")] = wanted
  /\ renamed [("a", "d"); ("b", "c"); ("c", "b"); ("d", "a"); ("d", "a"); ("d", "a")]
     = Ok [("d", 1); ("c", 2); ("b", 3); ("a", 4); ("a", 4); ("a", 5)]%Z.
Proof. repeat split. Qed.
(* test_keyslice_key, with another key function: a suffix *)
Example test_keyslice_key :
  let f s := s ++ "0" in
  slice None None None (Some f) = Ok [("a0", 1); ("b0", 2); ("c0", 3); ("d0", 4); ("d0", 4); ("d0", 5)]%Z
  /\ slice None None (Some [("d0", "0")]) (Some f) = Ok [("a0", 1); ("b0", 2); ("c0", 3); ("0", 4); ("0", 4); ("0", 5)]%Z.
Proof. repeat split. Qed.
Example test_keyslice_mixed :
  slice (Some ["a"]) None (Some [("b", "X")]) None = Ok [("a", 1%Z); ("X", 2%Z)]
  /\ slice None (Some ["b"; "c"; "d"]) (Some [("b", "X")]) None = Ok [("a", 1%Z); ("X", 2%Z)].
Proof. split; reflexivity. Qed.
(* test_symbols *)
Example test_symbols :
  map st_done (ss_threads (sym_run (sym_init [[lit "foo"; lit "foo"; lit "bar"]]) (repeat 0%nat 40)))
  = [[(lit "foo", 0%nat); (lit "foo", 0%nat); (lit "bar", 1%nat)]].
Proof. vm_compute. reflexivity. Qed.

(* tests/test_schema.py test_string_element *)
Definition by_default (strip : bool) (d : option pyval) : scalar := fst (scalar_set_default (KString strip) d blank).
Example test_string_element :
  by_default true None = blank /\ s_value (by_default true (Some VNone)) = VNone
  /\ (s_value (by_default true (Some (t ""))), s_u (by_default true (Some (t "")))) = (t "", [])
  /\ (s_value (by_default true (Some (t "  "))), s_u (by_default true (Some (t "  ")))) = (t "", [])
  /\ (s_value (by_default false (Some (t "  "))), s_u (by_default false (Some (t "  ")))) = (t "  ", lit "  ").
Proof. repeat split; vm_compute; reflexivity. Qed.
