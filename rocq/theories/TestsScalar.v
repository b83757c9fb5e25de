(* The assertions of tests/schema/test_scalars.py and
   tests/schema/test_constrained.py, computed on the models.  Left out: what is
   specific to Python 2, the repr of elements, and bytes. *)
From Verif Require Import PyBase ModelScalar ModelNumber.
Local Open Scope string_scope.

(* tests/schema/test_scalars.py validate_element_set; [None] for
   set_return stands for the default *)
Definition check (k : kind) (raw value : pyval) (u : string) (ret : option bool) : bool :=
  let '(st, r) := scalar_set k blank raw in
  let ret := match ret with Some b => b | None => negb (is_none value) end in
  match r with
  | Ok b => Bool.eqb b ret && py_eq (s_value st) value && str_eqb (s_u st) (lit u)
            && Bool.eqb (scalar_bool st) (negb (str_eqb (lit u) []) && vtruth value)
  | Err _ => false
  end.
(* a text *)
Definition t (s : string) : pyval := VText (lit s).
(* the loops of tests/schema/test_scalars.py over texts *)
Definition all (k : kind) (l : list (string * pyval * string)) : bool :=
  forallb (fun '(raw, v, u) => check k (t raw) v u None) l.

(* tests/schema/test_scalars.py test_string *)
Example test_string :
  forallb (fun '(raw, u) => check (KString true) raw (t u) u None)
    [(t "abc", "abc"); (VInt 123, "123"); (t "abc ", "abc"); (t " abc ", "abc")] = true
  /\ forallb (fun '(raw, u) => check (KString false) raw (t u) u None)
       [(t "abc ", "abc "); (t " abc ", " abc ")] = true
  /\ check (KString true) (t "") (t "") "" None = true
  /\ check (KString true) VNone VNone "" (Some true) = true.
Proof. repeat split; reflexivity. Qed.

(* tests/schema/test_scalars.py test_string_is_empty *)
Example test_string_is_empty :
  rmap (scalar_is_empty (KString true)) (scalar_new (KString true) (Some (t ""))) = Ok true
  /\ rmap (scalar_is_empty (KString true)) (scalar_new (KString true) (Some (t "foo"))) = Ok false.
Proof. split; reflexivity. Qed.

(* tests/schema/test_scalars.py test_scalar_set *)
Example test_scalar_set :
  check (KInteger true) VNone VNone "" (Some true) = true
  /\ check (KInteger true) (VObj (Obj 0 (lit "[]") false (Err TypeErr))) VNone "[]" None = true.
Proof. split; reflexivity. Qed.

(* tests/schema/test_scalars.py test_integer, test_long *)
Example test_integer :
  all (KInteger true)
    [("123", VInt 123, "123"); (" 123 ", VInt 123, "123"); ("xyz", VNone, "xyz");
     ("xyz123", VNone, "xyz123"); ("123xyz", VNone, "123xyz"); ("123.0", VNone, "123.0");
     ("+123", VInt 123, "123"); ("-123", VInt (-123), "-123"); (" +123 ", VInt 123, "123");
     (" -123 ", VInt (-123), "-123")] = true
  /\ all (KInteger false) [("+123", VInt 123, "123"); ("-123", VNone, "-123")] = true
  /\ check (KInteger true) (VInt 123) (VInt 123) "123" None = true
  /\ check (KInteger true) VNone VNone "" (Some true) = true
  /\ check (KInteger false) (VInt (-123)) VNone "-123" None = true.
Proof. repeat split; reflexivity. Qed.

(* tests/schema/test_scalars.py test_boolean *)
Example test_boolean :
  forallb (fun s => check KBool (t s) (VBool true) "1" None) ["on"; "true"; "True"; "1"] = true
  /\ forallb (fun s => check (KBoolean (lit "baz") (map lit ["on"; "true"; "True"; "1"])
                                       (lit "") (map lit ["off"; "false"; "False"; "0"; ""]))
                             (t s) (VBool true) "baz" None) ["on"; "true"; "True"; "1"] = true
  /\ forallb (fun s => check KBool (t s) (VBool false) "" None)
       ["off"; "false"; "False"; "0"; ""] = true
  /\ forallb (fun s => check (KBoolean (lit "1") (map lit ["on"; "true"; "True"; "1"])
                                       (lit "quux") (map lit ["off"; "false"; "False"; "0"; ""]))
                             (t s) (VBool false) "quux" None)
       ["off"; "false"; "False"; "0"; ""] = true
  /\ all KBool [("abc", VNone, "abc"); ("1.0", VNone, "1.0"); ("0.0", VNone, "0.0");
                ("None", VNone, "None")] = true
  /\ check KBool (VObj (Obj 0 (lit "{}") false (Err TypeErr))) (VBool false) "" None = true
  /\ check KBool (VInt 0) (VBool false) "" None = true.
Proof. repeat split; reflexivity. Qed.

(* tests/schema/test_scalars.py test_scalar_set_default *)
Example test_scalar_set_default :
  s_value (fst (scalar_set_default (KInteger true) None blank)) = VNone
  /\ s_value (fst (scalar_set_default (KInteger true) (Some (VInt 10)) blank)) = VInt 10
  /\ s_value (fst (scalar_set_default (KInteger true) (Some (VInt 20)) blank)) = VInt 20.
Proof. repeat split; reflexivity. Qed.

(* tests/schema/test_scalars.py test_date *)
Example test_date :
  all (KTemporal TDate true)
    [("2009-10-10", VDate (Date 2009 10 10), "2009-10-10");
     ("2010-08-02", VDate (Date 2010 8 2), "2010-08-02");
     (" 2010-08-02 ", VDate (Date 2010 8 2), "2010-08-02");
     ("2011-8-2", VNone, "2011-8-2"); ("blagga", VNone, "blagga")] = true
  /\ all (KTemporal TDate false) [(" 2010-08-02 ", VNone, " 2010-08-02 ")] = true
  /\ check (KTemporal TDate true) VNone VNone "" (Some true) = true.
Proof. repeat split; reflexivity. Qed.

(* tests/schema/test_scalars.py test_time *)
Example test_time :
  all (KTemporal TTime true)
    [("08:09:10", VTime (Time 8 9 10 0), "08:09:10");
     ("23:24:25", VTime (Time 23 24 25 0), "23:24:25");
     ("24:25:26", VNone, "24:25:26"); ("bogus", VNone, "bogus")] = true
  /\ check (KTemporal TTime true) VNone VNone "" (Some true) = true.
Proof. split; reflexivity. Qed.

(* tests/schema/test_scalars.py test_datetime *)
Example test_datetime :
  all (KTemporal TDateTime true)
    [("2009-10-10 08:09:10", VDateTime (Date 2009 10 10) (Time 8 9 10 0), "2009-10-10 08:09:10");
     ("2010-08-02 25:26:27", VNone, "2010-08-02 25:26:27");
     ("2010-13-22 09:09:09", VNone, "2010-13-22 09:09:09")] = true
  /\ check (KTemporal TDateTime true) VNone VNone "" (Some true) = true.
Proof. split; reflexivity. Qed.

(* tests/schema/test_constrained.py test_constrained_no_default_validity *)
Example test_constrained_no_default_validity :
  check (KConstrained (KString true) (fun _ => Ok false)) (t "anything") VNone "anything" None = true.
Proof. reflexivity. Qed.

(* tests/schema/test_constrained.py test_constrained_instance_override,
   test_constrained_instance_contrived *)
Example test_constrained_instance_override :
  let k := KConstrained (KString true) (fun v => Ok (py_in v [t "a"])) in
  let n := KConstrained (KInteger true) (fun v => Ok (py_in v [VInt 1; VInt 2])) in
  all k [("a", t "a", "a"); ("b", VNone, "b")] = true
  /\ all n [("1", VInt 1, "1"); ("2", VInt 2, "2"); ("3", VNone, "3"); ("x", VNone, "x")] = true.
Proof. split; reflexivity. Qed.

(* tests/schema/test_constrained.py test_default_enum, without
   validate() *)
Example test_default_enum :
  let k := KEnum (KString true) [t "a"; t "b"; t "c"] in
  all k [("a", t "a", "a"); ("b", t "b", "b"); ("c", t "c", "c"); ("d", VNone, "d")] = true
  /\ check k VNone VNone "" (Some false) = true
  (* present or not: what the default validator looks at *)
  /\ scalar_is_empty k (fst (scalar_set k blank (t "d"))) = false
  /\ scalar_is_empty k (fst (scalar_set k blank VNone)) = true.
Proof. repeat split; reflexivity. Qed.

(* tests/schema/test_constrained.py test_typed_enum *)
Example test_typed_enum :
  all (KEnum (KInteger true) [VInt 1; VInt 2; VInt 3])
    [("1", VInt 1, "1"); ("2", VInt 2, "2"); ("3", VInt 3, "3"); ("x", VNone, "x");
     ("5", VNone, "5")] = true.
Proof. reflexivity. Qed.

(* tests/schema/test_scalars.py test_scalar_abstract *)
Example test_scalar_abstract :
  snd (scalar_set KAbstract blank (t "blagga")) = Err NotImplErr.
Proof. reflexivity. Qed.

(* tests/schema/test_scalars.py test_scalar_set_flat *)
Example test_scalar_set_flat :
  let k := KCustom (fun v => Ok v) in
  let data := [(lit "a", t "1"); (lit "b", t "2"); (lit "a", t "3")] in
  let el n := fst (scalar_set_flat k (Some (lit n)) blank data) in
  s_value (el "a") = t "1" /\ s_raw (el "a") = Some (t "1")
  /\ s_value (el "b") = t "2" /\ s_raw (el "b") = Some (t "2")
  /\ s_value (el "c") = VNone /\ s_raw (el "c") = None.
Proof. repeat split; reflexivity. Qed.

(* tests/schema/test_constrained.py test_constrained_instance_contrived *)
Example test_constrained_instance_contrived :
  let lenient := KCustom (fun v => match adapt (KInteger true) v with Ok n => Ok n | Err _ => Ok VNone end) in
  let k := KConstrained lenient (fun v => Ok (py_in v [VInt 1; VNone])) in
  snd (scalar_set k blank (t "1")) = Ok true
  /\ forallb (fun s => check k (t s) VNone s None) ["2"; "3"] = true
  /\ forallb (fun s => check k (t s) VNone "" (Some true)) ["x"; ""] = true.
Proof. repeat split; reflexivity. Qed.

(* ------------------------------------------------------------------ *)
(* Float and Decimal: the value as a decimal [neg, c, x] for
   (-1)^neg * c * 10^x *)
Definition n (s : string) : num_in := NText (lit s).
Definition check_float (signed : bool) (raw : num_in) (value : option flt) (u : string) : bool :=
  let '(st, r) := float_set signed (NumElem None None []) raw in
  match r, n_value st, value with
  | Ok true, Some (Fin a m e), Some (Fin b m' e') => Bool.eqb a b && (m * 2 ^ (e + 1074) =? m' * 2 ^ (e' + 1074))%Z
  | Ok false, None, None => true
  | _, _, _ => false
  end && str_eqb (n_u st) (lit u).
Definition whole_float (z : Z) : option flt := Some (Fin (z <? 0)%Z (Z.abs z) 0).
(* tests/schema/test_scalars.py test_float *)
Example test_float :
  forallb (fun '(raw, v, u) => check_float true (n raw) v u)
    [("123", whole_float 123, "123.000000"); (" 123 ", whole_float 123, "123.000000");
     ("xyz", None, "xyz"); ("xyz123", None, "xyz123"); ("123xyz", None, "123xyz");
     ("123.0", whole_float 123, "123.000000"); ("+123", whole_float 123, "123.000000");
     ("-123", whole_float (-123), "-123.000000"); (" +123 ", whole_float 123, "123.000000");
     (" -123 ", whole_float (-123), "-123.000000")] = true
  /\ check_float false (n "+123") (whole_float 123) "123.000000" = true
  /\ check_float false (n "-123") None "-123" = true
  /\ float_set true (NumElem None None []) NNone = (NumElem (Some NNone) None [], Ok true).
Proof. repeat split; vm_compute; reflexivity. Qed.

Definition check_decimal (signed : bool) (raw : num_in) (value : option decimal) (u : string) : bool :=
  let '(st, r) := decimal_set signed (NumElem None None []) raw in
  match r, n_value st, value with
  | Ok true, Some (DNum a c x), Some (DNum b c' x') =>
      Bool.eqb a b && (c * 10 ^ (x + 20) =? c' * 10 ^ (x' + 20))%Z
  | Ok false, None, None => true
  | _, _, _ => false
  end && str_eqb (n_u st) (lit u).
Definition whole_decimal (z : Z) : option decimal := Some (DNum (z <? 0)%Z (Z.abs z) 0).
(* tests/schema/test_scalars.py test_decimal *)
Example test_decimal :
  forallb (fun '(raw, v, u) => check_decimal true raw v u)
    [(n "123", whole_decimal 123, "123.000000"); (n " 123 ", whole_decimal 123, "123.000000");
     (n "xyz", None, "xyz"); (n "xyz123", None, "xyz123"); (n "123xyz", None, "123xyz");
     (n "123.0", Some (DNum false 1230 (-1)), "123.000000"); (n "+123", whole_decimal 123, "123.000000");
     (n "-123", whole_decimal (-123), "-123.000000"); (n " +123 ", whole_decimal 123, "123.000000");
     (n " -123 ", whole_decimal (-123), "-123.000000");
     (NInt 123, whole_decimal 123, "123.000000"); (NInt (-123), whole_decimal (-123), "-123.000000");
     (NDec (DNum false 123 0) (lit "123"), whole_decimal 123, "123.000000");
     (NDec (DNum true 123 0) (lit "-123"), whole_decimal (-123), "-123.000000")] = true
  /\ check_decimal false (n "+123") (whole_decimal 123) "123.000000" = true
  /\ check_decimal false (n "-123") None "-123" = true
  /\ decimal_set true (NumElem None None []) NNone = (NumElem (Some NNone) None [], Ok true).
Proof. repeat split; vm_compute; reflexivity. Qed.
