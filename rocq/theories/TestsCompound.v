(* The assertions of tests/schema/test_compound.py, computed on the models. *)
From Verif Require Import PyBase ModelUtil ModelScalar ModelPaths ModelFlat SpecFlat ModelCompound SpecCompound ModelCustom SpecCustom.
Local Open Scope string_scope.

(* ---------------- TestDoubleField ---------------- *)
(* assert_values_ and assert_us_ *)
Definition doubles (ps : list part) (top : dvalue) (x y : pyval) (u ux uy : string) : Prop :=
  custom_value (double None) ps = Ok top /\ custom_u (double None) ps = Ok (lit u)
  /\ map (fun p => s_value (pt_st p)) ps = [x; y] /\ map (fun p => s_u (pt_st p)) ps = [lit ux; lit uy].
Definition flat (l : list (string * string)) : list part :=
  fst (custom_set_flat (text "s") (lit "_") double_parts (flat_of l)).
Example test_from_flat :
  doubles (flat []) DNone VNone VNone "" "" ""
  /\ doubles (flat [("s", "1x2")]) DNone VNone VNone "" "" ""
  /\ doubles (flat [("s_x", "1")]) DNone (VInt 1) VNone "" "1" ""
  /\ doubles (flat [("s_x", "1"); ("s_y", "2")]) (DPair (VInt 1) (VInt 2)) (VInt 1) (VInt 2) "1x2" "1" "2"
  /\ doubles (flat [("s_x", "1"); ("s_y", "2"); ("s", "5x5")]) (DPair (VInt 1) (VInt 2)) (VInt 1) (VInt 2) "1x2" "1" "2".
Proof. repeat split; vm_compute; reflexivity. Qed.
Example test_flatten :
  custom_flatten (double None) 9 (text "s") (lit "_") (fst (custom_init (double None) double_parts (Some (DText (lit "1x2")))))
  = Ok [(lit "s", []); (lit "s_x", []); (lit "s_y", [])].
Proof. vm_compute. reflexivity. Qed.
Definition set (v : dvalue) : list part := fst (custom_set (double None) double_parts v).
Definition told (v : dvalue) : res (ModelCustom.told bool) := snd (custom_set (double None) double_parts v).
Example test_set :
  told DOther = Ok (ToldResult false) /\ doubles (set DOther) DNone VNone VNone "" "" ""
  /\ told (DText (lit "return-none")) = Ok ToldTrue /\ doubles (set (DText (lit "return-none"))) DNone VNone VNone "" "" ""
  /\ told (DText (lit "boom")) = Ok ToldFalse /\ doubles (set (DText (lit "boom"))) DNone VNone VNone "" "" ""
  /\ told (DText (lit "4x5")) = Ok (ToldResult false) /\ doubles (set (DText (lit "4x5"))) DNone VNone VNone "" "" ""
  /\ told (DPair (VInt 4) (VInt 5)) = Ok (ToldResult true)
  /\ doubles (set (DPair (VInt 4) (VInt 5))) (DPair (VInt 4) (VInt 5)) (VInt 4) (VInt 5) "4x5" "4" "5".
Proof. repeat split; vm_compute; reflexivity. Qed.
Example test_set_default :
  let c := double (Some (DPair (VInt 4) (VInt 5))) in
  let el := fst (custom_init c double_parts None) in
  doubles el DNone VNone VNone "" "" ""
  /\ doubles (fst (custom_set_default c el)) (DPair (VInt 4) (VInt 5)) (VInt 4) (VInt 5) "4x5" "4" "5".
Proof. repeat split; vm_compute; reflexivity. Qed.
Example test_set_default_from_children :
  let fields := [Part (text "x") (KInteger true) (Some (VInt 4)) blank; Part (text "y") (KInteger true) (Some (VInt 5)) blank] in
  let el := fst (custom_init (double None) fields None) in
  doubles el DNone VNone VNone "" "" ""
  /\ doubles (fst (custom_set_default (double None) el)) (DPair (VInt 4) (VInt 5)) (VInt 4) (VInt 5) "4x5" "4" "5".
Proof. repeat split; vm_compute; reflexivity. Qed.
Definition set_x (ps : list part) (v : pyval) : list part :=
  match ps with p :: rest => with_st p (fst (scalar_set (pt_kind p) (pt_st p) v)) :: rest | [] => [] end.
Example test_update :
  let e := set (DPair (VInt 4) (VInt 5)) in
  doubles e (DPair (VInt 4) (VInt 5)) (VInt 4) (VInt 5) "4x5" "4" "5"
  /\ doubles (set_x e (VInt 6)) (DPair (VInt 6) (VInt 5)) (VInt 6) (VInt 5) "6x5" "6" "5"
  /\ doubles (fst (custom_set (double None) (set_x e (VInt 6)) (DPair (VInt 7) (VInt 8))))
       (DPair (VInt 7) (VInt 8)) (VInt 7) (VInt 8) "7x8" "7" "8".
Proof. repeat split; vm_compute; reflexivity. Qed.
Example test_explode_does_not_require_typechecks :
  doubles (fst (custom_set (double None) (set (DPair (VInt 4) (VInt 5))) (DPair (VInt 7) (VText (lit "blagga")))))
    DNone (VInt 7) VNone "7xblagga" "7" "blagga".
Proof. repeat split; vm_compute; reflexivity. Qed.
Example test_value_assignement :
  doubles (fst (custom_assign (double None) double_parts (DPair (VInt 1) (VInt 2)))) (DPair (VInt 1) (VInt 2)) (VInt 1) (VInt 2) "1x2" "1" "2"
  /\ doubles (fst (custom_assign (double None) double_parts (DText (lit "1x2")))) DNone VNone VNone "" "" "".
Proof. repeat split; vm_compute; reflexivity. Qed.
(* test_repr, test_repr_always_safe, test_explode_abstract, test_compose_abstract,
   test_compose_abstract_fixme *)
Example test_abstract :
  let c := @abstract pyval unit None in
  let fields := [Part (text "y") (KString true) None blank] in
  custom_repr c (fun _ => Ok []) (fst (custom_init c fields None)) = inr NotImplErr
  /\ snd (custom_set c (fst (custom_init c fields None)) (VText (lit "x"))) = Err NotImplErr
  /\ custom_value c (fst (custom_init c fields None)) = Err NotImplErr
  /\ custom_serialize (VText (lit "abc")) = Err TypeErr.
Proof. vm_compute. repeat split. Qed.

(* ---------------- class initialisation ---------------- *)
(* test_compound_init_sequencing, test_compound_init_sequencing2 (which does not
   use overrides there), by one thread *)
Definition traced (run : nat -> nat -> init_run) (todo : list nat) : list event :=
  rev (c_trace (crun run (c_start (fun t => if Nat.eqb t 0 then todo else [])) (repeat O 60))).
Example test_compound_init_sequencing :
  traced (fun _ _ => Run [] false) [7; 7]%nat
  = [InitBegins 0 7; InitEnds 0 7 false; Raises 0 7; InitBegins 0 7; InitEnds 0 7 false; Raises 0 7]%nat.
Proof. vm_compute. reflexivity. Qed.
Example test_compound_init_sequencing2 :
  traced (fun _ _ => Run [] true) [1; 1; 2; 2]%nat
  = [InitBegins 0 1; InitEnds 0 1 true; Makes 0 1; Makes 0 1; InitBegins 0 2; InitEnds 0 2 true; Makes 0 2; Makes 0 2]%nat
  /\ compound_call (fun k => str_eqb k (lit "name")) true true [(lit "name", lit "instance")]
     = ([Inits (Sub [(lit "name", lit "instance")]) false; Builds (Sub [(lit "name", lit "instance")]) []], true).
Proof. vm_compute. repeat split. Qed.
Example test_compound_snarfs_override_init_keywords :
  let has k := str_eqb k (lit "attr") in
  compound_call has true true [(lit "attr", lit "new value")]
  = ([Inits (Sub [(lit "attr", lit "new value")]) false; Builds (Sub [(lit "attr", lit "new value")]) []], true)
  /\ compound_call has true true [(lit "unknown", lit "boom")] = ([Builds Own [(lit "unknown", lit "boom")]], true).
Proof. vm_compute. repeat split. Qed.

(* ---------------- DateYYYYMMDD ---------------- *)
Definition date (v : pyval) : parts := fst (date_set true default_kinds blank_parts v).
Example test_sample_compound :
  rmap (map df_name) (date_init [] false) = Ok [text "year"; text "month"; text "day"]
  /\ date_value true blank_parts = Ok VNone
  /\ (let e := date (VDate (Date 2000 10 1)) in
      date_value true e = Ok (VDate (Date 2000 10 1)) /\ s_value (p_y e) = VInt 2000 /\ s_value (p_d e) = VInt 1
      /\ date_u true e = Ok (lit "2000-10-01") /\ s_u (p_d e) = lit "01"
      /\ (let e := Parts (p_y e) (p_m e) (fst (scalar_set (k_d default_kinds) (p_d e) (VInt 5))) in
          date_value true e = Ok (VDate (Date 2000 10 5)) /\ s_value (p_d e) = VInt 5 /\ date_u true e = Ok (lit "2000-10-05")))
  /\ (let e := date VNone in date_value true e = Ok VNone /\ date_u true e = Ok [] /\ s_value (p_y e) = VNone)
  /\ (let e := date (VText (lit "snaggle")) in date_value true e = Ok VNone /\ date_u true e = Ok [] /\ s_value (p_y e) = VNone).
Proof. vm_compute. repeat split. Qed.
Example test_compound_optional :
  rmap (map df_optional) (date_init [] false) = Ok [false; false; false] /\ rmap (map df_optional) (date_init [] true) = Ok [true; true; true].
Proof. vm_compute. repeat split. Qed.
Example test_compound_is_empty :
  date_is_empty default_kinds blank_parts = true
  /\ date_is_empty default_kinds (Parts (fst (scalar_set (k_y default_kinds) blank (VInt 1979))) blank blank) = false.
Proof. vm_compute. repeat split. Qed.

(* ---------------- JoinedString ---------------- *)
Definition texts (l : list string) : list pyval := map (fun s => VText (lit s)) l.
Definition joins (k : kind) (prune : bool) (a : joined_arg) (value : string) (children : list pyval) : Prop :=
  let sts := fst (joined_set (lit ",") Static k prune [] a) in
  joined_value (lit ",") sts = lit value /\ map s_value sts = children.
Example test_joined_string :
  joins (KString true) true (JText (lit "abc")) "abc" (texts ["abc"])
  /\ joins (KString true) true (JText (lit "abc,def")) "abc,def" (texts ["abc"; "def"])
  /\ joins (KString true) true (JItems (texts ["abc"; "def"])) "abc,def" (texts ["abc"; "def"])
  /\ joins (KString true) true (JText (lit " abc,,ghi ")) "abc,ghi" (texts ["abc"; "ghi"])
  /\ joins (KString true) false (JText (lit "abc,,ghi")) "abc,,ghi" (texts ["abc"; ""; "ghi"])
  /\ joins (KString true) true (JText (lit " abc ,, ghi ")) "abc,ghi" (texts ["abc"; "ghi"])
  /\ joins (KString false) true (JText (lit " abc ,, ghi ")) " abc , ghi " (texts [" abc "; " ghi "]).
Proof. repeat split; vm_compute; reflexivity. Qed.
Example test_joined_string_flat :
  let back s := joined_value (lit ",") (fst (joined_set_flat (text "js") (lit ",") Static (KInteger true) true [] [(text "js", JText (lit s))])) in
  joins (KInteger true) true (JItems [VInt 1]) "1" [VInt 1] /\ back "1" = lit "1"
  /\ joins (KInteger true) true (JText (lit "1")) "1" [VInt 1]
  /\ joins (KInteger true) true (JItems [VInt 1; VInt 2; VInt 3]) "1,2,3" [VInt 1; VInt 2; VInt 3] /\ back "1,2,3" = lit "1,2,3"
  /\ joins (KInteger true) true (JText (lit "1,2,3")) "1,2,3" [VInt 1; VInt 2; VInt 3].
Proof. repeat split; vm_compute; reflexivity. Qed.
(* the regular expression is given by what it does with the texts of the test *)
Example test_joined_string_regex :
  let how := Regex (fun s => if str_eqb s (lit "abcX,Xdef") then texts ["abc"; "def"] else [VText s]) in
  let el s := fst (joined_set (lit ", ") how (KString true) true [] (JText (lit s))) in
  joined_value (lit ", ") (el "abc") = lit "abc" /\ map s_value (el "abc") = texts ["abc"]
  /\ joined_value (lit ", ") (el "abcX,Xdef") = lit "abc, def" /\ map s_value (el "abcX,Xdef") = texts ["abc"; "def"].
Proof. vm_compute. repeat split. Qed.
Example test_joined_non_string :
  joins (KInteger true) true (JText (lit "1")) "1" [VInt 1]
  /\ joins (KInteger true) true (JText (lit "1, 2, 3")) "1,2,3" [VInt 1; VInt 2; VInt 3]
  /\ joins (KInteger true) true (JItems [VInt 1; VInt 2; VInt 3]) "1,2,3" [VInt 1; VInt 2; VInt 3].
Proof. repeat split; vm_compute; reflexivity. Qed.
