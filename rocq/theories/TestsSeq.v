(* The assertions of tests/schema/test_lists.py and tests/schema/test_arrays.py,
   computed on the models.  Left out: repr, and raw of containers. *)
From Verif Require ModelPaths.
From Verif Require Import PyBase PyList ModelScalar ModelSeq SpecSeq ModelFlat ModelNest.
Local Open Scope string_scope.

Definition t (s : string) : pyval := VText (lit s).
Definition nm (s : string) : name := Some (lit s).

(* ------------------------------------------------------------------ *)
(* flat data *)
Fixpoint value_of (e : element) : data :=
  match e with
  | EScalar _ st => DVal (s_value st)
  | EDict _ _ items => DMap (map (fun kv => (fst kv, value_of (snd kv))) items)
  | EList _ l | EArray _ l => DSeq (map value_of l)
  | EJoined _ j l => DVal (VText (ModelCompound.joined_value (j_glue j) l))
  end.
Definition from_flat (s : schema) (pairs : list (string * pyval)) : res element :=
  let '(e, r) := set_flat s (lit "_") (fresh s) (map (fun p => (nm (fst p), snd p)) pairs) in rmap (fun _ => e) r.
Definition gives (s : schema) (pairs : list (string * pyval)) (v : data) : bool :=
  match from_flat s pairs with Ok e => data_eq (value_of e) v | Err _ => false end.
Definition flattens (s : schema) (pairs : list (string * pyval)) (out : list (string * string)) : bool :=
  match from_flat s pairs with
  | Ok e => match flatten_element 40 e (lit "_") with
            | Ok l => (fix go (l : list (str * str)) (m : list (string * string)) : bool :=
                         match l, m with
                         | [], [] => true
                         | (a, b) :: l', (c, d) :: m' => str_eqb a (lit c) && str_eqb b (lit d) && go l' m'
                         | _, _ => false
                         end) l out
            | Err _ => false
            end
  | Err _ => false
  end.
Definition ints (l : list Z) : data := DSeq (map (fun z => DVal (VInt z)) l).
Definition texts (l : list string) : data := DSeq (map (fun s => DVal (t s)) l).
Definition integer (n : name) : schema := SScalar n (KInteger true).
Definition string_ (n : name) : schema := SScalar n (KString true).

(* tests/schema/test_lists.py test_set_flat_linear, test_set_flat_miss,
   test_set_flat_scalar *)
Definition l_i : schema := SList (nm "l") true 1024 (integer (nm "i")).
Example test_set_flat_linear :
  gives l_i [("l_0_i", VInt 1); ("l_1_i", VInt 2); ("l_2_i", VInt 3)] (ints [1; 2; 3]%Z) = true
  /\ gives l_i [("l_galump", t "3"); ("l_snorgle", t "4")] (ints []) = true
  /\ gives l_i [("l", t "1")] (ints []) = true.
Proof. repeat split; vm_compute; reflexivity. Qed.
(* test_set_flat_pruned *)
Definition gaps := [("l_0_i", t "0"); ("l_2_i", t ""); ("l_3_i", t "3")].
Example test_set_flat_pruned :
  gives l_i gaps (ints [0; 3]%Z) = true
  /\ gives (SList (nm "l") true 1 (integer (nm "i"))) gaps (ints [0]%Z) = true.
Proof. split; vm_compute; reflexivity. Qed.
(* test_set_flat_unpruned *)
Example test_set_flat_unpruned :
  gives (SList (nm "l") false 1024 (integer (nm "i"))) gaps
        (DSeq [DVal (VInt 0); DVal VNone; DVal VNone; DVal (VInt 3)]) = true
  /\ gives (SList (nm "l") false 2 (integer (nm "i"))) gaps (DSeq [DVal (VInt 0); DVal VNone]) = true.
Proof. split; vm_compute; reflexivity. Qed.
(* _assert_set_flat; the pairs are texts *)
Definition round (s : schema) (pairs bogus : list (string * string)) : bool :=
  let all := map (fun p => (fst p, t (snd p))) (pairs ++ bogus) in
  gives s all (texts (map snd pairs)) && flattens s all pairs.
(* test_set_flat_unnamed_child, test_set_flat_anon_list_named_child,
   test_set_flat_fully_anonymous *)
Example test_set_flat_names :
  round (SList (nm "s") true 1024 (string_ None)) [("s_0", "abc"); ("s_1", "def")] [("s", "xxx")] = true
  /\ round (SList None true 1024 (string_ (nm "s"))) [("0_s", "abc"); ("1_s", "def")] [("s", "xxx"); ("0", "yyy")] = true
  /\ round (SList None true 1024 (string_ None)) [("0", "abc"); ("1", "def")] [("x", "xxx")] = true.
Proof. repeat split; vm_compute; reflexivity. Qed.
(* test_set_flat_anonymous_dict, test_set_flat_doubly_anonymous_dict *)
Definition xy : schema := SDict None None [(true, string_ (nm "x")); (true, string_ (nm "y"))].
Definition xy_value (x : pyval) (y : pyval) : data := DMap [(nm "x", DVal x); (nm "y", DVal y)].
Example test_set_flat_anonymous_dict :
  gives (SList (nm "l") true 1024 xy)
    [("l_0_x", t "x0"); ("l_0_y", t "y0"); ("l_1_x", t "x1"); ("l_1_y", t "y1"); ("l_2_x", t "x2")]
    (DSeq [xy_value (t "x0") (t "y0"); xy_value (t "x1") (t "y1"); xy_value (t "x2") VNone]) = true
  /\ gives (SList None true 1024 xy)
    [("0_x", t "x0"); ("0_y", t "y0"); ("1_x", t "x1"); ("1_y", t "y1"); ("2_x", t "x2")]
    (DSeq [xy_value (t "x0") (t "y0"); xy_value (t "x1") (t "y1"); xy_value (t "x2") VNone]) = true.
Proof. split; vm_compute; reflexivity. Qed.

(* tests/schema/test_arrays.py test_set_flat_pruned, test_set_flat_unpruned *)
Definition vals := [("s", "val0"); ("s", ""); ("s", "val1"); ("s", "")].
Example test_array_set_flat_pruned :
  gives (SArray None true (string_ (nm "s"))) (map (fun p => (fst p, t (snd p))) vals) (texts ["val0"; "val1"]) = true
  /\ round (SArray (nm "s") false (string_ None)) vals [] = true.
Proof. split; vm_compute; reflexivity. Qed.
(* test_set_flat_like_named, test_set_flat_unnamed_child,
   test_set_flat_anonymous_array, test_set_flat_fully_anonymous_array, and the
   same of MultiValue *)
Example test_array_set_flat_names :
  round (SArray (nm "s") true (string_ (nm "s"))) [("s_s", "abc"); ("s_s", "def")] [("s", "xxx")] = true
  /\ round (SArray (nm "s") true (string_ None)) [("s", "abc"); ("s", "def")] [("", "xxx"); ("s_bar", "")] = true
  /\ round (SArray None true (string_ (nm "s"))) [("s", "abc"); ("s", "def")] [("", "xxx")] = true
  /\ round (SArray None true (string_ None)) [("", "abc"); ("", "def")] [] = true.
Proof. repeat split; vm_compute; reflexivity. Qed.
(* test_set_flat_anonymous_dict *)
Example test_array_of_dict :
  from_flat (SArray None true (SDict None None [(true, string_ (nm "x"))])) [("x", t "abc"); ("x", t "def")] = Err AssertErr.
Proof. reflexivity. Qed.
(* test_multivalue_roundtrip *)
Example test_multivalue_roundtrip :
  let s := SArray None true (string_ (nm "s")) in
  round s [("s", "abc"); ("s", "def")] [] = true.
Proof. vm_compute. reflexivity. Qed.

(* ------------------------------------------------------------------ *)
(* member schemas: a scalar class with a default; element.set(other element)
   sees an object; base.py:346-350 equality *)
Definition members (k : kind) (default : option pyval) : mschema pyval scalar :=
  MSchema _ _ blank (scalar_set k)
    (fun st _ => scalar_set k st (VObj (Obj 0 (lit "<Element>") true (Err TypeErr))))
    (scalar_set_default k default)
    (fun x y => py_eq (s_value x) (s_value y) && str_eqb (s_u x) (s_u y)).
(* an empty sequence, object 0 *)
Definition new_seq : seqst scalar := ModelSeq.Seq (Heap 1 (fun _ => None) (fun _ => []) (fun i => i) (fun _ => blank)) 0 [].
Section Steps.
Variables (sch : mschema pyval scalar) (step : seqst scalar -> op pyval scalar -> seqst scalar * res (out nat)).
(* what a call leaves (the values of all members) and gives *)
Definition calls (values : seqst scalar -> list pyval) (os : list (op pyval scalar)) (q : seqst scalar)
  : list (list pyval * res (out nat)) :=
  snd (fold_left (fun '(q, acc) o => let '(q', r) := step q o in (q', (acc ++ [(values q', r)])%list)) os (q, [])).
Definition after (os : list (op pyval scalar)) (q : seqst scalar) : seqst scalar :=
  fold_left (fun q o => fst (step q o)) os q.
End Steps.
Definition i (l : list Z) : list pyval := map VInt l.
Definition strs (l : list string) : list pyval := map t l.
Definition vs (l : list pyval) : iterable pyval := Iter l None.
Definition given (l : list pyval) : iterable (arg pyval) := Iter (map AVal l) None.
Definition array_values (q : seqst scalar) : list pyval := map (fun e => s_value (h_con (q_h q) e)) (q_items q).
Definition ok : res (out nat) := Ok RNone.
Definition is_true : res (out nat) := Ok (RBool true).
Definition is_false : res (out nat) := Ok (RBool false).
Definition not_iterable : iterable pyval := Iter [] (Some TypeErr).

(* tests/schema/test_lists.py test_set_default_int *)
Example test_set_default_int :
  let sch := members (KString true) (Some (t "val")) in
  calls (l_step sch) values_of [SetDefault (DInt 3); Append (AVal VNone)] new_seq
    = [(strs ["val"; "val"; "val"], ok); ((strs ["val"; "val"; "val"] ++ [VNone])%list, ok)]
  /\ calls (l_step sch) values_of [SetIt (vs (strs ["a"; "b"])); SetDefault (DInt 3)] new_seq
    = [(strs ["a"; "b"], is_true); (strs ["val"; "val"; "val"], ok)]
  /\ calls (l_step sch) values_of [SetDefault (DInt 0)] new_seq = [([], ok)]
  /\ calls (l_step sch) values_of [SetDefault (DInt 2)] new_seq = [(strs ["val"; "val"], ok)].
Proof. repeat split; vm_compute; reflexivity. Qed.
(* test_set_default_value, test_set_default_none *)
Example test_set_default_value :
  let sch := members (KString true) (Some (t "val")) in
  let d := DIter (vs (strs ["a"; "b"])) in
  calls (l_step sch) values_of [SetDefault d] new_seq = [(strs ["a"; "b"], ok)]
  /\ calls (l_step sch) values_of [SetIt (vs (strs ["c"; "d"])); SetDefault d] new_seq
    = [(strs ["c"; "d"], is_true); (strs ["a"; "b"], ok)]
  /\ calls (l_step sch) values_of [SetDefault (DIter (vs []))] new_seq = [([], ok)]
  /\ calls (l_step sch) values_of [SetDefault DNone; SetDefault DUnspecified] new_seq = [([], ok); ([], ok)]
  /\ calls (l_step sch) values_of [SetIt (vs (strs ["a"; "b"])); SetDefault DNone] new_seq
    = [(strs ["a"; "b"], is_true); (strs ["a"; "b"], ok)].
Proof. repeat split; vm_compute; reflexivity. Qed.
Definition ints_schema := members (KInteger true) None.
(* test_set *)
Example test_set :
  calls (l_step ints_schema) values_of [SetIt not_iterable] new_seq = [([], is_false)]
  /\ calls (l_step ints_schema) values_of [SetIt (vs (i [0; 1; 2]%Z))] new_seq = [(i [0; 1; 2]%Z, is_true)]
  /\ calls (l_step ints_schema) values_of
       [Extend (given (i [1; 2; 3]%Z)); SetIt (vs (i [4; 5; 6]%Z)); SetIt (vs [])] new_seq
    = [(i [1; 2; 3]%Z, ok); (i [4; 5; 6]%Z, is_true); ([], is_true)].
Proof. repeat split; vm_compute; reflexivity. Qed.
(* test_access: members 10, 11, 12; another element holding 10 (object 7) *)
Example test_access :
  let q := after (l_step ints_schema) [SetIt (vs (strs ["10"; "11"; "12"]))] new_seq in
  let '(h, e) := alloc_elem (q_h q) (fst (scalar_set (KInteger true) blank (t "10"))) in
  let q := with_heap q h in
  let eq x y := ms_eq ints_schema (h_con h x) (h_con h y) in
  values_of q = i [10; 11; 12]%Z
  /\ rmap (eq e) (l_getitem q 0) = Ok true
  /\ l_getslice q (Slice None (Some 0) None)%Z = Ok []
  /\ rmap (map (fun x => s_value (h_con h x))) (l_getslice q (Slice None (Some 1) None)%Z) = Ok (i [10]%Z)
  /\ rmap (map (fun x => s_value (h_con h x))) (l_getslice q (Slice (Some 0) (Some 5) None)%Z) = Ok (i [10; 11; 12]%Z)
  /\ rmap (map (fun x => s_value (h_con h x))) (l_getslice q (Slice (Some (-2)) (Some (-1)) None)%Z) = Ok (i [11]%Z)
  /\ map (fun a => snd (l_step ints_schema q (Contains a))) [AElem e; AVal (t "10"); AVal (VInt 10)]
     = [is_true; is_true; is_true]
  /\ map (fun a => snd (l_step ints_schema q (Count a))) [AElem e; AVal (t "10"); AVal (VInt 10)]
     = [Ok (RNat 1); Ok (RNat 1); Ok (RNat 1)]
  /\ map (fun a => snd (l_step ints_schema q (Index a))) [AElem e; AVal (t "10"); AVal (VInt 10)]
     = [Ok (RNat 0); Ok (RNat 0); Ok (RNat 0)].
Proof. repeat split; vm_compute; reflexivity. Qed.
(* test_mutation: also the names of the slots *)
Definition order_ok (q : seqst scalar) : bool :=
  (fix go (n : nat) (l : list nat) : bool :=
     match l with [] => true | s :: l' => str_eqb (h_name (q_h q) s) (dec_nat n) && go (S n) l' end) 0 (q_items q).
Example test_mutation :
  let os := [Append (AVal (t "0")); Append (AVal (t "123")); Extend (given (strs ["4"; "5"]));
             SetItem 0 (AVal (t "3")); Insert 0 (AVal (t "2")); Pop (-1); Pop 0; Remove (AVal (t "3"));
             DelSlice whole_slice] in
  map fst (calls (l_step ints_schema) values_of os new_seq)
  = map i [[0]; [0; 123]; [0; 123; 4; 5]; [3; 123; 4; 5]; [2; 3; 123; 4; 5]; [2; 3; 123; 4]; [3; 123; 4]; [123; 4]; []]%Z
  /\ forallb (fun n => order_ok (after (l_step ints_schema) (firstn n os) new_seq)) (seq 0 10) = true
  /\ (let q := after (l_step ints_schema) (firstn 5 os) new_seq in
      match l_pop q (-1) with
      | (q', Ok e) => s_value (h_con (q_h q') (h_elem (q_h q') e)) = VInt 5
                      \/ s_value (h_con (q_h q') e) = VInt 5
      | _ => False
      end).
Proof. split; [vm_compute; reflexivity|]. split; [vm_compute; reflexivity|]. vm_compute. auto. Qed.
(* test_mutate_slices, test_reverse, test_sort *)
Example test_mutate_slices :
  map fst (calls (l_step ints_schema) values_of
    [Extend (given (strs ["3"; "4"])); SetSlice (Slice (Some 0) (Some 1) None)%Z (given (strs ["1"; "2"; "3"]));
     DelSlice (Slice (Some 2) None None)%Z] new_seq) = [i [3; 4]%Z; i [1; 2; 3; 4]%Z; i [1; 2]%Z].
Proof. vm_compute. reflexivity. Qed.
Definition by_value (st : scalar) : res Z := match s_value st with VInt z => Ok z | _ => Err TypeErr end.
Example test_reverse_sort :
  map fst (calls (l_step ints_schema) values_of [SetIt (vs (i [2; 1]%Z)); Reverse] new_seq) = [i [2; 1]%Z; i [1; 2]%Z]
  /\ map fst (calls (l_step ints_schema) values_of
       [SetIt (vs (i [2; 1]%Z)); Sort by_value false; Sort by_value true] new_seq)
     = [i [2; 1]%Z; i [1; 2]%Z; i [2; 1]%Z]
  /\ order_ok (after (l_step ints_schema) [SetIt (vs (i [2; 1]%Z)); Reverse] new_seq) = true
  /\ order_ok (after (l_step ints_schema) [SetIt (vs (i [2; 1]%Z)); Sort by_value false; Sort by_value true] new_seq) = true.
Proof. repeat split; vm_compute; reflexivity. Qed.
(* test_u, test_value *)
Definition no_object (d : data) : pyval := VNone.
Example test_u_value :
  let e := fst (nested_set no_object (NSeq OfList (NScalar (KString true))) (empty (NSeq OfList (NScalar (KString true))))
                           (texts ["x"; "x"])) in
  record_u (fun _ => true) e = lit "[u'x', u'x']" /\ record_value e = texts ["x"; "x"].
Proof. split; vm_compute; reflexivity. Qed.

(* ------------------------------------------------------------------ *)
(* tests/schema/test_arrays.py test_set *)
Definition parents_ok (q : seqst scalar) : bool :=
  forallb (fun e => match h_parent (q_h q) e with Some p => Nat.eqb p (q_self q) | None => false end) (q_items q).
Example test_array_set :
  calls (a_step ints_schema) array_values [SetIt not_iterable] new_seq = [([], is_false)]
  /\ calls (a_step ints_schema) array_values [SetIt (vs [])] new_seq = [([], is_true)]
  /\ calls (a_step ints_schema) array_values [SetIt (vs (i [1]%Z))] new_seq = [(i [1]%Z, is_true)]
  /\ calls (a_step ints_schema) array_values [SetIt (vs (i [1; 2; 3]%Z))] new_seq = [(i [1; 2; 3]%Z, is_true)]
  /\ parents_ok (after (a_step ints_schema) [SetIt (vs (i [1]%Z))] new_seq) = true.
Proof. repeat split; vm_compute; reflexivity. Qed.
(* test_set_default *)
Example test_array_set_default :
  let sch := members (KString true) (Some (t "not triggered")) in
  let d := DIter (vs (strs ["x"; "y"])) in
  map fst (calls (a_step sch) array_values [SetDefault d; Append (AVal (t "z")); SetDefault d] new_seq)
    = [strs ["x"; "y"]; strs ["x"; "y"; "z"]; strs ["x"; "y"]]
  /\ map fst (calls (a_step sch) array_values [SetDefault (DIter (vs (strs ["x"])))] new_seq) = [strs ["x"]]
  /\ map fst (calls (a_step sch) array_values [SetDefault DUnspecified] new_seq) = [[]].
Proof. repeat split; vm_compute; reflexivity. Qed.
(* test_mutation *)
Definition chars (s : string) : list pyval := map (fun c => VText [c]) (lit s).
Example test_array_mutation :
  let sch := members (KString true) None in
  let os := [SetIt (vs (strs ["b"])); Append (AVal (t "x")); SetItem 1 (AVal (t "a")); Remove (AVal (t "b"));
             Extend (given (chars "bcdefg")); DelItem 0; DelSlice (Slice (Some 0) (Some 4) None)%Z; Pop (-1);
             DelSlice whole_slice; SetSlice whole_slice (given (chars "abc")); Insert 1 (AVal (t "z"))] in
  map fst (calls (a_step sch) array_values os new_seq)
  = [strs ["b"]; strs ["b"; "x"]; strs ["b"; "a"]; strs ["a"]; chars "abcdefg"; chars "bcdefg"; chars "fg"; chars "f";
     []; chars "abc"; chars "azbc"]
  /\ forallb (fun n => parents_ok (after (a_step sch) (firstn n os) new_seq)) (seq 0 12) = true.
Proof. split; vm_compute; reflexivity. Qed.
(* test_el *)
Example test_array_el :
  let tree := ModelPaths.Seq false None true (repeat (ModelPaths.Leaf (nm "s")) 3) in
  ModelPaths.el tree (ModelPaths.Node []) (lit "0") (lit ".") = Ok (ModelPaths.Node [0])
  /\ ModelPaths.el tree (ModelPaths.Node []) (lit "2") (lit ".") = Ok (ModelPaths.Node [2])
  /\ ModelPaths.el tree (ModelPaths.Node []) (lit "a") (lit ".") = Err KeyErr.
Proof. repeat split; vm_compute; reflexivity. Qed.
(* test_multivalue_set, test_multivalue_mutation *)
Definition multi : nested := NSeq OfMulti (NScalar (KInteger true)).
Definition multi_with (d : data) : record * res bool := nested_set no_object multi (empty multi) d.
Definition shows (e : record) : data * str * bool := (record_value e, record_u (fun _ => true) e, record_bool e).
Example test_multivalue_set :
  shows (empty multi) = (DVal VNone, [], false)
  /\ snd (multi_with (DVal (VInt 0))) = Ok false
  /\ shows (fst (multi_with (DVal (VInt 0)))) = (DVal VNone, [], false)
  /\ snd (multi_with (DSeq [])) = Ok true
  /\ shows (fst (multi_with (ints [0]%Z))) = (DVal (VInt 0), lit "0", true)
  /\ shows (fst (multi_with (ints [0; 1]%Z))) = (DVal (VInt 0), lit "0", true)
  /\ shows (fst (multi_with (ints [1; 2]%Z))) = (DVal (VInt 1), lit "1", true).
Proof. repeat split; vm_compute; reflexivity. Qed.
(* tests/schema/test_compound.py:479-492 test_joined_string_flat *)
Definition js : joined := Joined (lit ",") ModelCompound.Static true None (KInteger true).
Example joined_string_flat :
  flattens (SJoined (nm "js") js) [("js", t "1")] [("js", "1")] = true
  /\ flattens (SJoined (nm "js") js) [("js", t "1,2,3")] [("js", "1,2,3")] = true
  /\ gives (SJoined (nm "js") js) [("js", t "1,2,3")] (DVal (t "1,2,3")) = true.
Proof. vm_compute. repeat split. Qed.
