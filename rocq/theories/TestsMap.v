(* The assertions of tests/schema/test_dicts.py computed on the models.  Left
   out: repr, and raw of containers (base.py:60-66, not modelled). *)
From Verif Require ModelPaths.
From Verif Require Import PyBase ModelUtil ModelScalar ModelSeq ModelMap ModelFlat ModelNest.
Local Open Scope string_scope.

Definition t (s : string) : pyval := VText (lit s).
Definition nm (s : string) : name := Some (lit s).

(* a scalar class with a name, a default and optional; its set_flat is that of
   schema/scalars.py:149-161 *)
Definition class (n : string) (k : kind) (default : option pyval) (optional : bool) : ecls pyval scalar :=
  Ecls blank optional (scalar_set k)
    (fun st _ => scalar_set k st (VObj (Obj 0 (lit "<Element>") true (Err TypeErr))))
    (fun st l => match filter (fun p => name_eqb (fst p) (nm n)) l with
                 | (_, v) :: _ => (fst (scalar_set k st v), Ok tt)
                 | [] => (st, Ok tt)
                 end)
    (scalar_set_default k default) (scalar_is_empty k) s_value.
Definition int (n : string) := class n (KInteger true) None false.
Definition int_default (n : string) (z : Z) := class n (KInteger true) (Some (VInt z)) false.
Definition opt (n : string) := class n (KInteger true) None true.
Definition text (n : string) := class n (KString true) None false.

(* a mapping class: named, of classes *)
Record mapping := Mapping {
  p_fl : flavour; p_name : name; p_classes : list (string * ecls pyval scalar); p_min : minimum; p_policy : policy;
  p_default : mdefault pyval }.
Definition classes (m : mapping) (c : nat) : ecls pyval scalar := nth c (map snd (p_classes m)) (int "?").
Definition fields (m : mapping) : list field :=
  map (fun '(i, (n, _)) => Field (nm n) i) (combine (seq 0 (List.length (p_classes m))) (p_classes m)).
Definition heap0 : eheap scalar := EHeap 1 (fun _ => None) (fun _ => 0) (fun _ => false) (fun _ => blank).
Definition create (m : mapping) (v : option (source pyval)) : mapst scalar * res unit :=
  construct_map (classes m) Nat.eqb (fields m) (p_min m) (p_fl m) (p_policy m) heap0 0 v.
Definition new (m : mapping) : mapst scalar := fst (create m None).
Definition step (m : mapping) (s : mapst scalar) (o : mop pyval) : mapst scalar * res (mout pyval) :=
  match p_fl m with
  | IsDict => dict_step (classes m) Nat.eqb (fields m) (p_name m) (p_min m) (p_policy m) s o
  | IsSparse => sparse_step (classes m) Nat.eqb (fields m) (p_name m) (p_min m) (p_policy m) s o
  end.
Definition outcome (m : mapping) (s : mapst scalar) (o : mop pyval) : res (mout pyval) := snd (step m s o).
Definition after (m : mapping) (os : list (mop pyval)) : mapst scalar := fold_left (fun s o => fst (step m s o)) os (new m).
(* element.value *)
Definition value (m : mapping) (s : mapst scalar) : list (name * pyval) := pair_values (classes m) s.
Definition values_after (m : mapping) (os : list (mop pyval)) := value m (after m os).
Definition from (l : list (string * pyval)) : source pyval := Pairs (Iter (map (fun p => (nm (fst p), snd p)) l) None).
Definition set (l : list (string * pyval)) : mop pyval := MSet (from l) None.
Definition flat (l : list (string * string)) : mop pyval := MSetFlat (map (fun p => (nm (fst p), t (snd p))) l) (lit "_").
Definition item (n : string) (v : pyval) : mop pyval := MSetItem (nm n) (AVal v).
Definition update (d : list (string * pyval)) (kw : list (string * pyval)) : mop pyval :=
  MUpdate [Iter (map (fun p => (nm (fst p), AVal (snd p))) d) None] (map (fun p => (nm (fst p), AVal (snd p))) kw).
Definition is (l : list (string * pyval)) : list (name * pyval) := map (fun p => (nm (fst p), snd p)) l.
Definition dict_xy (cx cy : ecls pyval scalar) : mapping :=
  Mapping IsDict (nm "s") [("x", cx); ("y", cy)] MinNone Subset MDUnspecified.
Definition sparse_xy (min : minimum) (cx cy : ecls pyval scalar) : mapping :=
  Mapping IsSparse (nm "s") [("x", cx); ("y", cy)] min Subset MDUnspecified.
Definition plain := dict_xy (int "x") (int "y").

(* test_dict *)
Example test_dict : snd (create (Mapping IsDict None [] MinNone Subset MDUnspecified) None) = Err TypeErr.
Proof. reflexivity. Qed.
(* test_dict_immutable_keys *)
Example test_dict_immutable_keys :
  map (outcome plain (new plain))
    [item "z" (VInt 123); MDelItem (nm "x"); MDelItem (nm "z"); MSetdefault (nm "x") (VInt 123);
     MSetdefault (nm "z") (VInt 123); MPop (nm "x"); MPop (nm "z"); MPopItem; MClear]
  = [Err TypeErr; Err TypeErr; Err KeyErr; Err TypeErr; Err TypeErr; Err TypeErr; Err KeyErr; Err TypeErr; Err TypeErr].
Proof. vm_compute. reflexivity. Qed.
(* test_dict_reads *)
Example test_dict_reads :
  values_after plain [item "x" (t "10"); item "y" (t "20")] = is [("x", VInt 10); ("y", VInt 20)]
  /\ values_after plain [item "x" (t "10"); item "y" (t "20"); item "x" VNone] = is [("x", VNone); ("y", VInt 20)]
  /\ outcome plain (new plain) (MGet (nm "z")) = Err KeyErr
  /\ outcome plain (new plain) (MGet (nm "x")) = Ok (MOElem 1).
Proof. repeat split; vm_compute; reflexivity. Qed.
(* test_dict_update *)
Example test_dict_update :
  let os := [update [] [("x", VInt 20); ("y", VInt 30)]; update [("y", VInt 40)] []; MUpdate [] [];
             update [("x", VInt 100); ("y", VInt 100)] []; update [("x", VInt 1)] [("y", VInt 2)];
             update [("x", VInt 10); ("y", VInt 10)] [("x", VInt 20); ("y", VInt 20)]] in
  map (fun n => values_after plain (firstn n os)) (seq 1 6)
  = map (fun p => is [("x", VInt (fst p)); ("y", VInt (snd p))])
        [(20, 30); (20, 40); (20, 40); (100, 100); (1, 2); (20, 20)]%Z
  /\ map (outcome plain (after plain os))
       [update [] [("z", VInt 1)]; update [] [("x", VInt 1); ("z", VInt 1)]; update [("z", VInt 1)] [];
        update [("x", VInt 1); ("z", VInt 1)] []] = repeat (Err TypeErr) 4.
Proof. split; vm_compute; reflexivity. Qed.

(* class DictSetTest, for its three subclasses: TestEmptyDictSet,
   TestDefaultDictSet, TestEmptySparseDictRequiredSet *)
Definition three : list mapping :=
  [plain; dict_xy (int_default "x" 10) (int_default "y" 20); sparse_xy MinRequired (int "x") (int "y")].
Fixpoint same (a b : list (name * pyval)) : bool :=
  match a, b with
  | [], [] => true
  | (k, v) :: a', (l, w) :: b' => name_eqb k l && py_eq v w && same a' b'
  | _, _ => false
  end.
Definition sets (os : list (mop pyval)) (wanted : list (string * pyval)) : bool :=
  forallb (fun m => same (values_after m os) (is wanted)) three.
Definition builds (l : list (string * pyval)) (wanted : list (string * pyval)) : bool :=
  forallb (fun m => let '(s, r) := create m (Some (from l)) in
                    match r with Ok _ => same (value m s) (is wanted) | Err _ => false end) three.
(* test_empty_sets, test_empty_set_flat, test_half_set, test_half_set_flat,
   test_full_set, test_full_set_flat, test_scalar_set_flat,
   test_over_set_flat, test_total_miss_flat *)
Example test_sets :
  let empty := [("x", VNone); ("y", VNone)] in
  let half := [("x", VInt 123); ("y", VNone)] in
  let full := [("x", VInt 101); ("y", VInt 102)] in
  sets [] empty && sets [set []] empty && builds [] empty && sets [flat []] empty
  && sets [set [("x", VInt 123)]] half && sets [flat [("s_x", "123")]] half
  && sets [set full] full && builds full full && sets [flat [("s_x", "101"); ("s_y", "102")]] full
  && sets [flat [("s", "xxx")]] empty && sets [flat [("s_x", "123"); ("s_z", "nope")]] half
  && sets [flat [("miss", "10")]] empty = true.
Proof. vm_compute. reflexivity. Qed.
(* test_over_set, test_total_miss *)
Example test_over_set :
  let too_much := [("x", VInt 1); ("y", VInt 2); ("z", VInt 3)] in
  let miss := [("z", VInt 3)] in
  map (fun m => outcome m (new m) (set too_much)) three = repeat (Err KeyErr) 3
  /\ map (fun m => snd (create m (Some (from too_much)))) three = repeat (Err KeyErr) 3
  /\ map (fun m => outcome m (new m) (set miss)) three = repeat (Err KeyErr) 3
  /\ map (fun m => snd (create m (Some (from miss)))) three = repeat (Err KeyErr) 3.
Proof. repeat split; vm_compute; reflexivity. Qed.
(* test_set_return *)
Example test_set_return :
  map (fun m => outcome m (new m) (set [("x", VInt 1); ("y", VInt 2)])) three = repeat (Ok (MOBool true)) 3
  /\ map (fun m => outcome m (new m) (set [("x", t "i am the new"); ("y", t "number two")])) three
     = repeat (Ok (MOBool false)) 3.
Proof. split; vm_compute; reflexivity. Qed.
(* test_set_default, test_set_default_from_children *)
Example test_set_default :
  let wanted := [("x", VInt 11); ("y", VInt 12)] in
  sets [MSetDefault (MDValue (from wanted))] wanted = true
  /\ map (fun m => values_after m [MSetDefault MDUnspecified]) three
     = [is [("x", VNone); ("y", VNone)]; is [("x", VInt 10); ("y", VInt 20)]; is [("x", VNone); ("y", VNone)]].
Proof. split; vm_compute; reflexivity. Qed.
(* test_dict_valid_policies *)
Example test_dict_valid_policies :
  outcome plain (new plain) (MSet (from []) (Some OtherPolicy)) = Err AssertErr.
Proof. vm_compute. reflexivity. Qed.
(* test_dict_strict *)
Example test_dict_strict :
  let m := Mapping IsDict None [("x", int "x"); ("y", int "y")] MinNone Strict MDUnspecified in
  snd (create m (Some (from [("x", VInt 123); ("y", VInt 456)]))) = Ok tt
  /\ outcome m (new m) (set [("x", VInt 123)]) = Err TypeErr
  /\ outcome m (new m) (set [("x", VInt 123); ("y", VInt 456); ("z", VInt 7)]) = Err KeyErr.
Proof. repeat split; vm_compute; reflexivity. Qed.
(* test_dict_as_unicode, test_nested_dict_as_unicode,
   test_nested_unicode_dict_as_unicode: the value is set, not defaulted *)
Definition no_object (d : data) : pyval := VNone.
Definition u_of (s : nested) (d : data) : str := record_u (fun _ => true) (fst (nested_set no_object s (empty s) d)).
Definition i_ : nested := NScalar (KInteger true).
Example test_dict_as_unicode :
  u_of (NDict Subset [(nm "x", false, i_); (nm "y", false, i_)]) (DMap [(nm "x", DVal (VInt 1)); (nm "y", DVal (VInt 2))])
  = lit "{u'x': u'1', u'y': u'2'}"
  /\ u_of (NDict Subset [(nm "d", false, NDict Subset [(nm "x", false, i_)])]) (DMap [(nm "d", DMap [(nm "x", DVal (VInt 10))])])
     = lit "{u'd': {u'x': u'10'}}"
  /\ u_of (NDict Subset [(nm "d", false, NDict Subset [(nm "x", false, NScalar (KString true))])])
          (DMap [(nm "d", DMap [(nm "x", DVal (VText [8968%N; 8969%N]))])])
     = (lit "{u'd': {u'x': u'" ++ [8968; 8969]%N ++ lit "'}}")%list.
Proof. repeat split; vm_compute; reflexivity. Qed.
(* test_dict_el *)
Example test_dict_el :
  let tree := ModelPaths.Map (nm "s") true [(nm "x", ModelPaths.Leaf (nm "x")); (nm "y", ModelPaths.Leaf (nm "y"))] in
  rmap (ModelPaths.elem_name tree) (ModelPaths.el tree (ModelPaths.Node []) (lit "x") (lit ".")) = Ok (nm "x")
  /\ ModelPaths.el tree (ModelPaths.Node []) (lit "not_x") (lit ".") = Err KeyErr.
Proof. split; vm_compute; reflexivity. Qed.

(* test_update_object: the attributes x, y and z afterwards *)
Definition strings := dict_xy (text "x") (text "y").
Definition object (l : list (string * pyval)) (a : name) : option pyval := aget name_eqb a (is l).
Definition updated (l initial : list (string * pyval)) include omit rename (wanted : list (string * pyval)) : Prop :=
  let '(o, r) := update_object (classes strings) (fst (create strings (Some (from initial)))) (object l)
                   include omit rename (fun k => k) in
  r = Ok tt /\ map o [nm "x"; nm "y"; nm "z"] = map (object wanted) [nm "x"; nm "y"; nm "z"].
Example test_update_object :
  let both := [("x", t "X"); ("y", t "Y")] in
  let x := [("x", t "X")] in let y := [("y", t "Y")] in
  let half := [("x", t "X"); ("y", VNone)] in
  updated [] both None None None both
  /\ updated [] x None None None half
  /\ updated y x None None None half
  /\ updated y x None (Some [nm "y"]) None both
  /\ updated y x (Some [nm "z"]) None None y
  /\ updated [] x None None (Some [(nm "x", nm "z")]) [("y", VNone); ("z", t "X")].
Proof. repeat split; vm_compute; reflexivity. Qed.
(* test_slice, with what keyslice_pairs gives written out *)
Example test_slice :
  let el := fst (create strings (Some (from [("x", t "X"); ("y", t "Y")]))) in
  let slice := dict_slice (classes strings) el in
  slice None None None None = Ok (is [("x", t "X"); ("y", t "Y")])
  /\ slice None None None (Some (fun k => k)) = Ok (is [("x", t "X"); ("y", t "Y")])
  /\ slice (Some [nm "x"]) None None None = Ok (is [("x", t "X")])
  /\ slice None (Some [nm "x"]) None None = Ok (is [("y", t "Y")])
  /\ slice None (Some [nm "x"]) (Some [(nm "y", nm "z")]) None = Ok (is [("z", t "Y")]).
Proof. repeat split; vm_compute; reflexivity. Qed.

(* ------------------------------ SparseDict ------------------------------ *)
Definition has (m : mapping) (os : list (mop pyval)) : list string :=
  filter (fun n => mhas (nm n) (after m os)) ["x"; "y"; "z"].
(* test_sparsedict_key_mutability *)
Example test_sparsedict_key_mutability :
  let m := sparse_xy MinNone (int "x") (int "y") in
  let x := nm "x" in let z := nm "z" in
  let os := [item "x" (VInt 123); MDelItem x; MSetdefault x (VInt 456); item "x" (VInt 123); MPop x; MClear] in
  let out n := outcome m (after m (firstn n os)) in
  values_after m (firstn 1 os) = is [("x", VInt 123)]
  /\ out 1 (item "z" (VInt 123)) = Err TypeErr
  /\ has m (firstn 2 os) = []
  /\ out 2 (MDelItem z) = Err TypeErr
  /\ out 2 (MSetdefault x (VInt 456)) = Ok (MOValue (VInt 456))
  /\ out 3 (MSetdefault z (VInt 456)) = Err TypeErr
  /\ out 4 (MPop x) = Ok (MOElem 2)
  /\ out 5 (MPop z) = Err KeyErr
  /\ out 5 MPopItem = Err NotImplErr
  /\ values_after m os = [].
Proof. repeat split; vm_compute; reflexivity. Qed.
(* test_sparsedict_operations, without validate() *)
Example test_sparsedict_operations :
  let m := sparse_xy MinNone (int "x") (int "y") in
  let os := [item "x" (VInt 123); MDelItem (nm "x"); MSetdefault (nm "x") (VInt 123); MSetdefault (nm "y") (VInt 123)] in
  let out n := outcome m (after m (firstn n os)) in
  out 2 (MDelItem (nm "x")) = Err KeyErr
  /\ out 2 (MSetdefault (nm "x") (VInt 123)) = Ok (MOValue (VInt 123))
  /\ out 3 (MSetdefault (nm "x") (VInt 456)) = Ok (MOValue (VInt 123))
  /\ out 3 (MSetdefault (nm "y") (VInt 123)) = Ok (MOValue (VInt 123))
  /\ out 4 (MSetdefault (nm "y") (VInt 456)) = Ok (MOValue (VInt 123))
  /\ map_is_empty IsSparse (new m) = true.
Proof. repeat split; vm_compute; reflexivity. Qed.
(* test_sparsedict_required_operations: x is optional, y is required *)
Example test_sparsedict_required_operations :
  let m := sparse_xy MinRequired (opt "x") (int "y") in
  let s := fst (step m (fst (create m (Some (from [("x", VInt 123); ("y", VInt 456)])))) (MDelItem (nm "x"))) in
  let os := [MSetdefault (nm "x") (VInt 123); MSetdefault (nm "y") (VInt 123)] in
  let out n := outcome m (after m (firstn n os)) in
  outcome m s (MDelItem (nm "x")) = Err KeyErr
  /\ outcome m s (MDelItem (nm "y")) = Err TypeErr
  /\ out 0 (MSetdefault (nm "x") (VInt 123)) = Ok (MOValue (VInt 123))
  /\ out 1 (MSetdefault (nm "x") (VInt 456)) = Ok (MOValue (VInt 123))
  /\ out 1 (MSetdefault (nm "y") (VInt 123)) = Ok (MOValue (VInt 123))
  /\ out 2 (MSetdefault (nm "y") (VInt 456)) = Ok (MOValue (VInt 123))
  /\ map_is_empty IsSparse (new m) = false.
Proof. repeat split; vm_compute; reflexivity. Qed.
(* test_sparsedict_set_default, test_sparsedict_required_set_default,
   test_sparsedict_bogus_set_default *)
Example test_sparsedict_set_default :
  values_after (sparse_xy MinNone (int_default "x" 123) (int "y")) [MSetDefault MDUnspecified] = []
  /\ values_after (Mapping IsSparse None
       [("x", int_default "x" 123); ("y", class "y" (KInteger true) (Some (VInt 456)) true); ("z", opt "z")]
       MinRequired Subset MDUnspecified) [MSetDefault MDUnspecified] = is [("x", VInt 123)]
  /\ (let m := Mapping IsSparse None [("x", int "x")] MinOther Subset MDUnspecified in
      outcome m (new m) (MSetDefault MDUnspecified)) = Err RuntimeErr.
Proof. repeat split; vm_compute; reflexivity. Qed.
(* test_sparsedict_required_key_mutability *)
Example test_sparsedict_required_key_mutability :
  let m := sparse_xy MinRequired (opt "x") (int "y") in
  let x := nm "x" in let y := nm "y" in let z := nm "z" in
  let os := [item "x" (VInt 123); item "y" (VInt 456); MDelItem x; MSetdefault x (VInt 456); MSetdefault y (VInt 789);
             item "x" (VInt 123); MPop x; item "y" (VInt 456); MClear] in
  let out n := outcome m (after m (firstn n os)) in
  has m [] = ["y"]
  /\ values_after m (firstn 2 os) = is [("y", VInt 456); ("x", VInt 123)]
  /\ out 2 (item "z" (VInt 123)) = Err TypeErr
  /\ has m (firstn 3 os) = ["y"]
  /\ out 3 (MDelItem y) = Err TypeErr
  /\ out 3 (MDelItem z) = Err TypeErr
  /\ out 3 (MSetdefault x (VInt 456)) = Ok (MOValue (VInt 456))
  /\ out 4 (MSetdefault y (VInt 789)) = Ok (MOValue (VInt 456))
  /\ out 5 (MSetdefault z (VInt 456)) = Err TypeErr
  /\ out 6 (MPop x) = Ok (MOElem 3)
  /\ out 8 (MPop y) = Err TypeErr
  /\ out 8 (MPop z) = Err KeyErr
  /\ out 8 MPopItem = Err NotImplErr
  /\ keys (m_items (after m os)) = [y].
Proof. repeat split; vm_compute; reflexivity. Qed.
(* test_sparsedict_from_flat, test_sparsedict_required_from_flat *)
Definition anonymous (m : mapping) : mapping := Mapping (p_fl m) None (p_classes m) (p_min m) (p_policy m) (p_default m).
Example test_sparsedict_from_flat :
  let m := anonymous (sparse_xy MinNone (int "x") (int "y")) in
  let r := anonymous (sparse_xy MinRequired (int "x") (opt "y")) in
  values_after m [flat []] = []
  /\ values_after m [flat [("x", "123")]] = is [("x", VInt 123)]
  /\ values_after m [flat [("x", "123"); ("z", "456")]] = is [("x", VInt 123)]
  /\ values_after r [flat []] = is [("x", VNone)]
  /\ values_after r [flat [("x", "123")]] = is [("x", VInt 123)]
  /\ values_after r [flat [("y", "456"); ("z", "789")]] = is [("x", VNone); ("y", VInt 456)].
Proof. repeat split; vm_compute; reflexivity. Qed.
(* test_sparsedict_flattening: what is flattened are the members *)
Example test_sparsedict_flattening :
  let m := sparse_xy MinNone (int "x") (int "y") in
  let both := [("x", VInt 123); ("y", VInt 456)] in
  let h := EHeap 3 (fun _ => None) (fun i => Nat.pred i) (fun _ => false)
             (fun i => fst (scalar_set (KInteger true) blank (VInt (if Nat.eqb i 1 then 123 else 456)))) in
  value m (fst (create m (Some (from both)))) = is both
  /\ values_after m [set both] = is both
  /\ values_after m [item "x" (VInt 123); item "y" (VInt 456)] = is both
  /\ (let s := fold_left (fun s o => fst (step m s o))
                 [MSetItem (nm "x") (AElem 1); MSetItem (nm "y") (AElem 2)] (MapSt h 0 []) in
      value m s = is both /\ map (e_parent (m_h s)) [1; 2] = [Some 0; Some 0]).
Proof. repeat split; vm_compute; reflexivity. Qed.
