(* The assertions of tests/schema/test_paths.py, and those about names, lookup
   and all_children of tests/schema/test_containers.py, computed on the model.
   The texts of error messages are in TestsDocs. *)
From Verif Require Import PyBase PyList ModelSeq ModelPaths.
Local Open Scope string_scope.

Definition name_ (s : string) : op := NAME (Some (lit s)).
Definition tok (s : string) : res (list op) := tokenize (lit s).
Definition sl (a b c : option Z) : op := SLICE (Slice a b c).

(* tests/schema/test_paths.py test_tokenize *)
Example test_tokenize :
  map tok ["."; "/"; ".."; "/.."; "../.."; "//"; "foo"; "/foo"; "foo/"; "foo/bar"; "foo/../bar"; "foo/./bar";
           "foo/./bar/."; "foo/bar[bogus]"; "a[b][c:d][0]"; ".[1]"; "foo[1]"; "foo[1]/"; "./foo[1]/"; "foo[1][2][3]";
           "[1][2][3]"; "[1]/foo/[2]"]
  = map Ok
    [[HERE]; [TOP]; [UP]; [TOP]; [UP; UP]; [TOP; NAME None]; [name_ "foo"]; [TOP; name_ "foo"]; [name_ "foo"];
     [name_ "foo"; name_ "bar"]; [name_ "bar"]; [name_ "foo"; name_ "bar"]; [name_ "foo"; name_ "bar"];
     [name_ "foo"; name_ "bar[bogus]"]; [name_ "a[b][c:d]"; name_ "0"]; [name_ "1"]; [name_ "foo"; name_ "1"];
     [name_ "foo"; name_ "1"]; [name_ "foo"; name_ "1"]; [name_ "foo"; name_ "1"; name_ "2"; name_ "3"];
     [name_ "1"; name_ "2"; name_ "3"]; [name_ "1"; name_ "foo"; name_ "2"]]
  /\ map tok ["[:]"; "[1:]"; "[1:2]"; "[:5]"; "[-5:]"; "[1:8:2]"]
     = map (fun s => Ok [s])
       [sl None None None; sl (Some 1) None None; sl (Some 1) (Some 2) None; sl (Some 0) (Some 5) None;
        sl (Some (-5)) None None; sl (Some 1) (Some 8) (Some 2)]%Z.
Proof. split; vm_compute; reflexivity. Qed.
(* test_tokenize_escapes *)
Example test_tokenize_escapes :
  map tok ["\."; "\/"; "\.\."; "/\.\."; "\/.."; "..\/.."; "foo\[1]"; "foo\/bar"; "\/foo"; "foo\/"]
  = map Ok
    [[name_ "."]; [name_ "/"]; [name_ ".."]; [TOP; name_ ".."]; [name_ "/.."]; [name_ "../.."]; [name_ "foo[1]"];
     [name_ "foo/bar"]; [name_ "/foo"]; [name_ "foo/"]].
Proof. vm_compute. reflexivity. Qed.

(* class Schema: the elements and, beside them, the values of the leaves *)
Definition leaf (s : string) : tree := Leaf (Some (lit s)).
Definition map_ (s : string) (l : list tree) : tree := Map (Some (lit s)) true (map (fun t => (tree_name t, t)) l).
Definition list_ (s : string) (l : list tree) : tree := Seq true (Some (lit s)) true l.
Definition Schema : tree :=
  Map None true (map (fun t => (tree_name t, t))
    [leaf "i1"; map_ "d1" [leaf "d1i1"; leaf "d1i2"]; list_ "l1" [leaf "l1i1"; leaf "l1i1"];
     list_ "l2" (repeat (Map None true [(Some (lit "l2i1"), leaf "l2i1"); (Some (lit "l2i2"), leaf "l2i2")]) 3);
     list_ "l3" (repeat (list_ "l3l1" [Leaf None; Leaf None]) 2);
     Seq false (Some (lit "a1")) true (repeat (Leaf None) 6);
     map_ "dt1" [leaf "year"; leaf "month"; leaf "day"]]).
(* where each thing is: from the innermost index out *)
Definition i1 := Node [0].
Definition d1 := Node [1].
Definition d1i1 := Node [0; 1].
Definition d1i2 := Node [1; 1].
Definition l1 := Node [2].
Definition l1_ (i : nat) := Node [i; 2].
Definition l3_ (i : nat) := Node [i; 4].
Definition l3__ (i j : nat) := Node [j; i; 4].
Definition a1_ (i : nat) := Node [i; 5].
Definition dt1 := Node [6].
Definition year := Node [0; 6].
Definition top := Node [].
(* pathexpr(path)(element) *)
Definition finds (e : elem) (path : string) : res (list elem) :=
  bind (tok path) (fun ops => evaluate 100 Schema false ops e).

(* test_evaluation *)
Example test_evaluation :
  map (fun '(e, p) => finds e p)
    [(i1, "."); (top, "i1"); (top, "/i1"); (top, "../i1"); (top, "../i1/."); (i1, "../i1"); (top, "d1/d1i1");
     (top, "/d1/d1i2"); (d1i1, ".."); (top, "/l1"); (top, "/l1[:]"); (top, "/l1[2:]"); (top, "/l1[0]");
     (top, "./l1[0]"); (top, "l1/.[0]")]
  = map Ok [[i1]; [i1]; [i1]; [i1]; [i1]; [i1]; [d1i1]; [d1i2]; [d1]; [l1]; [l1_ 0; l1_ 1]; []; [l1_ 0]; [l1_ 0]; [l1_ 0]]
  /\ map (finds top) ["/l2[:]/l2i1"; "/l3[:]"; "/l3[:][:]"; "l3[1:][1:]"]
     = map Ok [[Node [0; 0; 3]; Node [0; 1; 3]; Node [0; 2; 3]]; [l3_ 0; l3_ 1];
               [l3__ 0 0; l3__ 0 1; l3__ 1 0; l3__ 1 1]; [l3__ 1 1]]
  /\ map (finds top)
       ["a1[1:]"; "a1[:-1]"; "a1[3]"; "a1[2]"; "a1[1]"; "a1[0]"; "a1[-1]"; "a1[-2]"; "a1[-3]"; "a1[10]"; "a1[-10]";
        "a1[-3:-1]"; "a1[1:3]"; "a1[:3]"; "a1[::2]"; "a1[2::2]"; "a1[2:4:2]"; "a1[::-1]"; "a1[::-2]"]
     = map (fun l => Ok (map a1_ l))
       [[1; 2; 3; 4; 5]; [0; 1; 2; 3; 4]; [3]; [2]; [1]; [0]; [5]; [4]; [3]; []; []; [3; 4]; [1; 2]; [0; 1; 2];
        [0; 2; 4]; [2; 4]; [2]; [5; 4; 3; 2; 1; 0]; [5; 3; 1]]
  /\ map (finds top) ["dt1"; "dt1/year"; "dt1/./year"] = map Ok [[dt1]; [year]; [year]].
Proof. repeat split; vm_compute; reflexivity. Qed.
Definition look (path : string) (single strict : bool) : res answer := snd (find 100 [] Schema top (lit path) single strict).
(* test_find_strict_loose, test_find_default, test_find_single,
   test_find_single_loose, test_find_single_messaging *)
Example test_find :
  map (fun p => look p false true) ["bogus"; "/d1/d1i3"; "l1[5]"; "l3[:]/missing"] = repeat (Err LookupErr) 4
  /\ map (fun p => look p false false) ["bogus"; "/d1/d1i3"; "l1[5]"; "l3[:]/missing"] = repeat (Ok (Many [])) 4
  /\ map (fun p => look p false true) ["i1"; "a1[:]"; "a1[0]"]
     = [Ok (Many [i1]); Ok (Many (map a1_ [0; 1; 2; 3; 4; 5])); Ok (Many [a1_ 0])]
  /\ map (fun p => look p true false) ["i1"; "bogus"; "a1[0]"; "a1[10]"; "l3[1:][1:]"; "l3[:][:]"]
     = map (fun o => Ok (One o)) [Some i1; None; Some (a1_ 0); None; Some (l3__ 1 1); Some (l3__ 0 0)]
  /\ look "a1[:]" true true = Err LookupErr.
Proof. repeat split; vm_compute; reflexivity. Qed.

(* tests/schema/test_containers.py test_mixed_all_children: the order of a dict
   is the order in which its keys were put in *)
Definition mixed : tree :=
  map_ "R" [leaf "A1"; leaf "A2";
    map_ "A3" [map_ "A3B1" [leaf "A3B1C1"; leaf "A3B1C2"]; map_ "A3B2" [leaf "A3B2C1"];
               list_ "A3B3" (repeat (list_ "A3B3Cx" [leaf "A3B3x"; leaf "A3B3x"]) 3)]].
Example test_mixed_all_children :
  rmap (map (elem_name mixed)) (all_children mixed 100 top)
  = Ok (map (fun s => Some (lit s))
       ["A1"; "A2"; "A3"; "A3B1"; "A3B2"; "A3B3"; "A3B1C1"; "A3B1C2"; "A3B2C1"; "A3B3Cx"; "A3B3Cx"; "A3B3Cx";
        "A3B3x"; "A3B3x"; "A3B3x"; "A3B3x"; "A3B3x"; "A3B3x"]).
Proof. vm_compute. reflexivity. Qed.

(* element.el(text), element.el(a list of names); None is Root *)
Definition by_text (t : tree) (e : elem) (s : string) : res elem := el t e (lit s) (lit ".").
Definition by_names (t : tree) (e : elem) (l : list (option string)) : res elem :=
  el_names t e (map (option_map (fun s => Some (lit s))) l).
(* test_naming_bogus, test_naming_shallow *)
Example test_naming_shallow :
  by_text (leaf "s") top "." = Ok top /\ by_text (leaf "s") top "" = Err KeyErr /\ by_names (leaf "s") top [] = Err KeyErr
  /\ fq_name (leaf "s") top (lit ".") = Ok (lit ".") /\ fq_name (Leaf None) top (lit ".") = Ok (lit ".")
  /\ by_text (Leaf None) top "." = Ok top /\ by_names (Leaf None) top [] = Err KeyErr
  /\ by_names (Leaf None) top [None] = Ok top.
Proof. repeat split; vm_compute; reflexivity. Qed.
(* test_naming_dict, test_naming_dict_dict *)
Example test_naming_dict :
  forall n, let d := Map n true [(Some (lit "s"), leaf "s")] in
  let dd := Map n true [(Some (lit "d2"), map_ "d2" [leaf "s"])] in
  let l := Node [0] in let ll := Node [0; 0] in
  fq_name d top (lit ".") = Ok (lit ".") /\ by_text d top "." = Ok top
  /\ fq_name d l (lit ".") = Ok (lit ".s")
  /\ map (by_text d top) [".s"; "s"] = [Ok l; Ok l]
  /\ map (by_text d l) [".s"; "s"; "."] = [Ok l; Err KeyErr; Ok top]
  /\ map (by_names d top) [[None]; [Some "s"]; [None; Some "s"]] = [Ok top; Ok l; Ok l]
  /\ fq_name dd top (lit ".") = Ok (lit ".") /\ by_text dd top "." = Ok top
  /\ fq_name dd ll (lit ".") = Ok (lit ".d2.s")
  /\ map (by_text dd top) [".d2.s"; "d2.s"] = [Ok ll; Ok ll]
  /\ map (by_text dd ll) [".d2.s"; "d2.s"; "."] = [Ok ll; Err KeyErr; Ok top]
  /\ by_names dd top [Some "d2"; Some "s"] = Ok ll.
Proof. intro n. cbv zeta. repeat split; vm_compute; reflexivity. Qed.
(* test_naming_list, test_naming_list_list *)
Example test_naming_list :
  forall n, let d := Seq true n true [leaf "s"] in
  let dd := Seq true n true [list_ "l2" [leaf "s"]] in
  let l := Node [0] in let ll := Node [0; 0] in
  fq_name d top (lit ".") = Ok (lit ".") /\ by_text d top "." = Ok top
  /\ fq_name d l (lit ".") = Ok (lit ".0")
  /\ map (by_text d top) [".0"; "0"] = [Ok l; Ok l]
  /\ map (by_text d l) [".0"; "0"; "s"; "."] = [Ok l; Err KeyErr; Err KeyErr; Ok top]
  /\ by_names d top [Some "0"] = Ok l
  /\ fq_name dd top (lit ".") = Ok (lit ".") /\ by_text dd top "." = Ok top
  /\ fq_name dd ll (lit ".") = Ok (lit ".0.0")
  /\ map (by_text dd top) [".0.0"; "0.0"] = [Ok ll; Ok ll]
  /\ map (by_text dd ll) [".0.0"; "0"; "s"; "."] = [Ok ll; Err KeyErr; Err KeyErr; Ok top]
  /\ by_names dd top [Some "0"; Some "0"] = Ok ll.
Proof. intro n. cbv zeta. repeat split; vm_compute; reflexivity. Qed.
