(* The doctests of docs/source: schema/traversal.rst, schema/lists.rst,
   schema/containers.rst, validation/index.rst, markup.rst and intro.rst, and
   the messages of tests/schema/test_paths.py, computed on the models.  Texts are shown without the u of Python 2. *)
From Verif Require ModelSeq ModelCompound ModelMarkup ModelValidate TestsSeq TestsMarkup TestsPaths TestsValidate.
From Verif Require Import PyBase ModelScalar ModelFlat ModelNest ModelPaths ModelRepr.
Local Open Scope string_scope.

Definition nm (s : string) : name := Some (lit s).
Definition shows (e : looks) : res str := look (fun _ => true) (fun _ => []) e.
Definition string_ (n v : string) : looks := ofScalar (lit "String") (nm n) (Ok (VText (lit v))).
Definition integer_ (n : name) (v : Z) : looks := ofScalar (lit "Integer") n (Ok (VInt v)).

(* docs/source/schema/traversal.rst: ann1, and what stands at each place *)
Definition ann1 : tree :=
  Map (nm "ann1") true
    [(nm "title", Leaf (nm "title")); (nm "flags", Seq true (nm "flags") true [Leaf None; Leaf None; Leaf None]);
     (nm "location", Map (nm "location") true [(nm "x", Leaf (nm "x")); (nm "y", Leaf (nm "y"))])].
Definition at_ann1 (e : elem) : looks :=
  match e with
  | Node [0] => string_ "title" "Interesting Spot"
  | Node [0; 1] => integer_ None 1 | Node [1; 1] => integer_ None 3 | Node [2; 1] => integer_ None 5
  | Node [0; 2] => integer_ (nm "x") 10 | Node [1; 2] => integer_ (nm "y") 20
  | _ => ofList []
  end.
Definition list_of (l : list elem) : res str := shows (ofList (map at_ann1 l)).
Definition finds (e : elem) (path : string) : res str :=
  bind (snd (find 99 [] ann1 e (lit path) false true)) (fun a => match a with Many l => list_of l | One _ => Err AssertErr end).
Definition location_x := Node [0; 2].
Example traversal_python :
  shows (at_ann1 (Node [0])) = Ok (lit "<String 'title'; value='Interesting Spot'>")
  /\ list_of (children ann1 (Node [1])) = Ok (lit "[<Integer None; value=1>, <Integer None; value=3>, <Integer None; value=5>]")
  /\ list_of (children ann1 (Node [0])) = Ok (lit "[]")
  /\ rmap (map (elem_name ann1)) (all_children ann1 99 (Node []))
     = Ok [nm "title"; nm "flags"; nm "location"; None; None; None; nm "x"; nm "y"]
  /\ map (elem_name ann1) (parents ann1 location_x) = [nm "location"; nm "ann1"].
Proof. vm_compute. repeat split. Qed.
Example traversal_paths :
  finds (Node []) "title" = Ok (lit "[<String 'title'; value='Interesting Spot'>]")
  /\ finds (Node [2]) "x" = Ok (lit "[<Integer 'x'; value=10>]")
  /\ finds location_x "../../title" = finds (Node []) "title"
  /\ finds location_x "/title" = finds (Node []) "title"
  /\ finds (Node []) "/flags/0" = Ok (lit "[<Integer None; value=1>]")
  /\ finds (Node []) "/flags[0]" = Ok (lit "[<Integer None; value=1>]")
  /\ finds (Node []) "/flags[:]" = Ok (lit "[<Integer None; value=1>, <Integer None; value=3>, <Integer None; value=5>]")
  /\ finds (Node []) "/flags[1:]" = Ok (lit "[<Integer None; value=3>, <Integer None; value=5>]").
Proof. vm_compute. repeat split. Qed.
Definition point : tree := Map None true [(nm "x", Leaf (nm "x")); (nm "y", Leaf (nm "y"))].
Definition points : tree := Seq true None true [Seq true None true [point; point]; Seq true None true [point]].
Example traversal_points :
  snd (find 99 [] points (Node []) (lit "[:][:]/x") false true) = Ok (Many [Node [0; 0; 0]; Node [0; 1; 0]; Node [0; 0; 1]]).
Proof. vm_compute. reflexivity. Qed.

(* tests/schema/test_paths.py test_find_strict_messaging,
   test_find_single_messaging *)
Definition class_of (e : elem) : str :=
  match e with
  | Node [] => lit "Schema"
  | Node p => match node_at TestsPaths.Schema p with
              | Some (Map _ _ _) => lit "Dict" | Some (Seq true _ _ _) => lit "List" | Some (Seq false _ _ _) => lit "Array" | _ => lit "Integer"
              end
  | SlotOf _ => lit "ListSlot"
  end.
Definition message (path : string) (single : bool) : option str :=
  find_says (fun _ => true) class_of 99 TestsPaths.Schema (Node []) (lit path) single.
Example find_messaging :
  message "bogus" false = Some (lit "Unnamed element Schema has no child u'bogus' in expression u'bogus'")
  /\ message "d1/bogus" false = Some (lit "Dict element u'd1' has no child u'bogus' in expression u'd1/bogus'")
  /\ message "l1[5]" false = Some (lit "List element u'l1' has no child u'5' in expression u'l1[5]'")
  /\ message "a1[:]" true = Some (lit "Path 'a1[:]' matched multiple elements; single result expected.").
Proof. vm_compute. repeat split. Qed.

(* docs/source/schema/containers.rst *)
Definition names (prune : bool) : schema := SList (nm "names") prune 1024 (SScalar (nm "name") (KString true)).
Definition sparse := [("names_0_name", TestsSeq.t "first"); ("names_99_name", TestsSeq.t "last")].
Example containers_pruned :
  TestsSeq.gives (names true) sparse (TestsSeq.texts ["first"; "last"]) = true
  /\ match TestsSeq.from_flat (names false) sparse with
     | Ok e => match TestsSeq.value_of e with
               | DSeq l => N.eqb (N.of_nat (List.length l)) 100 && data_eq (DSeq (firstn 3 l)) (DSeq [DVal (TestsSeq.t "first"); DVal VNone; DVal VNone])
               | _ => false
               end
     | Err _ => false
     end = true.
Proof. split; vm_compute; reflexivity. Qed.
(* docs/source/schema/lists.rst *)
Definition two_names : tree := Seq true (nm "names") true [Leaf (nm "name"); Leaf (nm "name")].
Example lists_names :
  TestsSeq.flattens (names true) [("names_0_name", TestsSeq.t "a"); ("names_1_name", TestsSeq.t "b")]
                    [("names_0_name", "a"); ("names_1_name", "b")] = true
  /\ el two_names (Node []) (lit ".1") (lit ".") = Ok (Node [1]).
Proof. split; vm_compute; reflexivity. Qed.

(* docs/source/validation/index.rst: a String that is not set, and one that is;
   a Dict of which one member is not set and one, optional, neither *)
Import ModelValidate TestsValidate.
Example validation_string :
  run [El false true false [] [] []] = Ok (false, [Invalid], [])
  /\ run [El false false false [] [] []] = Ok (true, [Valid], []).
Proof. split; vm_compute; reflexivity. Qed.
Example validation_dict :
  run [El true false false [1; 2; 3] [] []; El false false false [] [] []; El false true false [] [] []; El false true true [] [] []]
  = Ok (false, [Valid; Valid; Invalid; Valid], []).
Proof. vm_compute. reflexivity. Qed.
Example validation_order :
  run (dict_of [] [("outer", VRTrue)] [("inner", VRTrue)]) = Ok (true, [Valid; Valid], ["inner"; "outer"])
  /\ run (dict_of [("skip_children", VRSkipAll)] [] [("always_fail", VRFalse)]) = Ok (true, [Valid; Uneval], ["skip_children"]).
Proof. split; vm_compute; reflexivity. Qed.

(* docs/source/markup.rst *)
Import ModelMarkup TestsMarkup.
Definition username := TestsMarkup.text "username" "jek".
Definition password := TestsMarkup.text "password" "secret".
Definition bag := Some (Bound (lit "bag") (lit "[]") (BArray (fun v => mv_is v (lit "a") || mv_is v (lit "c")))).
Example markup_tabindex :
  renders "xhtml" [gset [("tabindex", MInt 100)]; call "textarea" None []; call "textarea" None [("auto_tabindex", MBool true)];
                   gset [("auto_tabindex", MBool true)]; call "textarea" None []; call "squiznart" None [("auto_tabindex", MBool true)]]
  = [out ""; out "<textarea></textarea>"; out "<textarea tabindex=""100""></textarea>"; out "";
     out "<textarea tabindex=""101""></textarea>"; out "<squiznart tabindex=""102"" />"].
Proof. vm_compute. reflexivity. Qed.
Example markup_inputs :
  renders "xhtml"
    [call "input" username []; call "input" username [("name", T "other"); ("class_", T "custom")];
     call "input" username [("type", T "text")]; call "input" username [("type", T "text"); ("name", T "foo")];
     call "input" username [("type", T "text"); ("name", T "foo"); ("auto_name", MBool true)];
     call "input" username [("type", T "text"); ("value", T "quux")];
     call "input" password [("type", T "password")]; call "input" password [("type", T "password"); ("auto_value", MBool true)];
     call "textarea" username []; call "textarea" username [("contents", T "quux")]]
  = [out "<input name=""username"" value=""jek"" />"; out "<input name=""other"" value=""jek"" class=""custom"" />";
     out "<input type=""text"" name=""username"" value=""jek"" />"; out "<input type=""text"" name=""foo"" value=""jek"" />";
     out "<input type=""text"" name=""username"" value=""jek"" />"; out "<input type=""text"" name=""username"" value=""quux"" />";
     out "<input type=""password"" name=""password"" />"; out "<input type=""password"" name=""password"" value=""secret"" />";
     out "<textarea name=""username"">jek</textarea>"; out "<textarea name=""username"">quux</textarea>"].
Proof. vm_compute. reflexivity. Qed.
Example markup_boxes :
  renders "xhtml"
    (map (fun v => call "input" username [("type", T "radio"); ("value", T v)]) ["quux"; "jek"]
     ++ map (fun v => call "input" username [("type", T "checkbox"); ("value", T v)]) ["quux"; "jek"]
     ++ map (fun v => call "input" bag [("type", T "checkbox"); ("value", T v)]) ["a"; "b"; "c"]
     ++ [call "input" username [("type", T "checkbox")]])
  = [out "<input type=""radio"" name=""username"" value=""quux"" />";
     out "<input type=""radio"" name=""username"" value=""jek"" checked=""checked"" />";
     out "<input type=""checkbox"" name=""username"" value=""quux"" />";
     out "<input type=""checkbox"" name=""username"" value=""jek"" checked=""checked"" />";
     out "<input type=""checkbox"" name=""bag"" value=""a"" checked=""checked"" />";
     out "<input type=""checkbox"" name=""bag"" value=""b"" />";
     out "<input type=""checkbox"" name=""bag"" value=""c"" checked=""checked"" />";
     out "<input type=""checkbox"" name=""username"" />"].
Proof. vm_compute. reflexivity. Qed.
