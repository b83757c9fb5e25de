(* Assertions of tests/markup/test_genshi.py and of the Genshi halves of
   tests/markup/test_tag_context.py and test_tag_rendering.py, computed on the
   models.  Streams are what Genshi parses the templates into; a py:if whose
   test is true is left out. *)
From Verif Require Import PyBase ModelMarkup ModelGenshi.
From Verif Require TestsMarkup.
Local Open Scope string_scope.

Definition xhtml := Some (lit "http://www.w3.org/1999/xhtml").
Definition tag (s : string) : qname := QName xhtml (lit s).
Definition att (k v : string) : qname * (mv + list event) := (QName None (lit k), inl (MText (lit v))).
Definition text (nm u : string) := Some (Bound (lit nm) (lit u) BOther).
Definition T (s : string) : event := Text false (lit s).
Definition element := text "element" "val".
Definition blank := text "element" "".
Definition renders (l : list event) : res (list event) :=
  snd (render 200 TestsMarkup.env (fun v => Ok v) None l).
Definition start (t : string) (a : list (string * string)) : event := Start (tag t) (map (fun '(k, v) => att k v) a).
Definition close (t : string) : event := End (tag t).
(* an element with directives *)
Definition el (ds : list directive) (t : string) (a : gattrs) (inner : list event) : event :=
  Sub ds (Start (tag t) a :: inner ++ [End (tag t)])%list.
Definition control (k : string) (raw : list piece) : directive := DControl (lit k) raw.
Definition P (s : string) : piece := PText (lit s).
Definition X (s : string) : piece := PExpr (MText (lit s)).

Example test_attribute_interpolation :
  renders [el [DBind element; control "auto-domid" [X "on"]] "input" [] [];
           el [DBind element; control "auto-domid" [P "o"; X "n"]] "input" [] [];
           el [DBind element] "input" [att "type" "checkbox"; (QName None (lit "value"), inr [Expr true (lit "val")])] [];
           el [DBind element] "input" [att "type" "checkbox"; (QName None (lit "value"), inr [T "v"; Expr false (lit "a"); T "l"])] [];
           el [DBind element] "input" [att "type" "checkbox";
                (QName None (lit "value"), inr [Expr false (lit "v"); T "a"; Expr false (lit "l")])] []]
  = Ok (let plain := [start "input" [("name", "element"); ("value", "val"); ("id", "f_element")]; close "input"] in
        let check := [start "input" [("type", "checkbox"); ("value", "val"); ("name", "element"); ("checked", "checked")];
                      close "input"] in
        plain ++ plain ++ check ++ check ++ check)%list.
Proof. vm_compute. reflexivity. Qed.
Example test_attributes_preserved :
  renders [Start (tag "div") [];
           el [DBind blank] "input" [(QName (Some (lit "yo")) (lit "blat"), inl (MText (lit "pow"))); att "class" "abc"] [];
           close "div"]
  = Ok [Start (tag "div") [];
        Start (tag "input") [(QName (Some (lit "yo")) (lit "blat"), inl (MText (lit "pow"))); att "class" "abc";
                             att "name" "element"; att "value" ""];
        close "input"; close "div"].
Proof. vm_compute. reflexivity. Qed.
Example test_attribute_removal :
  renders [el [DBind blank] "input" [att "type" "checkbox"; att "value" "xyzzy"; att "checked" "checked"] []]
  = Ok [start "input" [("type", "checkbox"); ("value", "xyzzy"); ("name", "element")]; close "input"].
Proof. vm_compute. reflexivity. Qed.
Example test_stream_preserved :
  renders [el [DBind blank] "button" [] [T "  "; start "em" []; T "wow!"; close "em"; T " "; Expr false (lit "2"); T "  "];
           el [DBind blank] "button" [] [Iter [start "b" []; T "lumpy."; close "b"]];
           el [DBind blank] "button" [] [Iter [T "flat."]]]
  = Ok (let open := start "button" [("name", "element"); ("value", "")] in
        [open; T "  "; start "em" []; T "wow!"; close "em"; T " "; T "2"; T "  "; close "button";
         open; start "b" []; T "lumpy."; close "b"; close "button";
         open; T "flat."; close "button"]).
Proof. vm_compute. reflexivity. Qed.
Definition hit := text "element" "hit".
Definition option_ (a : list (string * string)) (inner : list event) : list event :=
  (start "option" a :: inner ++ [close "option"])%list.
Definition chosen := [("value", "hit"); ("selected", "selected")].
Definition group (l : list event) : list event := (start "optgroup" [("label", "nested")] :: l ++ [close "optgroup"])%list.
Example test_tortured_select :
  renders [el [DBind hit] "select" []
    (option_ [("value", "hit")] [] ++ option_ [("value", "miss")] []
     ++ [Sub [DBind None] (option_ [("value", "hit")] [])]
     ++ group (option_ [] [T " h"; Expr false (lit "i"); T "t "] ++ option_ [("value", "miss")] [])
     ++ group [Sub [DBind None] (option_ [("value", "hit")] [])]
     ++ option_ [("value", "hit")]
          (option_ [("value", "hit")] [Sub [DBind hit] (option_ [("value", "hit")] [])]))]
  = Ok (start "select" [("name", "element")]
     :: option_ chosen [] ++ option_ [("value", "miss")] []
     ++ option_ [("value", "hit")] []
     ++ group (option_ [("selected", "selected")] [T " hit "] ++ option_ [("value", "miss")] [])
     ++ group (option_ [("value", "hit")] [])
     ++ option_ chosen (option_ chosen (option_ chosen []))
     ++ [close "select"])%list.
Proof. vm_compute. reflexivity. Qed.

(* test_tag_context.py *)
Definition valued := text "test_valued" "val".
Definition kw (l : list (string * string)) : attrs :=
  match manipulator (map (fun '(k, v) => (lit k, lit v)) l) [] with Ok m => m | Err _ => [] end.
Definition input ds := el ds "input" [] [].
Definition disabled := Ok [start "input" [("name", "test_valued")]; close "input"].
Example value_disabled :
  renders [Sub [DWith (kw [("auto-value", "off")])] [input [DBind valued]]] = disabled
  /\ renders [Sub [DSet (kw [("auto-value", "off")])] []; input [DBind valued]] = disabled
  /\ renders [input [DBind valued; control "auto-value" [P "off"]]] = disabled
  /\ renders [Sub [DWith (kw [("auto-value", "no")])] [input [DBind valued; control "auto-value" [P "auto"]]]] = disabled.
Proof. repeat split; vm_compute; reflexivity. Qed.
Example name_disabled :
  renders [Sub [DWith (kw [("auto-name", "off")])] [el [DBind valued] "form" [] []]] = Ok [start "form" []; close "form"]
  /\ renders [el [DBind valued] "form" [] []] = Ok [start "form" [("name", "test_valued")]; close "form"].
Proof. split; vm_compute; reflexivity. Qed.
Definition enabled := Ok [start "select" [("name", "test_valued"); ("id", "-test_valued-")]; close "select"].
Definition dashed := kw [("auto-domid", "on"); ("domid-format", "-%s-")].
Example domid_enabled :
  renders [Sub [DWith dashed] [el [DBind valued] "select" [] []]] = enabled
  /\ renders [Sub [DSet dashed] []; el [DBind valued] "select" [] []] = enabled
  /\ renders [Sub [DSet (kw [("domid-format", "-%s-")])] []; el [DBind valued; control "auto-domid" [P "on"]] "select" [] []]
     = enabled
  /\ renders [Sub [DWith dashed] [el [DBind valued; control "auto-domid" [P "auto"]] "select" [] []]] = enabled.
Proof. repeat split; vm_compute; reflexivity. Qed.
(* the expression of the filters attribute evaluates to [funky_filter] *)
Example filter_enabled :
  snd (render 50 TestsMarkup.env (fun _ => Ok (MFilters [4%nat])) None
    [Sub [DWith (kw [("auto-filter", "on"); ("filters", "[funky_filter]")])] [el [DBind valued] "label" [] [T "field2"]]])
  = Ok [start "label" [("class", "required")]; T "field2 *"; close "label"].
Proof. vm_compute. reflexivity. Qed.
(* test_tag_forcing.py *)
Example tabindex_unbound :
  renders [Sub [DSet (kw [("tabindex", "1")])] []; el [control "auto-tabindex" [P "on"]] "div" [] []]
  = Ok [start "div" [("tabindex", "1")]; close "div"].
Proof. vm_compute. reflexivity. Qed.
(* test_tag_rendering.py *)
Definition multi := Some (Bound (lit "multi") (lit "[]") (BArray (fun v => mv_is v (lit "abc") || mv_is v (lit "xyz")))).
Example multiselect :
  renders [el [DBind multi] "select" [att "name" "multi"; att "multiple" "multiple"]
             (option_ [("value", "abc")] [] ++ option_ [("value", "def")] [T "DEF"] ++ option_ [] [T "xyz"])%list]
  = Ok (start "select" [("name", "multi"); ("multiple", "multiple")]
        :: option_ [("value", "abc"); ("selected", "selected")] [] ++ option_ [("value", "def")] [T "DEF"]
        ++ option_ [("selected", "selected")] [T "xyz"] ++ [close "select"])%list.
Proof. vm_compute. reflexivity. Qed.
