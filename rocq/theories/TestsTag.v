(* The assertions of tests/markup/test_generator.py and test_tag_rendering.py
   about tags as objects, computed on the model. *)
From Verif Require Import PyBase ModelMarkup ModelTag TestsMarkup.
Local Open Scope string_scope.

Definition start (markup : string) : tags :=
  match new_tags (lit markup) [] with Ok s => s | Err _ => Tags (Gen true []) (Registry 0 []) [] [] end.
Definition field1 (v : string) := Some (Bound (lit "field1") (lit v) BOther).
Definition textarea := Get (lit "textarea") false true.
(* the texts returned *)
Fixpoint texts (s : tags) (os : list tag_op) : list (res str) :=
  match os with
  | [] => []
  | o :: os => let '(s, r) := tag_step env s o in
               match r with Ok (inl _) => [] | Ok (inr x) => [Ok x] | Err e => [Err e] end ++ texts s os
  end%list.
Definition found (s : tags) (o : tag_op) : option tagobj :=
  match snd (tag_step env s o) with Ok (inl t) => Some t | _ => None end.
Definition contents_of (s : tags) (o : tag_op) : option (option str) := option_map (contents s) (found s o).
Definition after (s : tags) (os : list tag_op) : tags := tag_run env s os.
Definition out (l : list string) : list (res str) := map (fun x => Ok (lit x)) l.

Example test_detached_reuse :
  let el := field1 "val" in
  let s1 := after (start "xml") [textarea; Open 0 [] el] in
  let s2 := after s1 [Open 0 [] el] in
  let s3 := after s2 [Close 0] in
  let tag := nth_error (ts_got s1) 0 in
  option_map (contents s1) tag = option_map (contents s2) tag
  /\ texts s1 [Open 0 [] el] = texts (start "xml") [textarea; Open 0 [] el]
  /\ found s2 textarea = tag /\ contents_of s2 textarea = Some (Some (lit "val"))
  /\ found s3 textarea <> tag /\ contents_of s3 textarea = Some None
  /\ texts s3 [Close 0; Close 0] = out ["</textarea>"; "</textarea>"].
Proof. vm_compute. repeat split; try reflexivity. discriminate. Qed.
Example test_input_close :
  texts (start "xml") [Get (lit "input") true false; Call 0 [(lit "type", T "text")] (field1 "val"); Close 0]
  = out ["<input type=""text"" name=""field1"" value=""val"" />"; "</input>"].
Proof. vm_compute. reflexivity. Qed.
Definition textarea_contents (el : option belement) (kw : attrs) : option (option str) :=
  contents_of (after (start "xml") [textarea; Open 0 kw el]) textarea.
Example test_textarea_contents : textarea_contents (field1 "val") [] = Some (Some (lit "val")).
Proof. vm_compute. reflexivity. Qed.
Example test_textarea_escaped_contents :
  textarea_contents (field1 """<quoted & escaped>""") [] = Some (Some (lit """&lt;quoted &amp; escaped&gt;""")).
Proof. vm_compute. reflexivity. Qed.
Example test_textarea_explicit_contents :
  textarea_contents (field1 "val") [(lit "contents", T "xyzzy")] = Some (Some (lit "xyzzy")).
Proof. vm_compute. reflexivity. Qed.

(* test_tag_rendering.py *)
Definition option_tag := Get (lit "option") false true.
Definition scalar := Some (Bound (lit "scalar") (lit "abc") BOther).
Example test_select_markup :
  texts (start "xhtml")
    [Get (lit "select") false true; option_tag; Open 0 [] scalar;
     Call 1 [(lit "value", T "abc")] scalar;
     Call 1 [(lit "value", T "def"); (lit "contents", T "DEF")] scalar;
     Call 1 [(lit "contents", T "abc")] scalar;
     Call 1 [(lit "value", T "abc"); (lit "contents", T "abc")] scalar; Close 0]
  = out ["<select name=""scalar"">";
         "<option value=""abc"" selected=""selected""></option>";
         "<option value=""def"">DEF</option>";
         "<option selected=""selected"">abc</option>";
         "<option value=""abc"" selected=""selected"">abc</option>"; "</select>"].
Proof. vm_compute. reflexivity. Qed.
Definition multi := Some (Bound (lit "multi") (lit "[]") (BArray (fun v => mv_is v (lit "abc") || mv_is v (lit "xyz")))).
Example test_multiselect_markup :
  texts (start "xhtml")
    [Get (lit "select") false true; option_tag; Open 0 [(lit "multiple", T "multiple")] multi;
     Call 1 [(lit "value", T "abc")] multi;
     Call 1 [(lit "value", T "def"); (lit "contents", T "DEF")] multi;
     Call 1 [(lit "contents", T "xyz")] multi; Close 0]
  = out ["<select name=""multi"" multiple=""multiple"">";
         "<option value=""abc"" selected=""selected""></option>";
         "<option value=""def"">DEF</option>";
         "<option selected=""selected"">xyz</option>"; "</select>"].
Proof. vm_compute. reflexivity. Qed.
