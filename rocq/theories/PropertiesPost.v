(* C104: forms drawn by a template. *)
From Verif Require Import PyBase ModelMarkup SpecMarkup ModelGenshi SpecGenshi SpecForm SpecAgree SpecPost ProofForm2 ProofPost.
From Verif Require ModelFlat SpecFlat.

(* C104: the events that a template renders for bound inputs, textareas, radio
   buttons, checkboxes and menus read back as the flattened names and the texts of the
   bound elements, and leave settings for more of them *)
Theorem C104_controls : forall env filters ns l,
  Forall fit l -> Forall (fun wb => b_name (snd wb) <> []) l -> forall rc rc' out,
  template_settings rc -> renders env filters rc (form_page ns l) rc' out ->
  posted out (List.concat (map (fun wb => sent (control_of (fst wb)) (snd wb)) l)) /\ template_settings rc'.
Proof. exact @controls_posted. Qed.
Print Assumptions C104_controls.

(* C104: if there is a control with a place for the text of each scalar of an
   element, the rendered events read back as the flatten() pairs, and setting a
   new element from them gives the element back *)
Theorem C104_form : forall env filters rc ns s e kind xs l rc' out,
  SpecFlat.clear_schema (lit "_") s -> SpecFlat.shows s -> SpecFlat.is_of s e -> SpecFlat.kept false s e ->
  flattened_parts e xs -> map snd l = map (field kind e) xs -> Forall fit l ->
  Forall (fun wb => has_place (control_of (fst wb)) (snd wb)) l ->
  template_settings rc -> renders env filters rc (form_page ns l) rc' out ->
  exists fl, posted out fl
    /\ (exists f, forall fuel, (f <= fuel)%nat -> ModelFlat.flatten_element fuel e (lit "_") = Ok fl)
    /\ exists e', ModelFlat.set_flat s (lit "_") (ModelFlat.fresh s) (SpecFlat.as_flat fl) = (e', Ok tt) /\ SpecFlat.same e e'.
Proof. exact @form_posted. Qed.
Print Assumptions C104_form.

(* C104: with automatic ids, tab indexes and filters off such a page renders *)
Theorem C104_renders : forall env filters ns l t ts,
  plain_ctx t -> Forall fit l -> Forall (fun wb => b_name (snd wb) <> []) l -> forall rc,
  render_frames rc = t :: ts -> template_settings rc ->
  exists rc' out, renders env filters rc (form_page ns l) rc' out /\ render_frames rc' = t :: ts.
Proof. exact @form_renders. Qed.
Print Assumptions C104_renders.

(* C104: the events of a page read back in one way only *)
Theorem C104_one_reading : forall l p1 p2, posted l p1 -> posted l p2 -> p1 = p2.
Proof. exact @posted_unique. Qed.
Print Assumptions C104_one_reading.

Local Open Scope string_scope.
(* the element of C24, its scalars as a textarea, a menu, an input, two radio
   buttons and a checkbox, in a new template *)
Example C104_case :
  let attributes := map (fun p : string * string => (QName None (lit (fst p)), inl (MText (lit (snd p))))) in
  let tag n a mid := ([Start (QName None (lit n)) (attributes a)] ++ mid ++ [End (QName None (lit n))])%list in
  let out := (tag "textarea" [("name", "o_s")] [Text true (lit "hi")] ++ tag "select" [("name", "o_l_0_x")] ([Text false (lit " ")]
        ++ tag "option" [("value", "0"); ("class", "n")] [Text false (lit "<none>")] ++ tag "option" [("selected", "selected")] [Text false (lit "-1")] ++ [Text false (lit " ")])
    ++ tag "input" [("type", "hidden"); ("name", "o_l_1_x"); ("value", "3")] []
    ++ tag "input" [("type", "radio"); ("value", "a"); ("class", "r"); ("name", "o_l_0_t")] []
    ++ tag "input" [("type", "radio"); ("value", "b"); ("class", "r"); ("name", "o_l_0_t"); ("checked", "checked")] []
    ++ tag "input" [("type", "checkbox"); ("name", "o_l_0_t"); ("value", "a"); ("checked", "checked")] [])%list in
  flattened_parts SpecFlat.sample_element sample_xs
  /\ map snd sample_page = map (field sample_kind SpecFlat.sample_element) sample_xs
  /\ Forall fit sample_page /\ Forall (fun wb => has_place (control_of (fst wb)) (snd wb)) sample_page
  /\ template_settings None /\ (exists t ts, render_frames None = t :: ts /\ plain_ctx t)
  /\ (exists rc', renders no_filters (fun v => Ok v) None (form_page None sample_page) rc' out)
  /\ posted out [(lit "o_s", lit "hi"); (lit "o_l_0_x", lit "-1"); (lit "o_l_1_x", lit "3"); (lit "o_l_0_t", lit "b"); (lit "o_l_0_t", lit "a")].
Proof. exact sample_posted. Qed.
(* text that is markup is decoded, other text is not; a box that is not checked
   sends nothing; no name, no pair *)
Example C104_reading :
  let a := [(QName None (lit "name"), inl (MText (lit "n"))); (QName None (lit "type"), inl (MText (lit "radio"))); (QName None (lit "value"), inl (MText (lit "v")))] in
  posts (QName None (lit "textarea")) a [Text true (lit "&lt;b&gt;")] = Some [(lit "n", lit "<b>")]
  /\ posts (QName None (lit "textarea")) a [Text false (lit "&lt;b&gt;")] = Some [(lit "n", lit "&lt;b&gt;")]
  /\ posts (QName None (lit "textarea")) a [Text true (lit "<b>")] = None
  /\ posts (QName None (lit "input")) a [] = Some []
  /\ posts (QName None (lit "input")) ((QName None (lit "checked"), inl (MText [])) :: a) [] = Some [(lit "n", lit "v")]
  /\ posts (QName None (lit "input")) [(QName (Some (lit "x")) (lit "name"), inl (MText (lit "n")))] [] = None.
Proof. vm_compute. repeat (split; [reflexivity|]). reflexivity. Qed.
