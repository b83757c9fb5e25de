(* C97: forms drawn from an element. *)
From Verif Require Import PyBase ModelPaths SpecPaths ModelScalar ModelFlat SpecFlat ProofFlat10 SpecForm ProofForm ProofForm2.
From Verif Require ModelMarkup SpecMarkup ProofMarkup5.
Local Open Scope string_scope.

(* C97: the markup of a bound input, textarea, menu, group of radio buttons or
   checkboxes, or checkbox of a Boolean reads back as the flattened name and the
   text of the bound element, or those values of the group that it has *)
Theorem C97_control : forall env g c b g' outs,
  form_settings g -> suited c b -> ModelMarkup.b_name b <> [] ->
  control_drawn env g c b g' outs -> submitted outs (sent c b) /\ form_settings g'.
Proof. exact @control_lemma. Qed.
Print Assumptions C97_control.

(* C97: reading controls of all scalars of an element gives what they are to
   send; if each has a place for its text these are the flatten() pairs, and
   setting a new element from them gives the element back *)
Theorem C97_form : forall env g s e kind xs l g' outs,
  clear_schema (lit "_") s -> shows s -> is_of s e -> kept false s e ->
  flattened_parts e xs -> map snd l = map (field kind e) xs ->
  Forall (fun cb => suited (fst cb) (snd cb)) l ->
  form_settings g -> form_drawn env g l g' outs ->
  submitted outs (List.concat (map (fun cb => sent (fst cb) (snd cb)) l))
  /\ (Forall (fun cb => has_place (fst cb) (snd cb)) l -> exists fl, submitted outs fl
    /\ (exists f, forall fuel, (f <= fuel)%nat -> flatten_element fuel e (lit "_") = Ok fl)
    /\ exists e', set_flat s (lit "_") (fresh s) (as_flat fl) = (e', Ok tt) /\ same e e').
Proof. exact @form_lemma. Qed.
Print Assumptions C97_form.

(* C97: with automatic ids, tab indexes and filters off no such call raises *)
Theorem C97_draws : forall env g top below ov o l,
  ModelMarkup.g_frames g = top :: below -> SpecMarkup.plain_ctx top ->
  ModelMarkup.get "ordered_attributes" top = Some ov -> ModelMarkup.truth ov = Ok o ->
  Forall (fun cb => suited (fst cb) (snd cb)) l ->
  exists outs, form_drawn env g l g outs.
Proof. exact @drawn_works. Qed.
Print Assumptions C97_draws.

(* the element of C24, its scalars as a textarea, a menu, an input, two radio
   buttons and a checkbox, in a new generator *)
Example C97_case :
  let g := match ModelMarkup.gen_init (lit "html") [] with Ok g => g | Err _ => ModelMarkup.Gen true [] end in
  let outs := [lit "<textarea name=""o_s"">hi</textarea>"; lit "<select name=""o_l_0_x""><option value=""0"" class=""n"">none</option><option selected=""selected"">-1</option></select>";
               lit "<input type=""hidden"" name=""o_l_1_x"" value=""3"">"; lit "<input type=""radio"" name=""o_l_0_t"" value=""a"" class=""r"">";
               lit "<input type=""radio"" name=""o_l_0_t"" value=""b"" checked=""checked"" class=""r"">";
               lit "<input type=""checkbox"" name=""o_l_0_t"" value=""a"" checked=""checked"">"] in
  flattened_parts sample_element sample_xs
  /\ map snd sample_fields = map (field sample_kind sample_element) sample_xs
  /\ Forall (fun cb => suited (fst cb) (snd cb)) sample_fields
  /\ Forall (fun cb => has_place (fst cb) (snd cb)) sample_fields
  /\ form_settings g
  /\ form_drawn no_filters g sample_fields g outs
  /\ submitted outs [(lit "o_s", lit "hi"); (lit "o_l_0_x", lit "-1"); (lit "o_l_1_x", lit "3"); (lit "o_l_0_t", lit "b"); (lit "o_l_0_t", lit "a")].
Proof. exact sample_form. Qed.
Example C97_quoting : submits (lit "<textarea name=""a&quot;b"">&lt;b&gt;&amp;</textarea>") = Some [(lit "a""b", lit "<b>&")]
  /\ submits (lit "<input name=""n"">") = None /\ submits (lit "<textarea name=""n"">a<b</textarea>") = None.
Proof. vm_compute. repeat (split; [reflexivity|]). reflexivity. Qed.
(* a group of checkboxes for an Array, and a Boolean that is not true *)
Example C97_boxes :
  let b := ModelMarkup.Bound (lit "tags") [] (ModelMarkup.BArray (fun v => match v with ModelMarkup.MText s => memb str_eqb s [lit "x"; lit "z"] | _ => false end)) in
  let n := ModelMarkup.Bound (lit "on") [] (ModelMarkup.BBoolean (lit "1")) in
  sent (Choice true [lit "x"; lit "y"; lit "z"] []) b = [(lit "tags", lit "x"); (lit "tags", lit "z")]
  /\ sent (Tick []) n = [] /\ sent (Tick []) (ModelMarkup.Bound (lit "on") (lit "1") (ModelMarkup.BBoolean (lit "1"))) = [(lit "on", lit "1")]
  /\ submits (lit "<input type=""checkbox"" name=""on"" value=""1"">") = Some [].
Proof. vm_compute. repeat (split; [reflexivity|]). reflexivity. Qed.
(* menus: several choices for an Array; one choice of an element that has none *)
Example C97_menus :
  let b := ModelMarkup.Bound (lit "tags") [] (ModelMarkup.BArray (fun v => match v with ModelMarkup.MText s => memb str_eqb s [lit "x"; lit "z"] | _ => false end)) in
  let picks := [Pick None (lit "w") []; Pick (Some (lit "x")) (lit "X") []; Pick (Some (lit "z")) [] []] in
  sent (Menu true picks []) b = [(lit "tags", lit "x"); (lit "tags", lit "z")]
  /\ sent (Menu false picks []) b = [(lit "tags", lit "z")]
  /\ sent (Menu false picks []) (ModelMarkup.Bound (lit "n") (lit "q") ModelMarkup.BOther) = [(lit "n", lit "w")]
  /\ submits (lit "<select name=""n"" multiple=""multiple""><option selected=""selected"">a&amp;</option><option value=""b""></option><option value=""c"" selected=""selected"">C</option></select>")
     = Some [(lit "n", lit "a&"); (lit "n", lit "c")]
  /\ submits (lit "<select name=""n""><option>a</option></select>") = Some [(lit "n", lit "a")]
  /\ submits (lit "<select name=""n""><option>a</select>") = None.
Proof. vm_compute. repeat (split; [reflexivity|]). reflexivity. Qed.
