(* C105: submitting again what a form shows. *)
From Verif Require Import PyBase SpecScalar ModelPaths SpecPaths ModelScalar ModelFlat SpecFlat SpecAgain ProofFlat10 ProofAgain ProofAgain2.
From Verif Require SpecForm ModelGenshi SpecGenshi SpecPost.

(* C105: an element that texts were put in with set_flat, accepted or not, is
   told again by its flattened pairs *)
Theorem C105_again : forall sep s e, separator sep -> clear_schema sep s -> shows s -> natural_limits s -> steady_schema s ->
  filled s sep e -> lasting false s e ->
  exists f fl, (forall fuel, (f <= fuel)%nat -> flatten_element fuel e sep = Ok fl)
  /\ exists e', set_flat s sep (fresh s) (as_flat fl) = (e', Ok tt) /\ retold e e'.
Proof. exact @again. Qed.
Print Assumptions C105_again.

(* C105: by the form that a generator draws of it *)
Theorem C105_form : forall env g s e kind xs l g' outs,
  clear_schema (lit "_") s -> shows s -> natural_limits s -> steady_schema s -> filled s (lit "_") e -> lasting false s e ->
  SpecForm.flattened_parts e xs -> map snd l = map (SpecForm.field kind e) xs ->
  Forall (fun cb => SpecForm.suited (fst cb) (snd cb)) l -> Forall (fun cb => SpecForm.has_place (fst cb) (snd cb)) l ->
  SpecForm.form_settings g -> SpecForm.form_drawn env g l g' outs ->
  exists fl, SpecForm.submitted outs fl
    /\ (exists f, forall fuel, (f <= fuel)%nat -> flatten_element fuel e (lit "_") = Ok fl)
    /\ exists e', set_flat s (lit "_") (fresh s) (as_flat fl) = (e', Ok tt) /\ retold e e'.
Proof. exact @form_again. Qed.
Print Assumptions C105_form.

(* C105: by the form that a template draws of it *)
Theorem C105_page : forall env filters rc ns s e kind xs l rc' out,
  clear_schema (lit "_") s -> shows s -> natural_limits s -> steady_schema s -> filled s (lit "_") e -> lasting false s e ->
  SpecForm.flattened_parts e xs -> map snd l = map (SpecForm.field kind e) xs -> Forall SpecPost.fit l ->
  Forall (fun wb => SpecForm.has_place (SpecPost.control_of (fst wb)) (snd wb)) l ->
  SpecPost.template_settings rc -> SpecGenshi.renders env filters rc (SpecPost.form_page ns l) rc' out ->
  exists fl, SpecPost.posted out fl
    /\ (exists f, forall fuel, (f <= fuel)%nat -> flatten_element fuel e (lit "_") = Ok fl)
    /\ exists e', set_flat s (lit "_") (fresh s) (as_flat fl) = (e', Ok tt) /\ retold e e'.
Proof. exact @page_again. Qed.
Print Assumptions C105_page.

(* C105: String, Integer, Boolean, the dates and times, Constrained and Enum are
   steady; those with a value whenever there is text may be in a Compound *)
Theorem C105_kinds : forall k, text_kind k -> steady k.
Proof. exact @kinds_steady. Qed.
Print Assumptions C105_kinds.
Theorem C105_compound_kinds : forall k, never_blank k -> vacant k.
Proof. exact @kinds_vacant. Qed.
Print Assumptions C105_compound_kinds.

(* space in a member of a List that prunes: the member is there, blank, and gone
   the next time *)
Theorem C105_blank_member_refuted : exists s e, clear_schema (lit "_") s /\ shows s /\ natural_limits s /\ steady_schema s /\ filled s (lit "_") e
  /\ (exists u, e = EList (schema_name s) [u]) /\ flatten_element 9 e (lit "_") = Ok [(lit "l_0", [])]
  /\ set_flat s (lit "_") (fresh s) (as_flat [(lit "l_0", [])]) = (EList (schema_name s) [], Ok tt).
Proof. exact @blank_member. Qed.
Print Assumptions C105_blank_member_refuted.

(* an unset Boolean with a text for False beside the usual synonyms: it has that
   text the next time *)
Theorem C105_boolean_refuted : exists k s e u, k = KBoolean (lit "1") (map lit ["on"; "true"; "True"; "1"]%string) (lit "no") (map lit ["off"; "false"; "False"; "0"; ""]%string)
  /\ s = SScalar (text "b") k /\ e = fresh s /\ flatten_element 9 e (lit "_") = Ok [(lit "b", [])]
  /\ set_flat s (lit "_") (fresh s) (as_flat [(lit "b", [])]) = (EScalar (text "b") u, Ok tt) /\ s_u u = lit "no".
Proof. do 4 eexists. split; [reflexivity|]. split; [reflexivity|]. split; [reflexivity|]. split; [reflexivity|]. split; vm_compute; reflexivity. Qed.
Print Assumptions C105_boolean_refuted.

Local Open Scope string_scope.
(* text that is no number, space around text, a String without text: the String
   is blank then; and again the same *)
Example C105_case :
  clear_schema (lit "_") sample_schema /\ shows sample_schema /\ natural_limits sample_schema /\ steady_schema sample_schema
  /\ filled sample_schema (lit "_") again_element /\ lasting false sample_schema again_element
  /\ flatten_element 9 again_element (lit "_") =
     Ok (map (fun p => (lit (fst p), lit (snd p))) [("o_s", ""); ("o_l_0_x", "no number"); ("o_l_1_x", "3"); ("o_l_0_t", "b")])
  /\ fst (set_flat sample_schema (lit "_") (fresh sample_schema) (flat_of [("o_s", ""); ("o_l_0_x", "no number"); ("o_l_1_x", "3"); ("o_l_0_t", "b")])) =
     EDict (text "o") None
       [(text "s", EScalar (text "s") (plain_text ""));
        (text "l", EList (text "l")
           [EDict None None [(text "x", EScalar (text "x") (Scalar (Some (VText (lit "no number"))) VNone (lit "no number")));
                        (text "t", EArray (text "t") [EScalar None (plain_text "b")])];
            EDict None None [(text "x", EScalar (text "x") (Scalar (Some (VText (lit "3"))) (VInt 3) (lit "3")))]])].
Proof.
  split; [exact clear_sample|]. split; [exact Logic.I|]. split; [cbn; repeat split; lia|]. split; [exact sample_steady|].
  split; [exact again_filled|]. split; [exact again_lasting|]. split; vm_compute; reflexivity.
Qed.
(* a schema with a Compound and a JoinedString; kinds *)
Example C105_schemas : steady_schema mixed_schema /\ text_kind KBool /\ text_kind (KEnum (KTemporal TDate true) []) /\ never_blank (KConstrained (KInteger false) (fun _ => Ok true))
  /\ ~ text_kind (KBoolean (lit "yes") [] (lit "no") [[]]).
Proof.
  split; [exact mixed_steady|]. split; [|split; [exact Logic.I|split; [reflexivity|]]].
  - cbn [text_kind KBool]. split; [discriminate|]. split; [cbn; intuition discriminate|]. split; [cbn; intuition discriminate|]. left. reflexivity.
  - intros (_ & _ & _ & H). destruct (H (or_introl eq_refl)); discriminate.
Qed.
