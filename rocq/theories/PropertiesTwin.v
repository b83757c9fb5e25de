(* C110: validate() judges what an element holds, not how it came by it. *)
From Verif Require Import PyBase ModelScalar ModelValidate ModelMessage SpecMessage ModelValidators ModelReport SpecReport ModelFlat SpecFlat SpecSteps ModelCheck SpecCheck SpecTwin ProofTwin ProofTwin2.
From Verif Require SpecForm SpecPost SpecGenshi ProofForm2 ProofCheck2.

(* C110: elements of one schema with the same values, texts, fields and members are judged
   alike, element by element, by validators that go by these *)
Theorem C110_alike : forall id_of place_of id_of' place_of' ask root root', identified id_of place_of root -> identified id_of' place_of' root' ->
  twins root root' -> named_fields (nd_schema root) -> is_of (nd_schema root) (nd_element root) -> is_of (nd_schema root') (nd_element root') ->
  impartial ask -> answered ask root -> judged_alike id_of place_of id_of' place_of' ask root root'.
Proof. exact @alike_lemma. Qed.
Print Assumptions C110_alike.

(* C110: every element of one answers to an element of the other that holds the same *)
Theorem C110_places : forall a b, twins a b ->
  named_fields (nd_schema a) /\ is_of (nd_schema a) (nd_element a) -> named_fields (nd_schema b) /\ is_of (nd_schema b) (nd_element b) ->
  (forall p c, node_at a p = Some c -> exists q, opposite a b p q) /\ (forall q d, node_at b q = Some d -> exists p, opposite a b p q)
  /\ forall p q, opposite a b p q -> exists c d, node_at a p = Some c /\ node_at b q = Some d /\ twins c d.
Proof. exact @every_place. Qed.
Print Assumptions C110_places.

(* C110: Present, Converted and HasAtLeast are such validators *)
Theorem C110_known : forall ask, known_checks ask -> impartial ask.
Proof. exact @known_lemma. Qed.
Print Assumptions C110_known.

(* C110: a form that is flattened and set on a new element is judged as before *)
Theorem C110_sent_back : forall sep s e ask id_of place_of id_of' place_of', separator sep -> clear_schema sep s -> shows s -> is_of s e -> kept false s e -> impartial ask -> answered ask (Node [] s e) ->
  exists f fl e', (forall fuel, f <= fuel -> flatten_element fuel e sep = Ok fl) /\ set_flat s sep (fresh s) (as_flat fl) = (e', Ok tt)
    /\ (identified id_of place_of (Node [] s e) -> identified id_of' place_of' (Node [] s e') -> judged_alike id_of place_of id_of' place_of' ask (Node [] s e) (Node [] s e')).
Proof. exact @sent_back_lemma. Qed.
Print Assumptions C110_sent_back.

(* C110: what is read off a form that a generator draws of an element, set on a new element, is
   judged as that element is *)
Theorem C110_drawn : forall env g s e kind xs l g' outs ask id_of place_of id_of' place_of',
  clear_schema (lit "_") s -> shows s -> is_of s e -> kept false s e ->
  SpecForm.flattened_parts e xs -> map snd l = map (SpecForm.field kind e) xs ->
  Forall (fun cb => SpecForm.suited (fst cb) (snd cb)) l -> Forall (fun cb => SpecForm.has_place (fst cb) (snd cb)) l ->
  SpecForm.form_settings g -> SpecForm.form_drawn env g l g' outs -> impartial ask -> answered ask (Node [] s e) ->
  exists fl e', SpecForm.submitted outs fl /\ set_flat s (lit "_") (fresh s) (as_flat fl) = (e', Ok tt)
    /\ (identified id_of place_of (Node [] s e) -> identified id_of' place_of' (Node [] s e') -> judged_alike id_of place_of id_of' place_of' ask (Node [] s e) (Node [] s e')).
Proof. exact @drawn_lemma. Qed.
Print Assumptions C110_drawn.

(* C110: and so is what is read off a page that a template renders *)
Theorem C110_rendered : forall env filters rc ns s e kind xs l rc' out ask id_of place_of id_of' place_of',
  clear_schema (lit "_") s -> shows s -> is_of s e -> kept false s e ->
  SpecForm.flattened_parts e xs -> map snd l = map (SpecForm.field kind e) xs -> Forall SpecPost.fit l ->
  Forall (fun wb => SpecForm.has_place (SpecPost.control_of (fst wb)) (snd wb)) l ->
  SpecPost.template_settings rc -> SpecGenshi.renders env filters rc (SpecPost.form_page ns l) rc' out -> impartial ask -> answered ask (Node [] s e) ->
  exists fl e', SpecPost.posted out fl /\ set_flat s (lit "_") (fresh s) (as_flat fl) = (e', Ok tt)
    /\ (identified id_of place_of (Node [] s e) -> identified id_of' place_of' (Node [] s e') -> judged_alike id_of place_of id_of' place_of' ask (Node [] s e) (Node [] s e')).
Proof. exact @rendered_lemma. Qed.
Print Assumptions C110_rendered.

(* C110: a form that is sent again, with all keys of the first time, is judged by what was
   sent last *)
Theorem C110_corrected : forall s sep e ps qs e2 ask id_of place_of id_of' place_of', named_fields s -> is_of s e -> text_keys qs -> named_again ps qs ->
  set_flat s sep e qs = (e2, Ok tt) -> impartial ask -> answered ask (Node [] s e2) ->
  exists e3, set_flat s sep (fst (set_flat s sep e ps)) qs = (e3, Ok tt)
    /\ (identified id_of place_of (Node [] s e2) -> identified id_of' place_of' (Node [] s e3) -> judged_alike id_of place_of id_of' place_of' ask (Node [] s e2) (Node [] s e3)).
Proof. exact @corrected_lemma. Qed.
Print Assumptions C110_corrected.

(* C110: the messages of before stay: a corrected form is valid and complains *)
Theorem C110_messages_refuted : exists id_of place_of ask s sep ps qs e1 e2, named_again ps qs
  /\ set_flat s sep (fresh s) ps = (e1, Ok tt) /\ set_flat s sep e1 qs = (e2, Ok tt)
  /\ let '(errors, V, r) := validate_form (form_of id_of place_of ask (Node [] s e1)) 9 (fun _ => []) (fun _ => Uneval) 0 in
     let '(errors', V', r') := validate_form (form_of id_of place_of ask (Node [] s e2)) 9 errors V 0 in
     r = Ok false /\ r' = Ok true /\ V' 2 = Valid /\ errors' 2 = [lit "age is not correct."].
Proof.
  exists sample_id, sample_place, sample_ask, (plain_form (Some (lit "o")) sample_fields), (lit "_"), (firstn 1 sample_sent), (skipn 1 sample_sent). do 2 eexists.
  split; [now intros k [<-|[]]; left|]. split; [reflexivity|]. split; [reflexivity|]. vm_compute. repeat split.
Qed.
Print Assumptions C110_messages_refuted.

(* C110: hypotheses met: two fields, set in one order and in the other *)
Example C110_case : known_checks sample_ask
  /\ let s := plain_form (Some (lit "o")) sample_fields in
     let age := EScalar (Some (lit "age")) (Scalar (Some (VText (lit "10"))) (VInt 10) (lit "10")) in
     let age' := EScalar (Some (lit "age")) (Scalar (Some (VInt 10)) (VInt 10) (lit "10")) in
     let nick := EScalar (Some (lit "name")) blank in
     let a := Node [] s (EDict (Some (lit "o")) None [(Some (lit "name"), nick); (Some (lit "age"), age)]) in
     let b := Node [] s (EDict (Some (lit "o")) None [(Some (lit "age"), age'); (Some (lit "name"), nick)]) in
     twins a b /\ graded sample_ask a /\ is_of s (nd_element a) /\ is_of s (nd_element b) /\ opposite a b [0] [1] /\ ~ opposite a b [0] [0].
Proof.
  assert (P : forall way u, plain (st_context (sample_ask way) u) (sample_label way)) by (intros way u; unfold plain, untranslated; repeat split; try (now left); try (repeat constructor; fail); right; split; [now intros g|reflexivity]).
  split.
  - intros way. split; [exists (sample_label way); apply P|]. cbn. intros c [I|[]]. destruct way; [destruct I|]. destruct I as [<-|[]]. right. now left.
  - cbv zeta. split; [|split; [|split; [|split; [|split]]]].
    + split; [reflexivity|]. split; [reflexivity|]. cbn. constructor; [intros k; cbn; tauto|]. intros k u u' [[= <- <-]|[[= <- <-]|[]]] [[= <-]|[[= <-]|[]]]; now constructor.
    + intros p nd c E I. destruct p as [|[|[|j]] [|i p]]; cbn in E; try discriminate; try (now destruct i); try (now destruct j); injection E as <-; cbn in I.
      * destruct I as [[]|[_ []]].
      * destruct I as [[<-|[]]|[_ []]]. do 2 eexists. eapply ProofCheck2.converted_grades; [apply (P [Some (lit "name")])|reflexivity|reflexivity].
      * destruct I as [[<-|[]]|[_ []]]. do 2 eexists. eapply ProofCheck2.converted_grades; [apply (P [Some (lit "age")])|reflexivity|reflexivity].
    + apply ProofSteps.of_dict. split; [reflexivity|]. split; [reflexivity|]. split; [|split].
      * constructor; [intros [[=]|[]]|]. constructor; [intros []|constructor].
      * cbn. tauto.
      * intros x f I. destruct I as [[= <- <-]|[[= <- <-]|[]]]; cbn; (split; [|tauto]); intros u [H|[H|[]]]; (discriminate || (injection H as <-; reflexivity)).
    + apply ProofSteps.of_dict. split; [reflexivity|]. split; [reflexivity|]. split; [|split].
      * constructor; [intros [[=]|[]]|]. constructor; [intros []|constructor].
      * cbn. tauto.
      * intros x f I. destruct I as [[= <- <-]|[[= <- <-]|[]]]; cbn; (split; [|tauto]); intros u [H|[H|[]]]; (discriminate || (injection H as <-; reflexivity)).
    + eapply op_below; [reflexivity|reflexivity|reflexivity| |constructor]. left. now do 3 eexists.
    + intros O. inversion O as [|? ? ? ? c d ? ? E F W]; subst. cbn in E, F. injection E as <-. injection F as <-. discriminate.
Qed.
(* the element of C24, of which C97_case draws a form, with Converted() for every part of it *)
Example C110_drawn_case :
  let ask : settings := fun way => Setting false [] [converted_check] (fun _ => sample_context (lit "Form")) in
  known_checks ask /\ graded ask (Node [] sample_schema sample_element).
Proof.
  cbv zeta. assert (P : plain (sample_context (lit "Form")) (lit "Form")) by (unfold plain, untranslated; repeat split; try (now left); try (repeat constructor; fail); right; split; [now intros g|reflexivity]).
  split.
  - intros way. split; [exists (lit "Form"); intros u; exact P|]. cbn. intros c [[<-|[]]|[]]. right. now left.
  - assert (K : forall root p nd, node_at root p = Some nd -> (exists n st, nd_element nd = EScalar n st) \/ plain_container (nd_element nd) ->
      exists ok m, grades converted_check (sample_context (lit "Form")) root p ok m).
    { intros root p nd E [(n & st & F)|F]; do 2 eexists.
      - eapply ProofCheck2.converted_grades; [exact P|exact E|exact F].
      - eapply (ProofCheck2.plain_grades _ root p nd _ []); [exact E|exact F|now right]. }
    intros p nd c E [I|[_ []]]. cbn in I. destruct I as [<-|[]]. cbn. apply (K _ _ _ E).
    do 5 (try (destruct p as [|[|[|i]] p]; cbn in E; try discriminate; try (now destruct i); try (injection E as <-; ((right; constructor) || (left; do 2 eexists; reflexivity))))).
Qed.
