(* What is read off a form, and validated, is judged as the element the form was drawn of. *)
From Verif Require Import PyBase ModelMap ModelScalar ModelValidate ModelCompound ModelFlat SpecFlat SpecSteps ProofFlat8 ProofFlat9 ProofFlat10 ProofAgain ProofSteps ModelCheck SpecCheck ProofCheck ProofCheck2 SpecTwin ProofTwin.
From Verif Require SpecForm SpecAgree SpecPost ProofForm2 ProofPost ModelMarkup ModelGenshi SpecGenshi.

Lemma same_judged s e e' fl ask id_of place_of id_of' place_of' : clear_schema (lit "_") s -> is_of s e -> impartial ask -> answered ask (Node [] s e) ->
  set_flat s (lit "_") (fresh s) (as_flat fl) = (e', Ok tt) -> same e e' ->
  identified id_of place_of (Node [] s e) -> identified id_of' place_of' (Node [] s e') -> judged_alike id_of place_of id_of' place_of' ask (Node [] s e) (Node [] s e').
Proof.
  intros CL O IM G S T ID ID'. pose proof (clear_named _ _ CL) as N. apply alike_lemma; try easy. cbn.
  pose proof (of_set s N (lit "_") (fresh s) (as_flat fl) (of_fresh s N)) as X. now rewrite S in X.
Qed.

Lemma drawn_lemma env g s e kind xs l g' outs ask id_of place_of id_of' place_of' :
  clear_schema (lit "_") s -> shows s -> is_of s e -> kept false s e ->
  SpecForm.flattened_parts e xs -> map snd l = map (SpecForm.field kind e) xs ->
  Forall (fun cb => SpecForm.suited (fst cb) (snd cb)) l -> Forall (fun cb => SpecForm.has_place (fst cb) (snd cb)) l ->
  SpecForm.form_settings g -> SpecForm.form_drawn env g l g' outs -> impartial ask -> answered ask (Node [] s e) ->
  exists fl e', SpecForm.submitted outs fl /\ set_flat s (lit "_") (fresh s) (as_flat fl) = (e', Ok tt)
    /\ (identified id_of place_of (Node [] s e) -> identified id_of' place_of' (Node [] s e') -> judged_alike id_of place_of id_of' place_of' ask (Node [] s e) (Node [] s e')).
Proof.
  intros CL SH O K P Fd Su Pl G Dr IM Gr. destruct (ProofForm2.form_lemma env g s e kind xs l g' outs CL SH O K P Fd Su G Dr) as [_ H].
  destruct (H Pl) as (fl & Sb & _ & e' & E & Sa). exists fl, e'. split; [exact Sb|]. split; [exact E|]. intros ID ID'. exact (same_judged _ _ _ _ _ _ _ _ _ CL O IM Gr E Sa ID ID').
Qed.

Lemma rendered_lemma env filters rc ns s e kind xs l rc' out ask id_of place_of id_of' place_of' :
  clear_schema (lit "_") s -> shows s -> is_of s e -> kept false s e ->
  SpecForm.flattened_parts e xs -> map snd l = map (SpecForm.field kind e) xs -> Forall SpecPost.fit l ->
  Forall (fun wb => SpecForm.has_place (SpecPost.control_of (fst wb)) (snd wb)) l ->
  SpecPost.template_settings rc -> SpecGenshi.renders env filters rc (SpecPost.form_page ns l) rc' out -> impartial ask -> answered ask (Node [] s e) ->
  exists fl e', SpecPost.posted out fl /\ set_flat s (lit "_") (fresh s) (as_flat fl) = (e', Ok tt)
    /\ (identified id_of place_of (Node [] s e) -> identified id_of' place_of' (Node [] s e') -> judged_alike id_of place_of id_of' place_of' ask (Node [] s e) (Node [] s e')).
Proof.
  intros CL SH O K P Fd Su Pl G Dr IM Gr. destruct (ProofPost.form_posted env filters rc ns s e kind xs l rc' out CL SH O K P Fd Su Pl G Dr) as (fl & Sb & _ & e' & E & Sa).
  exists fl, e'. split; [exact Sb|]. split; [exact E|]. intros ID ID'. exact (same_judged _ _ _ _ _ _ _ _ _ CL O IM Gr E Sa ID ID').
Qed.
