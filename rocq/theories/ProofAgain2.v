(* Submitting a form again: kinds without blank values; forms; samples. *)
From Verif Require Import PyBase PyBaseFacts PyList ModelMap SpecScalar ModelPaths SpecPaths ModelScalar ModelCompound ModelFlat SpecFlat
  ProofScalar ProofScalar3 ProofFlat ProofFlat2 ProofFlat8 ProofFlat10 SpecAgain ProofAgain.
From Verif Require SpecForm ProofForm2 ModelGenshi SpecGenshi SpecPost ProofPost.

Lemma shown_number k t n : never_blank k -> adapt k (VText t) = Ok n -> n <> VNone /\ serialize k n <> [].
Proof.
  revert n. induction k as [st|nt sg|tr ts fa fs|tk st|c IH valid|c IH vals|own]; intros n X H; cbn [never_blank] in X; try easy.
  - pose proof (text_some (KNumber nt sg) t n X H) as Hn. split; [exact Hn|]. subst nt.
    pose proof (proj2 (integer_history sg [VText t] blank (fun z (E : VNone = VInt z) => ltac:(discriminate)) (or_intror eq_refl))) as G.
    cbn [scalar_sets] in G. unfold scalar_set in G. unfold KInteger in G. rewrite H in G. cbn [fst s_value] in G.
    destruct G as [[z ->]|G]; [|easy]. cbn. apply dec_z_nonempty.
  - rewrite adapt_temporal_text in H. pose proof (parse_real _ _ _ H) as (Hr & Ht & Hn). split; [exact Hn|].
    destruct Ht as [s' d Hf _|s' x Hf _|s1 s2 d x Hf Hg _ _]; cbn [serialize]; unfold date_text, time_text; intros E; apply (f_equal (@List.length N)) in E; rewrite ?app_length in E; cbn [List.length lit] in E; cbn in E; lia.
  - cbn [adapt] in H. destruct (adapt c (VText t)) as [m|]; [|easy]. cbn [bind] in H. destruct (valid m) as [[]|]; try easy. injection H as <-. now apply IH.
  - cbn [adapt] in H. destruct (adapt c (VText t)) as [m|]; [|easy]. cbn [bind] in H. destruct (py_in m vals); try easy. injection H as <-. now apply IH.
Qed.
Lemma kinds_vacant k : never_blank k -> vacant k.
Proof.
  intros X t st b H E. unfold scalar_set in H. destruct (adapt k (VText t)) as [n|[]] eqn:A; try discriminate.
  - destruct (shown_number k t n X A) as [Hn Hs]. injection H as <- <-. cbn in E. rewrite (is_none_some n Hn) in E. easy.
  - now injection H as <- <-.
Qed.

(* ---------------- forms ---------------- *)
Lemma mirrors_parts e e2 xs : mirrors e e2 -> SpecForm.flattened_parts e xs -> SpecForm.flattened_parts e2 xs.
Proof.
  intros M (n & G & X). exists n. rewrite <- (mirrors_tree _ _ M), <- (mirrors_deep _ _ M). split; [exact G|]. rewrite X. apply filter_eq. intros x. now apply mirrors_at.
Qed.
Lemma mirrors_field kind e e2 x : mirrors e e2 -> SpecForm.field kind e x = SpecForm.field kind e2 x.
Proof. intros M. unfold SpecForm.field. rewrite (mirrors_tree _ _ M). f_equal. now apply mirrors_at. Qed.
Lemma form_again env g s e kind xs l g' outs :
  clear_schema (lit "_") s -> shows s -> natural_limits s -> steady_schema s -> filled s (lit "_") e -> lasting false s e ->
  SpecForm.flattened_parts e xs -> map snd l = map (SpecForm.field kind e) xs ->
  Forall (fun cb => SpecForm.suited (fst cb) (snd cb)) l -> Forall (fun cb => SpecForm.has_place (fst cb) (snd cb)) l ->
  SpecForm.form_settings g -> SpecForm.form_drawn env g l g' outs ->
  exists fl, SpecForm.submitted outs fl
    /\ (exists f, forall fuel, (f <= fuel)%nat -> flatten_element fuel e (lit "_") = Ok fl)
    /\ exists e', set_flat s (lit "_") (fresh s) (as_flat fl) = (e', Ok tt) /\ retold e e'.
Proof.
  intros C W L S F La P Fd Su Pl G D. destruct (filled_mirror (lit "_") s e C L S F La) as (e2 & O & K & M).
  assert (map snd l = map (SpecForm.field kind e2) xs) as Fd2 by (rewrite Fd; apply map_ext; intros x; now apply mirrors_field).
  destruct (ProofForm2.form_lemma env g s e2 kind xs l g' outs C W O K (mirrors_parts _ _ _ M P) Fd2 Su G D) as [_ H].
  destruct (H Pl) as (fl & Hs & (f & Hf) & e' & E & Sa). exists fl. split; [exact Hs|]. split.
  - exists f. intros fuel Fu. rewrite (mirrors_flatten fuel e e2 (lit "_") M). now apply Hf.
  - exists e'. split; [exact E|]. now apply (mirrors_same e e2).
Qed.
Lemma page_again env filters rc ns s e kind xs l rc' out :
  clear_schema (lit "_") s -> shows s -> natural_limits s -> steady_schema s -> filled s (lit "_") e -> lasting false s e ->
  SpecForm.flattened_parts e xs -> map snd l = map (SpecForm.field kind e) xs -> Forall SpecPost.fit l ->
  Forall (fun wb => SpecForm.has_place (SpecPost.control_of (fst wb)) (snd wb)) l ->
  SpecPost.template_settings rc -> SpecGenshi.renders env filters rc (SpecPost.form_page ns l) rc' out ->
  exists fl, SpecPost.posted out fl
    /\ (exists f, forall fuel, (f <= fuel)%nat -> flatten_element fuel e (lit "_") = Ok fl)
    /\ exists e', set_flat s (lit "_") (fresh s) (as_flat fl) = (e', Ok tt) /\ retold e e'.
Proof.
  intros C W L S F La P Fd Su Pl G D. destruct (filled_mirror (lit "_") s e C L S F La) as (e2 & O & K & M).
  assert (map snd l = map (SpecForm.field kind e2) xs) as Fd2 by (rewrite Fd; apply map_ext; intros x; now apply mirrors_field).
  destruct (ProofPost.form_posted env filters rc ns s e2 kind xs l rc' out C W O K (mirrors_parts _ _ _ M P) Fd2 Su Pl G D) as (fl & Hs & (f & Hf) & e' & E & Sa).
  exists fl. split; [exact Hs|]. split.
  - exists f. intros fuel Fu. rewrite (mirrors_flatten fuel e e2 (lit "_") M). now apply Hf.
  - exists e'. split; [exact E|]. now apply (mirrors_same e e2).
Qed.

(* ---------------- samples ---------------- *)
Local Open Scope string_scope.
Definition again_pairs : flat_pairs := flat_of [("o_l_7_x", " 3"); ("o_l_2_x", "no number"); ("o_l_2_t", " b ")].
Definition again_element : element := fst (set_flat sample_schema (lit "_") (fresh sample_schema) again_pairs).
Lemma sample_steady : steady_schema sample_schema.
Proof.
  repeat match goal with |- _ /\ _ => split | |- True => exact Logic.I | |- steady _ => apply kinds_steady; easy | |- forall f, None = Some f -> _ => discriminate | |- steady_schema _ => cbn [steady_schema sample_schema line_schema] end.
Qed.
Ltac pick H := cbn in H; repeat (destruct H as [H|H]; [try discriminate; injection H as <-|]); try easy.
Lemma again_lasting : lasting false sample_schema again_element.
Proof.
  set (e := again_element). vm_compute in e. subst e. apply lasting_dict. intros b f [[= <- <-]|[[= <- <-]|[]]] u Hu; pick Hu; (split; [|discriminate]); try exact Logic.I.
  - cbn [lasting orb]. split.
    + apply Forall_cons; [|apply Forall_cons; [|apply Forall_nil]]; apply lasting_dict; intros b f [[= <- <-]|[[= <- <-]|[]]] u Hu; pick Hu; (split; [|try discriminate]); try easy.
      * cbn [lasting orb]. apply Forall_cons; [|apply Forall_nil]. exists [], (EScalar None (Scalar (Some (VText (lit " b "))) (VText (lit "b")) (lit "b"))), (lit "b"). now repeat split.
      * intros _. exists [0%nat]. eexists _, (lit "b"). split; [reflexivity|]. now split.
    + apply Forall_cons; [|apply Forall_cons; [|apply Forall_nil]].
      * exists [0%nat]. eexists _, (lit "no number"). split; [reflexivity|]. now split.
      * exists [0%nat]. eexists _, (lit "3"). split; [reflexivity|]. now split.
Qed.
Lemma again_filled : filled sample_schema (lit "_") again_element.
Proof. apply filled_by; [constructor|]. repeat (apply Forall_cons; [eexists; reflexivity|]). constructor. Qed.
Lemma blank_member : exists s e, clear_schema (lit "_") s /\ shows s /\ natural_limits s /\ steady_schema s /\ filled s (lit "_") e
  /\ (exists u, e = EList (schema_name s) [u]) /\ flatten_element 9 e (lit "_") = Ok [(lit "l_0", [])]
  /\ set_flat s (lit "_") (fresh s) (as_flat [(lit "l_0", [])]) = (EList (schema_name s) [], Ok tt).
Proof.
  exists (SList (text "l") true 3 (SScalar None (KString true))).
  exists (fst (set_flat (SList (text "l") true 3 (SScalar None (KString true))) (lit "_") (EList (text "l") []) (flat_of [("l_0", "  ")]))).
  split; [|split; [|split; [|split; [|split; [|split; [|split]]]]]].
  - cbn [clear_schema]. split; [|split; [split; [|exact Logic.I]|discriminate]].
    + intros x [= <-]. split; [discriminate|]. split; [intros c r [= <- <-] [E|[]]; discriminate|]. intros [|c [|]] [=].
    + intros x [=].
  - exact Logic.I.
  - cbn. split; [lia|exact Logic.I].
  - apply kinds_steady. exact Logic.I.
  - apply (filled_by (SList (text "l") true 3 (SScalar None (KString true))) (lit "_") (EList (text "l") [])); [constructor|]. constructor; [eexists; reflexivity|constructor].
  - eexists. vm_compute. reflexivity.
  - vm_compute. reflexivity.
  - vm_compute. reflexivity.
Qed.
Lemma dashed_looks : looks_at_values dashed.
Proof.
  intros l l' H. unfold dashed. replace (map (fun p : name * scalar => s_u (snd p)) l') with (map (fun p : name * scalar => s_u (snd p)) l); [reflexivity|].
  apply map_F2 with (1 := H). now intros x y _ [_ [_ U]].
Qed.
Lemma mixed_steady : steady_schema mixed_schema.
Proof.
  assert (steady_schema (SDict (text "d") (Some dashed) month_fields)) as M.
  { cbn [steady_schema month_fields]. split; [|repeat split; apply kinds_steady; easy]. intros f [= <-]. split; [exact dashed_looks|].
    intros b n k [[= <- <- <-]|[[= <- <- <-]|[]]]; now apply kinds_vacant. }
  cbn [steady_schema mixed_schema]. split; [discriminate|]. split; [exact Logic.I|]. split; [exact M|]. split; [exact M|exact Logic.I].
Qed.
