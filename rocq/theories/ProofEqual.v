(* Elements of a form that must agree. *)
From Verif Require Import PyBase PyBaseFacts ModelMap ModelScalar SpecScalar ModelValidate ModelMessage SpecMessage ModelValidators SpecValidators ProofValidators2 ModelReport SpecReport ModelCompound ModelPaths SpecPaths ModelLink ProofLink ModelFlat SpecFlat ProofFlat2 ProofFlat6 ProofFlat8 ProofFlat9 ProofSteps ModelCheck SpecCheck ProofCheck ProofCheck2 SpecTwin ProofTwin ModelEqual SpecEqual.
From Coq Require Import Lia.

Lemma flat_one {A B} (f : A -> option B) (l : list A) : (forall a, In a l -> f a <> None) ->
  forall i, nth_error (flat_map (fun a => match f a with Some b => [b] | None => [] end) l) i = match nth_error l i with Some a => f a | None => None end.
Proof.
  induction l as [|a l IH]; intros H i; [now destruct i|]. cbn [flat_map]. destruct (f a) as [b|] eqn:E; [|now destruct (H a (or_introl eq_refl))].
  destruct i as [|i]; cbn; [now rewrite E|]. apply IH. intros x I. apply H. now right.
Qed.
Lemma kid_element nd i : good nd -> option_map nd_element (nth_error (child_nodes nd) i) = member (nd_element nd) i.
Proof.
  destruct nd as [way s e]. intros [N O]. cbn [nd_schema nd_element] in *. destruct s as [n k|n cp fs|n pr z t|n pr t|n j], e as [m st|m cq items|m l|m l|m j' l]; try easy; try (now destruct i).
  - cbn [child_nodes nd_schema nd_element nd_way member]. apply of_dict in O as (_ & _ & _ & KS & _). apply named_dict in N as [ND _].
    pose proof (flat_one (fun it : name * element => match field_schema fs (fst it) with Some f => Some (ModelCheck.Node (way ++ [fst it]) f (snd it)) | None => None end) items) as H.
    replace (flat_map (fun it => match field_schema fs (fst it) with Some f => [ModelCheck.Node (way ++ [fst it]) f (snd it)] | None => [] end) items)
      with (flat_map (fun a => match match field_schema fs (fst a) with Some f => Some (ModelCheck.Node (way ++ [fst a]) f (snd a)) | None => None end with Some b => [b] | None => [] end) items)
      by (apply flat_map_ext; intros a; now destruct (field_schema fs (fst a))).
    assert (F : forall a, In a items -> exists f, field_schema fs (fst a) = Some f).
    { intros a I. pose proof (KS (fst a) (in_map fst _ _ I)) as J. apply in_map_iff in J as ([b f] & E & J). exists f. apply (field_In _ _ _ ND). split; [exact E|now exists b]. }
    rewrite H by (intros a I; now destruct (F a I) as [f ->]).
    destruct (nth_error items i) as [a|] eqn:E; [|reflexivity]. destruct (F a (nth_error_In _ _ E)) as [f ->]. reflexivity.
  - cbn. rewrite nth_error_map. now destruct (nth_error l i).
  - cbn. rewrite nth_error_map. now destruct (nth_error l i).
  - cbn. rewrite nth_error_map. destruct O as [_ ->]. destruct (nth_error l i); reflexivity.
Qed.
Lemma node_part' p : forall nd c, good nd -> ModelCheck.node_at nd p = Some c -> part (nd_element nd) (rev p) = Some (nd_element c).
Proof.
  induction p as [|i p IH]; intros nd c G E; [now injection E as <-|]. cbn [ModelCheck.node_at] in E. destruct (nth_error (child_nodes nd) i) as [d|] eqn:F; [|easy].
  cbn [rev]. rewrite part_app. pose proof (kid_element nd i G) as K. rewrite F in K. cbn in K. rewrite <- K. apply IH; [|exact E]. apply (child_good nd); [exact G|now apply nth_error_In in F].
Qed.
Lemma part_node p : forall nd u, good nd -> part (nd_element nd) (rev p) = Some u -> exists c, ModelCheck.node_at nd p = Some c /\ nd_element c = u.
Proof.
  induction p as [|i p IH]; intros nd u G E; [injection E as <-; now exists nd|]. cbn [rev] in E. rewrite part_app in E. pose proof (kid_element nd i G) as K. cbn [ModelCheck.node_at].
  destruct (nth_error (child_nodes nd) i) as [d|] eqn:F; cbn in K; rewrite <- K in E; [|easy]. apply IH; [|exact E]. apply (child_good nd); [exact G|now apply nth_error_In in F].
Qed.
Lemma of_name s e : is_of s e -> element_name e = schema_name s.
Proof. destruct s, e; cbn; try easy; now intros (-> & _). Qed.
Lemma tree_element_name e : tree_name (tree_of e) = element_name e.
Proof. now destruct e. Qed.
Lemma good_proper nd : good nd -> proper (tree_of (nd_element nd)).
Proof.
  intros G p n b l E. rewrite node_part in E. destruct (part (nd_element nd) p) as [u|] eqn:P; [|easy]. rewrite <- (rev_involutive p) in P. destruct (part_node _ _ _ G P) as (c & C & <-).
  assert (GC : good c) by (now apply (node_good (rev p) nd)). destruct GC as [N O]. destruct c as [way s e]. cbn [nd_schema nd_element] in *. destruct e as [m st|m cq items|m l'|m l'|m j l']; try discriminate.
  injection E as <- <- <-. destruct s as [n k|n cp fs|n pr z t|n pr t|n j]; try easy. apply of_dict in O as (_ & _ & ND & KS & O). split.
  - rewrite map_map. exact ND.
  - intros k t I. apply in_map_iff in I as ([k' u] & X & I). injection X as <- <-. cbn. rewrite tree_element_name.
    pose proof (KS k' (in_map fst _ _ I)) as J. apply in_map_iff in J as ([b' f] & E & J). unfold fname in E. cbn in E. destruct (O b' f J) as [OF _]. rewrite <- E in I |- *. apply of_name. now apply OF.
Qed.
Lemma reaches_leads root : forall u l q v, reaches u l q v -> forall p, part root p = Some u ->
  leads (tree_of root) p l (rev q ++ p) /\ part root (rev q ++ p) = Some v.
Proof.
  induction 1 as [e|n cp items i x u r q v E R IH|n l i u r q v E R IH|n l i u r q v E R IH|n j l i st r q v E R IH]; intros p P; [split; [constructor|exact P]|..].
  - destruct (IH (i :: p)) as [L Q]; [cbn [part]; rewrite P; cbn [member]; unfold name, str in *; now rewrite E|]. cbn [rev]. rewrite <- app_assoc. cbn [app]. split; [|exact Q].
    eapply leads_key; [rewrite node_part, P; reflexivity|exact (map_nth_error _ _ _ E)|exact L].
  - destruct (IH (i :: p)) as [L Q]; [cbn [part]; rewrite P; cbn [member]; unfold name, str in *; now rewrite E|]. cbn [rev]. rewrite <- app_assoc. cbn [app]. split; [|exact Q].
    eapply leads_index; [rewrite node_part, P; reflexivity|rewrite map_length; apply nth_error_Some; now rewrite E|exact L].
  - destruct (IH (i :: p)) as [L Q]; [cbn [part]; rewrite P; cbn [member]; unfold name, str in *; now rewrite E|]. cbn [rev]. rewrite <- app_assoc. cbn [app]. split; [|exact Q].
    eapply leads_index; [rewrite node_part, P; reflexivity|rewrite map_length; apply nth_error_Some; now rewrite E|exact L].
  - destruct (IH (i :: p)) as [L Q]; [cbn [part]; rewrite P; cbn [member]; unfold name, str in *; now rewrite E|]. cbn [rev]. rewrite <- app_assoc. cbn [app]. split; [|exact Q].
    eapply leads_index; [rewrite node_part, P; reflexivity|rewrite map_length; apply nth_error_Some; now rewrite E|exact L].
Qed.
Lemma described_at root label q u : part (nd_element root) q = Some u -> described root label (ModelPaths.Node q) = ModelValidators.Found (own_value u) (match own_text u with Some t => t | None => [] end) (label (rev q)).
Proof. intros E. cbn. now rewrite E. Qed.
Lemma texted_own e t : texted e t -> own_text e = Some t.
Proof. destruct e as [n st|n [cp|] items|n l|n l|n j l]; cbn; try easy; now intros ->. Qed.
Lemma valued_own e v : valued e v -> own_value e = v.
Proof. destruct e as [n st|n [cp|] items|n l|n l|n j l]; cbn; try easy; now intros ->. Qed.
Section Compared.
Variables (root nd : node) (p : list nat) (label : list nat -> str).
Hypothesis G : good root.
Hypothesis AT : ModelCheck.node_at root p = Some nd.
Lemma found_at ls qus : Forall2 (fun l qu => reaches (nd_element nd) l (fst qu) (snd qu) /\ writable l) ls qus ->
  exists f, forall fuel, f <= fuel -> Forall2 (fun path e => field fuel (tree_of (nd_element root)) (described root label) (ModelPaths.Node (rev p)) path = Ok e) (map (path_text false) ls)
    (map (fun qu => ModelValidators.Found (own_value (snd qu)) (match own_text (snd qu) with Some t => t | None => [] end) (label (p ++ fst qu))) qus).
Proof.
  intros F. assert (F' : Forall2 (fun l q => leads (tree_of (nd_element root)) (rev p) l q /\ writable l) ls (map (fun qu => rev (fst qu) ++ rev p) qus)
    /\ Forall (fun qu => part (nd_element root) (rev (fst qu) ++ rev p) = Some (snd qu)) qus).
  { pose proof (node_part' p root nd G AT) as PN. induction F as [|l qu ls qus [R W] F [IH1 IH2]]; [split; constructor|]. destruct (reaches_leads (nd_element root) _ _ _ _ R _ PN) as [L Q]. split; constructor; try easy. }
  destruct F' as [F1 F2]. destruct (fields_found _ (described root label) (rev p) _ _ F1 (good_proper root G)) as (f & H). exists f. intros fuel L. specialize (H fuel L). rewrite map_map in H.
  replace (map (fun qu => ModelValidators.Found (own_value (snd qu)) (match own_text (snd qu) with Some t => t | None => [] end) (label (p ++ fst qu))) qus)
    with (map (fun x : list nat * element => described root label (ModelPaths.Node (rev (fst x) ++ rev p))) qus); [exact H|].
  apply map_ext_in. intros qu I. rewrite Forall_forall in F2. rewrite (described_at _ _ _ _ (F2 qu I)). rewrite rev_app_distr, !rev_involutive. reflexivity.
Qed.
Lemma removelast_map {A B} (f : A -> B) l : removelast (map f l) = map f (removelast l).
Proof. induction l as [|a [|b l] IH]; [reflexivity|reflexivity|]. cbn [map removelast] in *. now rewrite IH. Qed.
Lemma last_map {A B} (f : A -> B) l d : last (map f l) (f d) = f (last l d).
Proof. induction l as [|a [|b l] IH]; [reflexivity|reflexivity|]. cbn [map last] in *. exact IH. Qed.
Lemma mismatch_text (e : found) els : join (lit ", ") (map fd_label (removelast (e :: els))) ++ lit " and " ++ fd_label (last (e :: els) e) ++ lit " do not match." = mismatch (fd_label e) (map fd_label els).
Proof. unfold mismatch. change (fd_label e :: map fd_label els) with (map fd_label (e :: els)). now rewrite removelast_map, last_map. Qed.
Theorem compared_lemma how l ls qu qus (v : pyval) vs ok : how = MU \/ how = MValue ->
  Forall2 (fun l qu => reaches (nd_element nd) l (fst qu) (snd qu) /\ writable l) (l :: ls) (qu :: qus) ->
  Forall2 (fun qu v => match how with MU => exists t, texted (snd qu) t /\ v = VText t | _ => valued (snd qu) v end) (qu :: qus) (v :: vs) ->
  (ok = true <-> Forall (fun w => equal_values w v) vs) ->
  exists f, forall fuel x own, f <= fuel -> plain x own ->
    grades (equal_check fuel how label (map (path_text false) (l :: ls))) x root p ok (mismatch (label (p ++ fst qu)) (map (fun qu => label (p ++ fst qu)) qus)).
Proof.
  intros HO F V OK. destruct (found_at _ _ F) as (f & H). exists f. intros fuel x own L P errors. specialize (H fuel L). cbn [map] in H |- *.
  set (desc := fun qu : list nat * element => ModelValidators.Found (own_value (snd qu)) (match own_text (snd qu) with Some t => t | None => [] end) (label (p ++ fst qu))) in *.
  assert (A : forall qu v, match how with MU => exists t, texted (snd qu) t /\ v = VText t | _ => valued (snd qu) v end -> apply_transform how (desc qu) = Ok v).
  { intros qu0 v0 X. destruct HO as [-> | ->]; cbn.
    - destruct X as (t & T & ->). now rewrite (texted_own _ _ T).
    - now rewrite (valued_own _ _ X). }
  inversion V as [|? ? ? ? V1 V2]; subst.
  unfold equal_check. cbn [ck_self ck_says]. unfold fields_equal.
  pose proof (map_equal_message x own errors how _ _ (desc qu) (map desc qus) v vs P H (A _ _ V1)) as M.
  rewrite mismatch_text, map_map in M. apply (judged_bool _ _ (Forall (fun w => equal_values w v) vs)); [now rewrite OK|]. apply M.
  clear -V2 A. induction V2 as [|a b l l' X Y IH]; [constructor|]. constructor; [now apply A|exact IH].
Qed.
End Compared.
Theorem checked_form id_of place_of (ask : settings) label n fields sep ps e c0 ok0 m0 : NoDup (map fst fields) -> text_keys ps -> text_values ps ->
  set_flat (plain_form n fields) sep (fresh (plain_form n fields)) ps = (e, Ok tt) ->
  let root := ModelCheck.Node [] (plain_form n fields) e in
  identified id_of place_of root -> st_down (ask []) = [] -> st_checks (ask []) = [c0] -> grades c0 (st_context (ask []) e) root [] ok0 m0 ->
  (forall f k, In (f, k) fields -> st_checks (ask [Some f]) = [converted_check] /\ forall u, plain (st_context (ask [Some f]) u) (label f)) ->
  exists F errors V b, (forall fuel, F <= fuel -> validate_form (form_of id_of place_of ask root) fuel (fun _ => []) (fun _ => Uneval) (id_of []) = (errors, V, Ok b))
    /\ (b = true <-> ok0 = true /\ forall f k o, In (f, k) fields -> first_sent (sent_key n sep f) ps o -> accepted (st_optional (ask [Some f])) k o)
    /\ errors (id_of []) = (if ok0 then [] else [m0]) /\ V (id_of []) = (if ok0 then Valid else Invalid)
    /\ forall f k o, In (f, k) fields -> first_sent (sent_key n sep f) ps o -> exists p st, ModelCheck.node_at root p = Some (ModelCheck.Node [Some f] (SScalar (Some f) k) (EScalar (Some f) st))
         /\ (accepted (st_optional (ask [Some f])) k o -> errors (id_of p) = [] /\ V (id_of p) = Valid)
         /\ (~ accepted (st_optional (ask [Some f])) k o -> errors (id_of p) = [label f ++ lit " is not correct."] /\ V (id_of p) = Invalid).
Proof.
  intros ND TK TV SF root ID D0 C0 G0 CK. pose proof (form_named n fields ND) as N. destruct (form_items n fields sep ps e ND TK TV SF) as (items & -> & HO & FI).
  set (fs := map (fun f : str * kind => (true, SScalar (Some (fst f)) (snd f))) fields) in *.
  assert (FSN : NoDup (map fname fs)) by (now apply named_dict in N).
  assert (FSC : forall f k, In (f, k) fields -> field_schema fs (Some f) = Some (SScalar (Some f) k)).
  { intros f k I. apply field_In; [exact FSN|]. split; [reflexivity|]. exists true. apply in_map_iff. now exists (f, k). }
  assert (KD : child_nodes root = map (fun it => match field_schema fs (fst it) with Some g => ModelCheck.Node [fst it] g (snd it) | None => ModelCheck.Node [] (plain_form n fields) (snd it) end) items).
  { unfold root, child_nodes. cbn [nd_schema nd_element nd_way plain_form app]. fold fs. destruct HO as (_ & KN & _). clear G0 FI ID SF. revert KN. induction items as [|[k u] l IH]; intros KN; [reflexivity|].
    cbn [flat_map map fst snd]. rewrite <- (IH (fun j J => KN j (or_intror J))). specialize (KN k (or_introl eq_refl)). apply in_map_iff in KN as ([b g] & E & I). cbn in E.
    assert (FE : field_schema fs k = Some g) by (apply field_In; [exact FSN|]; split; [exact E|now exists b]). now rewrite FE. }
  assert (AT : forall f k o, In (f, k) fields -> first_sent (sent_key n sep f) ps o ->
            exists j st, nth_error (child_nodes root) j = Some (ModelCheck.Node [Some f] (SScalar (Some f) k) (EScalar (Some f) st)) /\ field_state k o st).
  { intros f k o I FS. destruct (FI f k o I FS) as (st & J & S). destruct (In_nth_error _ _ J) as [j E]. exists j, st. split; [|exact S]. rewrite KD. erewrite map_nth_error by exact E. cbn [fst snd]. now rewrite (FSC f k I). }
  assert (BACK : forall p nd, ModelCheck.node_at root p = Some nd -> p = [] /\ nd = root \/ exists f k st, In (f, k) fields /\ nd = ModelCheck.Node [Some f] (SScalar (Some f) k) (EScalar (Some f) st)
            /\ forall o, first_sent (sent_key n sep f) ps o -> field_state k o st).
  { intros [|j p] nd E; [left; split; [reflexivity|now injection E]|]. right. cbn [ModelCheck.node_at] in E. destruct (nth_error (child_nodes root) j) as [c|] eqn:F; [|discriminate].
    rewrite KD, nth_error_map in F. destruct (nth_error items j) as [[k u]|] eqn:G; [|discriminate]. apply nth_error_In in G. cbn [option_map fst snd] in F.
    destruct HO as (NDI & KN & _). pose proof (KN k (in_map fst _ _ G)) as KI. apply in_map_iff in KI as ([b g] & EK & I). cbn in EK. apply in_map_iff in I as ([f kd] & [= <- <-] & I). cbn in EK. subst k.
    destruct (first_sent_some (sent_key n sep f) ps) as [o FS]. destruct (FI f kd o I FS) as (st & J & S). 
    assert (u = EScalar (Some f) st) as ->. { apply (In_aget name_eqb name_eqb_eq' _ _ _ NDI) in G, J. congruence. }
    cbn [fst] in F. rewrite (FSC f kd I) in F. injection F as <-. destruct p; [|now destruct n0]. injection E as <-. exists f, kd, st. split; [exact I|]. split; [reflexivity|].
    intros o' FS'. now rewrite (first_sent_one _ _ _ FS' _ FS). }
  assert (GR : graded ask root).
  { intros p nd c E I. destruct (BACK _ _ E) as [[-> ->]|(f & k & st' & J & -> & _)].
    - assert (W : nd_way root = []) by reflexivity. rewrite W in I. destruct I as [I|[_ I]]; [rewrite C0 in I; destruct I as [<-|[]]; exists ok0, m0; exact G0|rewrite D0 in I; destruct I].
    - destruct (CK f k J) as [CL PL]. cbn [nd_way nd_element] in *. rewrite CL in I. destruct I as [[<-|[]]|[X _]]; [|destruct X; now exists (Some f), st'].
      do 2 eexists. eapply converted_grades; [apply PL|exact E|reflexivity]. }
  destruct (places_lemma id_of place_of ask root (fun _ => []) (fun _ => Uneval) ID N (graded_answered ask root N GR)) as (F & errors & V & b & H1 & H2 & _ & H4).
  assert (NV : ~ vacant (nd_schema root) (nd_element root)).
  { cbn. inversion 1 as [| | |? ? ? ? g I| | |]; subst. unfold fs in *. apply in_map_iff in I as (? & [=] & _). }
  assert (ROOT : assessed ask root [] root ok0 (if ok0 then [] else [m0])).
  { replace (if ok0 then [] else [m0]) with (said (if ok0 then None else Some m0)) by (now destruct ok0). apply as_once; [right; exact D0|]. change (nd_way root) with (@nil name). rewrite C0.
    replace ok0 with (match (if ok0 then None else Some m0) with None => true | Some _ => false end) at 1 by (now destruct ok0). apply re_asked; [discriminate|intros X; now destruct NV|]. change (nd_way root) with (@nil name).
    destruct ok0; [apply (ob_next _ _ _ _ _ m0); [exact G0|constructor]|now apply ob_this]. }
  exists F, errors, V, b. split; [exact H1|]. split; [|split; [|split]].
  - rewrite H4. split.
    + intros Z. split; [destruct (assessed_one _ _ _ _ _ _ _ _ ROOT (Z [] root eq_refl)) as [X _]; exact X|]. intros f k o I FS. destruct (AT f k o I FS) as (j & st & E & S). destruct (CK f k I) as [CL PL].
      destruct (field_verdict ask root [j] [Some f] (Some f) k o st (label f) true [] S CL (PL _)) as [X _]; [cbn [ModelCheck.node_at]; now rewrite E| |now apply X].
      apply (Z [j]). cbn [ModelCheck.node_at]. now rewrite E.
    + intros [Z0 Z] p nd E. destruct (BACK p nd E) as [[-> ->]|(f & k & st & I & -> & S)]; [now rewrite Z0 in ROOT|]. destruct (H2 p _ E) as (ok & ms & A & _).
      destruct (first_sent_some (sent_key n sep f) ps) as [o FS]. destruct (CK f k I) as [CL PL].
      destruct (field_verdict ask root p [Some f] (Some f) k o st (label f) ok ms (S o FS) CL (PL _) E A) as [X ->].
      assert (ok = true) as -> by (apply X; now apply (Z f k o)). exact A.
  - destruct (H2 [] root eq_refl) as (ok & ms & A & _ & EE). destruct (assessed_one _ _ _ _ _ _ _ _ ROOT A) as [<- <-]. destruct ok0; [now inversion EE|]. inversion EE as [|? ? ? ? X|? ? ? ? X Y]; [destruct X|]. now inversion Y.
  - destruct (H2 [] root eq_refl) as (ok & ms & A & VV & _). destruct (assessed_one _ _ _ _ _ _ _ _ ROOT A) as [<- <-]. exact VV.
  - intros f k o I FS. destruct (AT f k o I FS) as (j & st & E & S). exists [j], st. assert (NA : ModelCheck.node_at root [j] = Some (ModelCheck.Node [Some f] (SScalar (Some f) k) (EScalar (Some f) st))) by (cbn [ModelCheck.node_at]; now rewrite E).
    split; [exact NA|]. destruct (H2 [j] _ NA) as (ok & ms & A & VV & EE). destruct (CK f k I) as [CL PL].
    destruct (field_verdict ask root [j] [Some f] (Some f) k o st (label f) ok ms S CL (PL _) NA A) as [X Y]. split.
    + intros Q. apply X in Q. subst ok. subst ms. split; [now inversion EE|exact VV].
    + intros Q. destruct ok; [destruct Q; now apply X|]. subst ms. split; [|exact VV]. inversion EE as [|? ? ? ? I' K|? ? ? ? I' K]; subst; [destruct I'|]. now inversion K.
Qed.
Lemma form_place n fields sep ps e f k : NoDup (map fst fields) -> text_keys ps -> text_values ps -> set_flat (plain_form n fields) sep (fresh (plain_form n fields)) ps = (e, Ok tt) -> In (f, k) fields ->
  exists i st, ModelCheck.node_at (ModelCheck.Node [] (plain_form n fields) e) [i] = Some (ModelCheck.Node [Some f] (SScalar (Some f) k) (EScalar (Some f) st)) /\ reaches e [Key f] [i] (EScalar (Some f) st).
Proof.
  intros ND TK TV SF I. pose proof (form_named n fields ND) as N. pose proof (form_is_of n fields sep ps e ND SF) as O. destruct (form_items n fields sep ps e ND TK TV SF) as (items & -> & HO & FI).
  destruct (first_sent_some (sent_key n sep f) ps) as [o FS]. destruct (FI f k o I FS) as (st & J & _). destruct (In_nth_error _ _ J) as [i E].
  set (root := ModelCheck.Node [] (plain_form n fields) (EDict n None items)). assert (GR : good root) by (now split).
  exists i, st. split; [|apply (rc_key _ _ _ i _ _ _ _ _ E); constructor]. pose proof (kid_element root i GR) as K. cbn [ModelCheck.node_at]. destruct (nth_error (child_nodes root) i) as [c|] eqn:C.
  - cbn in K. unfold name, str in *. rewrite E in K. injection K as K. apply nth_error_In in C. apply dict_child in C as (x & u & g & J2 & F & ->); [|exact N]. cbn in K. subst u.
    pose proof (proj1 (named_dict _ _) N) as [NDF _]. pose proof (proj1 (field_In _ _ _ NDF) F) as (NG & b & IG). apply of_dict in O as (_ & _ & _ & _ & OF). destruct (OF b g IG) as [OG _].
    rewrite <- NG in J2. pose proof (of_name _ _ (OG _ J2)) as NM. cbn in NM. rewrite <- NM in NG. subst x.
    assert (F2 : field_schema (map (fun f : str * kind => (true, SScalar (Some (fst f)) (snd f))) fields) (Some f) = Some (SScalar (Some f) k)).
    { apply field_In; [exact NDF|]. split; [reflexivity|]. exists true. apply in_map_iff. now exists (f, k). }
    assert (g = SScalar (Some f) k) as -> by congruence. reflexivity.
  - cbn in K. unfold name, str in *. rewrite E in K. discriminate.
Qed.
Lemma text_equal a b : equal_values (VText a) (VText b) <-> b = a.
Proof. split; [inversion 1; subst; try easy; discriminate|intros ->; constructor]. Qed.
Theorem agree_lemma id_of place_of place label own n fields sep ps e f g kf kg : NoDup (map fst fields) -> text_keys ps -> text_values ps ->
  set_flat (plain_form n fields) sep (fresh (plain_form n fields)) ps = (e, Ok tt) ->
  let root := ModelCheck.Node [] (plain_form n fields) e in
  identified id_of place_of root -> In (f, kf) fields -> In (g, kg) fields -> f <> [] -> g <> [] ->
  exists i j stf stg F0, ModelCheck.node_at root [i] = Some (ModelCheck.Node [Some f] (SScalar (Some f) kf) (EScalar (Some f) stf))
    /\ ModelCheck.node_at root [j] = Some (ModelCheck.Node [Some g] (SScalar (Some g) kg) (EScalar (Some g) stg))
    /\ forall found (ask : settings), F0 <= found -> st_down (ask []) = [] ->
       st_checks (ask []) = [equal_check found MU place [path_text false [Key f]; path_text false [Key g]]] -> plain (st_context (ask []) e) own ->
       (forall f k, In (f, k) fields -> st_checks (ask [Some f]) = [converted_check] /\ forall u, plain (st_context (ask [Some f]) u) (label f)) ->
       exists F errors V b, (forall fuel, F <= fuel -> validate_form (form_of id_of place_of ask root) fuel (fun _ => []) (fun _ => Uneval) (id_of []) = (errors, V, Ok b))
         /\ (b = true <-> s_u stf = s_u stg /\ forall f k o, In (f, k) fields -> first_sent (sent_key n sep f) ps o -> accepted (st_optional (ask [Some f])) k o)
         /\ (s_u stf = s_u stg -> errors (id_of []) = [] /\ V (id_of []) = Valid)
         /\ (s_u stf <> s_u stg -> errors (id_of []) = [place [i] ++ lit " and " ++ place [j] ++ lit " do not match."] /\ V (id_of []) = Invalid)
         /\ forall f k o, In (f, k) fields -> first_sent (sent_key n sep f) ps o -> exists p st, ModelCheck.node_at root p = Some (ModelCheck.Node [Some f] (SScalar (Some f) k) (EScalar (Some f) st))
              /\ (accepted (st_optional (ask [Some f])) k o -> errors (id_of p) = [] /\ V (id_of p) = Valid)
              /\ (~ accepted (st_optional (ask [Some f])) k o -> errors (id_of p) = [label f ++ lit " is not correct."] /\ V (id_of p) = Invalid).
Proof.
  intros ND TK TV SF root ID IF IG NF NG. pose proof (form_named n fields ND) as N. pose proof (form_is_of n fields sep ps e ND SF) as O. assert (GR : good root) by (now split).
  destruct (form_place n fields sep ps e f kf ND TK TV SF IF) as (i & stf & AF & RF). destruct (form_place n fields sep ps e g kg ND TK TV SF IG) as (j & stg & AG & RG). fold root in AF, AG.
  assert (WR : forall h : str, h <> [] -> writable [Key h]) by (intros h H; cbn; tauto).
  destruct (compared_lemma root root [] place GR eq_refl MU [Key f] [[Key g]] ([i], EScalar (Some f) stf) [([j], EScalar (Some g) stg)] (VText (s_u stf)) [VText (s_u stg)] (str_eqb (s_u stf) (s_u stg))) as (F0 & H).
  - now left.
  - repeat constructor; cbn; try assumption; tauto.
  - repeat constructor; cbn; eexists; split; reflexivity.
  - rewrite str_eqb_eq. split; [intros E; repeat constructor; rewrite E; constructor|]. intros E. apply Forall_inv in E. now apply text_equal in E.
  - exists i, j, stf, stg, F0. split; [exact AF|]. split; [exact AG|]. intros found ask L D0 C0 P CK.
    destruct (checked_form id_of place_of ask label n fields sep ps e _ (str_eqb (s_u stf) (s_u stg)) _ ND TK TV SF ID D0 C0 (H found _ own L P) CK) as (F & errors & V & b & H1 & H2 & H3 & H4 & H5).
    exists F, errors, V, b. split; [exact H1|]. split; [now rewrite H2, str_eqb_eq|]. split; [|split; [|exact H5]].
    + intros E. apply str_eqb_eq in E. rewrite E in H3, H4. now split.
    + intros E. apply str_eqb_neq in E. rewrite E in H3, H4. now split.
Qed.
