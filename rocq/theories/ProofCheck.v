(* What validate() makes of the elements of a tree. *)
From Verif Require Import PyBase PyBaseFacts ModelScalar SpecScalar ProofScalar3 ModelValidate ModelMessage SpecMessage ModelValidators SpecValidators ModelReport SpecValidate SpecReport ProofReport ModelFlat SpecFlat ProofFlat ProofFlat2 ModelCheck SpecCheck.
From Coq Require Import Lia.

(* ---------------- places ---------------- *)
Lemma node_at_snoc p j : forall nd, node_at nd (p ++ [j]) = match node_at nd p with Some c => nth_error (child_nodes c) j | None => None end.
Proof.
  induction p as [|i p IH]; intros nd; cbn [app node_at]; [now destruct (nth_error (child_nodes nd) j)|].
  destruct (nth_error (child_nodes nd) i); [apply IH|reflexivity].
Qed.
Lemma finite_nodes : forall e way s, exists U, forall p, node_at (Node way s e) p <> None -> In p U.
Proof.
  assert (K : forall nd, (forall c, In c (child_nodes nd) -> exists U, forall p, node_at c p <> None -> In p U) -> exists U, forall p, node_at nd p <> None -> In p U).
  { intros nd H. assert (W : exists U, forall j p c, nth_error (child_nodes nd) j = Some c -> node_at c p <> None -> In (j :: p) U).
    { revert H. generalize (child_nodes nd) as l. clear. induction l as [|a l IH]; intros H; [exists []; now intros [|j] p c|].
      destruct (H a (or_introl eq_refl)) as [U1 H1]. destruct IH as [U2 H2]; [intros c I; apply H; now right|].
      exists (map (cons 0) U1 ++ map (fun q => match q with [] => [] | j :: p => S j :: p end) U2).
      intros [|j] p c E N; apply in_or_app; [left; injection E as <-; now apply in_map, H1|]. right. apply in_map_iff. exists (j :: p). split; [reflexivity|]. now apply (H2 j p c). }
    destruct W as [U W]. exists ([] :: U). intros [|j p] N; [now left|]. right. cbn [node_at] in N. destruct (nth_error (child_nodes nd) j) as [c|] eqn:E; [|easy]. now apply (W j p c). }
  induction e as [n st|n cp l IH|n l IH|n l IH|n j l] using element_ind'; intros way s; apply K; intros c I; cbn in I.
  - now destruct s.
  - destruct s as [|? ? fs| | |]; try easy. apply in_flat_map in I as ([k u] & J & I). cbn in I. destruct (field_schema fs k); [|easy]. destruct I as [<-|[]].
    rewrite Forall_forall in IH. exact (IH _ J _ _).
  - destruct s as [| |? ? ? s'| |]; try easy. apply in_map_iff in I as (u & <- & J). rewrite Forall_forall in IH. exact (IH _ J _ _).
  - destruct s as [| | |? ? s'|]; try easy. apply in_map_iff in I as (u & <- & J). rewrite Forall_forall in IH. exact (IH _ J _ _).
  - destruct s; try easy. apply in_map_iff in I as (st & <- & J). apply K. now intros c [].
Qed.

(* ---------------- emptiness ---------------- *)
Lemma field_In fs k f : NoDup (map fname fs) -> (field_schema fs k = Some f <-> schema_name f = k /\ exists b, In (b, f) fs).
Proof.
  unfold field_schema. induction fs as [|[b g] fs IH]; cbn [map find]; intros ND; [cbn; split; [easy|intros (_ & ? & [])]|].
  apply NoDup_cons_iff in ND as [NI ND]. unfold fname at 1 in NI. cbn [snd] in NI |- *. destruct (name_eqb_spec (schema_name g) k) as [E|E]; cbn [option_map snd].
  - split; [intros [= <-]; split; [easy|exists b; now left]|]. intros (F & b' & [[= _ <-]|I]); [reflexivity|]. exfalso. apply NI. rewrite E, <- F.
    apply in_map_iff. now exists (b', f).
  - rewrite (IH ND). split; intros (F & b' & I); (split; [exact F|]); [exists b'; now right|]. destruct I as [[= -> ->]|I]; [easy|now exists b'].
Qed.
Lemma vacant_iff : forall e s, named_fields s -> (vacant s e <-> element_is_empty s e = true).
Proof.
  induction e as [n st|n cp l IH|n l IH|n l IH|n j l] using element_ind'; intros s N.
  - destruct s as [m k|? [|] ?| | |]; try (split; [now inversion 1|easy]). cbn [element_is_empty].
    assert (O : (forall b, k <> KString b) -> scalar_is_empty k st = is_none (s_value st) && str_eqb (s_u st) []) by (intros X; destruct k; easy || now destruct (X strip_)).
    assert (W : (forall b, k <> KString b) -> vacant (SScalar m k) (EScalar n st) <-> scalar_is_empty k st = true).
    { intros X. rewrite (O X), andb_true_iff, str_eqb_eq. split.
      - inversion 1 as [? b ? ? A B Y| ? ? ? ? A B| | | | |]; subst; [now destruct (X b)|]. now rewrite A.
      - intros [A B]. apply va_scalar; [now destruct (s_value st)|exact B]. }
    destruct k as [b| | | | | |]; try (apply W; intros ?; discriminate). clear O W.
    rewrite empty_string. split.
    + inversion 1 as [? ? ? ? A B| ? ? ? ? A B| | | | |]; subst; [easy|]. split; [|easy]. rewrite A. now inversion 1.
    + intros [A B]. now apply va_string.
  - destruct s as [|m cq fs| | |]; try (split; [now inversion 1|easy]). destruct (proj1 (named_dict _ _) N) as [ND NF]. cbn [element_is_empty]. destruct cq as [cq|].
    + rewrite forallb_forall. rewrite Forall_forall in IH. split.
      * inversion 1 as [| |? ? ? ? ? ? V| | | |]; subst. intros [k u] I. cbn [fst snd]. destruct (field_schema fs k) as [f|] eqn:E; [|easy]. apply (field_In _ _ _ ND) in E as (E & b & J).
        apply (IH (k, u) I f); [now apply (NF b)|]. apply (V b f u J). now rewrite E.
      * intros H. apply va_compound. intros b f u I J. specialize (H _ J). cbn [fst snd] in H. rewrite (proj2 (field_In fs (schema_name f) f ND)) in H by (split; [easy|now exists b]).
        apply (IH _ J f); [now apply (NF b)|exact H].
    + rewrite andb_true_iff, negb_true_iff. split.
      * inversion 1 as [| | |? ? ? ? f I| | |]; subst. split; [|easy]. destruct (forallb fst fs) eqn:E; [|easy]. rewrite forallb_forall in E. now specialize (E _ I).
      * intros [A B]. destruct l; [|easy]. assert (exists f, In (false, f) fs) as [f I]; [|now apply va_sparse with (f := f)].
        clear -A. induction fs as [|[[|] f] fs IH]; cbn in A; [easy| |exists f; now left]. destruct (IH A) as [g I]. exists g. now right.
  - destruct s as [|? [|] ?| | |]; try (split; [now inversion 1|easy]). cbn. destruct l; [split; [easy|constructor]|split; [now inversion 1|easy]].
  - destruct s as [|? [|] ?| | |]; try (split; [now inversion 1|easy]). cbn. destruct l; [split; [easy|constructor]|split; [now inversion 1|easy]].
  - destruct s as [|? [|] ?| | |]; try (split; [now inversion 1|easy]). cbn. destruct l; [split; [easy|constructor]|split; [now inversion 1|easy]].
Qed.
(* the schemas of the elements of a tree *)
Lemma child_named nd c : named_fields (nd_schema nd) -> In c (child_nodes nd) -> named_fields (nd_schema c).
Proof.
  destruct nd as [way s e]. cbn [nd_schema]. intros N I. unfold child_nodes in I. cbn [nd_schema nd_element nd_way] in I.
  destruct s as [|m cq fs|? ? ? t|? ? t|], e; try easy.
  - destruct (proj1 (named_dict _ _) N) as [ND NF]. apply in_flat_map in I as ([k u] & J & I). cbn [fst snd] in I. destruct (field_schema fs k) as [f|] eqn:E; [|easy]. destruct I as [<-|[]]. cbn.
    apply (field_In _ _ _ ND) in E as (E & b & K). now apply (NF b).
  - apply in_map_iff in I as (u & <- & J). exact N.
  - apply in_map_iff in I as (u & <- & J). exact N.
  - apply in_map_iff in I as (u & <- & J). exact Logic.I.
Qed.
Lemma node_named p : forall nd c, named_fields (nd_schema nd) -> node_at nd p = Some c -> named_fields (nd_schema c).
Proof.
  induction p as [|j p IH]; intros nd c N E; cbn [node_at] in E; [now injection E as <-|]. destruct (nth_error (child_nodes nd) j) as [d|] eqn:F; [|easy].
  apply (IH d); [|exact E]. apply (child_named nd); [exact N|]. now apply nth_error_In in F.
Qed.

(* ---------------- validators ---------------- *)
Lemma graded_says c x root p ok m el : grades c x root p ok m -> says_of (Rule (ck_self c) (fun _ => x) (fun _ => ck_says c root p)) el = Ok (ok, if ok then [] else [m]).
Proof.
  intros G. specialize (G []). set (r := Rule (ck_self c) (fun _ => x) (fun _ => ck_says c root p)).
  destruct (call_says r (fun _ => []) el) as (s' & C & S). specialize (S el). rewrite Nat.eqb_refl in S. unfold call in C. cbn [r ru_self ru_context ru_verdict] in C. fold r in C.
  destruct (report (ck_self c) x [] (ck_says c root p)) as [l b] eqn:R. injection C as C1 C2. rewrite <- C1 in S. subst b. unfold put in S. rewrite Nat.eqb_refl in S. destruct G as [G1 G2].
  destruct ok.
  - specialize (G1 eq_refl). injection G1 as -> E. destruct (says_of r el) as [[b ms]|]; [|discriminate]. cbn in E. injection E as ->. f_equal. f_equal. destruct ms as [|a ms]; [reflexivity|].
    exfalso. pose proof (added_all [] (a :: ms) a (or_introl eq_refl)) as I. now rewrite <- S in I.
  - destruct (G2 ltac:(discriminate)) as (l' & G & Q). injection G as -> E. destruct (says_of r el) as [[b ms]|] eqn:F; [|discriminate]. cbn in E. injection E as ->. f_equal. f_equal.
    assert (L : l' = [m]) by (destruct Q as [[[] _]|[_ ->]]; reflexivity). rewrite L in S. clear L.
    apply says_iff in F. assert (M : exists m', ms = [m'] \/ ms = []) by (inversion F; subst; [exists []; now right|exists []; now right|now exists m0; left]). destruct M as [m' [->| ->]]; [|discriminate].
    cbn in S. injection S as <-. reflexivity.
Qed.
Lemma graded_chain x root p el cs : (forall c, In c cs -> exists ok m, grades c x root p ok m) ->
  exists o, objection x root p cs o /\ chain_of (map (fun c => Rule (ck_self c) (fun _ => x) (fun _ => ck_says c root p)) cs) el = Ok (match o with None => true | Some _ => false end, said o).
Proof.
  induction cs as [|c cs IH]; intros H; [exists None; split; [constructor|reflexivity]|].
  destruct (H c (or_introl eq_refl)) as (ok & m & G). destruct IH as (o & O & C); [intros d I; apply H; now right|]. cbn [map chain_of].
  rewrite (graded_says _ _ _ _ _ _ el G). destruct ok; cbn [bind fst].
  - exists o. split; [now apply (ob_next _ _ _ c cs m)|]. rewrite C. now destruct o.
  - exists (Some m). split; [now apply ob_this|reflexivity].
Qed.
Lemma trips_says r el e : trips r el e -> says_of r el = Err e.
Proof.
  unfold says_of. destruct 1 as [E|key info E G|key info a E G T X]; rewrite E; cbn [bind]; [reflexivity| |]; rewrite G; cbn [bind]; [reflexivity|]. rewrite T, X. reflexivity.
Qed.
Lemma scalar_container nd : is_scalar nd <-> node_container nd = false.
Proof.
  unfold is_scalar, node_container. destruct (nd_element nd) as [n st| | | |]; split; try discriminate; try (now intros (? & ? & ?)); try reflexivity. intros _. now exists n, st.
Qed.

(* ---------------- the form ---------------- *)
Section Form.
Variables (id_of : list nat -> id) (place_of : id -> option (list nat)) (ask : settings) (root : node).
Hypothesis ID : identified id_of place_of root.
Hypothesis N : named_fields (nd_schema root).
Let f := form_of id_of place_of ask root.
Lemma form_at p nd : node_at root p = Some nd ->
  f_children f (id_of p) = map (fun j => id_of (p ++ [j])) (seq 0 (List.length (child_nodes nd)))
  /\ f_is_empty f (id_of p) = element_is_empty (nd_schema nd) (nd_element nd)
  /\ f_optional f (id_of p) = st_optional (ask (nd_way nd))
  /\ f_container f (id_of p) = node_container nd
  /\ f_down f (id_of p) = Some (rules_down ask root p nd)
  /\ f_up f (id_of p) = (if node_container nd then Some (rules_of ask root p nd (st_checks (ask (nd_way nd)))) else None).
Proof. intros E. assert (P : place_of (id_of p) = Some p) by (apply ID; now rewrite E). unfold f, form_of. cbn. rewrite P, E. easy. Qed.
Lemma form_reach x : reachable (f_children f) (id_of []) x <-> exists p nd, node_at root p = Some nd /\ x = id_of p.
Proof.
  split.
  - intros [n W]. remember (id_of []) as r eqn:R. induction W as [y|n y z w W IH I]; [exists [], root; now split|]. destruct (IH R) as (p & nd & E & ->).
    destruct (form_at p nd E) as (K & _). rewrite K in I. apply in_map_iff in I as (j & <- & J). apply in_seq in J.
    destruct (nth_error (child_nodes nd) j) as [c|] eqn:F; [|apply nth_error_None in F; lia]. exists (p ++ [j]), c. split; [|reflexivity]. now rewrite node_at_snoc, E.
  - intros (p & nd & E & ->). revert nd E. induction p as [|j p IH] using rev_ind; intros nd E; [exists 0; constructor|].
    rewrite node_at_snoc in E. destruct (node_at root p) as [c|] eqn:F; [|discriminate]. apply (reach_back _ _ (id_of p)); [now apply (IH c)|].
    destruct (form_at p c F) as (K & _). rewrite K. apply in_map_iff. exists j. split; [reflexivity|]. apply in_seq. assert (j < List.length (child_nodes c)) by (apply nth_error_Some; congruence). lia.
Qed.
(* one pass *)
Lemma objection_chain x root0 p el cs o : objection x root0 p cs o ->
  chain_of (map (fun c => Rule (ck_self c) (fun _ => x) (fun _ => ck_says c root0 p)) cs) el = Ok (match o with None => true | Some _ => false end, said o).
Proof.
  induction 1 as [|c cs m G|c cs m o G O IH]; [reflexivity| |]; cbn [map chain_of]; rewrite (graded_says _ _ _ _ _ _ el G); [reflexivity|]. cbn [bind fst]. exact IH.
Qed.
Lemma reviewed_runs p nd (E : node_at root p = Some nd) cs ok o : reviewed ask root p nd cs ok o ->
   (if element_is_empty (nd_schema nd) (nd_element nd) && st_optional (ask (nd_way nd)) then Ok (Some true, [])
    else match rules_of ask root p nd cs with [] => Ok (Some (negb (element_is_empty (nd_schema nd) (nd_element nd))), []) | _ :: _ => rmap (fun br => (Some (fst br), snd br)) (chain_of (rules_of ask root p nd cs) (id_of p)) end)
   = Ok (Some ok, said o).
Proof.
  pose proof (vacant_iff (nd_element nd) (nd_schema nd) (node_named p root nd N E)) as V. intros R. destruct R as [A B|A B C|A B|o A B C].
  - apply V in A. now rewrite A, B.
  - apply V in B. subst cs. now rewrite B, C.
  - assert (X : element_is_empty (nd_schema nd) (nd_element nd) = false) by (destruct (element_is_empty (nd_schema nd) (nd_element nd)); [|reflexivity]; exfalso; apply B; now apply V). subst cs. now rewrite X.
  - assert (X : element_is_empty (nd_schema nd) (nd_element nd) && st_optional (ask (nd_way nd)) = false).
    { destruct (element_is_empty (nd_schema nd) (nd_element nd)); [|reflexivity]. cbn. apply B. now apply V. }
    rewrite X. apply (objection_chain _ _ _ (id_of p)) in C. unfold rules_of. destruct cs as [|c cs]; [easy|]. cbn [map] in C |- *. rewrite C. reflexivity.
Qed.
Lemma reviewed_some p nd (E : node_at root p = Some nd) cs : (forall c, In c cs -> exists ok m, grades c (st_context (ask (nd_way nd)) (nd_element nd)) root p ok m) ->
  exists ok o, reviewed ask root p nd cs ok o.
Proof.
  intros G. pose proof (vacant_iff (nd_element nd) (nd_schema nd) (node_named p root nd N E)) as V.
  destruct (element_is_empty (nd_schema nd) (nd_element nd) && st_optional (ask (nd_way nd))) eqn:M.
  - apply andb_true_iff in M as [M O]. exists true, None. apply re_optional; [now apply V|exact O].
  - assert (VO : vacant (nd_schema nd) (nd_element nd) -> st_optional (ask (nd_way nd)) = false) by (intros H; apply V in H; now rewrite H in M).
    destruct cs as [|c cs].
    + destruct (element_is_empty (nd_schema nd) (nd_element nd)) eqn:Q.
      * exists false, None. apply re_missing; [reflexivity|now apply V|]; apply VO; now apply V.
      * exists true, None. apply re_there; [reflexivity|]; rewrite V; discriminate.
    + destruct (graded_chain (st_context (ask (nd_way nd)) (nd_element nd)) root p (id_of p) (c :: cs) G) as (o & O & CH).
      exists (match o with None => true | Some _ => false end), o. now apply re_asked.
Qed.
Lemma graded_here : graded ask root -> answered ask root.
Proof.
  intros G p nd E. destruct (reviewed_some p nd E (st_checks (ask (nd_way nd)))) as (ok & o & R); [intros c I; apply (G p); [exact E|now left]|].
  destruct (node_container nd) eqn:K.
  - assert (NS : ~ is_scalar nd) by (rewrite scalar_container; congruence). destruct (st_down (ask (nd_way nd))) as [|c cs] eqn:SD.
    + exists ok, (said o). apply as_once; [now right|exact R].
    + destruct (reviewed_some p nd E (c :: cs)) as (a & o1 & R1); [intros c' I; apply (G p); [exact E|right; rewrite SD; now split]|].
      exists (a && ok), (said o1 ++ said o). apply as_twice; [exact NS|now rewrite SD|now rewrite SD|exact R].
  - exists ok, (said o). apply as_once; [left; now apply scalar_container|exact R].
Qed.
Lemma form_passes : answered ask root -> forall p nd, node_at root p = Some nd ->
  exists ok ms, assessed ask root p nd ok ms /\ exists d u md mu, passes_of f true (id_of p) = Ok (d, md) /\ passes_of f false (id_of p) = Ok (u, mu)
    /\ md ++ mu = ms /\ ((d = Some ok /\ u = None) \/ (d = None /\ u = Some ok) \/ exists a b, d = Some a /\ u = Some b /\ ok = a && b).
Proof.
  intros G p nd E. destruct (form_at p nd E) as (_ & A & B & C & D & U).
  unfold passes_of. rewrite A, B, C, D, U. clear A B C D U. unfold rules_down.
  destruct (G p nd E) as (ok & ms & AS). exists ok, ms. split; [exact AS|]. destruct AS as [ok o SC R|a o b o' NS SD R1 R].
  - pose proof (reviewed_runs p nd E _ _ _ R) as Q. destruct (node_container nd) eqn:K.
    + destruct SC as [SC|SD]; [apply scalar_container in SC; congruence|]. cbn [andb]. rewrite SD. cbn [rules_of map].
      exists None, (Some ok), [], (said o). split; [reflexivity|]. split; [exact Q|]. split; [reflexivity|]. right. left. now split.
    + cbn [andb]. exists (Some ok), None, (said o), []. split; [|split; [reflexivity|split; [now rewrite app_nil_r|left; now split]]]. rewrite <- Q. now destruct (rules_of ask root p nd (st_checks (ask (nd_way nd)))).
  - pose proof (reviewed_runs p nd E _ _ _ R) as Q. pose proof (reviewed_runs p nd E _ _ _ R1) as Q1. destruct (node_container nd) eqn:K; [|apply scalar_container in K; contradiction]. cbn [andb].
    destruct (st_down (ask (nd_way nd))) as [|c cs]; [easy|]. exists (Some a), (Some b), (said o), (said o'). split; [exact Q1|]. split; [exact Q|]. split; [reflexivity|]. right. right. now exists a, b.
Qed.
End Form.
Lemma objection_one x root p cs o : objection x root p cs o -> forall o', objection x root p cs o' -> o = o'.
Proof.
  assert (D : forall c m m', grades c x root p true m -> grades c x root p false m' -> False).
  { intros c m m' G G'. pose proof (graded_says _ _ _ _ _ _ 0 G) as A. rewrite (graded_says _ _ _ _ _ _ 0 G') in A. discriminate. }
  assert (D2 : forall c m m', grades c x root p false m -> grades c x root p false m' -> m = m').
  { intros c m m' G G'. pose proof (graded_says _ _ _ _ _ _ 0 G) as A. rewrite (graded_says _ _ _ _ _ _ 0 G') in A. now injection A. }
  induction 1 as [|c cs m G|c cs m o G O IH]; intros o' O'; inversion O' as [|c' cs' m' G'|c' cs' m' o2 G' O2]; subst; try reflexivity.
  - f_equal. now apply (D2 c).
  - destruct (D c _ _ G' G).
  - destruct (D c _ _ G G').
  - now apply IH.
Qed.
Lemma reviewed_one ask root p nd cs ok o ok' o' : reviewed ask root p nd cs ok o -> reviewed ask root p nd cs ok' o' -> ok = ok' /\ o = o'.
Proof.
  intros A B. destruct A as [V O|U V O|U V|w U V O], B as [V' O'|U' V' O'|U' V'|w' U' V' O']; try (split; reflexivity); try congruence; try tauto; try (specialize (V' V); congruence); try (specialize (V V'); congruence).
  pose proof (objection_one _ _ _ _ _ O _ O') as X. subst w'. now split.
Qed.
Theorem assessed_one ask root p nd ok ms ok' ms' : assessed ask root p nd ok ms -> assessed ask root p nd ok' ms' -> ok = ok' /\ ms = ms'.
Proof.
  intros A B. destruct A as [ok o [S|D] R|a o b o1 S D R R1], B as [ok' o' [S'|D'] R'|a' o' b' o1' S' D' R' R1']; try easy.
  1-4: destruct (reviewed_one _ _ _ _ _ _ _ _ _ R R') as [-> ->]; now split.
  destruct (reviewed_one _ _ _ _ _ _ _ _ _ R R') as [-> ->]. destruct (reviewed_one _ _ _ _ _ _ _ _ _ R1 R1') as [-> ->]. now split.
Qed.
Lemma reviewed_fine ask root p nd cs ok o : reviewed ask root p nd cs ok o -> ok = true -> o = None.
Proof. destruct 1 as [| | |[m|]]; easy. Qed.
Lemma assessed_fine ask root p nd ok ms : assessed ask root p nd ok ms -> ok = true -> ms = [].
Proof.
  destruct 1 as [ok o _ R|a o b o' _ _ R R']; intros E.
  - now rewrite (reviewed_fine _ _ _ _ _ _ _ R E).
  - apply andb_true_iff in E as [-> ->]. now rewrite (reviewed_fine _ _ _ _ _ _ _ R eq_refl), (reviewed_fine _ _ _ _ _ _ _ R' eq_refl).
Qed.
Lemma graded_answered ask root : named_fields (nd_schema root) -> graded ask root -> answered ask root.
Proof. intros N. exact (graded_here (fun _ => 0) ask root N). Qed.
Theorem places_lemma id_of place_of ask root errors V : identified id_of place_of root -> named_fields (nd_schema root) -> answered ask root ->
  exists F errors' V' b, (forall fuel, F <= fuel -> validate_form (form_of id_of place_of ask root) fuel errors V (id_of []) = (errors', V', Ok b))
    /\ (forall p nd, node_at root p = Some nd -> exists ok ms, assessed ask root p nd ok ms
          /\ V' (id_of p) = (if ok then Valid else Invalid) /\ noted (errors (id_of p)) ms (errors' (id_of p)))
    /\ (forall x, (forall p, node_at root p <> None -> x <> id_of p) -> errors' x = errors x /\ V' x = V x)
    /\ (b = true <-> forall p nd, node_at root p = Some nd -> assessed ask root p nd true []).
Proof.
  intros ID N G. set (f := form_of id_of place_of ask root).
  destruct (finite_nodes (nd_element root) (nd_way root) (nd_schema root)) as [U0 HU0]. assert (HU : forall p, node_at root p <> None -> In p U0) by (destruct root; exact HU0). clear HU0.
  set (U := map id_of (filter (fun p => match node_at root p with Some _ => true | None => false end) U0)).
  assert (IU : forall x, In x U <-> exists p nd, node_at root p = Some nd /\ x = id_of p).
  { intros x. unfold U. rewrite in_map_iff. split.
    - intros (p & <- & I). apply filter_In in I as [_ I]. destruct (node_at root p) as [nd|] eqn:E; [|discriminate]. now exists p, nd.
    - intros (p & nd & E & ->). exists p. split; [reflexivity|]. apply filter_In. rewrite E. split; [apply HU; now rewrite E|reflexivity]. }
  destruct (report_stops f U errors V (id_of [])) as (F & errors' & V' & r & H & R).
  - apply IU. exists [], root. now split.
  - intros x I y J. apply IU in I as (p & nd & E & ->). destruct (form_at id_of place_of ask root ID p nd E) as (K & _). fold f in K. rewrite K in J. apply in_map_iff in J as (j & <- & J). apply in_seq in J.
    apply IU. destruct (nth_error (child_nodes nd) j) as [c|] eqn:W; [|apply nth_error_None in W; lia]. exists (p ++ [j]), c. split; [|reflexivity]. now rewrite node_at_snoc, E.
  - destruct r as [b|e].
    2:{ exfalso. destruct (R e eq_refl) as (x & down & I & T). apply IU in I as (p & nd & E & ->).
        destruct (form_passes id_of place_of ask root ID N G p nd E) as (ok & ms & _ & d & u & md & mu & D & UP & _). fold f in D, UP. destruct down; congruence. }
    exists F, errors', V', b. split; [exact H|]. destruct (report_form _ _ _ _ _ _ _ _ (H F (le_n F))) as (P1 & P2 & P3).
    pose proof (form_passes id_of place_of ask root ID N G) as FP. fold f in FP. pose proof (form_reach id_of place_of ask root ID) as FR. fold f in FR.
    split; [|split].
    + intros p nd E. destruct (FP p nd E) as (ok & ms & A & d & u & md & mu & D & UP & W & C). exists ok, ms. split; [exact A|].
      destruct (P1 (id_of p)) as (d' & md' & u' & mu' & X1 & X2 & X3 & X4); [apply FR; now exists p, nd|]. apply passes_iff in X1, X2. rewrite D in X1. rewrite UP in X2. injection X1 as <- <-. injection X2 as <- <-.
      rewrite W in X3. split.
      * destruct C as [[-> ->]|[[-> ->]|(a & c & -> & -> & ->)]]; inversion X4; subst; reflexivity.
      * exact X3.
    + intros x X. apply P2. intros Y. apply FR in Y as (p & nd & E & ->). apply (X p); [congruence|reflexivity].
    + rewrite P3. split.
      * intros Z p nd E. destruct (FP p nd E) as (ok & ms & A & d & u & md & mu & D & UP & W & C). destruct (Z (id_of p) d md u mu) as [Z1 Z2]; [apply FR; now exists p, nd|now apply passes_iff|now apply passes_iff|].
        destruct ok; [|exfalso; destruct C as [[-> ->]|[[-> ->]|(a & c & -> & -> & X)]]; [now apply Z1|now apply Z2|destruct a; [destruct c; [discriminate|now apply Z2]|now apply Z1]]].
        now rewrite (assessed_fine _ _ _ _ _ _ A eq_refl) in A.
      * intros Z x d md u mu X Q1 Q2. apply FR in X as (p & nd & E & ->). destruct (FP p nd E) as (ok & ms & A & d' & u' & md' & mu' & D & UP & W & C).
        destruct (assessed_one _ _ _ _ _ _ _ _ A (Z p nd E)) as [-> ->]. apply passes_iff in Q1, Q2. rewrite D in Q1. rewrite UP in Q2. injection Q1 as <- <-. injection Q2 as <- <-.
        unfold fine. destruct C as [[-> ->]|[[-> ->]|(a & c & -> & -> & Y)]]; [split; discriminate..|]. symmetry in Y. apply andb_true_iff in Y as [-> ->]. split; discriminate.
Qed.
