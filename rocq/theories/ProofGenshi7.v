(* Proofs: what a template shows survives the rendering. *)
From Verif Require Import PyBase PyBaseFacts ModelMarkup SpecMarkup ProofMarkup ProofMarkup4 ProofMarkup5 ModelGenshi SpecGenshi ProofGenshi ProofGenshi2 ProofGenshi3 ProofGenshi4 ProofGenshi5 ProofGenshi6.

Definition tok_of (x : N + event) : list tok := match x with inl c => [TChar c] | inr e => shape e end.
Lemma flat_chars (s : str) : flat_map tok_of (map inl s) = map TChar s.
Proof. induction s as [|c s IH]; [easy|]. cbn [map flat_map tok_of app]. now rewrite IH. Qed.
Lemma shapes_splices l : shapes l = flat_map tok_of (splices l).
Proof.
  assert (G : forall k l, esizes l < k -> shapes l = flat_map tok_of (splices l)).
  { induction k as [|k IH]; intros l0 L; [lia|]. destruct l0 as [|e l0]; [easy|]. rewrite esizes_cons in L. pose proof (esize_pos e).
    rewrite shapes_cons, splices_cons, flat_map_app, <- (IH l0) by lia. f_equal. destruct e as [q a|q|h s|h s|l1|ds l1|n]; cbn [shape spliced].
    - reflexivity. - reflexivity. - now rewrite flat_chars. - now rewrite flat_chars.
    - apply (IH l1). cbn in L. fold (esizes l1) in L. lia.
    - cbn. now rewrite app_nil_r. - reflexivity. }
  apply (G (S (esizes l))). lia.
Qed.
Lemma shapes_text h s : shapes [Text h s] = map TChar s.
Proof. cbn. now rewrite app_nil_r. Qed.

(* ---- contents through the transforms ---- *)
Lemma kc_run env fs : keeps_contents env -> forall tag a c ctx b ctx' a' c', run_filters env fs tag a c ctx b = (ctx', Ok (a', c')) -> c' = c.
Proof.
  intros K. induction fs as [|f fs IH]; intros tag a c ctx b ctx' a' c' E; cbn [run_filters] in E; [injection E; intros; now subst|].
  assert (G : match f_run env f tag a c ctx b with (ctx, Err e) => (ctx, Err e) | (ctx, Ok (a, c)) => run_filters env fs tag a c ctx b end = (ctx', Ok (a', c')) -> c' = c).
  { destruct (f_run env f tag a c ctx b) as [ctx1 [[a1 c1]|]] eqn:F; [|discriminate]. intros E1. apply IH in E1. apply K in F. congruence. }
  destruct (f_tags env f); [auto|]. destruct (negb _); [eauto|auto].
Qed.
Ltac fin' := match goal with
  | E : Ok _ = Ok _ |- _ => injection E; intros; subst; reflexivity
  | E : Err _ = Ok _ |- _ => discriminate E
  end.
Lemma kc_put key tags forced tag a c ctx b a' c' : put_domid key tags forced tag a c ctx b = Ok (a', c') -> c' = c.
Proof.
  unfold put_domid. intros E. destruct (forced || _); [|fin']. destruct (raw_domid tag a b) as [raw|]; [|discriminate]. cbn [bind] in E.
  destruct (truth raw) as [t|]; [|discriminate]. cbn [bind] in E. destruct (negb t); [fin'|].
  destruct (setting "domid_format" ctx) as [fmt|]; [|discriminate]. cbn [bind] in E. destruct (format_mv fmt raw); [|discriminate]. cbn [rmap] in E. fin'.
Qed.
Lemma transform_contents env tag a c ctx b ctx' a' c' : keeps_contents env -> tag <> lit "textarea" ->
  transform env tag a c ctx b = (ctx', Ok (a', c')) -> c' = c.
Proof.
  intros K Nt E. unfold transform in E.
  destruct (transform_name tag a c ctx b) as [[a1 c1]|] eqn:E1; [|easy]. cbn [bind] in E.
  destruct (transform_value tag a1 c1 ctx b) as [[a2 c2]|] eqn:E2; [|easy]. cbn [bind] in E.
  destruct (transform_domid tag a2 c2 ctx b) as [[a3 c3]|] eqn:E3; [|easy]. cbn [bind] in E.
  destruct (transform_for tag a3 c3 ctx b) as [[a4 c4]|] eqn:E4; [|easy].
  destruct (transform_tabindex tag a4 c4 ctx) as [ctx5 [[a5 c5]|]] eqn:E5; [|easy].
  assert (c1 = c) as ->.
  { revert E1. unfold transform_name. destruct (pop_toggle "auto_name" a ctx) as [[[on forced] x]|]; [|easy]. cbn [bind]. intros E1.
    destruct on, b as [el|]; try fin'. destruct (b_name el); try fin'. destruct (forced || _); fin'. }
  assert (c2 = c) as ->.
  { revert E2. unfold transform_value. destruct (pop_toggle "auto_value" a1 ctx) as [[[on forced] x]|]; [|easy]. cbn [bind]. intros E2.
    destruct on, b as [el|]; try fin'. destruct (negb forced && _); [fin'|]. destruct (tag_is tag "input").
    - destruct (mv_is _ (lit "radio") || _).
      + destruct (mv_is _ (lit "checkbox")); [|fin']. destruct (get_or "value" x MNone), (b_kind el); fin'.
      + destruct (mv_is _ (lit "password") || _ || _); [destruct forced; fin'|]. destruct (_ || forced); fin'.
    - destruct (tag_is tag "option"); [fin'|]. assert (tag_is tag "textarea" = false) as Ta.
      { unfold tag_is. destruct (str_eqb tag (lit "textarea")) eqn:Et; [|easy]. now apply str_eqb_eq in Et. }
      rewrite Ta in E2. destruct (_ || forced); fin'. }
  assert (c3 = c) as ->.
  { revert E3. unfold transform_domid. destruct (pop_toggle "auto_domid" a2 ctx) as [[[on forced] x]|]; [|easy]. cbn [bind]. intros E3.
    destruct (negb on); [fin'|]. now apply kc_put in E3. }
  assert (c4 = c) as ->.
  { revert E4. unfold transform_for. destruct (pop_toggle "auto_for" a3 ctx) as [[[on forced] x]|]; [|easy]. cbn [bind]. intros E4.
    destruct on, b; try fin'. now apply kc_put in E4. }
  assert (c5 = c) as ->.
  { revert E5. unfold transform_tabindex. destruct (pop_toggle "auto_tabindex" a4 ctx) as [[[on forced] x]|]; [|easy]. intros E5.
    destruct (negb on); [injection E5; intros; now subst|]. destruct (setting "tabindex" ctx) as [tv|]; [|discriminate].
    destruct (int_of tv) as [[|p|p]|]; try (injection E5; intros; now subst);
      (destruct (forced || _); [|injection E5; intros; now subst]); try discriminate; cbn in E5; injection E5; intros; now subst. }
  unfold transform_filters in E. destruct (pop_toggle "auto_filter" a5 ctx5) as [[[on forced] a6]|]; [|discriminate].
  destruct (setting "filters" ctx5) as [fv|]; [|discriminate].
  destruct (negb on); [injection E; intros; now subst|]. destruct fv; try discriminate. eapply kc_run; eauto.
Qed.

(* ---- a rewritten tag ---- *)
Lemma contents_shapes mid c l : cont_of mid = Ok c -> new_contents c (contents_of c) = Ok l -> mid <> [] -> shapes l = shapes mid /\ l <> [].
Proof.
  unfold cont_of. destruct mid as [|x mid]; [easy|]. destruct (simplify (x :: mid)) as [[t|l1]|] eqn:E; [| |discriminate]; intros [= <-] N0 _; cbn in N0; injection N0 as <-.
  - apply simplify_text in E. split; [|easy]. rewrite (shapes_splices (x :: mid)), (reads_splices _ _ E), flat_chars. apply shapes_text.
  - apply simplify_events in E as (E & _ & T). split; [now rewrite !shapes_splices, E|]. intros ->. unfold tags_in in T. rewrite <- E in T. cbn in T. lia.
Qed.
Lemma rest_cases {A} (l : list A) : l = [] \/ exists mid e, l = mid ++ [e].
Proof. induction l as [|x l [-> |(mid & e & ->)]]; [now left|right; exists [], x; easy|right; exists (x :: mid), e; easy]. Qed.
Lemma rewrite_shapes env controls rc q a rest b rc' out : keeps_contents env -> q_local q <> lit "textarea" ->
  rewrite env controls rc q a rest b = (rc', Ok out) -> shapes out = TStart q :: shapes rest.
Proof.
  intros K Nt E. unfold rewrite in E.
  destruct (inject_all [] controls) as [m0|]; [|discriminate]. cbn [bind] in E.
  match type of E with context [bind ?x (fun contents => bind (read_attrs a a [] m0) _)] => set (cont := x) in E end.
  destruct cont as [c|] eqn:C; [|discriminate]. cbn [bind] in E. subst cont.
  destruct (read_attrs a a [] m0) as [[[a1 ex] m]|]; [|discriminate]. cbn [bind] in E.
  destruct (render_frames rc) as [|top below]; [discriminate|].
  destruct (transform env (q_local q) m (contents_of c) top b) as [top' [[m' c']|]] eqn:T; [|discriminate]. apply transform_contents in T; [|easy|easy]. subst c'.
  injection E as _ E. destruct (new_contents c (contents_of c)) as [l|] eqn:Nc; [|discriminate]. cbn [bind] in E.
  set (bound := match l with [] => _ | _ => _ end) in E. destruct bound as [l2|] eqn:B; [|discriminate]. cbn [bind] in E. injection E as <-.
  assert (Sb : shapes l2 = shapes l /\ (l <> [] -> l2 <> [])).
  { subst bound. destruct l as [|x l]; [injection B as <-; easy|]. destruct b as [el|]; [|injection B as <-; easy].
    destruct (str_eqb (q_local q) (lit "select")); [|injection B as <-; easy]. apply bind_unbound_iff in B. split; [eapply bound_to_shapes; eauto|]. intros H. eapply bound_nonempty; eauto. }
  destruct Sb as (Sb & Nb). rewrite shapes_cons. cbn [shape app]. f_equal.
  destruct (rest_cases rest) as [-> |(mid & e & ->)].
  - (* nothing after the start tag *)
    cbn in C. injection C as <-. cbn in Nc. injection Nc as <-. destruct l2 as [|y l2]; [easy|]. rewrite app_nil_r, Sb. reflexivity.
  - rewrite rest_cont in C. destruct mid as [|x mid].
    + injection C as <-. cbn in Nc. injection Nc as <-. subst bound. injection B as <-. easy.
    + destruct (contents_shapes _ _ _ C Nc ltac:(easy)) as (Sl & Nl). specialize (Nb Nl). destruct l2 as [|y l2]; [easy|].
      rewrite !shapes_app, Sb, Sl. f_equal. cbn [app]. now rewrite last_last.
Qed.

Section Render.
  Variables (env : filters_env) (filters : mv -> res mv).
  Hypothesis K : keeps_contents env.
  Lemma no_app l1 l2 : no_textarea (l1 ++ l2) <-> no_textarea l1 /\ no_textarea l2.
  Proof.
    unfold no_textarea. rewrite shapes_app. split.
    - intros H. split; intros q I; apply H, in_or_app; auto. - intros (H1 & H2) q I. apply in_app_or in I as [I|I]; auto.
  Qed.
  Lemma render_shapes : forall fuel rc l rc' out, render fuel env filters rc l = (rc', Ok out) -> no_textarea l -> shapes out = shapes l.
  Proof.
    induction fuel as [|fuel IH]; intros rc l rc' out E Nl; [discriminate|]. destruct l as [|e l]; [injection E as <- <-; easy|].
    rewrite render_step in E. apply (no_app [e] l) in Nl as (Ne & Nl). rewrite shapes_cons.
    assert (O : forall e', output e' (render fuel env filters rc l) = (rc', Ok out) -> shape e' = shape e -> shapes out = shape e ++ shapes l).
    { intros e' E' Es. apply output_ok in E' as (o' & E' & ->). rewrite shapes_cons, Es. f_equal. eapply IH; eauto. }
    destruct e as [q a|q|h s|h s|l0|ds l0|n]; try (eapply O; [exact E|reflexivity]).
    - apply IH in E; [now rewrite E, shapes_app|]. apply no_app. split; [|easy]. intros q I. apply Ne. cbn. now rewrite app_nil_r.
    - apply after_ok in E as (rc1 & o1 & o2 & E1 & E2 & ->). apply IH in E2; [|easy]. rewrite shapes_app, E2. f_equal. rewrite shape_sub. clear O E2 Nl.
      assert (N0 : no_textarea l0) by (intros q I; apply Ne; cbn; now rewrite app_nil_r).
      unfold render_sub in E1.
      assert (R : forall controls q a rest b, l0 = Start q a :: rest -> (match rewrite env controls rc q a rest b with (rc, Err e) => (rc, Err e) | (rc, Ok l) => render fuel env filters rc l end) = (rc1, Ok o1) ->
          shapes o1 = shapes l0).
      { intros controls q a rest b -> E. destruct (rewrite env controls rc q a rest b) as [rc3 [l3|]] eqn:W; [|discriminate].
        apply rewrite_shapes in W; [|easy|apply N0; now left]. apply IH in E; [now rewrite E, W|]. intros q' I. apply N0. now rewrite W in I. }
      destruct (directive_order ds) as [[|f fs] [[d ds']|]]; try discriminate; [|eapply IH; eauto].
      destruct d as [b|k raw|s|s|n].
      + destruct l0 as [|[q a|q|h t|h t|l1|ds1 [|x l1]|m] [|y rest]]; try discriminate; (eapply R; [reflexivity|exact E1]).
      + destruct l0 as [|[q a|q|h t|h t|l1|ds1 [|x l1]|m] [|y rest]]; try discriminate; (eapply R; [reflexivity|exact E1]).
      + destruct (with_begin filters s (render_frames rc)) as [fs [[]|x]]; [|discriminate]. destruct ds'; [|discriminate].
        destruct (render fuel env filters (Some fs) l0) as [rc3 [o3|]] eqn:E3; [|discriminate]. apply IH in E3; [|easy].
        destruct (ctx_pop (render_frames rc3)) as [fs3 [[]|]]; [|discriminate]. cbn in E1. injection E1 as _ <-. easy.
      + destruct (set_process s (render_frames rc)) as [fs [[]|x]]; [|discriminate]. destruct ds'; [|discriminate]. eapply IH; eauto.
      + destruct l0 as [|[q a|q|h t|h t|l1|ds1 [|x l1]|m] [|y rest]]; try discriminate; (eapply R; [reflexivity|exact E1]).
  Qed.
  Theorem renders_shapes rc l rc' out : renders env filters rc l rc' out -> no_textarea l -> shapes out = shapes l.
  Proof. intros (fuel & E). eapply render_shapes; eauto. Qed.
End Render.

Section Trouble.
  Variables (env : filters_env) (filters : mv -> res mv).
  (* control attributes around a nested SUB event *)
  Theorem nested_fails rc ds d controls ds1 x l rc' out : splits ds [] (d :: controls) -> (forall s, d <> DWith s /\ d <> DSet s) ->
    ~ renders env filters rc [Sub ds [Sub ds1 (x :: l)]] rc' out.
  Proof.
    intros S0 D R. apply renders_sub in R as (fuel & E). unfold render_sub in E. rewrite (directive_order_spec _ _ _ S0) in E. cbn [first_of] in E.
    destruct d as [b|k raw|s|s|n]; try discriminate; destruct (D s); congruence.
  Qed.
  (* an option with control attributes but no binding, in a bound select *)
  Theorem option_fails rc ds0 el controls ds d more tag a ao inner post e rc' out : keeps_contents env ->
    splits ds0 [] (DBind (Some el) :: controls) -> q_local tag = lit "select" ->
    splits ds [] (d :: more) -> (forall b, ~ In (DBind b) ds) -> (forall s, d <> DWith s /\ d <> DSet s) ->
    ~ In (option_of tag) (map fst ao) -> closed (option_of tag) inner ->
    ~ renders env filters rc [Sub ds0 (Start tag a :: Sub ds (Start (option_of tag) ao :: inner ++ [End (option_of tag)]) :: post ++ [e])] rc' out.
  Proof.
    intros K S0 Et S1 Nb D No C R. apply (renders_bound env filters rc ds0 (Some el) controls tag a _ rc' out S0) in R as (rc1 & l & W & R).
    set (sub := Start (option_of tag) ao :: inner ++ [End (option_of tag)]) in *. set (mid := Sub ds sub :: post).
    change (Sub ds sub :: post ++ [e]) with (mid ++ [e]) in W. unfold rewrite in W. rewrite rest_cont in W.
    destruct (inject_all [] controls) as [m0|]; [|discriminate]. cbn [bind] in W. destruct (cont_of mid) as [c|] eqn:Ec; [|discriminate]. cbn [bind] in W.
    assert (c = Some (inr mid)) as ->. { unfold cont_of, mid in Ec. unfold simplify in Ec. cbn [simplify_loop app rmap] in Ec. now injection Ec as <-. }
    destruct (read_attrs a a [] m0) as [[[a1 ex] m]|]; [|discriminate]. cbn [bind] in W.
    destruct (render_frames rc) as [|top below]; [discriminate|].
    destruct (transform env (q_local tag) m (contents_of (Some (inr mid))) top (Some el)) as [top' [[m' c']|]] eqn:T; [|discriminate].
    apply transform_contents in T; [|easy|rewrite Et; discriminate]. subst c'. injection W as <- W. cbn [contents_of new_contents events_obj bind] in W.
    unfold mid at 1 in W. rewrite Et in W. change (str_eqb (lit "select") (lit "select")) with true in W. cbv iota in W. rewrite option_name in W.
    change (Sub ds sub :: post) with mid in W. destruct (bind_unbound (option_of tag) el mid) as [l2|] eqn:B; [|discriminate]. cbn [bind] in W.
    apply bind_unbound_iff in B. unfold mid in B. inversion B as [| |? ? x ? ? I B1|? ? sub' ? post' Ni Bs Bp|? ? ? Ns]; subst; [now elim (Nb x)| |now elim (Ns ds sub)].
    injection W as <-. cbn [app] in R.
    unfold sub in Bs. inversion Bs as [|a2 i2 i2' l2 l2' Na2 C2 Bi Bl| | |? ? ? ? Hq]; subst; [|elim No; now apply (Hq ao)].
    assert (P : take_tag (option_of tag) 1 (i2 ++ End (option_of tag) :: l2) = take_tag (option_of tag) 1 (inner ++ End (option_of tag) :: [])) by (f_equal; assumption).
    rewrite !take_found in P by easy. injection P as _ ->. inversion Bl; subst.
    change (Start tag ?x :: Sub ds ?y :: ?z) with ([Start tag x] ++ [Sub ds y] ++ z) in R.
    apply renders_app in R as (rc2 & o1 & o2 & _ & R & _). apply renders_app in R as (rc3 & o3 & o4 & R & _ & _).
    revert R. now apply (nested_fails rc2 ds d more).
  Qed.
  (* form:with or form:set together with another of the directives *)
  Theorem with_alone rc ds s d more l rc' out : (splits ds [] (DWith s :: d :: more) \/ splits ds [] (DSet s :: d :: more)) ->
    ~ renders env filters rc [Sub ds l] rc' out.
  Proof.
    intros S0 R. apply renders_sub in R as (fuel & E). unfold render_sub in E. destruct S0 as [S0|S0]; rewrite (directive_order_spec _ _ _ S0) in E; cbn [first_of] in E.
    - destruct (with_begin filters s (render_frames rc)) as [fs [[]|x]]; discriminate.
    - destruct (set_process s (render_frames rc)) as [fs [[]|x]]; discriminate.
  Qed.
  (* a setting that does not exist *)
  Theorem with_unknown fuel rc ds s s' l top below : splits ds [] [DWith s] -> render_frames rc = top :: below -> evaluated filters s s' -> NoDup (keys s) ->
    (exists k, In k (keys s) /\ ~ In k (keys top)) ->
    exists f, render (S fuel) env filters rc [Sub ds l] = (Some (f :: top :: below), Err KeyErr).
  Proof.
    intros S0 Fr V Ns (k & I & O). rewrite render_step. unfold render_sub. rewrite (directive_order_spec _ _ _ S0). cbn [first_of]. unfold with_begin. rewrite Fr.
    assert (match get "filters" s with None => Ok s | Some v => rmap (fun v => set "filters" v s) (filters v) end = Ok s' /\ keys s' = keys s) as (-> & Ks).
    { destruct V as [G|v w s' G Fv G' Se Ks]; rewrite G; [easy|]. split; [|easy]. rewrite Fv. cbn [rmap]. f_equal.
      assert (keys (set "filters" w s) = keys s) as Kw by (apply (keys_aset_in _ str_eqb_eq), sget_in; eauto).
      apply dict_ext; [congruence|now rewrite Kw|]. intros x. unfold set. rewrite sget_set. destruct (str_eqb x (lit "filters")) eqn:Ek.
      - apply str_eqb_eq in Ek. subst x. easy.
      - symmetry. apply Se. intros [K|[]]. rewrite <- K, str_eqb_refl in Ek. discriminate. }
    destruct (ctx_update top s') as [f [x|]] eqn:U.
    - apply ctx_update_err in U as (-> & _). exists f. reflexivity.
    - apply ctx_update_ok in U as (_ & _ & F). rewrite Forall_forall in F. elim O. rewrite <- Ks in I. unfold keys in I. apply in_map_iff in I as (p & <- & I). now apply F.
  Qed.
  Theorem set_unknown fuel rc ds s l top below : splits ds [] [DSet s] -> render_frames rc = top :: below ->
    (exists k, In k (keys s) /\ ~ In k (keys top)) ->
    exists f, render (S fuel) env filters rc [Sub ds l] = (Some (f :: below), Err KeyErr).
  Proof.
    intros S0 Fr (k & I & O). rewrite render_step. unfold render_sub. rewrite (directive_order_spec _ _ _ S0). cbn [first_of]. unfold set_process. rewrite Fr.
    destruct (ctx_update top s) as [f [x|]] eqn:U.
    - apply ctx_update_err in U as (-> & _). exists f. reflexivity.
    - apply ctx_update_ok in U as (_ & _ & F). rewrite Forall_forall in F. elim O. unfold keys in I. apply in_map_iff in I as (p & <- & I). now apply F.
  Qed.
  (* the error of control attributes around a nested SUB event *)
  Theorem nested_error fuel rc ds b controls pairs ds1 x l : splits ds [] (DBind b :: controls) \/ (splits ds [] controls /\ controls <> []) ->
    Forall2 control_says controls pairs ->
    render (S fuel) env filters rc [Sub ds [Sub ds1 (x :: l)]] = (rc, Err ValueErr).
  Proof.
    intros S0 F. rewrite render_step. unfold render_sub. destruct (inject_ok _ _ [] F) as (m & Em). destruct S0 as [S0|(S0 & N0)].
    - rewrite (directive_order_spec _ _ _ S0). cbn [first_of]. now rewrite Em.
    - rewrite (directive_order_spec _ _ _ S0). destruct F as [|d y ds2 ps Fd F]; [easy|]. cbn [first_of]. destruct Fd. now rewrite Em.
  Qed.
  Theorem pop_last fs : List.length fs <= 1 -> ctx_pop fs = (fs, Err RuntimeErr).
  Proof. destruct fs as [|f [|g fs]]; cbn; try easy. lia. Qed.
End Trouble.
