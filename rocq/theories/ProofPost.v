(* Forms drawn by a template read back. *)
From Verif Require Import PyBase PyBaseFacts ModelMarkup SpecMarkup ProofMarkup ProofMarkup5.
From Verif Require Import ModelGenshi SpecGenshi SpecAgree ProofGenshi3 ProofAgree3 SpecForm ProofForm ProofForm2 SpecPost.
From Verif Require ModelPaths SpecPaths ModelFlat SpecFlat.

(* ---------------- the page as calls ---------------- *)
Definition is_menu (w : widget) : bool := match w with WMenu _ _ _ _ => true | _ => false end.
Lemma widget_calls ns w b : is_menu w = false -> control_calls (control_of w) b = Some (map mark_call (widget_marks ns w b)).
Proof.
  intros M. destruct w; try reflexivity; [|easy]. cbn [control_of control_calls widget_marks]. f_equal. rewrite map_map. apply map_ext. now intros.
Qed.
(* ---------------- settings ---------------- *)
Lemma settings_gen rc : template_settings rc ->
  exists t ts, render_frames rc = t :: ts /\
  let gt := aset str_eqb (lit "ordered_attributes") (MBool true) t in
  in_step rc (Gen true [gt; gt]) /\ form_settings (Gen true [gt; gt]).
Proof.
  intros (t & ts & E & H & N & O & F & A & B). exists t, ts. split; [exact E|]. cbn zeta.
  set (gt := aset _ _ _ _).
  assert (forall k, k <> lit "ordered_attributes" -> aget str_eqb k gt = aget str_eqb k t) as G.
  { intros k D. unfold gt. rewrite sget_set. now destruct (str_eqb_spec k (lit "ordered_attributes")). }
  assert (forall k, lit k <> lit "ordered_attributes" -> get k gt = get k t) as G' by (intros k D; now apply G).
  split.
  - exists t, ts, gt, [gt]. repeat split; try easy.
    + intros k D. rewrite (G k D). unfold same_setting. destruct (aget str_eqb k t); [|easy]. destruct (starts_with _ k); [|easy]. now split.
    + exists (MBool true), true. split; [|easy]. unfold get, gt. rewrite sget_set. now destruct (str_eqb_spec (lit "ordered_attributes") (lit "ordered_attributes")).
  - exists gt, [gt]. split; [easy|]. split; [|split; [|split]].
    + intros k I. rewrite G'; [now apply H|]. cbn in I. repeat (destruct I as [<-|I]; [discriminate|]). easy.
    + rewrite G'; [exact F|discriminate].
    + rewrite G'; [exact A|discriminate].
    + rewrite G'; [exact B|discriminate].
Qed.

(* ---------------- reading the events ---------------- *)
Lemma same_gattr (a' : gattrs) pairs :
  (forall k v, aget qname_eqb (QName None k) a' = Some v <-> exists t, v = inl (MText t) /\ aget str_eqb k pairs = Some t) ->
  forall k, gattr k a' = attr k pairs.
Proof.
  intros H k. unfold gattr, attr. destruct (aget str_eqb (lit k) pairs) as [t|] eqn:E.
  - rewrite (proj2 (H (lit k) (inl (MText t)))); [reflexivity|now exists t].
  - destruct (aget qname_eqb (QName None (lit k)) a') as [v|] eqn:E'; [|reflexivity]. apply H in E' as (t & _ & E'). congruence.
Qed.
Lemma starts_split p : forall s, starts_with p s = true -> exists r, s = p ++ r.
Proof.
  induction p as [|x p IH]; intros s H; [now exists s|]. destruct s as [|y s]; [easy|]. cbn in H. apply andb_prop in H as [->%N.eqb_eq H].
  apply IH in H as (r & ->). now exists r.
Qed.
Lemma decode_no_lt s t : decode content_table content_bad s = Some t -> ~ In 60%N s.
Proof.
  unfold decode. assert (forall s k t, decode_go content_table content_bad s k = Some t -> ~ In 60%N (skipn k s)) as W.
  { clear. induction s as [|c s IH]; intros k t H I; [now destruct k|]. destruct k as [|k]; cbn [skipn] in I.
    - cbn [decode_go] in H. destruct (N.eqb_spec c 38) as [->|D].
      + destruct (find _ _) as [e|] eqn:F; [|easy]. apply find_some in F as [F1 F2].
        destruct (decode_go _ _ s _) eqn:G; [|easy]. apply IH in G. destruct I as [I|I]; [discriminate|].
        assert (exists r, 38%N :: s = fst e ++ r) as (r & E) by now apply starts_split.
        cbn in F1. repeat (destruct F1 as [<-|F1]; [cbn in E; injection E as ->; cbn in G, I; repeat (destruct I as [I|I]; [discriminate I|]); now apply G|]). easy.
      + destruct (memb N.eqb c content_bad) eqn:M; [easy|]. destruct (decode_go _ _ s 0) eqn:G; [|easy]. apply IH in G. destruct I as [->|I]; [easy|now apply G].
    - cbn [decode_go] in H. now apply IH in H. }
  intros H. now apply (W s 0%nat t).
Qed.
Lemma span_all (f : N -> bool) a b : Forall (fun x => f x = true) a -> match b with [] => True | x :: _ => f x = false end ->
  span f (a ++ b) = (a, b).
Proof.
  intros H B. induction H as [|x a Hx H IH]; cbn [app].
  - destruct b as [|y b]; [reflexivity|]. cbn. now rewrite B.
  - cbn. now rewrite Hx, IH.
Qed.
Lemma contents_read tag body : ~ In 60%N body ->
  contents_of tag (lit ">" ++ body ++ lit "</" ++ tag ++ lit ">") = decode content_table content_bad body.
Proof.
  intros N. change (lit ">" ++ body ++ lit "</" ++ tag ++ lit ">") with (62%N :: body ++ lit "</" ++ tag ++ lit ">").
  unfold contents_of. rewrite span_all; [|apply Forall_forall; intros x I; apply Bool.negb_true_iff, N.eqb_neq; congruence|reflexivity].
  destruct (str_eqb_spec (lit "</" ++ tag ++ lit ">") (lit "</" ++ tag ++ lit ">")); [reflexivity|easy].
Qed.
Lemma some_not_none {A} (x : option A) : x <> None -> exists t, x = Some t.
Proof. destruct x; [eauto|easy]. Qed.
Lemma same_posts m out a' mid p : mk_contents m = None -> same_tag m out a' mid -> 
  str_eqb (mk_tag m) (lit "select") = false -> submits out = Some p -> posts (mark_name m) a' mid = Some p.
Proof.
  intros C (pairs & rest & body & P & _ & A & _ & R & I) S H. unfold submits in H. rewrite P in H. unfold posts. cbn [mark_name q_local].
  pose proof (same_gattr a' pairs A) as G. rewrite !G. unfold gattr_is. rewrite !G. rewrite S in H. fold (attr_is "type" "radio" pairs) (attr_is "type" "checkbox" pairs).
  assert (gcontents mid <> None) as [t Gc]%some_not_none.
  { destruct I as [E|t E|el b E D]; cbn [gcontents]; [easy..|congruence]. }
  rewrite Gc. destruct (attr "name" pairs) as [n|]; [|easy]. destruct (str_eqb (mk_tag m) (lit "input")); [exact H|].
  destruct (str_eqb (mk_tag m) (lit "textarea")); [|easy].
  enough (gcontents mid = contents_of (mk_tag m) rest) as E by (rewrite <- E, Gc in H; exact H). clear Gc.
  destruct R as [[-> R]|Er].
  { cbn in R. destruct R as [<-|[<-|[]]]; now cbn in H. }
  subst rest. destruct I as [E|t' E|el b E D]; [|congruence|].
  - now rewrite contents_read.
  - cbn [gcontents]. rewrite contents_read; [reflexivity|now apply decode_no_lt in D].
Qed.
Lemma agree_posted ms : Forall (fun m => mk_contents m = None /\ str_eqb (mk_tag m) (lit "select") = false) ms ->
  forall outs out fl, agree (map Draw ms) outs out -> submitted outs fl -> posted out fl.
Proof.
  induction 1 as [|m ms [C S] F IH]; cbn [map]; intros outs out fl A D.
  - inversion A; subst. inversion D; subst. constructor.
  - inversion A; subst. inversion D; subst. apply po_cons; [|eapply IH; eauto]. eapply same_posts; eauto.
Qed.

(* ---------------- whole pages ---------------- *)
Lemma texts_quiet kw : quiet (texts kw) -> tidy_attrs kw ->
  Forall (fun p : str * str => wf_name (fst p) = true /\ drop_tail_underscores (fst p) = fst p /\ fst p <> lit "contents") kw
  /\ ~ In (lit "value") (map fst kw).
Proof.
  intros Q [N T]. assert (forall k v, In (k, v) kw -> wf_name k = true /\ drop_tail_underscores k = k /\ ~ In k (map lit ("name" :: "value" :: "contents" :: control_keys)%string)) as W.
  { intros k v I. rewrite Forall_forall in T. specialize (T _ I). cbn [fst] in T. 
    destruct (Q k (MText v)) as (A & _ & B & _); [apply in_map_iff; now exists (k, v)|]. rewrite T in A, B. auto. }
  split.
  - apply Forall_forall. intros [k v] I. destruct (W _ _ I) as (A & B & C). repeat split; [exact A|exact B|]. cbn [fst]. intros ->. apply C. cbn. auto.
  - intros I. apply in_map_iff in I as ([k v] & E & I). cbn [fst] in E. subst k. destruct (W _ _ I) as (_ & _ & C). apply C. cbn. auto.
Qed.
Lemma typeless_texts kw : typeless (texts kw) -> tidy_attrs kw -> ~ In (lit "type") (map fst kw).
Proof.
  intros Q [_ T] I. apply in_map_iff in I as ([k v] & E & I). cbn [fst] in E. subst k.
  apply (Q (lit "type") (MText v)); [apply in_map_iff; now exists (lit "type", v)|]. reflexivity.
Qed.
Lemma fit_proper ns w b : is_menu w = false -> suited (control_of w) b -> tidy_attrs (widget_attrs w) ->
  Forall (fun m => proper_mark m /\ mk_contents m = None /\ str_eqb (mk_tag m) (lit "select") = false) (widget_marks ns w b).
Proof.
  intros Nm [Q S] T.
  assert (Forall (fun p : str * str => wf_name (fst p) = true /\ drop_tail_underscores (fst p) = fst p /\ fst p <> lit "contents") (widget_attrs w)
    /\ ~ In (lit "value") (map fst (widget_attrs w))) as [F V] by (destruct w; try easy; now apply texts_quiet).
  assert (forall tag dangle kw, wf_name (lit tag) = true -> str_eqb (lit tag) (lit "select") = false -> NoDup (map fst kw) ->
    Forall (fun p : str * str => wf_name (fst p) = true /\ drop_tail_underscores (fst p) = fst p /\ fst p <> lit "contents") kw ->
    proper_mark (widget_tag ns dangle tag kw b) /\ mk_contents (widget_tag ns dangle tag kw b) = None /\ str_eqb (mk_tag (widget_tag ns dangle tag kw b)) (lit "select") = false) as M.
  { intros tag dangle kw H1 H2 H3 H4. repeat split; try easy. constructor. }
  destruct T as [T1 T2]. destruct w; cbn [widget_marks widget_attrs control_of] in *; [..|easy].
  - constructor; [now apply M|constructor].
  - constructor; [now apply M|constructor].
  - apply Forall_forall. intros m I. apply in_map_iff in I as (v & <- & _). apply M; [reflexivity..| |].
    + cbn [map fst]. constructor; [|now constructor]. intros [I|I]; [discriminate|]. revert I. now apply typeless_texts.
    + constructor; [cbn; intuition discriminate|]. constructor; [cbn; intuition discriminate|]. exact F.
  - destruct S as [S _]. constructor; [|constructor]. apply M; [reflexivity..| |].
    + cbn [map fst]. constructor; [|easy]. now apply typeless_texts.
    + constructor; [cbn; intuition discriminate|]. exact F.
Qed.
Lemma back_settings rc g : in_step rc g -> form_settings g -> template_settings rc.
Proof.
  intros (t & ts & gt & gs & E & G & _ & [A F O _ N]) (top & below & G' & H & _ & B & C). rewrite G in G'. injection G' as <- <-.
  exists t, ts. split; [exact E|].
  assert (forall k, lit k <> lit "ordered_attributes" -> forall v, get k t = Some v -> exists w, get k gt = Some w /\ (starts_with (lit "auto_") (lit k) = true -> same_word v w)) as D.
  { intros k D v E'. specialize (A (lit k) D). unfold get in *. rewrite E' in A. unfold same_setting in A. destruct (aget str_eqb (lit k) gt) as [w|]; [|easy].
    exists w. split; [easy|]. intros S. now rewrite S in A. }
  repeat match goal with |- _ /\ _ => split end; [|exact N|exact O|exact F| |].
  - intros k I. assert (lit k <> lit "ordered_attributes") as D' by (cbn in I; repeat (destruct I as [<-|I]; [discriminate|]); easy).
    destruct (H k I) as (w & Hw). specialize (A (lit k) D'). unfold get in *. rewrite Hw in A. unfold same_setting in A.
    destruct (aget str_eqb (lit k) t) as [v|]; [now exists v|easy].
  - intros v E'. destruct (D "auto_name"%string ltac:(discriminate) v E') as (w & Hw & S). destruct (S eq_refl) as [_ S']. intros Y. apply (B w Hw). now apply S'.
  - intros v E'. destruct (D "auto_value"%string ltac:(discriminate) v E') as (w & Hw & S). destruct (S eq_refl) as [_ S']. intros Y. apply (C w Hw). now apply S'.
Qed.
Lemma mark_items ms : map item_event (map Draw ms) = map mark_event ms /\ flat_map item_calls (map Draw ms) = map mark_call ms.
Proof. split; [now rewrite map_map|]. induction ms as [|m ms IH]; [reflexivity|]. cbn [map flat_map item_calls app]. now rewrite IH. Qed.
Lemma plain_posted env filters rc ns w b rc' out : is_menu w = false -> suited (control_of w) b -> tidy_attrs (widget_attrs w) -> b_name b <> [] ->
  template_settings rc -> renders env filters rc (widget_events ns w b) rc' out ->
  posted out (sent (control_of w) b) /\ template_settings rc'.
Proof.
  intros Nm Su Ti Bn S R. apply settings_gen in S as (t & ts & _ & S). cbn zeta in S. destruct S as [S G]. set (g := Gen _ _) in *.
  pose proof (fit_proper ns w b Nm Su Ti) as P. destruct (mark_items (widget_marks ns w b)) as [E1 E2].
  assert (widget_events ns w b = map mark_event (widget_marks ns w b)) as E0 by now destruct w. rewrite E0, <- E1 in R.
  destruct (pages_both env filters (map Draw (widget_marks ns w b)) rc g) as [_ B]; [|exact S|].
  { apply Forall_forall. intros i I. apply in_map_iff in I as (m & <- & I). constructor. rewrite Forall_forall in P. now apply P. }
  destruct (B _ _ R) as (g' & outs & D & A & S'). rewrite E2 in D.
  destruct (control_lemma env g (control_of w) b g' outs G Su Bn) as [Sb G']; [now apply cd_calls with (2 := D), widget_calls|].
  split; [|now apply back_settings with g']. apply (agree_posted (widget_marks ns w b)) with (2 := A); [|exact Sb].
  eapply Forall_impl; [|exact P]. intros m H. apply H.
Qed.

(* ---------------- one tag ---------------- *)
Lemma free_texts l : NoDup (map fst l) ->
  Forall (fun p : str * str => wf_name (fst p) = true /\ ~ In (fst p) (map lit ("name" :: control_keys)%string)) l -> ProofForm.free (texts l).
Proof.
  intros N F. rewrite Forall_forall in F. split; [split|].
  - unfold texts, keys. rewrite map_map. exact N.
  - apply Forall_forall. intros p I. apply in_map_iff in I as (x & <- & I). split; [now apply F|]. eexists. reflexivity.
  - intros k K. unfold get. apply sget_out. intros I. unfold texts, keys in I. rewrite map_map in I. cbn [fst] in I.
    apply in_map_iff in I as (x & E & I). apply F in I as [_ I]. apply I. rewrite E. now apply in_map.
Qed.
Lemma quiet_free kw : quiet (texts kw) -> tidy_attrs kw ->
  Forall (fun p : str * str => wf_name (fst p) = true /\ ~ In (fst p) (map lit ("name" :: control_keys)%string)) kw.
Proof.
  intros Q [N T]. apply Forall_forall. intros [k v] I. rewrite Forall_forall in T. specialize (T _ I). cbn [fst] in *.
  destruct (Q k (MText v)) as (A & _ & B & _); [apply in_map_iff; now exists (k, v)|]. rewrite T in A, B. split; [exact A|].
  intros J. apply B. cbn [map] in *. destruct J as [J|J]; [now left|]. right. right. right. exact J.
Qed.
Definition plain_mark (m : mark) (b : belement) : Prop :=
  proper_mark m /\ mk_switches m = [] /\ mk_element m = Some b /\ tag_among (mk_tag m) ProofForm.control_tags /\ ProofForm.free (texts (mk_attrs m)).
Lemma plain_pairs m : mk_switches m = [] -> ProofAgree2.mark_pairs m = texts (mk_attrs m).
Proof. intros E. unfold ProofAgree2.mark_pairs, ProofAgree2.switch_pairs. now rewrite E. Qed.
(* a plain mark renders as the transform says *)
Lemma mark_renders env filters m b rc t ts : plain_mark m b -> render_frames rc = t :: ts -> get "filters" t = Some (MFilters []) ->
  (forall rc' out, renders env filters rc [mark_event m] rc' out -> exists t' a c a',
     transform env (mk_tag m) (texts (mk_attrs m)) (ProofAgree2.mark_text m) t (Some b) = (t', Ok (a, c))
     /\ rc' = Some (t' :: ts) /\ out = Start (mark_name m) a' :: ProofAgree2.mark_mid c ++ [End (mark_name m)]
     /\ (forall k, aget qname_eqb (QName None k) a' = option_map inl (aget str_eqb k a)))
  /\ (forall t' a c, transform env (mk_tag m) (texts (mk_attrs m)) (ProofAgree2.mark_text m) t (Some b) = (t', Ok (a, c)) ->
     exists out, renders env filters rc [mark_event m] (Some (t' :: ts)) out).
Proof.
  intros (P & Sw & El & Tg & Fr) Rf Fi.
  destruct (ProofAgree2.rewrite_mark env m rc t ts (Some b) P El Rf Fi) as (ex & Ex & Nx & R). rewrite (plain_pairs m Sw) in R.
  pose proof (ProofGenshi6.renders_bound env filters rc (DBind (mk_element m) :: ProofAgree2.mark_controls m) (mk_element m) (ProofAgree2.mark_controls m) (mark_name m) (ProofAgree2.mark_attrs m)
    (match mk_contents m with Some t => [Text false t] | None => [] end ++ [End (mark_name m)])) as B.
  assert (splits (DBind (mk_element m) :: ProofAgree2.mark_controls m) [] (DBind (mk_element m) :: ProofAgree2.mark_controls m)) as Sp.
  { constructor; [discriminate|]. apply controls_split. }
  assert (forall c a' (rc : option (list frame)), renders env filters rc (Start (mark_name m) a' :: ProofAgree2.mark_mid c ++ [End (mark_name m)]) rc (Start (mark_name m) a' :: ProofAgree2.mark_mid c ++ [End (mark_name m)])) as Pl.
  { intros c a' rc0. apply renders_plain. intros e [<-|I]; [reflexivity|]. apply in_app_or in I as [I|[<-|[]]]; [|reflexivity].
    destruct c; cbn [ProofAgree2.mark_mid] in I; try easy; destruct I as [<-|[]]; reflexivity. }
  rewrite El in B, Sp. split.
  - intros rc' out H. unfold mark_event in H. rewrite El in H. apply (B rc' out Sp) in H as (rc1 & l & R' & H). rewrite R in R'.
    destruct (transform env _ _ _ t (Some b)) as [t' [[a c]|]] eqn:T; [|discriminate]. injection R' as <- <-.
    destruct (ProofGenshi6.renders_unique _ _ _ _ _ _ _ _ H (Pl c _ _)) as [-> ->]. eexists t', a, c, _. split; [reflexivity|]. split; [reflexivity|]. split; [reflexivity|].
    apply (written_aget (ProofAgree2.mark_attrs m)). apply write_spec; [reflexivity|reflexivity|exact Ex|exact Nx|].
    rewrite <- (plain_pairs m Sw) in T. apply (ProofAgree.transform_texts _ _ _ _ _ _ _ _ _ Fi (ProofAgree2.mark_texts m P) T).
  - intros t' a c T. rewrite T in R. eexists. unfold mark_event. rewrite El. apply (B _ _ Sp). eexists _, _. split; [exact R|apply Pl].
Qed.
Lemma gattr_get (a' : gattrs) (a : attrs) k t : (forall k, aget qname_eqb (QName None k) a' = option_map inl (aget str_eqb k a)) ->
  get k a = Some (MText t) -> gattr k a' = Some t.
Proof. intros W G. unfold gattr, get in *. now rewrite W, G. Qed.
Lemma gattr_none (a' : gattrs) (a : attrs) k : (forall k, aget qname_eqb (QName None k) a' = option_map inl (aget str_eqb k a)) ->
  get k a = None -> gattr k a' = None.
Proof. intros W G. unfold gattr, get in *. now rewrite W, G. Qed.

(* the settings needed, and that they stay *)
Lemma settings_top rc : template_settings rc -> exists t ts, render_frames rc = t :: ts /\ has_settings t /\ get "filters" t = Some (MFilters [])
  /\ (forall v, get "auto_name" t = Some v -> ~ says_no v) /\ (forall v, get "auto_value" t = Some v -> ~ says_no v)
  /\ forall env tag a c b t' a' c', transform env tag a c t b = (t', Ok (a', c')) -> template_settings (Some (t' :: ts)).
Proof.
  intros S. pose proof S as (t & ts & E & H & N & O & F & A & B). exists t, ts. do 5 (split; [easy|]).
  intros env tag a c b t' a' c' T. pose proof (ProofMarkup4.transform_frame _ _ _ _ _ _ _ _ _ H F T) as (_ & _ & X & _).
  destruct (settings_gen rc S) as (t0 & ts0 & E0 & S0). rewrite E in E0. injection E0 as <- <-. cbn zeta in S0. destruct S0 as [(t0 & ts0 & gt & gs & E0 & _ & _ & Al) _].
  rewrite E in E0. injection E0 as <- <-. destruct (ProofAgree.transform_alike env tag a c t gt b Al) as [_ Al']. rewrite T in Al'. cbn [fst] in Al'.
  exists t', ts. split; [reflexivity|]. split; [|split; [apply (al_dict _ _ Al')|split; [apply (al_only _ _ Al')|split; [apply (al_filters _ _ Al')|]]]].
  - intros k I. rewrite (ProofMarkup4.same_get _ _ _ _ X); [now apply H|]. cbn in I. repeat (destruct I as [<-|I]; [reflexivity|]). easy.
  - split; rewrite (ProofMarkup4.same_get _ _ _ _ X) by reflexivity; assumption.
Qed.

(* ---------------- menus ---------------- *)
Definition choice_mark (ns : option str) (b : belement) (c : choice) : mark :=
  Mark ns (lit "option") false true [] (choice_pairs c) (match ch_label c with [] => None | _ => Some (ch_label c) end) (Some b).
Lemma choice_plain ns b c : fit_choice c -> plain_mark (choice_mark ns b c) b.
Proof.
  intros (Q & T & _ & _). destruct (texts_quiet _ Q T) as [F V]. pose proof (quiet_free _ Q T) as Fr. destruct T as [T1 T2].
  assert (NoDup (map fst (choice_pairs c))) as Nd.
  { unfold choice_pairs. destruct (ch_value c); cbn [app map fst]; [now constructor|exact T1]. }
  split; [|split; [reflexivity|split; [reflexivity|split]]].
  - split; [reflexivity|]. split; [constructor|]. split; [exact Nd|]. cbn [mk_attrs choice_mark]. unfold choice_pairs.
    destruct (ch_value c); cbn [app]; [|exact F]. constructor; [vm_compute; intuition discriminate|exact F].
  - exists "option"%string. split; [cbn; tauto|reflexivity].
  - cbn [mk_attrs choice_mark]. apply free_texts; [exact Nd|]. unfold choice_pairs. destruct (ch_value c); cbn [app]; [|exact Fr].
    constructor; [|exact Fr]. split; [reflexivity|]. vm_compute. intuition discriminate.
Qed.
Definition bound_choice (ns : option str) (b : belement) (c : choice) : list event := gap_events (ch_gap c) ++ [mark_event (choice_mark ns b c)].
Definition option_ns (ns : option str) : option str := match ns with Some [] => None | n => n end.
Lemma choices_bound ns b l gap : Forall fit_choice l -> let q := option_of (QName ns (lit "select")) in
  bound_to q b (flat_map (choice_events q) l ++ gap_events gap) (flat_map (bound_choice (option_ns ns) b) l ++ gap_events gap).
Proof.
  intros F q. assert (forall t x y, bound_to q b x y -> bound_to q b (gap_events t ++ x) (gap_events t ++ y)) as G.
  { intros t x y H. destruct t as [|c t]; [exact H|]. apply bt_same; [easy|easy|exact H]. }
  induction F as [|c l (_ & _ & No & _) _ IH]; cbn [flat_map].
  - rewrite <- (app_nil_r (gap_events gap)). cbn [app]. apply G. constructor.
  - unfold choice_events at 1, bound_choice at 1. rewrite <- !app_assoc. apply G. cbn [app].
    replace (mark_event (choice_mark (option_ns ns) b c)) with (Sub [DBind (Some b)] (Start q (local (choice_pairs c)) :: gap_events (ch_label c) ++ [End q])).
    2:{ unfold mark_event. cbn [choice_mark mk_element mk_switches mk_attrs mk_contents map]. unfold mark_name. cbn [mk_ns mk_tag choice_mark]. unfold q, option_of, option_ns. cbn [q_ns]. destruct (ch_label c); destruct ns as [[|? ?]|]; reflexivity. }
    replace ((gap_events (ch_label c) ++ [End q]) ++ flat_map (choice_events q) l ++ gap_events gap) with (gap_events (ch_label c) ++ End q :: flat_map (choice_events q) l ++ gap_events gap) by (rewrite <- app_assoc; reflexivity).
    apply bt_tag; [|..|exact IH].
    + unfold local. rewrite map_map. intros I. apply in_map_iff in I as (p & E & I). cbn [fst] in E. 
      assert (fst p = lit "option") as Ep by (unfold q, option_of in E; now injection E).
      unfold choice_pairs in I. apply in_app_or in I as [I|I].
      * destruct (ch_value c); [|easy]. destruct I as [<-|[]]. discriminate.
      * apply No. apply in_map_iff. now exists p.
    + destruct (ch_label c); [constructor|]. apply cl_other; [intros [[? ?]|?]; discriminate|constructor].
    + destruct (ch_label c); [constructor|]. apply bt_same; [easy|easy|constructor].
Qed.
Definition menu_contents (l : list choice) (gap : str) : mv :=
  match l, gap with [], [] => MNone | [], _ => MText gap | _, _ => MObj (lit "events") true end.
Lemma simplify_choices q l gap : l <> [] -> let mid := flat_map (choice_events q) l ++ gap_events gap in simplify mid = Ok (inr mid).
Proof.
  intros N mid. destruct l as [|c l]; [easy|]. unfold mid. cbn [flat_map]. unfold choice_events at 1 3. unfold simplify. destruct (ch_gap c) as [|x g]; cbn [gap_events app].
  - cbn [esizes simplify_loop map fold_right]. reflexivity.
  - cbn [esizes esize simplify_loop map fold_right app]. reflexivity.
Qed.
Lemma rewrite_menu env ns many l gap kw b rc t ts t' r : quiet (texts kw) -> tidy_attrs kw -> without "multiple" (texts kw) -> Forall fit_choice l ->
  render_frames rc = t :: ts ->
  transform env (lit "select") (texts (menu_pairs many kw)) (menu_contents l gap) t (Some b) = (t', r) ->
  let q := QName ns (lit "select") in
  let rw := rewrite env [] rc q (local (menu_pairs many kw)) ((flat_map (choice_events (option_of q)) l ++ gap_events gap) ++ [End q]) (Some b) in
  (forall e, r = Err e -> rw = (Some (t' :: ts), Err e))
  /\ forall a, r = Ok (a, menu_contents l gap) -> NoDup (keys a) ->
  exists a', rw = (Some (t' :: ts), Ok (Start q a' :: (flat_map (bound_choice (option_ns ns) b) l ++ gap_events gap) ++ [End q]))
    /\ (forall k, aget qname_eqb (QName None k) a' = option_map inl (aget str_eqb k a)).
Proof.
  intros Q T W F Rf Tr q rw. destruct (texts_quiet _ Q T) as [Fq _]. destruct T as [T1 T2].
  assert (NoDup (map fst (menu_pairs many kw))) as Nd.
  { unfold menu_pairs. destruct many; cbn [app map fst]; [|exact T1]. constructor; [|exact T1]. intros I. apply in_map_iff in I as ([k v] & E & I).
    cbn [fst] in E. subst k. apply (W (lit "multiple") (MText v)); [apply in_map_iff; now exists (lit "multiple", v)|reflexivity]. }
  set (ex := map (fun p : str * str => (fst p, QName None (fst p))) (menu_pairs many kw)).
  assert (read_attrs (local (menu_pairs many kw)) (local (menu_pairs many kw)) [] [] = Ok (local (menu_pairs many kw), ex, texts (menu_pairs many kw))) as R.
  { unfold local at 1. now rewrite ProofAgree2.read_marks. }
  pose proof (choices_bound ns b l gap F) as Bd. cbn zeta in Bd. fold q in Bd. apply ProofGenshi2.bind_unbound_iff in Bd.
  unfold rewrite in rw. cbn [inject_all bind] in rw.
  set (mid := flat_map (choice_events (option_of q)) l ++ gap_events gap) in *.
  set (mid' := flat_map (bound_choice (option_ns ns) b) l ++ gap_events gap) in *.
  assert ((match mid ++ [End q] with [_] => Ok None | _ => rmap Some (simplify (removelast (mid ++ [End q]))) end : res (option (str + list event)))
    = Ok (match l, gap with [], [] => None | [], _ => Some (inl gap) | _, _ => Some (inr mid) end)) as Ec.
  { rewrite removelast_last. destruct l as [|x l].
    - destruct gap as [|y gap]; [reflexivity|]. unfold mid. cbn [flat_map app gap_events]. unfold simplify. cbn. now rewrite app_nil_r.
    - assert (simplify mid = Ok (inr mid)) as Es by now apply simplify_choices. rewrite Es. destruct mid as [|e mid0] eqn:Em; [|now destruct mid0].
      unfold mid in Em. cbn [flat_map] in Em. unfold choice_events in Em. destruct (ch_gap x); discriminate. }
  unfold rw. clear rw. rewrite Ec. cbn [bind]. rewrite R. cbn [bind]. rewrite Rf. change (q_local q) with (lit "select").
  assert (ModelGenshi.contents_of (match l, gap with [], [] => None | [], _ => Some (inl gap) | _, _ => Some (inr mid) end) = menu_contents l gap) as ->
    by (destruct l; [destruct gap|]; reflexivity).
  rewrite Tr. split; [now intros e ->|]. intros a -> Na.
  exists (write_attrs (sort_attrs a) (local (menu_pairs many kw)) ex). split.
  - f_equal.
    assert (new_contents (match l, gap with [], [] => None | [], _ => Some (inl gap) | _, _ => Some (inr mid) end) (menu_contents l gap) = Ok mid) as ->
      by (destruct l; [destruct gap|]; reflexivity).
    cbn [bind]. rewrite str_eqb_refl. fold (option_of q). rewrite Bd. destruct mid as [|e mid0] eqn:Em.
    + cbn [bind]. cbn in Bd. injection Bd as <-. reflexivity.
    + cbn [bind]. f_equal. f_equal. destruct mid' as [|e' mid0'] eqn:Em'.
      * exfalso. unfold mid, mid' in *. destruct l as [|x l]; [destruct gap; discriminate|]. cbn [flat_map] in Em'. unfold bound_choice in Em'. destruct (ch_gap x); discriminate.
      * f_equal. cbn [app]. clear. destruct mid0; [reflexivity|]. now rewrite last_last.
  - apply (written_aget (local (menu_pairs many kw))). apply write_spec; [reflexivity|reflexivity| |unfold ex, keys; rewrite map_map; exact Nd|exact Na].
    intros k. unfold ex, local, keys. rewrite map_map. cbn [fst]. clear. induction (menu_pairs many kw) as [|[k' t] l IH]; [reflexivity|].
    cbn [map fst aget]. unfold memb. cbn [existsb]. rewrite local_eqb. destruct (str_eqb_spec k k') as [->|D]; [reflexivity|]. exact IH.
Qed.

(* what an option says *)
Definition as_pick (c : choice) : pick := Pick (ch_value c) (ch_label c) (texts (ch_attrs c)).
Definition offer (b : belement) (c : choice) : str * bool := (worth (as_pick c), has_value b (worth (as_pick c))).
Lemma get_texts k v l : NoDup (map fst l) -> In (lit k, v) l -> get k (texts l) = Some (MText v).
Proof.
  intros N I. unfold get. apply (In_aget _ str_eqb_eq); [unfold texts, keys; rewrite map_map; exact N|]. unfold texts. apply in_map_iff. now exists (lit k, v).
Qed.
Lemma get_texts_none k l : ~ In (lit k) (map fst l) -> get k (texts l) = None.
Proof. intros N. unfold get. apply sget_out. unfold texts, keys. rewrite map_map. exact N. Qed.
Lemma choice_read env filters ns b c rc t ts rc' out : fit_choice c -> b_name b <> [] -> render_frames rc = t :: ts ->
  has_settings t -> get "filters" t = Some (MFilters []) ->
  (forall v, get "auto_name" t = Some v -> ~ says_no v) -> (forall v, get "auto_value" t = Some v -> ~ says_no v) ->
  renders env filters rc [mark_event (choice_mark ns b c)] rc' out ->
  exists t' a c' a' mid x, transform env (lit "option") (texts (choice_pairs c)) (ProofAgree2.mark_text (choice_mark ns b c)) t (Some b) = (t', Ok (a, c'))
    /\ rc' = Some (t' :: ts) /\ out = Start (QName ns (lit "option")) a' :: mid ++ [End (QName ns (lit "option"))]
    /\ gcontents mid = Some x
    /\ (match gattr "value" a' with Some v => v | None => x end, match gattr "selected" a' with Some _ => true | None => false end) = offer b c.
Proof.
  intros Fc Bn Rf Hs Hf On Ov H. pose proof (choice_plain ns b c Fc) as P.
  destruct (mark_renders env filters _ b rc t ts P Rf Hf) as [M _]. destruct (M _ _ H) as (t' & a & c' & a' & T & E & O & W). clear M.
  cbn [choice_mark mk_tag mk_attrs] in T. destruct P as (_ & _ & _ & Tg & Fr). cbn [choice_mark mk_tag mk_attrs] in Tg, Fr.
  destruct (ProofForm.pipeline _ _ _ _ _ _ _ _ _ Fr Bn Tg Hs Hf On Ov T) as (_ & _ & _ & _ & a1 & a2 & G1 & V & G2 & _).
  destruct Fc as (Q & Td & No & St). destruct (texts_quiet _ Q Td) as [_ Nv]. destruct Td as [Nd _].
  assert (get "value" a1 = option_map MText (ch_value c)) as V1.
  { rewrite G1 by reflexivity. unfold choice_pairs. destruct (ch_value c) as [v|]; cbn [app option_map].
    - apply get_texts; [cbn [map fst]; now constructor|now left].
    - now apply get_texts_none. }
  assert (exists v, c' = ProofAgree2.mark_text (choice_mark ns b c) /\ same_except ["auto_value"; "selected"]%string a1 a2 /\ choice_attr "selected" b v a2
    /\ (given "value" a1 -> get "value" a1 = Some v) /\ (~ given "value" a1 -> v = match c' with MText s | MHtml s => MText (strip s) | MNone => MText [] | o => o end)) as (v & -> & Sx & Ch & Gv & Gn).
  { inversion V; subst; try discriminate; [|eexists; split; [reflexivity|]; split; [eassumption|]; split; [eassumption|]; split; assumption|].
    - exfalso. match goal with I : ~ tag_among _ _ |- _ => apply I; exists "option"%string; simpl; tauto end.
    - match goal with I : _ \/ _ |- _ => destruct I as [[I _]|(_ & I & _)] end; [discriminate|now exfalso]. }
  exists t', a, (ProofAgree2.mark_text (choice_mark ns b c)), a', (ProofAgree2.mark_mid (ProofAgree2.mark_text (choice_mark ns b c))), (ch_label c).
  split; [exact T|]. split; [exact E|]. split; [exact O|]. split; [unfold ProofAgree2.mark_text; cbn [choice_mark mk_contents]; now destruct (ch_label c)|].
  assert (v = MText (worth (as_pick c))) as ->.
  { unfold worth, as_pick. cbn [pk_value pk_label]. destruct (ch_value c) as [w|] eqn:Ew; cbn [option_map] in V1.
    - assert (get "value" a1 = Some v) as E1 by (apply Gv; exists (MText w); split; [exact V1|easy]). rewrite V1 in E1. now injection E1.
    - rewrite Gn; [|intros (w & Hw & _); congruence]. unfold ProofAgree2.mark_text. cbn [choice_mark mk_contents]. specialize (St eq_refl).
      destruct (ch_label c); [reflexivity|]. now rewrite St. }
  unfold offer. f_equal.
  - assert (get "value" a = option_map MText (ch_value c)) as Va.
    { rewrite G2 by reflexivity. rewrite (ProofMarkup4.same_get _ _ _ _ Sx) by reflexivity. exact V1. }
    unfold worth, as_pick. cbn [pk_value pk_label]. destruct (ch_value c) as [w|]; cbn [option_map] in Va.
    + now rewrite (gattr_get _ _ _ _ W Va).
    + now rewrite (gattr_none _ _ _ W Va).
  - destruct Ch as [C1 C2]. destruct (has_value b (worth (as_pick c))) eqn:Ev.
    + assert (get "selected" a = Some (MText (lit "selected"))) as Sa by (rewrite G2 by reflexivity; apply C1; now apply ProofForm.has_chosen).
      now rewrite (gattr_get _ _ _ _ W Sa).
    + assert (get "selected" a = None) as Sa by (rewrite G2 by reflexivity; apply C2; intros X; apply ProofForm.has_chosen in X; congruence).
      now rewrite (gattr_none _ _ _ W Sa).
Qed.
Lemma gap_render env filters rc t l rc' out : renders env filters rc (gap_events t ++ l) rc' out <->
  exists out', renders env filters rc l rc' out' /\ out = gap_events t ++ out'.
Proof.
  rewrite ProofGenshi6.renders_app. assert (renders env filters rc (gap_events t) rc (gap_events t)) as G.
  { apply renders_plain. intros e I. destruct t; [easy|]. destruct I as [<-|[]]. reflexivity. }
  split.
  - intros (rc1 & o1 & o2 & H1 & H2 & ->). destruct (ProofGenshi6.renders_unique _ _ _ _ _ _ _ _ H1 G) as [-> ->]. now exists o2.
  - intros (o & H & ->). exists rc, (gap_events t), o. auto.
Qed.
Lemma gap_offers t l os : offers l os -> offers (gap_events t ++ l) os.
Proof. intros H. destruct t; [exact H|]. now apply of_text. Qed.
Lemma choices_read env filters ns b gap l : Forall fit_choice l -> b_name b <> [] -> forall rc rc' out, template_settings rc ->
  renders env filters rc (flat_map (bound_choice ns b) l ++ gap_events gap) rc' out ->
  template_settings rc' /\ offers out (map (offer b) l).
Proof.
  intros F Bn. induction F as [|c l Fc _ IH]; intros rc rc' out S H; cbn [flat_map] in H.
  - cbn [app] in H. rewrite <- (app_nil_r (gap_events gap)) in H. apply gap_render in H as (o & H & ->). apply ProofGenshi6.renders_nil in H as [-> ->].
    split; [exact S|]. apply gap_offers. constructor.
  - unfold bound_choice at 1 in H. rewrite <- !app_assoc in H. apply gap_render in H as (o & H & ->). apply ProofGenshi6.renders_app in H as (rc1 & o1 & o2 & H1 & H2 & ->).
    destruct (settings_top rc S) as (t & ts & Rf & Hs & Hf & On & Ov & St).
    destruct (choice_read _ _ _ _ _ _ _ _ _ _ Fc Bn Rf Hs Hf On Ov H1) as (t' & a & c' & a' & mid & x & T & -> & -> & Gc & Eo).
    destruct (IH _ _ _ (St _ _ _ _ _ _ _ _ T) H2) as [S' Of]. split; [exact S'|]. apply gap_offers. cbn [map app]. rewrite <- app_assoc. cbn [app].
    rewrite <- Eo. now apply of_option.
Qed.
Lemma multiple_out kw : without "multiple" (texts kw) -> ~ In (lit "multiple") (map fst kw).
Proof.
  intros W I. apply in_map_iff in I as ([k v] & E & I). cbn [fst] in E. subst k. apply (W (lit "multiple") (MText v)); [apply in_map_iff; now exists (lit "multiple", v)|reflexivity].
Qed.
Lemma menu_free many kw : tidy_attrs kw -> quiet (texts kw) -> without "multiple" (texts kw) -> ProofForm.free (texts (menu_pairs many kw)).
Proof.
  intros Td Q W. apply multiple_out in W. pose proof (quiet_free _ Q Td) as Qf. destruct Td as [Nd _]. unfold menu_pairs. destruct many; cbn [app].
  - apply free_texts; [cbn [map fst]; now constructor|]. constructor; [|exact Qf]. split; [reflexivity|vm_compute; intuition discriminate].
  - now apply free_texts.
Qed.
Lemma menu_multiple many kw : without "multiple" (texts kw) -> get "multiple" (texts (menu_pairs many kw)) = if many then Some (MText (lit "multiple")) else None.
Proof. intros W%multiple_out. unfold menu_pairs. destruct many; cbn [app]; [reflexivity|now apply get_texts_none]. Qed.
Lemma menu_posted env filters rc ns many l gap kw b rc' out : tidy_attrs kw -> quiet (texts kw) -> without "multiple" (texts kw) -> Forall fit_choice l ->
  b_name b <> [] -> template_settings rc -> renders env filters rc (widget_events ns (WMenu many l gap kw) b) rc' out ->
  posted out (sent (control_of (WMenu many l gap kw)) b) /\ template_settings rc'.
Proof.
  intros Td Q W F Bn S H. cbn [widget_events] in H. set (q := QName ns (lit "select")) in *.
  apply (ProofGenshi6.renders_bound env filters rc [DBind (Some b)] (Some b) []) in H as (rc1 & lr & R & H); [|repeat constructor; discriminate].
  destruct (settings_top rc S) as (t & ts & Rf & Hs & Hf & On & Ov & St).
  destruct (transform env (lit "select") (texts (menu_pairs many kw)) (menu_contents l gap) t (Some b)) as [t' r] eqn:T.
  destruct (rewrite_menu env ns many l gap kw b rc t ts t' r Q Td W F Rf T) as [Re Ro]. fold q in Re, Ro.
  destruct r as [[a c]|e]; [|rewrite (Re e eq_refl) in R; discriminate]. clear Re.
  pose proof (menu_free many kw Td Q W) as Fr. pose proof (menu_multiple many kw W) as Gm.
  destruct (ProofForm.pipeline _ _ _ _ _ _ _ _ _ Fr Bn (ProofForm.among "select" ltac:(simpl; tauto)) Hs Hf On Ov T) as ([Na _] & _ & Gn & Gk & a1 & a2 & _ & V & _).
  assert (c = menu_contents l gap) as ->.
  { inversion V; subst; try discriminate; easy. }
  destruct (Ro a eq_refl Na) as (a' & E & Wr). rewrite E in R. injection R as <- <-. clear Ro E.
  change (Start q a' :: ?x) with ([Start q a'] ++ x) in H. apply ProofGenshi6.renders_app in H as (rc2 & o1 & o2 & H1 & H2 & ->).
  apply (ProofGenshi6.renders_one _ _ _ _ (Start q a')) in H1 as [-> ->]; [|reflexivity].
  apply ProofGenshi6.renders_app in H2 as (rc3 & o3 & o4 & H3 & H4 & ->).
  apply (ProofGenshi6.renders_one _ _ _ _ (End q)) in H4 as [-> ->]; [|reflexivity].
  destruct (choices_read _ _ _ _ _ _ F Bn _ _ _ (St _ _ _ _ _ _ _ _ T) H3) as [S' Of]. split; [|exact S'].
  cbn [app control_of]. rewrite <- ProofForm.selected_sent. rewrite <- (app_nil_r (map (pair (b_name b)) _)).
  rewrite map_map. change (fun x => (worth _, has_value b _)) with (offer b).
  replace many with (match gattr "multiple" a' with Some _ => true | None => false end).
  - apply po_menu; [reflexivity| |exact Of|constructor]. apply (gattr_get _ a _ _ Wr). apply Gn. discriminate.
  - destruct many.
    + rewrite (gattr_get _ a _ (lit "multiple") Wr); [reflexivity|]. rewrite Gk by reflexivity. exact Gm.
    + rewrite (gattr_none _ a _ Wr); [reflexivity|]. rewrite Gk by reflexivity. exact Gm.
Qed.

(* ---------------- whole pages ---------------- *)
Lemma posted_app l1 p1 l2 p2 : posted l1 p1 -> posted l2 p2 -> posted (l1 ++ l2) (p1 ++ p2).
Proof.
  intros H1 H2. induction H1; [exact H2|..].
  - cbn [app]. rewrite <- !app_assoc. cbn [app]. now apply po_cons.
  - cbn [app]. rewrite <- !app_assoc. cbn [app]. now apply po_menu.
Qed.
Lemma controls_posted env filters ns l : Forall fit l -> Forall (fun wb => b_name (snd wb) <> []) l -> forall rc rc' out,
  template_settings rc -> renders env filters rc (form_page ns l) rc' out ->
  posted out (List.concat (map (fun wb => sent (control_of (fst wb)) (snd wb)) l)) /\ template_settings rc'.
Proof.
  intros F N. induction F as [|[w b] l [Td Fw] _ IH]; intros rc rc' out S H; inversion N as [|? ? N1 N2]; subst.
  - apply ProofGenshi6.renders_nil in H as [-> ->]. split; [constructor|exact S].
  - unfold form_page in H. cbn [flat_map fst snd] in *. apply ProofGenshi6.renders_app in H as (rc1 & o1 & o2 & H1 & H2 & ->).
    assert (posted o1 (sent (control_of w) b) /\ template_settings rc1) as [P1 S1].
    { destruct (is_menu w) eqn:M.
      - destruct w; try discriminate. destruct Fw as (Q & W & F). now apply (menu_posted env filters rc ns many choices gap kw b rc1 o1).
      - assert (suited (control_of w) b) as Su by (destruct w; easy). now apply (plain_posted env filters rc ns w b rc1 o1). }
    destruct (IH N2 _ _ _ S1 H2) as [P2 S2]. split; [|exact S2]. cbn [map List.concat fst snd]. now apply posted_app.
Qed.
Lemma form_pairs s e kind xs l :
  SpecFlat.clear_schema (lit "_") s -> SpecFlat.shows s -> SpecFlat.is_of s e -> SpecFlat.kept false s e ->
  flattened_parts e xs -> map snd l = map (field kind e) xs ->
  Forall (fun cb => has_place (fst cb) (snd cb)) l ->
  Forall (fun cb => b_name (snd cb) <> []) l /\ exists fl, fl = List.concat (map (fun cb => sent (fst cb) (snd cb)) l)
    /\ (exists f, forall fuel, (f <= fuel)%nat -> ModelFlat.flatten_element fuel e (lit "_") = Ok fl)
    /\ exists e', ModelFlat.set_flat s (lit "_") (ModelFlat.fresh s) (SpecFlat.as_flat fl) = (e', Ok tt) /\ SpecFlat.same e e'.
Proof.
  intros C R O K (n & E & X) L H. split.
  { apply Forall_forall. intros cb I. assert (In (snd cb) (map (field kind e) xs)) as I2 by (rewrite <- L; now apply in_map).
    apply in_map_iff in I2 as (x & <- & I2). rewrite X in I2. apply filter_In in I2 as [_ I2]. now apply (fields_named kind s). }
  destruct (ProofFlat8.flatten_back_lemma (lit "_") s e) as (f & fl & Hf & B); [now exists 95%N, []|easy..|].
  assert (fl = map (fun x => (ModelFlat.flattened_name (ModelFlat.tree_of e) x (lit "_"), ModelFlat.u_at e x)) xs) as Efl.
  { destruct (ProofFlat8.flatten_element_lemma e (lit "_")) as (n' & f' & E' & H').
    assert (ModelFlat.flatten_element (Nat.max f f') e (lit "_") = Ok fl) as A by (apply Hf; lia). rewrite H' in A by lia. injection A as <-.
    rewrite X. now rewrite (generations_end (ModelFlat.tree_of e) (ModelPaths.Node []) n n' E E'). }
  exists fl. split; [|split; [now exists f|exact B]].
  subst fl. clear -L H. revert xs L. induction H as [|[c b] l H _ IH]; intros [|x xs] L; try easy. cbn [map snd] in L. injection L as -> L.
  cbn [map List.concat fst snd]. cbn [fst snd] in H. rewrite (ProofForm.sent_place _ _ H), <- (IH xs L). reflexivity.
Qed.
Lemma form_posted env filters rc ns s e kind xs l rc' out :
  SpecFlat.clear_schema (lit "_") s -> SpecFlat.shows s -> SpecFlat.is_of s e -> SpecFlat.kept false s e ->
  flattened_parts e xs -> map snd l = map (field kind e) xs -> Forall fit l ->
  Forall (fun wb => has_place (control_of (fst wb)) (snd wb)) l ->
  template_settings rc -> renders env filters rc (form_page ns l) rc' out ->
  exists fl, posted out fl
    /\ (exists f, forall fuel, (f <= fuel)%nat -> ModelFlat.flatten_element fuel e (lit "_") = Ok fl)
    /\ exists e', ModelFlat.set_flat s (lit "_") (ModelFlat.fresh s) (SpecFlat.as_flat fl) = (e', Ok tt) /\ SpecFlat.same e e'.
Proof.
  intros C W O K X L F H S R. set (l' := map (fun wb : widget * belement => (control_of (fst wb), snd wb)) l).
  destruct (form_pairs s e kind xs l' C W O K X) as [Nm (fl & -> & B)].
  - unfold l'. rewrite map_map. exact L.
  - apply Forall_map. exact H.
  - eexists. split; [|exact B]. unfold l'. rewrite map_map. cbn [fst snd]. apply (controls_posted env filters ns l F) with (2 := S) (3 := R).
    unfold l' in Nm. rewrite Forall_map in Nm. exact Nm.
Qed.

(* ---------------- with ids, tab indexes and filters off all pages render ---------------- *)
Lemma marks_plain ns w b : is_menu w = false -> suited (control_of w) b -> tidy_attrs (widget_attrs w) -> Forall (fun m => plain_mark m b) (widget_marks ns w b).
Proof.
  intros M Su Td. pose proof (fit_proper ns w b M Su Td) as P. rewrite Forall_forall in *. intros m I. destruct (P m I) as (Pm & _ & _).
  split; [exact Pm|]. assert (Forall (fun p : str * str => wf_name (fst p) = true /\ ~ In (fst p) (map lit ("name" :: control_keys)%string)) (widget_attrs w)) as Fr.
  { destruct Su as [Q _]. apply quiet_free; [|exact Td]. destruct w; easy. }
  assert (forall n, In n ["type"; "value"]%string -> wf_name (lit n) = true /\ ~ In (lit n) (map lit ("name" :: control_keys)%string)) as Ft.
  { intros n J. destruct J as [<-|[<-|[]]]; (split; [reflexivity|vm_compute; intuition discriminate]). }
  assert (mk_switches m = [] /\ mk_element m = Some b /\ tag_among (mk_tag m) ProofForm.control_tags
    /\ Forall (fun p : str * str => wf_name (fst p) = true /\ ~ In (fst p) (map lit ("name" :: control_keys)%string)) (mk_attrs m)) as (E1 & E2 & E3 & E4).
  { pose proof (ProofForm.among "input" ltac:(simpl; tauto)) as A1. pose proof (ProofForm.among "textarea" ltac:(simpl; tauto)) as A2.
    destruct w; cbn [widget_marks widget_attrs] in *; [..|easy].
    - destruct I as [<-|[]]. easy.
    - destruct I as [<-|[]]. easy.
    - apply in_map_iff in I as (v & <- & _). do 3 (split; [easy|]). cbn [mk_attrs widget_tag]. constructor; [apply (Ft "type"%string); simpl; tauto|].
      constructor; [apply (Ft "value"%string); simpl; tauto|exact Fr].
    - destruct I as [<-|[]]. do 3 (split; [easy|]). cbn [mk_attrs widget_tag]. constructor; [apply (Ft "type"%string); simpl; tauto|exact Fr]. }
  do 3 (split; [assumption|]). apply free_texts; [|exact E4]. destruct Pm as (_ & _ & N & _). rewrite E1 in N. exact N.
Qed.
Lemma mark_works env filters m b rc t ts : plain_mark m b -> render_frames rc = t :: ts -> get "filters" t = Some (MFilters []) -> plain_ctx t ->
  exists out, renders env filters rc [mark_event m] (Some (t :: ts)) out.
Proof.
  intros P Rf Hf Pl. destruct (mark_renders env filters m b rc t ts P Rf Hf) as [_ M]. destruct P as (_ & _ & _ & Tg & Fr).
  assert (exists t0, truth (ProofAgree2.mark_text m) = Ok t0) as (t0 & T0) by (unfold ProofAgree2.mark_text; destruct (mk_contents m); eexists; reflexivity).
  destruct (ProofForm.control_works env _ _ _ _ _ b Fr Tg Pl T0) as (a & c & t' & T & _). now apply M in T.
Qed.
Lemma marks_work env filters b t ts ms : Forall (fun m => plain_mark m b) ms -> get "filters" t = Some (MFilters []) -> plain_ctx t ->
  forall rc, render_frames rc = t :: ts -> exists rc' out, renders env filters rc (map mark_event ms) rc' out /\ render_frames rc' = t :: ts.
Proof.
  intros F Hf Pl. induction F as [|m ms P _ IH]; intros rc Rf.
  - exists rc, []. split; [now apply ProofGenshi6.renders_nil|exact Rf].
  - destruct (mark_works env filters m b rc t ts P Rf Hf Pl) as (o1 & H1). destruct (IH (Some (t :: ts)) eq_refl) as (rc' & o2 & H2 & Rf').
    exists rc', (o1 ++ o2). split; [|exact Rf']. change (map mark_event (m :: ms)) with ([mark_event m] ++ map mark_event ms). apply ProofGenshi6.renders_app. exists (Some (t :: ts)), o1, o2. auto.
Qed.
Lemma choices_work env filters ns b t ts gap l : Forall fit_choice l -> get "filters" t = Some (MFilters []) -> plain_ctx t ->
  forall rc, render_frames rc = t :: ts -> exists rc' out, renders env filters rc (flat_map (bound_choice ns b) l ++ gap_events gap) rc' out /\ render_frames rc' = t :: ts.
Proof.
  intros F Hf Pl. induction F as [|c l Fc _ IH]; intros rc Rf; cbn [flat_map].
  - exists rc, (gap_events gap ++ []). split; [|exact Rf]. cbn [app]. rewrite <- (app_nil_r (gap_events gap)) at 1. apply gap_render. exists []. split; [now apply ProofGenshi6.renders_nil|reflexivity].
  - destruct (mark_works env filters _ b rc t ts (choice_plain ns b c Fc) Rf Hf Pl) as (o1 & H1). destruct (IH (Some (t :: ts)) eq_refl) as (rc' & o2 & H2 & Rf').
    exists rc', (gap_events (ch_gap c) ++ o1 ++ o2). split; [|exact Rf']. unfold bound_choice at 1. rewrite <- !app_assoc. apply gap_render.
    exists (o1 ++ o2). split; [|reflexivity]. apply ProofGenshi6.renders_app. exists (Some (t :: ts)), o1, o2. auto.
Qed.
Lemma form_renders env filters ns l t ts : plain_ctx t -> Forall fit l -> Forall (fun wb => b_name (snd wb) <> []) l -> forall rc,
  render_frames rc = t :: ts -> template_settings rc ->
  exists rc' out, renders env filters rc (form_page ns l) rc' out /\ render_frames rc' = t :: ts.
Proof.
  intros Pl F N. induction F as [|[w b] l [Td Fw] _ IH]; intros rc Rf S; inversion N as [|? ? N1 N2]; subst.
  - exists rc, []. split; [now apply ProofGenshi6.renders_nil|exact Rf].
  - cbn [fst snd] in *.
    assert (exists rc1 o1, renders env filters rc (widget_events ns w b) rc1 o1 /\ render_frames rc1 = t :: ts) as (rc1 & o1 & H1 & Rf1).
    { destruct (settings_top rc S) as (t0 & ts0 & Rf0 & Hs & Hf & On & Ov & St). rewrite Rf in Rf0. injection Rf0 as <- <-.
      destruct (is_menu w) eqn:M.
      - destruct w; try discriminate. destruct Fw as (Q & W & F). cbn [widget_attrs] in Td.
        assert (ProofForm.free (texts (menu_pairs many kw))) as Fr by now apply menu_free.
        assert (exists t0, truth (menu_contents choices gap) = Ok t0) as (t0 & T0) by (unfold menu_contents; destruct choices; [destruct gap|]; eexists; reflexivity).
        destruct (ProofForm.control_works env (lit "select") _ _ _ _ b Fr (ProofForm.among "select" ltac:(simpl; tauto)) Pl T0) as (a & c & t' & T & [Na _] & _).
        destruct (ProofForm.pipeline _ _ _ _ _ _ _ _ _ Fr N1 (ProofForm.among "select" ltac:(simpl; tauto)) Hs Hf On Ov T) as (_ & _ & _ & _ & a1 & a2 & _ & V & _).
        assert (c = menu_contents choices gap) as -> by (inversion V; subst; try discriminate; easy).
        destruct (rewrite_menu env ns many choices gap kw b rc t ts t _ Q Td W F Rf T) as [_ Ro]. destruct (Ro a eq_refl Na) as (a' & E & _).
        destruct (choices_work env filters (option_ns ns) b t ts gap choices F Hf Pl (Some (t :: ts)) eq_refl) as (rc1 & o1 & H1 & Rf1).
        set (q := QName ns (lit "select")) in *. exists rc1, ([Start q a'] ++ o1 ++ [End q]). split; [|exact Rf1]. cbn [widget_events]. fold q.
        apply (ProofGenshi6.renders_bound env filters rc [DBind (Some b)] (Some b) []); [repeat constructor; discriminate|]. eexists _, _. split; [exact E|].
        change (Start q a' :: ?x) with ([Start q a'] ++ x). apply ProofGenshi6.renders_app. exists (Some (t :: ts)), [Start q a'], (o1 ++ [End q]).
        split; [now apply (ProofGenshi6.renders_one _ _ _ _ (Start q a'))|]. split; [|reflexivity].
        apply ProofGenshi6.renders_app. exists rc1, o1, [End q]. split; [exact H1|]. split; [now apply (ProofGenshi6.renders_one _ _ _ _ (End q))|reflexivity].
      - assert (suited (control_of w) b) as Su by (destruct w; easy). assert (widget_events ns w b = map mark_event (widget_marks ns w b)) as -> by now destruct w.
        now apply (marks_work env filters b t ts _ (marks_plain ns w b M Su Td)). }
    assert (template_settings rc1) as S1.
    { destruct S as (t0 & ts0 & Rf0 & S). exists t, ts. split; [exact Rf1|]. rewrite Rf in Rf0. now injection Rf0 as <- <-. }
    destruct (IH N2 rc1 Rf1 S1) as (rc' & o2 & H2 & Rf'). exists rc', (o1 ++ o2). split; [|exact Rf']. unfold form_page. cbn [flat_map fst snd].
    apply ProofGenshi6.renders_app. exists rc1, o1, o2. auto.
Qed.

(* ---------------- one reading ---------------- *)
Lemma split_unique {A} (x : A) : forall m1 l1 m2 l2, ~ In x m1 -> ~ In x m2 -> m1 ++ x :: l1 = m2 ++ x :: l2 -> m1 = m2 /\ l1 = l2.
Proof.
  induction m1 as [|y m1 IH]; intros l1 [|z m2] l2 N1 N2 E; cbn [app] in E.
  - now injection E.
  - injection E as -> _. exfalso. apply N2. now left.
  - injection E as -> _. exfalso. apply N1. now left.
  - injection E as -> E. destruct (IH l1 m2 l2) as [-> ->]; [intros I; apply N1; now right|intros I; apply N2; now right|exact E|easy].
Qed.
Lemma gcontents_ends mid t q : gcontents mid = Some t -> ~ In (End q) mid.
Proof. intros G I. destruct mid as [|e [|e2 mid]]; [easy| |destruct e as [| | [] | | | | ]; discriminate G]. destruct I as [E|[]]. rewrite E in G. discriminate G. Qed.
Lemma offers_ends mid os q : offers mid os -> q_local q <> lit "option" -> ~ In (End q) mid.
Proof.
  intros H N. induction H as [|h t l os H IH|q' a mid l t os E G H IH].
  - easy.
  - intros [I|I]; [discriminate|now apply IH].
  - intros [I|I]; [discriminate|]. apply in_app_or in I as [I|[I|I]]; [now apply (gcontents_ends mid t q) in I|injection I as ->; congruence|now apply IH].
Qed.
Lemma offers_unique l o1 o2 : offers l o1 -> offers l o2 -> o1 = o2.
Proof.
  intros H. revert o2. induction H as [|h t l os H IH|q a mid l t os E G H IH]; intros o2 H2.
  - now inversion H2.
  - inversion H2; subst. now apply IH.
  - inversion H2 as [| |q' a' mid' l' t' os' E' G' H']; subst. match goal with X : _ ++ End q :: _ = _ |- _ => rename X into Eq end. apply split_unique in Eq as [<- <-]; [|now apply gcontents_ends with (1 := G')|now apply gcontents_ends with (1 := G)].
    rewrite G in G'. injection G' as <-. f_equal. now apply IH.
Qed.
Lemma posts_facts q a mid p : posts q a mid = Some p -> (exists t, gcontents mid = Some t) /\ q_local q <> lit "select".
Proof.
  unfold posts. intros H. destruct (gattr "name" a) as [n|]; [|easy]. destruct (gcontents mid) as [t|]; [|easy]. split; [now exists t|]. intros E. rewrite E in H. discriminate.
Qed.
Lemma posted_unique l p1 p2 : posted l p1 -> posted l p2 -> p1 = p2.
Proof.
  intros H. revert p2. induction H as [|q a mid l p ps P H IH|q a mid l n os ps E N O H IH]; intros p2 H2.
  - now inversion H2.
  - destruct (posts_facts _ _ _ _ P) as [(t & G) Ns]. inversion H2 as [|q' a' mid' l' p' ps' P' H'|q' a' mid' l' n' os' ps' E' N' O' H']; subst; [|easy].
    destruct (posts_facts _ _ _ _ P') as [(t' & G') _].
    match goal with X : _ ++ End q :: _ = _ |- _ => rename X into Eq end. apply split_unique in Eq as [<- <-]; [|now apply gcontents_ends with (1 := G')|now apply gcontents_ends with (1 := G)].
    rewrite P in P'. injection P' as <-. f_equal. now apply IH.
  - inversion H2 as [|q' a' mid' l' p' ps' P' H'|q' a' mid' l' n' os' ps' E' N' O' H']; subst.
    + destruct (posts_facts _ _ _ _ P') as [_ Ns]. easy.
    + assert (q_local q <> lit "option") as No by (rewrite E; discriminate).
      match goal with X : _ ++ End q :: _ = _ |- _ => rename X into Eq end. apply split_unique in Eq as [<- <-]; [|now apply offers_ends with (1 := O')|now apply offers_ends with (1 := O)].
      rewrite N in N'. injection N' as <-. rewrite (offers_unique _ _ _ O O'). f_equal. now apply IH.
Qed.

(* ---------------- a form ---------------- *)
Local Open Scope string_scope.
Definition sample_widgets : list widget :=
  [WArea []; WMenu false [Choose (lit " ") (Some (lit "0")) (lit "<none>") [(lit "class", lit "n")]; Choose [] None (lit "-1") []] (lit " ") []; WInput [(lit "type", lit "hidden")]; WChoice false [lit "a"; lit "b"] [(lit "class", lit "r")]; WTick []].
Definition sample_page := combine sample_widgets (map (field sample_kind SpecFlat.sample_element) sample_xs).
Lemma sample_posted :
  let attributes := map (fun p : string * string => (QName None (lit (fst p)), inl (MText (lit (snd p))))) in
  let tag n a mid := ([Start (QName None (lit n)) (attributes a)] ++ mid ++ [End (QName None (lit n))])%list in
  let out := (tag "textarea" [("name", "o_s")] [Text true (lit "hi")] ++ tag "select" [("name", "o_l_0_x")] ([Text false (lit " ")]
        ++ tag "option" [("value", "0"); ("class", "n")] [Text false (lit "<none>")] ++ tag "option" [("selected", "selected")] [Text false (lit "-1")] ++ [Text false (lit " ")])
    ++ tag "input" [("type", "hidden"); ("name", "o_l_1_x"); ("value", "3")] []
    ++ tag "input" [("type", "radio"); ("value", "a"); ("class", "r"); ("name", "o_l_0_t")] []
    ++ tag "input" [("type", "radio"); ("value", "b"); ("class", "r"); ("name", "o_l_0_t"); ("checked", "checked")] []
    ++ tag "input" [("type", "checkbox"); ("name", "o_l_0_t"); ("value", "a"); ("checked", "checked")] [])%list in
  flattened_parts SpecFlat.sample_element sample_xs
  /\ map snd sample_page = map (field sample_kind SpecFlat.sample_element) sample_xs
  /\ Forall fit sample_page /\ Forall (fun wb => has_place (control_of (fst wb)) (snd wb)) sample_page
  /\ template_settings None /\ (exists t ts, render_frames None = t :: ts /\ plain_ctx t)
  /\ (exists rc', renders no_filters (fun v => Ok v) None (form_page None sample_page) rc' out)
  /\ posted out [(lit "o_s", lit "hi"); (lit "o_l_0_x", lit "-1"); (lit "o_l_1_x", lit "3"); (lit "o_l_0_t", lit "b"); (lit "o_l_0_t", lit "a")].
Proof.
  intros attributes tag out.
  assert (template_settings None) as T.
  { eexists _, _. split; [reflexivity|]. split; [|split; [|split; [reflexivity|split; [reflexivity|split]]]].
    + intros k K. simpl in K. repeat (destruct K as [<-|K]; [eexists; reflexivity|]). easy.
    + vm_compute. repeat (constructor; [intros I; simpl in I; repeat (destruct I as [I|I]; [discriminate I|]); exact I|]). constructor.
    + intros v [= <-] [E|[E _]]; [discriminate|]. apply E. exists true. now left.
    + intros v [= <-] [E|[E _]]; [discriminate|]. apply E. exists true. now left. }
  split; [exists 4%nat; split; vm_compute; reflexivity|]. split; [reflexivity|]. split; [|split; [|split; [exact T|split; [|split]]]].
  - assert (Q0 : quiet []) by (intros k v []). assert (T0 : tidy_attrs []) by (split; constructor).
    assert (T1 : forall k v, drop_tail_underscores k = k -> tidy_attrs [(k, v)]) by (intros; split; repeat constructor; easy).
    assert (Qc : forall t, quiet [(lit "class", MText t)]).
    { intros t k' v [[= <- <-]|[]]. split; [reflexivity|]; split; [eexists; reflexivity|]; split; [|vm_compute; discriminate]; vm_compute; intuition discriminate. }
    unfold sample_page, sample_widgets, sample_xs. cbn [map combine]. repeat apply Forall_cons; [..|constructor]; (split; [first [exact T0|now apply T1]|]); cbn [fst snd control_of texts map].
    + now split.
    + split; [exact Q0|]. split; [intros k v []|]. constructor; [|constructor; [|constructor]].
      * split; [apply Qc|]. split; [now apply T1|]. split; [vm_compute; intuition discriminate|easy].
      * split; [exact Q0|]. split; [exact T0|]. split; [easy|reflexivity].
    + split; [|easy]. intros k v [[= <- <-]|[]]. split; [reflexivity|]. split; [eexists; reflexivity|]. split; [vm_compute; intuition discriminate|].
      intros _ t J [E|E]; [|discriminate]. injection E as E. simpl in J.
      repeat (destruct J as [<-|J]; [vm_compute in E; discriminate|]). easy.
    + split; [apply Qc|intros k v [[= <- <-]|[]]; vm_compute; discriminate].
    + split; [exact Q0|]. split; [intros k v []|]. eexists. reflexivity.
  - unfold sample_page, sample_widgets, sample_xs. cbn [map combine]. repeat apply Forall_cons; [..|constructor]; cbn [fst snd control_of]; try exact I.
    + split; [right; left; reflexivity|]. split; [discriminate|easy].
    + split; [|split; [right; left; reflexivity|discriminate]]. constructor; [intros [E|[]]; discriminate|]. constructor; [easy|constructor].
    + reflexivity.
  - eexists _, _. split; [reflexivity|]. split; [|split].
    + intros k K. simpl in K. repeat (destruct K as [<-|K]; [eexists; reflexivity|]). easy.
    + eexists. reflexivity.
    + intros k K. simpl in K. repeat (destruct K as [<-|K]; [eexists; split; [reflexivity|left; reflexivity]|]). easy.
  - eexists. exists 60%nat. vm_compute. reflexivity.
  - unfold out, tag. match goal with |- posted _ ?fl => change fl with
      ([(lit "o_s", lit "hi")] ++ map (pair (lit "o_l_0_x")) (selected false [(lit "0", false); (lit "-1", true)]) ++ [(lit "o_l_1_x", lit "3")] ++ [] ++ [(lit "o_l_0_t", lit "b")] ++ [(lit "o_l_0_t", lit "a")] ++ [])%list end.
    apply (po_cons _ _ [_]); [reflexivity|]. cbn [app].
    refine (po_menu (QName None (lit "select")) _ [_; _; _; _; _; _; _; _] _ (lit "o_l_0_x") [(lit "0", false); (lit "-1", true)] _ _ _ _ _); [reflexivity..| |].
    + constructor. refine (of_option (QName None (lit "option")) _ [_] _ (lit "<none>") _ _ _ _); [reflexivity..|].
      refine (of_option (QName None (lit "option")) _ [_] _ (lit "-1") _ _ _ _); [reflexivity..|]. repeat constructor.
    + match goal with |- posted _ ?fl => change fl with
        ([(lit "o_l_1_x", lit "3")] ++ [] ++ [(lit "o_l_0_t", lit "b")] ++ [(lit "o_l_0_t", lit "a")] ++ [])%list end.
      repeat (apply (po_cons _ _ []); [reflexivity|]). constructor.
Qed.
