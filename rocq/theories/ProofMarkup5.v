From Verif Require Import PyBase PyBaseFacts ModelMarkup SpecMarkup ProofMarkup ProofMarkup2 ProofMarkup3 ProofMarkup4.
From Coq Require Import Permutation Sorted.

(* ---------------- plain rendering ---------------- *)
Lemma effective_off key a ctx o f : get key a = None ->
  (exists v, get key ctx = Some v /\ says_no v) -> effective key a ctx o f -> o = false /\ f = false.
Proof.
  intros Ha (v & Hv & Hn) He.
  apply (effective_unique key a ctx o f false false); [exact He|].
  eapply ef_ctx_off; eauto. congruence.
Qed.
Lemma transform_plain env tag a c ctx :
  plain_ctx ctx -> (forall k, In k control_keys -> get k a = None) ->
  transform env tag a c ctx None = (ctx, Ok (a, c)).
Proof.
  intros (Hs & (fv & Hfv) & Ho) Ha. unfold transform.
  assert (forall k, In k control_keys -> del k a = a) as Hd.
  { intros k Hk. apply adel_absent. now apply Ha. }
  assert (forall k, In k control_keys -> exists on, pop_toggle k a ctx = Ok (on, false, a)
    /\ (In k ["auto_domid"; "auto_tabindex"; "auto_filter"]%string -> on = false)) as Hp.
  { intros k Hk. destruct (Hs k Hk) as [v Hv].
    destruct (pop_toggle_spec k a ctx v Hk Hv) as (on & forced & E & He).
    assert (forced = false) as ->.
    { destruct forced; [|easy]. apply effective_forced in He as [He _].
      destruct (He eq_refl) as (w & Hw & _). rewrite Ha in Hw; easy. }
    exists on. rewrite E, Hd by easy. split; [easy|]. intros Hk'.
    now apply (effective_off k a ctx on false (Ha k Hk) (Ho k Hk')) in He. }
  destruct (Hp "auto_name"%string ltac:(simpl; tauto)) as (o1 & E1 & _).
  destruct (Hp "auto_value"%string ltac:(simpl; tauto)) as (o2 & E2 & _).
  destruct (Hp "auto_domid"%string ltac:(simpl; tauto)) as (o3 & E3 & O3).
  destruct (Hp "auto_for"%string ltac:(simpl; tauto)) as (o4 & E4 & _).
  destruct (Hp "auto_tabindex"%string ltac:(simpl; tauto)) as (o5 & E5 & O5).
  destruct (Hp "auto_filter"%string ltac:(simpl; tauto)) as (o6 & E6 & O6).
  rewrite (O3 ltac:(simpl; tauto)) in E3. rewrite (O5 ltac:(simpl; tauto)) in E5.
  rewrite (O6 ltac:(simpl; tauto)) in E6.
  unfold transform_name. rewrite E1. cbn [bind].
  replace (match o1 with true => Ok (a, c) | false => Ok (a, c) end) with (@Ok (attrs * mv) (a, c)) by now destruct o1.
  cbn [bind]. unfold transform_value. rewrite E2. cbn [bind].
  replace (match o2 with true => Ok (a, c) | false => Ok (a, c) end) with (@Ok (attrs * mv) (a, c)) by now destruct o2.
  cbn [bind]. unfold transform_domid. rewrite E3. cbn [bind negb].
  unfold transform_for. rewrite E4. cbn [bind].
  replace (match o4 with true => Ok (a, c) | false => Ok (a, c) end) with (@Ok (attrs * mv) (a, c)) by now destruct o4.
  unfold transform_tabindex. rewrite E5. cbn [negb]. unfold transform_filters. rewrite E6.
  unfold setting. rewrite Hfv. easy.
Qed.
Lemma shows_sorted a l : Forall2 shows a l -> exists l', Permutation l' l /\ Forall2 shows (sort_attrs a) l'.
Proof. intros H. exact (Forall2_perm_l shows a (sort_attrs a) l (sort_perm a) H). Qed.

Lemma tag_plain env g top below dangle paired tag kw body l ov :
  g_frames g = top :: below -> plain_ctx top ->
  get "ordered_attributes" top = Some ov -> truth ov = Ok true ->
  wf_name tag = true -> NoDup (keys kw) ->
  (forall k, In k ("contents" :: control_keys)%string -> ~ In (lit k) (keys kw)) ->
  (forall k, In k (keys kw) -> wf_name k = true /\ drop_tail_underscores k = k) ->
  Forall2 shows kw l ->
  exists out l',
    gen_step env g (OTag dangle paired tag (kwargs kw body) None) = (g, Ok out)
    /\ parse_tag out = Some (tag, l', remainder (g_xml g) dangle paired tag body)
    /\ Permutation l' l /\ StronglySorted ordered_before l'.
Proof.
  intros Hg Hp Hov Htr Htag Hnd Hctl Hk Hsh.
  assert (get_or "contents" (kwargs kw body) MNone = match body with [] => MNone | _ => MText body end
    /\ unicode_keyed (del "contents" (kwargs kw body)) = kw) as [Ec Eu].
  { assert (get "contents" kw = None) as En.
    { apply (aget_None _ str_eqb_eq). apply Hctl. now left. }
    assert (unicode_keyed kw = kw) as Euk.
    { apply unicode_keyed_id; [easy|]. intros k H. now apply Hk. }
    destruct body as [|x body]; unfold kwargs.
    - unfold get_or. rewrite En. split; [easy|]. unfold del. now rewrite adel_absent.
    - split; [reflexivity|]. change (del "contents" ((lit "contents", MText (x :: body)) :: kw)) with (del "contents" kw).
      unfold del. now rewrite adel_absent. }
  assert (forall c, transform env tag kw c top None = (top, Ok (kw, c))) as Ht.
  { intros c. apply transform_plain; [easy|]. intros k H.
    apply (aget_None _ str_eqb_eq). apply Hctl. now right. }
  cbn [gen_step]. unfold gen_step. rewrite Hg.
  destruct (tag_call env (g_xml g) dangle paired tag (kwargs kw body) top None) as [f [out|e]] eqn:E.
  - pose proof E as E'.
    apply tag_call_parses in E as (a & c & t & T1 & T2 & T3); [|easy].
    rewrite Ec, Eu, Ht in T1. injection T1 as <- <- <-.
    destruct (T3 l) as (l' & P1 & P2 & P3 & _); [easy|easy| |].
    { rewrite Forall_forall. intros p Hp'. apply Hk. now apply in_map. }
    exists out, l'. rewrite <- Hg. split; [destruct g; reflexivity|].
    replace (if t then _ else _) with body in P1; [split; [easy|]; split; [easy|]; now apply (P3 ov)|].
    destruct body; simpl in T2; injection T2 as <-; easy.
  - exfalso. unfold tag_call, tag_open_ in E. rewrite Ec, Eu, Ht in E.
    assert (exists t, truth (match body with [] => MNone | _ => MText body end) = Ok t) as [t Et]
      by (destruct body; eexists; reflexivity).
    rewrite Et in E. cbn [bind] in E. unfold setting in E. rewrite Hov in E. cbn [bind] in E.
    rewrite Htr in E. cbn [bind] in E.
    destruct (shows_sorted _ _ Hsh) as (l' & _ & Hs).
    destruct (escape_all_shown _ _ Hs) as (e' & Ee & _).
    destruct (escape_all (sort_attrs kw)) eqn:Ea; [|congruence]. cbn [bind] in E. easy.
Qed.

(* ---------------- settings ---------------- *)
Lemma keys_update k v (f : frame) : known f k -> keys (aset str_eqb k v f) = keys f.
Proof. apply (keys_aset_in _ str_eqb_eq). Qed.
Lemma ctx_update_ok f ps f' : ctx_update f ps = (f', None) ->
  (forall k, aget str_eqb k f' = assigned f ps k) /\ keys f' = keys f
  /\ Forall (fun p => known f (fst p)) ps.
Proof.
  revert f; induction ps as [|[k v] ps IH]; intros f H; cbn [ctx_update] in H.
  - injection H as <-. repeat split; constructor.
  - unfold ctx_set in H. destruct (ahas str_eqb k f) eqn:Eh; [|easy].
    apply (ahas_In _ str_eqb_eq) in Eh. apply IH in H as (H1 & H2 & H3).
    rewrite (keys_update k v f Eh) in H2. split; [|split; [easy|]].
    + intros x. rewrite H1. unfold assigned. cbn [rev]. rewrite aget_app.
      destruct (aget str_eqb x (rev ps)); [easy|]. rewrite (aget_aset _ str_eqb_eq). simpl.
      now destruct (str_eqb x k).
    + constructor; [easy|]. unfold known in *. now rewrite (keys_update k v f Eh) in H3.
Qed.
Lemma ctx_update_err f ps f' e : ctx_update f ps = (f', Some e) ->
  e = KeyErr /\ Exists (fun p => ~ known f (fst p)) ps.
Proof.
  revert f; induction ps as [|[k v] ps IH]; intros f H; cbn [ctx_update] in H; [easy|].
  unfold ctx_set in H. destruct (ahas str_eqb k f) eqn:Eh.
  - apply (ahas_In _ str_eqb_eq) in Eh. apply IH in H as (H1 & H2). split; [easy|]. right.
    unfold known in *. now rewrite (keys_update k v f Eh) in H2.
  - injection H as <- <-. split; [easy|]. left. now apply (ahas_false _ str_eqb_eq).
Qed.
Lemma begin_spec env g top below s :
  g_frames g = top :: below ->
  (Forall (fun p => known top (fst p)) s ->
     exists f, gen_step env g (OBegin s) = (Gen (g_xml g) (f :: top :: below), Ok [])
       /\ (forall k, aget str_eqb k f = assigned top s k) /\ keys f = keys top)
  /\ (Exists (fun p => ~ known top (fst p)) s -> gen_step env g (OBegin s) = (g, Err KeyErr)).
Proof.
  intros Hg. unfold gen_step. rewrite Hg.
  destruct (ctx_update top s) as [f [e|]] eqn:E.
  - apply ctx_update_err in E as [-> E]. split; [|easy]. intros H. exfalso.
    rewrite Exists_exists in E. rewrite Forall_forall in H. destruct E as (p & Hp & Hn). now apply Hn, H.
  - apply ctx_update_ok in E as (E1 & E2 & E3). split; [intros _; exists f; easy|]. intros H. exfalso.
    rewrite Exists_exists in H. rewrite Forall_forall in E3. destruct H as (p & Hp & Hn). now apply Hn, E3.
Qed.
Lemma init_spec markup s :
  let base := set "ordered_attributes" (MBool true) default_context in
  (forall g, gen_init markup s = Ok g ->
     exists f, g_frames g = [f; base] /\ (forall k, aget str_eqb k f = assigned base s k)
       /\ keys f = keys base
       /\ (g_xml g = false <-> markup = lit "html") /\ In markup (map lit ["html"; "xhtml"; "xml"]%string))
  /\ (forall e, gen_init markup s = Err e ->
        (e = TypeErr /\ ~ In markup (map lit ["html"; "xhtml"; "xml"]%string))
        \/ (e = KeyErr /\ Exists (fun p => ~ known base (fst p)) s)).
Proof.
  cbv zeta. unfold gen_init.
  set (base := set "ordered_attributes" (MBool true) default_context).
  destruct (str_eqb_spec markup (lit "html")) as [->|H1];
    [|destruct (str_eqb_spec markup (lit "xhtml")) as [->|H2];
      [|destruct (str_eqb_spec markup (lit "xml")) as [->|H3]]]; cbn [orb bind].
  4:{ split; [easy|]. intros e [= <-]. left. split; [easy|]. simpl. intuition congruence. }
  all: destruct (ctx_update base s) as [f [e'|]] eqn:E;
    [apply ctx_update_err in E as [-> E]; split; [easy|]; intros e [= <-]; now right
    |apply ctx_update_ok in E as (E1 & E2 & E3); split; [|easy]; intros g [= <-]; exists f; cbn;
     repeat split; try easy; tauto].
Qed.

Lemma tr_stored k v : stored (k, v)
  (k, if starts_with (lit "auto_") k then tr_mv (parse_trool v) else v).
Proof.
  unfold stored. cbn [fst snd]. split; [easy|].
  destruct (starts_with (lit "auto_") k) eqn:E.
  - apply starts_with_iff in E. split; [|tauto]. intros _.
    destruct (parse_trool_cases v) as [[-> H]|[[-> H]|[-> H]]];
      unfold says_nothing; repeat split; try easy; intros H'; exfalso;
      try (destruct H; tauto); try tauto; apply parse_trool_spec in H, H'; congruence.
  - split; [|easy]. intros H. exfalso. apply starts_with_iff in H. congruence.
Qed.
Lemma gen_set_ok f ps f' : gen_set_loop f ps = (f', None) ->
  exists qs, Forall2 stored ps qs /\ (forall k, aget str_eqb k f' = assigned f qs k)
    /\ keys f' = keys f /\ Forall (fun p => known f (fst p)) ps.
Proof.
  revert f; induction ps as [|[k v] ps IH]; intros f H; cbn [gen_set_loop] in H.
  - injection H as <-. exists []. repeat split; constructor.
  - destruct (ahas str_eqb k f) eqn:Eh; [|easy].
    apply (ahas_In _ str_eqb_eq) in Eh. apply IH in H as (qs & H0 & H1 & H2 & H3).
    rewrite keys_update in H2 by easy.
    eexists (_ :: qs). split; [constructor; [apply tr_stored|exact H0]|]. split; [|split; [easy|]].
    + intros x. rewrite H1. unfold assigned. cbn [rev]. rewrite aget_app.
      destruct (aget str_eqb x (rev qs)); [easy|]. rewrite (aget_aset _ str_eqb_eq). simpl.
      now destruct (str_eqb x k).
    + constructor; [easy|]. unfold known in *. now rewrite keys_update in H3.
Qed.
Lemma gen_set_err f ps f' e : gen_set_loop f ps = (f', Some e) ->
  e = TypeErr /\ exists pre p post, ps = pre ++ p :: post /\ ~ known f (fst p)
    /\ gen_set_loop f pre = (f', None).
Proof.
  revert f; induction ps as [|[k v] ps IH]; intros f H; cbn [gen_set_loop] in H; [easy|].
  destruct (ahas str_eqb k f) eqn:Eh.
  - apply (ahas_In _ str_eqb_eq) in Eh as Eh'. apply IH in H as (H1 & pre & p & post & -> & H2 & H3).
    split; [easy|]. exists ((k, v) :: pre), p, post. split; [easy|]. split.
    + unfold known in *. now rewrite keys_update in H2.
    + cbn [gen_set_loop]. now rewrite Eh.
  - injection H as <- <-. split; [easy|]. exists [], (k, v), ps. split; [easy|].
    split; [|easy]. now apply (ahas_false _ str_eqb_eq).
Qed.
Lemma set_spec env g top below s :
  g_frames g = top :: below ->
  (Forall (fun p => known top (fst p)) s ->
     exists f qs, gen_step env g (OSet s) = (Gen (g_xml g) (f :: below), Ok [])
       /\ Forall2 stored s qs /\ (forall k, aget str_eqb k f = assigned top qs k) /\ keys f = keys top)
  /\ (forall pre p post, s = pre ++ p :: post -> Forall (fun p => known top (fst p)) pre ->
        ~ known top (fst p) ->
        exists f, gen_step env g (OSet s) = (Gen (g_xml g) (f :: below), Err TypeErr)
          /\ gen_step env g (OSet pre) = (Gen (g_xml g) (f :: below), Ok [])).
Proof.
  intros Hg. unfold gen_step. rewrite Hg. split.
  - intros H. destruct (gen_set_loop top s) as [f [e|]] eqn:E.
    + exfalso. apply gen_set_err in E as (_ & pre & p & post & -> & Hn & _).
      rewrite Forall_forall in H. apply Hn, H. apply in_elt.
    + apply gen_set_ok in E as (qs & Q1 & Q2 & Q3 & _). exists f, qs. easy.
  - intros pre p post -> Hf Hn.
    destruct (gen_set_loop top (pre ++ p :: post)) as [f [e|]] eqn:E.
    + apply gen_set_err in E as (-> & pre' & p' & post' & Ep & Hn' & H').
      assert (pre' = pre) as ->.
      { revert Ep Hf. apply gen_set_ok in H' as (_ & _ & _ & _ & Hf'). clear - Hn Hn' Hf'.
        revert pre'  Hf'. induction pre as [|x pre IH]; intros [|y pre'] Hf' Ep Hf; simpl in Ep.
        - easy.
        - injection Ep as -> _. inversion Hf'; subst. easy.
        - injection Ep as -> _. inversion Hf; subst. easy.
        - injection Ep as -> Ep. inversion Hf'; subst. inversion Hf; subst. f_equal. now apply IH. }
      rewrite H'. exists f. easy.
    + exfalso. apply gen_set_ok in E as (_ & _ & _ & _ & Hf'). rewrite Forall_forall in Hf'.
      apply Hn, Hf'. apply in_elt.
Qed.

(* ---------------- nesting ---------------- *)
Lemma end_spec env g : 1 <= List.length (g_frames g) ->
  (List.length (g_frames g) <= 2 -> gen_step env g OEnd = (g, Err RuntimeErr))
  /\ (forall top below, g_frames g = top :: below -> 2 <= List.length below ->
        gen_step env g OEnd = (Gen (g_xml g) below, Ok [])).
Proof.
  intros H. unfold gen_step. destruct (g_frames g) as [|top [|b1 [|b2 below]]]; simpl in H; try lia.
  - split; [easy|]. intros t b [= <- <-] Hb. simpl in Hb. lia.
  - split; [easy|]. intros t b [= <- <-] Hb. simpl in Hb. lia.
  - split; [simpl; lia|]. intros t b [= <- <-] Hb. easy.
Qed.
Lemma nested_frames env g ops g' : nested env g ops g' ->
  forall top below, g_frames g = top :: below -> 1 <= List.length below ->
  g_xml g' = g_xml g /\ exists top', g_frames g' = top' :: below.
Proof.
  induction 1 as [g|g s g1 ops g' -> H IH|g d p t kw b g1 ops g' -> H IH|g s e ops g' Hb H IH
                 |g s t1 g1 body g2 g3 ops g' Hb H1 IH1 -> H2 IH2]; intros top below Hg Hl.
  - eauto.
  - unfold gen_step in *. rewrite Hg in *.
    destruct (gen_set_loop top s) as [f [e|]]; cbn [fst] in *; eapply IH; eauto; reflexivity.
  - unfold gen_step in *. rewrite Hg in *.
    destruct (tag_call env (g_xml g) d p t kw top b) as [f r]. cbn [fst] in *.
    eapply IH; eauto; reflexivity.
  - eapply IH; eauto.
  - unfold gen_step in Hb. rewrite Hg in Hb. destruct (ctx_update top s) as [f [e|]]; [easy|].
    injection Hb as <- <-.
    destruct (IH1 f (top :: below) eq_refl) as (X1 & top' & X2); [simpl; lia|].
    destruct (end_spec env g2) as [_ E]; [rewrite X2; simpl; lia|].
    rewrite (E _ _ X2) in IH2 by (simpl; lia). cbn [fst] in IH2.
    destruct (IH2 top below eq_refl Hl) as (Y1 & top'' & Y2). split; [|eauto].
    rewrite Y1. cbn. exact X1.
Qed.
Lemma block_restores env g s t1 g1 body g2 :
  2 <= List.length (g_frames g) ->
  gen_step env g (OBegin s) = (g1, Ok t1) -> nested env g1 body g2 ->
  gen_step env g2 OEnd = (g, Ok []).
Proof.
  intros Hl Hb Hn. destruct (g_frames g) as [|top below] eqn:Hg; [simpl in Hl; lia|].
  unfold gen_step in Hb. rewrite Hg in Hb. destruct (ctx_update top s) as [f [e|]]; [easy|].
  injection Hb as <- <-.
  destruct (nested_frames env _ body g2 Hn f (top :: below) eq_refl) as (X1 & top' & X2);
    [simpl; lia|].
  destruct (end_spec env g2) as [_ E]; [rewrite X2; simpl; lia|].
  rewrite (E _ _ X2) by (simpl in *; lia). rewrite X1. cbn. f_equal. destruct g. cbn in *. now rewrite Hg.
Qed.
(* the base frame and the number of frames, for any sequence of calls *)
Lemma step_base env g o : 2 <= List.length (g_frames g) ->
  2 <= List.length (g_frames (fst (gen_step env g o)))
  /\ last (g_frames (fst (gen_step env g o))) [] = last (g_frames g) [].
Proof.
  intros Hl. unfold gen_step. destruct (g_frames g) as [|top [|b1 below]] eqn:Hg; try (simpl in Hl; lia).
  destruct o as [s| |s|d p t kw b].
  - destruct (ctx_update top s) as [f [e|]]; cbn [fst g_frames]; [rewrite Hg|]; simpl; split; easy || lia.
  - destruct below as [|b2 below]; cbn [List.length Nat.eqb fst g_frames]; [rewrite Hg; easy|].
    split; [simpl; lia|]. reflexivity.
  - destruct (gen_set_loop top s) as [f [e|]]; cbn [fst g_frames]; simpl; split; easy || lia.
  - destruct (tag_call env (g_xml g) d p t kw top b) as [f r]. cbn [fst g_frames]. simpl. split; easy || lia.
Qed.
Lemma run_base env g ops : 2 <= List.length (g_frames g) ->
  2 <= List.length (g_frames (gen_run env g ops))
  /\ last (g_frames (gen_run env g ops)) [] = last (g_frames g) [].
Proof.
  revert g; induction ops as [|o ops IH]; intros g Hl; [easy|]. cbn [gen_run].
  destruct (step_base env g o Hl) as [H1 H2]. destruct (IH _ H1) as [H3 H4]. split; [easy|]. congruence.
Qed.

(* ---------------- open tags ---------------- *)
Lemma opened_put r nm l n : opened (put_opened r nm l) n = if str_eqb n nm then l else opened r n.
Proof. unfold opened, put_opened. cbn [r_open]. rewrite (aget_aset _ str_eqb_eq). now destruct (str_eqb n nm). Qed.
Lemma memb_tag t l : memb tag_eqb t l = true <-> In (t_id t) (map t_id l).
Proof.
  unfold memb. rewrite existsb_exists, in_map_iff. unfold tag_eqb.
  split; intros (x & H1 & H2); exists x; rewrite ?Nat.eqb_eq in *; auto.
Qed.
Lemma remove_first_last t l : ~ In (t_id t) (map t_id l) -> remove_first tag_eqb t (l ++ [t]) = l.
Proof.
  induction l as [|x l IH]; simpl; intros H; unfold tag_eqb at 1.
  - now rewrite Nat.eqb_refl.
  - destruct (Nat.eqb_spec (t_id t) (t_id x)) as [E|_]; [exfalso; apply H; now left|]. rewrite IH; tauto.
Qed.
Lemma remove_first_absent t l : ~ In (t_id t) (map t_id l) -> remove_first tag_eqb t l = l.
Proof.
  induction l as [|x l IH]; simpl; intros H; [easy|]. unfold tag_eqb at 1.
  destruct (Nat.eqb_spec (t_id t) (t_id x)) as [E|_]; [exfalso; apply H; now left|]. rewrite IH; tauto.
Qed.
Lemma last_error_snoc {A} (l : list A) x : last_error (l ++ [x]) = Some x.
Proof. unfold last_error. now rewrite rev_app_distr. Qed.
Lemma last_error_In {A} (l : list A) x : last_error l = Some x -> In x l.
Proof.
  unfold last_error. intros H. apply in_rev. destruct (rev l); [easy|]. injection H as ->. now left.
Qed.
Lemma get_tag_ok r nm d p : registry_ok r ->
  let '(r', t) := get_tag r nm d p in
  t_name t = nm /\ registry_ok r' /\ (forall n, opened r' n = opened r n)
  /\ t_id t < r_next r'
  /\ (opened r nm = [] -> t_dangle t = d /\ t_paired t = p /\ r_next r <= t_id t)
  /\ (forall l x, opened r nm = l ++ [x] -> t = x).
Proof.
  intros [H1 H2 H3]. unfold get_tag. destruct (last_error (opened r nm)) as [t|] eqn:E.
  - assert (In t (opened r nm)) as Hi by now apply last_error_In.
    split; [eauto|]. split; [now constructor|]. split; [easy|]. split; [eauto|].
    split; [intros En; rewrite En in E; easy|].
    intros l x El. rewrite El, last_error_snoc in E. congruence.
  - assert (opened r nm = []) as En.
    { unfold last_error in E. destruct (rev (opened r nm)) eqn:Er; [|easy].
      apply (f_equal (@rev _)) in Er. now rewrite rev_involutive in Er. }
    split; [easy|]. split.
    { constructor; [exact H1| |exact H3]. intros n x Hx. apply H2 in Hx. cbn. lia. }
    split; [easy|]. split; [cbn; lia|]. split.
    + intros _. cbn. repeat split. lia.
    + intros l x El. rewrite En in El. now destruct l.
Qed.
Lemma NoDup_map_remove t l : NoDup (map t_id l) -> NoDup (map t_id (remove_first tag_eqb t l)).
Proof.
  assert (forall x, In x (remove_first tag_eqb t l) -> In x l) as Hi.
  { induction l as [|y l IH]; simpl; [easy|]. intros x. destruct (tag_eqb t y); [tauto|].
    intros [->|H]; [tauto|]. right. auto. }
  clear Hi. induction l as [|y l IH]; simpl; [easy|]. inversion 1 as [|? ? Hn Hd]; subst.
  destruct (tag_eqb t y); [easy|]. simpl. constructor; [|auto]. intros Hx. apply Hn.
  clear - Hx. induction l as [|z l IH]; simpl in *; [easy|].
  destruct (tag_eqb t z); [now right|]. destruct Hx as [Hx|Hx]; [now left|right; auto].
Qed.
Lemma In_remove t l x : In x (remove_first tag_eqb t l) -> In x l.
Proof.
  induction l as [|y l IH]; simpl; [easy|]. destruct (tag_eqb t y); [tauto|]. intros [->|H]; tauto.
Qed.
Lemma tag_open_ok r t : registry_ok r -> t_id t < r_next r -> registry_ok (tag_open r t).
Proof.
  intros [H1 H2 H3] Ht. unfold tag_open. destruct (memb tag_eqb t (opened r (t_name t))) eqn:E.
  - now constructor.
  - assert (~ In (t_id t) (map t_id (opened r (t_name t)))) as Hn.
    { rewrite <- memb_tag. congruence. }
    constructor; intros nm; rewrite opened_put; destruct (str_eqb_spec nm (t_name t)) as [->|Hne]; auto.
    + intros x Hx. apply in_app_iff in Hx as [Hx|[<-|[]]]; [auto|easy].
    + intros x Hx. cbn. apply in_app_iff in Hx as [Hx|[<-|[]]]; [eauto|easy].
    + exact (H2 nm).
    + rewrite map_app. simpl. apply (Permutation_NoDup (Permutation_cons_append _ _)).
      constructor; auto.
Qed.
Lemma tag_close_ok r t : registry_ok r -> registry_ok (tag_close r t).
Proof.
  intros [H1 H2 H3]. unfold tag_close.
  constructor; intros nm; rewrite opened_put; destruct (str_eqb_spec nm (t_name t)) as [->|Hne]; auto.
  - intros x Hx. apply In_remove in Hx. auto.
  - intros x Hx. apply In_remove in Hx. cbn. eauto.
  - exact (H2 nm).
  - apply NoDup_map_remove, H3.
Qed.
Lemma open_close r t nm : ~ In (t_id t) (map t_id (opened r (t_name t))) ->
  opened (tag_close (tag_open r t) t) nm = opened r nm
  /\ opened (tag_close r t) nm = opened r nm
  /\ (forall d p, snd (get_tag (tag_open r t) (t_name t) d p) = t)
  /\ (nm <> t_name t -> opened (tag_open r t) nm = opened r nm).
Proof.
  intros Hn. assert (memb tag_eqb t (opened r (t_name t)) = false) as E.
  { destruct (memb tag_eqb t _) eqn:E; [|easy]. apply memb_tag in E. easy. }
  unfold tag_close, tag_open. rewrite E. repeat split.
  - rewrite !opened_put, str_eqb_refl. destruct (str_eqb_spec nm (t_name t)) as [->|_]; [|easy].
    now apply remove_first_last.
  - rewrite !opened_put. destruct (str_eqb_spec nm (t_name t)) as [->|_]; [|easy].
    now apply remove_first_absent.
  - intros d p. unfold get_tag. rewrite opened_put, str_eqb_refl, last_error_snoc. easy.
  - intros Hne. rewrite opened_put. now destruct (str_eqb_spec nm (t_name t)).
Qed.
Lemma reopen r t : In (t_id t) (map t_id (opened r (t_name t))) -> tag_open r t = r.
Proof. intros H. unfold tag_open. apply memb_tag in H. now rewrite H. Qed.

(* ---------------- Generator.tag(name) against the named method ------------- *)
Lemma flags_irrelevant env xml tag kw ctx b d1 p1 d2 p2 :
  (d1 = d2 /\ p1 = p2)
  \/ (p1 = p2 /\ xml = true)
  \/ (forall ctx' h body, tag_open_ env tag kw ctx b = (ctx', Ok (h, body)) -> body <> []) ->
  tag_call env xml d1 p1 tag kw ctx b = tag_call env xml d2 p2 tag kw ctx b.
Proof.
  intros [[-> ->]|[[-> ->]|H]]; [easy|easy|]. unfold tag_call.
  destruct (tag_open_ env tag kw ctx b) as [ctx' [[h body]|e]]; [|easy].
  specialize (H _ _ _ eq_refl). destruct body; [easy|]. easy.
Qed.
Lemma named_flags_iff name d p : named_flags name = Some (d, p) <-> In (name, d, p) named_tags.
Proof.
  split.
  - intros H. repeat (destruct name as [|[[] [] [] [] [] [] [] []] name]; try discriminate H);
      injection H as <- <-; cbn [named_tags In]; tauto.
  - intros H. cbn [named_tags In] in H. repeat (destruct H as [[= <- <- <-]|H]; [reflexivity|]). easy.
Qed.
Lemma app_neq {A} (h u v : list A) : u <> v -> h ++ u <> h ++ v.
Proof. intros H E. now apply app_inv_head in E. Qed.
Lemma tag_method env g top below name d p kw b :
  g_frames g = top :: below -> named_flags name = Some (d, p) ->
  (gen_step env g (OTag d p (lit name) kw b)
   = gen_step env g (OTag (fst generic_flags) (snd generic_flags) (lit name) kw b)
   <-> ~ (exists ctx' h, tag_open_ env (lit name) kw top b = (ctx', Ok (h, []))
          /\ (g_xml g = true /\ In name ["form"; "textarea"; "select"; "option"]%string
              \/ g_xml g = false /\ name = "input"%string))).
Proof.
  intros Hg Hf. apply named_flags_iff in Hf. cbn [named_tags In] in Hf.
  unfold gen_step. rewrite Hg. cbn [fst snd generic_flags]. unfold tag_call.
  destruct (tag_open_ env (lit name) kw top b) as [ctx' [[h body]|e]].
  2: { split; [|easy]. intros _ (? & ? & ? & _). easy. }
  destruct body as [|c body].
  2: { split; [|easy]. intros _ (? & ? & ? & _). easy. }
  repeat (destruct Hf as [[= <- <- <-]|Hf]; [|]); try easy; destruct (g_xml g); cbn [negb]; cbv beta iota;
    (split; [|solve [easy | intros H; exfalso; apply H; exists ctx', h; split; [reflexivity|];
                      first [left; split; [reflexivity|cbn; tauto] | right; easy]]]);
    first [ intros _ (? & ? & _ & [(? & I)|(? & I)]); first [discriminate | cbn in I; intuition discriminate]
          | intros [= E]; exfalso; revert E; apply app_neq; discriminate ].
Qed.
Lemma other_values v :
  (forall s, v = MHtml s -> attribute_escape v = Ok s /\ markup_escape v = Ok s)
  /\ ((forall s, v <> MHtml s) -> shown v = None ->
      (exists e, attribute_escape v = Err e) /\ (exists e, markup_escape v = Err e))
  /\ (forall s, shown v = Some s ->
        exists e, markup_escape v = Ok e /\ inert content_table content_bad e
          /\ decode content_table content_bad e = Some s).
Proof.
  split; [|split].
  - intros s ->. destruct s; easy.
  - intros Hh Hs. destruct v as [|[]| |t|t|z|[]|t []]; simpl in Hs; try easy;
      try (split; eexists; reflexivity).
    + exfalso. now apply (Hh t).
    + destruct z; try easy; split; eexists; reflexivity.
  - intros s H. destruct v as [|[]| |[|x t]|t|[]|[]|t []]; simpl in H; try discriminate; injection H as <-;
      try (exists []; split; [easy|]; split; [|easy]; split; [easy|]; intros [|] ?; easy).
    exists (markup_escape_text (x :: t)). split; [easy|]. apply markup_escape_safe.
Qed.
Lemma transform_domid_full tag a c ctx b cv fmt pre post :
  get "auto_domid" ctx = Some cv ->
  get "domid_format" ctx = Some (MText fmt) -> one_hole fmt pre post ->
  text_attr "value" a ->
  (b = None -> given "name" a -> exists v t, get "name" a = Some v /\ value_is v t) ->
  exists on forced a',
    effective "auto_domid" a ctx on forced
    /\ transform_domid tag a c ctx b = Ok (a', c)
    /\ get "auto_domid" a' = None
    /\ same_except ["auto_domid"; "id"]%string a a'
    /\ (exists raw, domid_of tag a b raw)
    /\ domid_rule "id" ["input"; "button"; "select"; "textarea"]%string pre post tag on forced a b a'.
Proof.
  intros H1 H2 H3 H4 H5.
  destruct (transform_domid_spec tag a c ctx b cv fmt pre post H1 H2 H3 H4 H5) as (on & f & a' & E1 & E2 & E3 & E4 & E5).
  destruct (raw_domid_spec tag a b H4 H5) as (v & raw & _ & D & _).
  exists on, f, a'. eauto 10.
Qed.
Lemma label_matches el a la c lc ctx fmt pre post v1 v2 :
  get "auto_domid" ctx = Some v1 -> says_yes v1 ->
  get "auto_for" ctx = Some v2 -> says_yes v2 ->
  get "domid_format" ctx = Some (MText fmt) -> one_hole fmt pre post ->
  text_attr "value" a -> text_attr "value" la -> b_name el <> [] ->
  (forall k, In k ["auto_domid"; "id"]%string -> get k a = None) ->
  (forall k, In k ["auto_for"; "for"]%string -> get k la = None) ->
  ~ type_is a ["checkbox"; "radio"]%string ->
  exists a' la',
    transform_domid (lit "input") a c ctx (Some el) = Ok (a', c)
    /\ transform_for (lit "label") la lc ctx (Some el) = Ok (la', lc)
    /\ get "id" a' = Some (MText (pre ++ b_name el ++ post))
    /\ get "for" la' = get "id" a'.
Proof.
  intros H1 Y1 H2 Y2 Hf Hh Ta Tl Hn Ka Kl Ht.
  destruct (transform_domid_spec (lit "input") a c ctx (Some el) v1 fmt pre post H1 Hf Hh Ta)
    as (o1 & f1 & a' & E1 & E2 & _ & _ & E5); [easy|].
  destruct (transform_for_spec (lit "label") la lc ctx (Some el) v2 fmt pre post H2 Hf Hh Tl)
    as (o2 & f2 & la' & F1 & F2 & _ & _ & _ & F5).
  exists a', la'. split; [easy|]. split; [easy|].
  assert (o1 = true /\ f1 = false) as [-> ->].
  { eapply effective_unique; [exact E1|]. eapply ef_ctx_on; eauto. intros v Hv.
    rewrite Ka in Hv; [easy|simpl; tauto]. }
  assert (o2 = true /\ f2 = false) as [-> ->].
  { eapply effective_unique; [exact F1|]. eapply ef_ctx_on; eauto. intros v Hv.
    rewrite Kl in Hv; [easy|simpl; tauto]. }
  destruct (E5 (b_name el)) as [E _]; [apply do_plain; [easy|tauto]|].
  destruct (F5 ltac:(easy) (b_name el)) as [F _]; [apply do_plain; [easy|]|].
  { intros [? _]. easy. }
  assert (get "id" a' = Some (MText (pre ++ b_name el ++ post))) as ->.
  { apply E. split; [easy|]. split; [easy|]. right. split.
    - intros (v & Hv & _). rewrite Ka in Hv; [easy|simpl; tauto].
    - exists "input"%string. simpl. tauto. }
  split; [easy|].
  apply F. split; [easy|]. split; [easy|]. right. split.
  - intros (v & Hv & _). rewrite Kl in Hv; [easy|simpl; tauto].
  - exists "label"%string. simpl. tauto.
Qed.

Definition init_gen : gen := match gen_init (lit "xhtml") [] with Ok g => g | Err _ => Gen true [] end.
Lemma plain_gen_init : exists top below, g_frames init_gen = top :: below /\ plain_ctx top
  /\ get "ordered_attributes" top = Some (MBool true).
Proof.
  eexists _, _. split; [vm_compute; reflexivity|]. split; [|reflexivity]. split; [|split].
  - intros k Hk. simpl in Hk. repeat (destruct Hk as [<-|Hk]; [eexists; reflexivity|]). easy.
  - eexists; reflexivity.
  - intros k Hk. simpl in Hk.
    repeat (destruct Hk as [<-|Hk]; [eexists; split; [reflexivity|now left]|]). easy.
Qed.
Lemma nested_example :
  let env := FEnv (fun _ => []) (fun _ _ a c ctx _ => (ctx, Ok (a, c))) in
  exists g1 t g2,
    gen_step env init_gen (OBegin [(lit "auto_domid", MBool true)]) = (g1, Ok t)
    /\ nested env g1 [OSet [(lit "tabindex", MInt 7)]; OBegin [(lit "bogus", MNone)];
                             OBegin []; OTag true false (lit "input") [] None; OEnd] g2
    /\ gen_step env g2 OEnd = (init_gen, Ok []).
Proof.
  cbv zeta. eexists _, _, _. split; [vm_compute; reflexivity|]. split.
  - eapply ne_set; [vm_compute; reflexivity|].
    eapply ne_failed_begin; [vm_compute; reflexivity|].
    eapply (ne_block _ _ [] _ _ [OTag true false (lit "input") [] None]); [vm_compute; reflexivity| |vm_compute; reflexivity|].
    + eapply ne_tag; [vm_compute; reflexivity|]. apply ne_nil.
    + apply ne_nil.
  - vm_compute. reflexivity.
Qed.
