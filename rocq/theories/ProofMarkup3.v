From Verif Require Import PyBase PyBaseFacts ModelMarkup SpecMarkup ProofMarkup ProofMarkup2.
From Coq Require Import Permutation Sorted.

(* ---------------- identifiers ---------------- *)
Lemma domid_char_spec c : domid_char c = true <-> id_char c.
Proof. unfold domid_char, id_char. rewrite !orb_true_iff, !andb_true_iff. lia. Qed.
Lemma filter_kept s : kept s (filter domid_char s).
Proof.
  induction s as [|c s IH]; simpl; [constructor|].
  destruct (domid_char c) eqn:E; constructor; try easy; rewrite <- domid_char_spec; congruence.
Qed.
Lemma kept_filter s t : kept s t -> t = filter domid_char s.
Proof.
  induction 1 as [|c s t Hc H ->|c s t Hc H ->]; simpl; try easy;
    rewrite <- domid_char_spec in Hc; destruct (domid_char c); easy.
Qed.
Lemma format1_go_lit s arg u r :
  ~ In (ch "%") s -> format1_go (s ++ r) arg u = rmap (fun '(u', t) => (u', s ++ t)) (format1_go r arg u).
Proof.
  induction s as [|c s IH]; intros H; cbn [app].
  - destruct (format1_go r arg u) as [[]|]; reflexivity.
  - cbn [format1_go]. destruct (N.eqb_spec c (ch "%")) as [->|Hc]; [exfalso; apply H; now left|].
    rewrite IH by (intros Hs; apply H; now right).
    destruct (format1_go r arg u) as [[]|]; reflexivity.
Qed.
Lemma format1_hole fmt pre post arg : one_hole fmt pre post ->
  format1 fmt arg = Ok (pre ++ arg ++ post).
Proof.
  intros (-> & H1 & H2). unfold format1. rewrite format1_go_lit by easy.
  change (lit "%s" ++ post) with (ch "%" :: ch "s" :: post). cbn [format1_go].
  change (N.eqb (ch "%") (ch "%")) with true. change (N.eqb (ch "s") (ch "s")) with true. cbv iota.
  replace (format1_go post arg true) with (@Ok (bool * str) (true, post)); [reflexivity|].
  rewrite <- (app_nil_r post) at 2. rewrite format1_go_lit by easy. cbn. now rewrite app_nil_r.
Qed.
Lemma type_two a n m : lit n <> [] -> lit m <> [] ->
  (mv_is (get_or "type" a MNone) (lit n) || mv_is (get_or "type" a MNone) (lit m) = true
   <-> type_is a [n; m]).
Proof.
  intros Hn Hm. rewrite orb_true_iff, !type_is_mv by reflexivity.
  change [n; m] with ([n] ++ [m]). rewrite type_is_app. easy.
Qed.

(* the raw id as text; None is the empty one *)
Definition raw_text (v : mv) : str := match v with MText s | MHtml s => s | _ => [] end.
Lemma raw_domid_spec tag a b :
  text_attr "value" a ->
  (b = None -> given "name" a -> exists v t, get "name" a = Some v /\ value_is v t) ->
  exists v raw, raw_domid tag a b = Ok v /\ domid_of tag a b raw
    /\ raw_text v = raw /\ (raw <> [] -> value_is v raw) /\ (raw = [] -> v = MNone).
Proof.
  intros Hv Hname. unfold raw_domid.
  set (basis := match b with Some el => MText (b_name el) | None => get_or "name" a MNone end).
  assert (exists nm, domid_basis b a nm /\ (value_is basis nm \/ basis = MNone /\ nm = [])) as (nm & Hb & Hbv).
  { unfold domid_basis, basis. destruct b as [el|].
    - exists (b_name el). split; [easy|]. left. now left.
    - unfold get_or. destruct (none_or_missing "name" a) eqn:En.
      + exists []. split; [right; split; [now apply given_dec'|easy]|right].
        unfold none_or_missing in En. destruct (get "name" a) as [[]|]; easy.
      + apply given_dec in En. destruct (Hname eq_refl En) as (v & t & H1 & H2).
        exists t. split; [left; eauto|]. rewrite H1. now left. }
  clearbody basis.
  destruct nm as [|x nm].
  { assert (truth basis = Ok false) as ->.
    { destruct Hbv as [[->| ->]|[-> _]]; reflexivity. }
    cbn [bind negb]. exists MNone, []. repeat split; try easy. now apply do_empty. }
  destruct Hbv as [Hbv|[_ ?]]; [|easy].
  assert (truth basis = Ok true) as -> by (destruct Hbv as [-> | ->]; reflexivity).
  cbn [bind negb].
  destruct (tag_is tag "input" && _) eqn:Et.
  - apply andb_true_iff in Et as [Et1 Et2]. apply tag_is_eq in Et1. apply type_two in Et2; try easy.
    assert (exists t, sanitize_domid_suffix (get_or "value" a (MText [])) = Ok (filter domid_char t)
      /\ exists v, get "value" a = Some v /\ value_is v t \/ get "value" a = None /\ t = []) as (t & E & v & Ht).
    { unfold get_or. destruct (get "value" a) as [v|] eqn:Ev.
      - destruct (Hv _ Ev) as (t & [-> | ->]); exists t; (split; [easy|]); eexists; left; split; try reflexivity;
          [now left|now right].
      - exists []. split; [easy|]. exists MNone. now right. }
    rewrite E. cbn [bind].
    pose proof (do_suffix tag a b (x :: nm) v (filter domid_char t)) as D.
    assert (domid_of tag a b (match filter domid_char t with [] => x :: nm
              | _ => (x :: nm) ++ lit "_" ++ filter domid_char t end)) as D'.
    { apply D; try easy. exists t. split; [exact Ht|apply filter_kept]. }
    clear D. destruct (filter domid_char t) as [|y s].
    + exists basis, (x :: nm). repeat split; try easy. destruct Hbv as [-> | ->]; reflexivity.
    + exists (MText ((x :: nm) ++ lit "_" ++ y :: s)), ((x :: nm) ++ lit "_" ++ y :: s).
      split; [destruct Hbv as [-> | ->]; reflexivity|]. repeat split; try easy. intros _. now left.
  - exists basis, (x :: nm). repeat split; try easy; [|destruct Hbv as [-> | ->]; reflexivity].
    apply do_plain; [easy|]. intros [H1 H2]. apply tag_is_eq in H1. apply type_two in H2; try easy.
    rewrite H1, H2 in Et. easy.
Qed.
Lemma domid_of_unique tag a b r1 r2 :
  domid_of tag a b r1 -> domid_of tag a b r2 -> r1 = r2.
Proof.
  assert (forall n1 n2, domid_basis b a n1 -> domid_basis b a n2 -> n1 = n2) as Hb.
  { intros n1 n2. destruct b as [el|]; simpl; [congruence|].
    intros [(v & H1 & H2)|[H1 H2]] [(w & H3 & H4)|[H3 H4]].
    - rewrite H1 in H3. injection H3 as <-. destruct H2, H4; congruence.
    - exfalso. apply H3. exists v. split; [easy|]. destruct H2; congruence.
    - exfalso. apply H1. exists w. split; [easy|]. destruct H4; congruence.
    - congruence. }
  intros D1 D2.
  destruct D1 as [n1 B1 N1|B1|n1 v1 s1 N1 B1 T1 Y1 (t1 & V1 & K1)];
  destruct D2 as [n2 B2 N2|B2|n2 v2 s2 N2 B2 T2 Y2 (t2 & V2 & K2)]; auto; try tauto.
  - exfalso. apply N2. eauto.
  - exfalso. apply N1. eauto.
  - rewrite (Hb _ _ B1 B2) in *. apply kept_filter in K1, K2.
    assert (t1 = t2) as ->; [|now subst].
    destruct V1 as [[V1 W1]|[V1 ->]], V2 as [[V2 W2]|[V2 ->]]; try congruence.
    rewrite V1 in V2. injection V2 as ->. destruct W1, W2; congruence.
Qed.
Lemma raw_domid_ext tag a a' b : get "name" a = get "name" a' -> get "type" a = get "type" a' ->
  get "value" a = get "value" a' -> raw_domid tag a b = raw_domid tag a' b.
Proof. intros E1 E2 E3. unfold raw_domid, get_or. now rewrite E1, E2, E3. Qed.

Lemma put_domid_spec key (tags : list string) forced tag a c ctx b fmt pre post :
  get "domid_format" ctx = Some (MText fmt) -> one_hole fmt pre post ->
  text_attr "value" a ->
  (b = None -> given "name" a -> exists v t, get "name" a = Some v /\ value_is v t) ->
  exists a', put_domid key (map lit tags) forced tag a c ctx b = Ok (a', c)
    /\ same_except [key] a a'
    /\ domid_rule key tags pre post tag true forced a b a'.
Proof.
  intros Hf Hh Hv Hn. unfold put_domid.
  destruct (forced || none_or_missing key a && in_tags tag (map lit tags)) eqn:Ec.
  - destruct (raw_domid_spec tag a b Hv Hn) as (v & raw & E & D & _ & H1 & H2). rewrite E. cbn [bind].
    destruct raw as [|x r].
    + rewrite (H2 eq_refl). cbn [truth bind negb]. exists a. split; [easy|]. split; [same|].
      intros raw D'. rewrite (domid_of_unique _ _ _ _ _ D' D). split; [intros (_ & ? & _); easy|easy].
    + assert (truth v = Ok true) as -> by (destruct (H1 ltac:(easy)) as [-> | ->]; reflexivity).
      cbn [bind negb]. unfold setting. rewrite Hf. cbn [bind format_mv].
      assert (text_of v = x :: r) as -> by (destruct (H1 ltac:(easy)) as [-> | ->]; reflexivity).
      rewrite (format1_hole fmt pre post) by easy. cbn [rmap].
      eexists. split; [reflexivity|]. split; [same|].
      intros raw D'. rewrite (domid_of_unique _ _ _ _ _ D' D). split.
      * intros _. rewrite get_set, str_eqb_refl. easy.
      * intros H. exfalso. apply H. split; [easy|]. split; [easy|].
        apply orb_true_iff in Ec as [Ec|Ec]; [now left|right].
        apply andb_true_iff in Ec as [E1 E2]. apply given_dec' in E1. now apply in_tags_among in E2.
  - exists a. split; [easy|]. split; [same|]. intros raw _. split; [|easy].
    intros (_ & _ & H). exfalso. apply orb_false_iff in Ec as [-> Ec].
    destruct H as [H|[H1 H2]]; [easy|]. apply given_dec' in H1. apply in_tags_among in H2.
    rewrite H1, H2 in Ec. easy.
Qed.
Lemma domid_of_ext tag a a' b raw : get "name" a = get "name" a' -> get "type" a = get "type" a' ->
  get "value" a = get "value" a' -> domid_of tag a b raw -> domid_of tag a' b raw.
Proof.
  intros E1 E2 E3.
  assert (forall nm, domid_basis b a nm -> domid_basis b a' nm) as Hb.
  { intros nm. unfold domid_basis, given. destruct b; [easy|]. now rewrite E1. }
  intros D; destruct D as [n1 B1 N1|B1|n1 v1 s1 N1 B1 T1 Y1 (t1 & V1 & K1)].
  - apply do_plain; [now apply Hb|]. unfold type_is in *. now rewrite <- E2.
  - apply do_empty; auto.
  - apply (do_suffix _ _ _ _ v1); auto.
    + unfold type_is in *. now rewrite <- E2.
    + exists t1. now rewrite <- E3.
Qed.

Lemma transform_domid_spec tag a c ctx b cv fmt pre post :
  get "auto_domid" ctx = Some cv ->
  get "domid_format" ctx = Some (MText fmt) -> one_hole fmt pre post ->
  text_attr "value" a ->
  (b = None -> given "name" a -> exists v t, get "name" a = Some v /\ value_is v t) ->
  exists on forced a',
    effective "auto_domid" a ctx on forced
    /\ transform_domid tag a c ctx b = Ok (a', c)
    /\ get "auto_domid" a' = None
    /\ same_except ["auto_domid"; "id"]%string a a'
    /\ domid_rule "id" ["input"; "button"; "select"; "textarea"]%string pre post tag on forced a b a'.
Proof.
  intros Hc Hf Hh Hv Hn.
  destruct (pop_toggle_spec "auto_domid" a ctx cv ltac:(simpl; tauto) Hc) as (on & forced & E & He).
  unfold transform_domid. rewrite E. cbn [bind]. exists on, forced. destruct on; cbn [negb].
  - destruct (put_domid_spec "id" ["input"; "button"; "select"; "textarea"]%string forced tag
       (del "auto_domid" a) c ctx b fmt pre post Hf Hh) as (a' & P1 & P2 & P3).
    { intros v. rewrite get_del. lits. apply Hv. }
    { intros H1 H2. rewrite get_del. lits. apply Hn; [easy|]. unfold given in *.
      rewrite get_del in H2. lits. easy. }
    exists a'. split; [easy|]. split; [exact P1|].
    assert (forall k, ~ In k (map lit ["auto_domid"; "id"]%string) -> aget str_eqb k a' = aget str_eqb k a) as Hs.
    { intros k Hk. rewrite P2 by (simpl in *; tauto). unfold del.
      rewrite (aget_adel _ str_eqb_eq). destruct (str_eqb_spec k (lit "auto_domid")) as [->|]; [|easy].
      exfalso. apply Hk. now left. }
    split; [|split; [exact Hs|]].
    + unfold get. rewrite P2 by (vm_compute; intros [?|[]]; easy). apply (get_del "auto_domid").
    + intros raw D. specialize (P3 raw).
      assert (given "id" (del "auto_domid" a) <-> given "id" a) as Hg.
      { unfold given. rewrite get_del. now lits. }
      cbv zeta in P3. rewrite Hg in P3. rewrite get_del in P3. lits. apply P3.
      eapply domid_of_ext; [..|exact D]; rewrite get_del; now lits.
  - eexists. split; [easy|]. split; [reflexivity|]. split; [now gs|]. split; [same|].
    intros raw D. split; [intros [H _]; easy|]. intros _. now gs.
Qed.
Lemma transform_for_spec tag a c ctx b cv fmt pre post :
  get "auto_for" ctx = Some cv ->
  get "domid_format" ctx = Some (MText fmt) -> one_hole fmt pre post ->
  text_attr "value" a ->
  exists on forced a',
    effective "auto_for" a ctx on forced
    /\ transform_for tag a c ctx b = Ok (a', c)
    /\ get "auto_for" a' = None
    /\ same_except ["auto_for"; "for"]%string a a'
    /\ (b = None -> get "for" a' = get "for" a)
    /\ (b <> None -> domid_rule "for" ["label"]%string pre post tag on forced a b a').
Proof.
  intros Hc Hf Hh Hv.
  destruct (pop_toggle_spec "auto_for" a ctx cv ltac:(simpl; tauto) Hc) as (on & forced & E & He).
  unfold transform_for. rewrite E. cbn [bind]. exists on, forced. destruct on; [destruct b as [el|]|].
  - destruct (put_domid_spec "for" ["label"]%string forced tag
       (del "auto_for" a) c ctx (Some el) fmt pre post Hf Hh) as (a' & P1 & P2 & P3).
    { intros v. rewrite get_del. lits. apply Hv. }
    { easy. }
    exists a'. split; [easy|]. split; [exact P1|].
    assert (forall k, ~ In k (map lit ["auto_for"; "for"]%string) -> aget str_eqb k a' = aget str_eqb k a) as Hs.
    { intros k Hk. rewrite P2 by (simpl in *; tauto). unfold del.
      rewrite (aget_adel _ str_eqb_eq). destruct (str_eqb_spec k (lit "auto_for")) as [->|]; [|easy].
      exfalso. apply Hk. now left. }
    split; [|split; [exact Hs|]].
    + unfold get. rewrite P2 by (vm_compute; intros [?|[]]; easy). apply (get_del "auto_for").
    + split; [easy|]. intros _ raw D. specialize (P3 raw).
      assert (given "for" (del "auto_for" a) <-> given "for" a) as Hg.
      { unfold given. rewrite get_del. now lits. }
      cbv zeta in P3. rewrite Hg in P3. rewrite get_del in P3. lits. apply P3.
      eapply domid_of_ext; [..|exact D]; rewrite get_del; now lits.
  - eexists. split; [easy|]. split; [reflexivity|]. split; [now gs|]. split; [same|].
    split; [intros _; now gs|easy].
  - eexists. split; [easy|]. split; [reflexivity|]. split; [now gs|]. split; [same|].
    split; [intros _; now gs|]. intros _ raw D. split; [intros [H _]; easy|]. intros _. now gs.
Qed.

(* ---------------- tab index ---------------- *)
Lemma transform_tabindex_spec tag a c ctx cv tv z :
  get "auto_tabindex" ctx = Some cv -> get "tabindex" ctx = Some tv -> as_number tv z ->
  exists on forced a' ctx',
    effective "auto_tabindex" a ctx on forced
    /\ transform_tabindex tag a c ctx = (ctx', Ok (a', c))
    /\ get "auto_tabindex" a' = None
    /\ same_except ["auto_tabindex"; "tabindex"]%string a a'
    /\ same_except ["tabindex"]%string ctx ctx'
    /\ let applies := on = true /\ z <> 0%Z /\ (forced = true \/ (~ given "tabindex" a
            /\ tag_among tag ["input"; "button"; "select"; "textarea"]%string)) in
       (applies -> get "tabindex" a' = Some (MText (text_of tv))
          /\ get "tabindex" ctx' = Some (if (0 <? z)%Z then MInt (z + 1) else tv))
       /\ (~ applies -> get "tabindex" a' = get "tabindex" a /\ ctx' = ctx).
Proof.
  intros Hc Ht Hz'.
  destruct (pop_toggle_spec "auto_tabindex" a ctx cv ltac:(simpl; tauto) Hc) as (on & forced & E & He).
  unfold transform_tabindex. rewrite E. exists on, forced.
  destruct on; cbn [negb].
  2:{ eexists _, ctx. split; [easy|]. split; [reflexivity|]. split; [now gs|]. split; [same|]. split; [same|].
      split; [intros [? _]; easy|]. intros _. split; [now gs|easy]. }
  unfold setting. rewrite Ht. replace (int_of tv) with (Some z) by now destruct Hz'.
  assert (z = 0%Z \/ z <> 0%Z) as [->|Hz] by lia.
  { eexists _, ctx. split; [easy|]. split; [reflexivity|]. split; [now gs|]. split; [same|]. split; [same|].
    split; [intros (_ & ? & _); easy|]. intros _. split; [now gs|easy]. }
  assert (forall A (x y : A), match Some z with Some 0%Z => x | _ => y end = y) as Hm.
  { intros A x y. destruct z; easy. }
  rewrite missing_del by reflexivity.
  destruct (forced || none_or_missing "tabindex" a && in_tags tag tabindex_tags) eqn:Ec.
  - assert (forced = true \/ (~ given "tabindex" a
            /\ tag_among tag ["input"; "button"; "select"; "textarea"]%string)) as Ha.
    { apply orb_true_iff in Ec as [->|Ec]; [now left|right].
      apply andb_true_iff in Ec as [E1 E2]. apply given_dec' in E1. now apply in_tags_among in E2. }
    destruct (0 <? z)%Z eqn:Ep.
    + exists (set "tabindex" (MText (text_of tv)) (del "auto_tabindex" a)), (set "tabindex" (MInt (z + 1)) ctx).
      split; [easy|]. split; [destruct z; easy|]. split; [now gs|]. split; [same|]. split; [same|].
      split; [intros _; now gs|]. intros H. exfalso. apply H. easy.
    + exists (set "tabindex" (MText (text_of tv)) (del "auto_tabindex" a)), ctx.
      split; [easy|]. split; [destruct z; easy|]. split; [now gs|]. split; [same|]. split; [same|].
      split; [intros _; now gs|]. intros H. exfalso. apply H. easy.
  - exists (del "auto_tabindex" a), ctx.
    split; [easy|]. split; [destruct z; easy|]. split; [now gs|]. split; [same|]. split; [same|].
    split; [|intros _; now gs]. intros (_ & _ & H). exfalso. apply orb_false_iff in Ec as [-> Ec].
    destruct H as [H|[H1 H2]]; [easy|]. apply given_dec' in H1. apply in_tags_among in H2.
    rewrite H1 in Ec. cbn [andb] in Ec. exact (eq_true_false_abs _ H2 Ec).
Qed.
(* any other setting cannot be compared with a number *)
Lemma transform_tabindex_other tag a c ctx cv tv :
  get "auto_tabindex" ctx = Some cv -> get "tabindex" ctx = Some tv -> (forall z, ~ as_number tv z) ->
  exists on forced,
    effective "auto_tabindex" a ctx on forced
    /\ let applies := on = true /\ (forced = true \/ (~ given "tabindex" a
            /\ tag_among tag ["input"; "button"; "select"; "textarea"]%string)) in
       (applies -> transform_tabindex tag a c ctx = (ctx, Err TypeErr))
       /\ (~ applies -> exists a', transform_tabindex tag a c ctx = (ctx, Ok (a', c))
            /\ get "auto_tabindex" a' = None /\ same_except ["auto_tabindex"]%string a a').
Proof.
  intros Hc Ht Hn.
  destruct (pop_toggle_spec "auto_tabindex" a ctx cv ltac:(simpl; tauto) Hc) as (on & forced & E & He).
  unfold transform_tabindex. rewrite E. exists on, forced. split; [easy|].
  destruct on; cbn [negb].
  2:{ split; [intros [? _]; easy|]. intros _. eexists. split; [reflexivity|]. split; [now gs|same]. }
  unfold setting. rewrite Ht. replace (int_of tv) with (@None Z).
  2:{ destruct tv as [|[]| | | | | |]; try easy; exfalso; eapply Hn; constructor. }
  rewrite missing_del by reflexivity.
  destruct (forced || none_or_missing "tabindex" a && in_tags tag tabindex_tags) eqn:Ec.
  - split; [easy|]. intros H. exfalso. apply H. split; [easy|].
    apply orb_true_iff in Ec as [->|Ec]; [now left|right].
    apply andb_true_iff in Ec as [E1 E2]. apply given_dec' in E1. now apply in_tags_among in E2.
  - split; [|intros _; eexists; (split; [reflexivity|]); split; [now gs|same]].
    intros (_ & H). exfalso. apply orb_false_iff in Ec as [-> Ec].
    destruct H as [H|[H1 H2]]; [easy|]. apply given_dec' in H1. apply in_tags_among in H2.
    rewrite H1 in Ec. cbn [andb] in Ec. exact (eq_true_false_abs _ H2 Ec).
Qed.
