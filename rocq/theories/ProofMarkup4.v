From Verif Require Import PyBase PyBaseFacts ModelMarkup SpecMarkup ProofMarkup ProofMarkup2 ProofMarkup3.
From Coq Require Import Permutation Sorted.

(* ---------------- keyword names ---------------- *)
Lemma lstrip_snoc f s c : lstrip_by f (s ++ [c]) =
  match lstrip_by f s with [] => if f c then [] else [c] | t => t ++ [c] end.
Proof. induction s as [|x s IH]; simpl; [easy|]. destruct (f x); [exact IH|easy]. Qed.
Lemma drop_tail_eq s : rstrip_by (N.eqb (ch "_")) s = drop_tail_underscores s.
Proof.
  unfold rstrip_by. induction s as [|c s IH]; [easy|]. cbn [rev drop_tail_underscores].
  rewrite lstrip_snoc, <- IH. destruct (lstrip_by (N.eqb (ch "_")) (rev s)) as [|x l]; cbn [rev].
  - change (ch "_") with 95%N. rewrite N.eqb_sym. now destruct (N.eqb c 95).
  - rewrite rev_app_distr. cbn [rev app]. destruct (rev l ++ [x]) eqn:E; [|easy].
    now destruct (rev l).
Qed.
Lemma aget_app {V} k (l1 l2 : list (str * V)) :
  aget str_eqb k (l1 ++ l2) = match aget str_eqb k l1 with Some v => Some v | None => aget str_eqb k l2 end.
Proof. induction l1 as [|[k' v] l1 IH]; simpl; [easy|]. now destruct (str_eqb k k'). Qed.
Lemma fold_aset_get {A} (f : A -> str) (g : A -> mv) l m k :
  aget str_eqb k (fold_left (fun m p => aset str_eqb (f p) (g p) m) l m)
  = match aget str_eqb k (rev (map (fun p => (f p, g p)) l)) with
    | Some v => Some v | None => aget str_eqb k m end.
Proof.
  revert m; induction l as [|p l IH]; intros m; cbn [fold_left map rev]; [easy|].
  rewrite IH, aget_app, (aget_aset _ str_eqb_eq). simpl.
  destruct (aget str_eqb k (rev _)); [easy|]. now destruct (str_eqb k (f p)).
Qed.
Lemma unicode_keyed_get kw k :
  aget str_eqb k (unicode_keyed kw) = aget str_eqb k (rev (keyword_name kw)).
Proof.
  unfold unicode_keyed, keyword_name.
  rewrite (fold_aset_get (fun p => rstrip_by (N.eqb (ch "_")) (fst p)) snd). simpl.
  assert (forall l : attrs, map (fun p => (rstrip_by (N.eqb (ch "_")) (fst p), snd p)) l
     = map (fun p => (drop_tail_underscores (fst p), snd p)) l) as ->.
  { intros l. apply map_ext. intros p. now rewrite drop_tail_eq. }
  now destruct (aget str_eqb k _).
Qed.
Lemma unicode_keyed_NoDup kw : NoDup (keys (unicode_keyed kw)).
Proof.
  unfold unicode_keyed. assert (NoDup (keys (@nil (str * mv)))) as H by constructor. revert H.
  generalize (@nil (str * mv)). induction kw as [|p kw IH]; intros m H; [exact H|].
  cbn [fold_left]. apply IH. now apply (NoDup_keys_aset _ str_eqb_eq).
Qed.
Lemma aset_snoc k v (m : attrs) : ~ In k (keys m) -> aset str_eqb k v m = m ++ [(k, v)].
Proof.
  induction m as [|[k' v'] m IH]; intros H; simpl; [easy|].
  destruct (str_eqb_spec k k') as [->|_]; [exfalso; apply H; now left|].
  rewrite IH; [easy|]. intros Hi. apply H. now right.
Qed.
Lemma unicode_keyed_id kw : NoDup (keys kw) ->
  (forall k, In k (keys kw) -> drop_tail_underscores k = k) -> unicode_keyed kw = kw.
Proof.
  unfold unicode_keyed. intros Hn Hk.
  enough (forall m, NoDup (keys (m ++ kw)) ->
    fold_left (fun m p => aset str_eqb (rstrip_by (N.eqb (ch "_")) (fst p)) (snd p) m) kw m = m ++ kw) as G
    by (apply (G []); exact Hn).
  clear Hn. induction kw as [|[k v] kw IH]; intros m Hn; cbn [fold_left]; [now rewrite app_nil_r|].
  simpl fst. simpl snd. rewrite drop_tail_eq, Hk by now left.
  rewrite aset_snoc.
  - rewrite IH; [now rewrite <- app_assoc| |now rewrite <- app_assoc].
    intros k' H. apply Hk. now right.
  - unfold keys in *. rewrite map_app in Hn. simpl in Hn. apply NoDup_remove_2 in Hn.
    intros Hi. apply Hn. rewrite in_app_iff. now left.
Qed.
Lemma adel_absent k (m : attrs) : aget str_eqb k m = None -> adel str_eqb k m = m.
Proof.
  induction m as [|[k' v] m IH]; simpl; [easy|]. destruct (str_eqb k k'); [easy|].
  intros H. now rewrite IH.
Qed.

(* ---------------- the whole pipeline ---------------- *)
Lemma same_trans ks a b c : same_except ks a b -> same_except ks b c -> same_except ks a c.
Proof. intros H1 H2 k Hk. rewrite H2, H1 by easy. easy. Qed.
Lemma same_weaken ks ks' a b : incl ks ks' -> same_except ks a b -> same_except ks' a b.
Proof. intros Hi H k Hk. apply H. intros Hin. apply Hk. eapply incl_map; eauto. Qed.
Lemma same_get ks k a b : same_except ks a b -> memb str_eqb (lit k) (map lit ks) = false ->
  get k b = get k a.
Proof. intros H Hk. apply H. rewrite <- memb_str. congruence. Qed.

Lemma put_domid_weak key tags forced tag a c ctx b a' c' :
  put_domid key tags forced tag a c ctx b = Ok (a', c') ->
  c' = c /\ same_except [key] a a' /\ (forced = false -> given key a -> a' = a).
Proof.
  unfold put_domid. intros H.
  destruct (forced || none_or_missing key a && in_tags tag tags) eqn:Ec.
  - assert (forced = false -> given key a -> False) as Hg.
    { intros -> Hg. apply given_dec in Hg. rewrite Hg in Ec. easy. }
    destruct (raw_domid tag a b); [|easy]. cbn [bind] in H. destruct (truth _) as [[]|]; [|injection H as <- <-|easy].
    + cbn [bind negb] in H. destruct (setting _ _); [|easy]. cbn [bind] in H.
      destruct (format_mv _ _); [|easy]. cbn [rmap] in H. injection H as <- <-.
      split; [easy|]. split; [same|]. intros; exfalso; eauto.
    + split; [easy|]. split; [same|]. easy.
  - injection H as <- <-. split; [easy|]. split; [same|]. easy.
Qed.
Lemma transform_domid_weak tag a c ctx b cv a' c' :
  get "auto_domid" ctx = Some cv -> transform_domid tag a c ctx b = Ok (a', c') ->
  c' = c /\ get "auto_domid" a' = None /\ same_except ["auto_domid"; "id"]%string a a'
  /\ (given "id" a -> ~ (exists v, get "auto_domid" a = Some v /\ says_yes v) ->
      get "id" a' = get "id" a).
Proof.
  intros Hc H. unfold transform_domid in H.
  destruct (pop_toggle_spec "auto_domid" a ctx cv ltac:(simpl; tauto) Hc) as (on & forced & E & He).
  rewrite E in H. cbn [bind] in H. destruct on; cbn [negb] in H.
  - apply put_domid_weak in H as (-> & Hs & Hf). split; [easy|].
    assert (get "auto_domid" a' = None) as H1.
    { rewrite (same_get _ _ _ _ Hs) by reflexivity. now gs. }
    split; [easy|]. split.
    + eapply same_trans; [|eapply same_weaken; [|exact Hs]]; [same|]. intros x [<-|[]]. simpl. tauto.
    + intros Hg Hn. rewrite Hf; [now gs| |].
      * apply effective_forced in He. destruct forced; [|easy]. exfalso. apply Hn. now apply He.
      * unfold given. gs. easy.
  - injection H as <- <-. split; [easy|]. split; [now gs|]. split; [same|]. intros _ _. now gs.
Qed.
Lemma transform_for_weak tag a c ctx b cv a' c' :
  get "auto_for" ctx = Some cv -> transform_for tag a c ctx b = Ok (a', c') ->
  c' = c /\ get "auto_for" a' = None /\ same_except ["auto_for"; "for"]%string a a'
  /\ (given "for" a -> ~ (exists v, get "auto_for" a = Some v /\ says_yes v) ->
      get "for" a' = get "for" a).
Proof.
  intros Hc H. unfold transform_for in H.
  destruct (pop_toggle_spec "auto_for" a ctx cv ltac:(simpl; tauto) Hc) as (on & forced & E & He).
  rewrite E in H. cbn [bind] in H. destruct on; [destruct b|]; cbn [negb] in H.
  - apply put_domid_weak in H as (-> & Hs & Hf). split; [easy|].
    assert (get "auto_for" a' = None) as H1.
    { rewrite (same_get _ _ _ _ Hs) by reflexivity. now gs. }
    split; [easy|]. split.
    + eapply same_trans; [|eapply same_weaken; [|exact Hs]]; [same|]. intros x [<-|[]]. simpl. tauto.
    + intros Hg Hn. rewrite Hf; [now gs| |].
      * apply effective_forced in He. destruct forced; [|easy]. exfalso. apply Hn. now apply He.
      * unfold given. gs. easy.
  - injection H as <- <-. split; [easy|]. split; [now gs|]. split; [same|]. intros _ _. now gs.
  - injection H as <- <-. split; [easy|]. split; [now gs|]. split; [same|]. intros _ _. now gs.
Qed.
Lemma transform_tabindex_weak tag a c ctx cv a' c' ctx' :
  get "auto_tabindex" ctx = Some cv -> transform_tabindex tag a c ctx = (ctx', Ok (a', c')) ->
  c' = c /\ get "auto_tabindex" a' = None /\ same_except ["auto_tabindex"; "tabindex"]%string a a'
  /\ same_except ["tabindex"]%string ctx ctx'
  /\ (given "tabindex" a -> ~ (exists v, get "auto_tabindex" a = Some v /\ says_yes v) ->
      get "tabindex" a' = get "tabindex" a /\ ctx' = ctx).
Proof.
  intros Hc H. unfold transform_tabindex in H.
  destruct (pop_toggle_spec "auto_tabindex" a ctx cv ltac:(simpl; tauto) Hc) as (on & forced & E & He).
  rewrite E in H.
  assert ((ctx, @Ok (attrs * mv) (del "auto_tabindex" a, c)) = (ctx', Ok (a', c')) ->
    c' = c /\ get "auto_tabindex" a' = None /\ same_except ["auto_tabindex"; "tabindex"]%string a a'
    /\ same_except ["tabindex"]%string ctx ctx'
    /\ (given "tabindex" a -> ~ (exists v, get "auto_tabindex" a = Some v /\ says_yes v) ->
      get "tabindex" a' = get "tabindex" a /\ ctx' = ctx)) as G.
  { intros [= <- <- <-]. split; [easy|]. split; [now gs|]. split; [same|]. split; [same|].
    intros _ _. now gs. }
  destruct on; cbn [negb] in H; [|now apply G].
  destruct (setting "tabindex" ctx) as [tv|]; [|easy].
  rewrite missing_del in H by reflexivity.
  assert (match int_of tv with Some 0%Z => False | _ =>
     (if forced || none_or_missing "tabindex" a && in_tags tag tabindex_tags
         then match int_of tv with
              | None => (ctx, Err TypeErr)
              | Some z => if (0 <? z)%Z
                  then (set "tabindex" (MInt (z + 1)) ctx, Ok (set "tabindex" (MText (text_of tv)) (del "auto_tabindex" a), c))
                  else (ctx, Ok (set "tabindex" (MText (text_of tv)) (del "auto_tabindex" a), c))
              end
         else (ctx, Ok (del "auto_tabindex" a, c))) = (ctx', Ok (a', c')) end
     \/ (ctx, @Ok (attrs * mv) (del "auto_tabindex" a, c)) = (ctx', Ok (a', c'))) as [H'|H'].
  { destruct (int_of tv) as [[]|]; auto. }
  2:{ now apply G. }
  assert ((if forced || none_or_missing "tabindex" a && in_tags tag tabindex_tags
         then match int_of tv with
              | None => (ctx, Err TypeErr)
              | Some z => if (0 <? z)%Z
                  then (set "tabindex" (MInt (z + 1)) ctx, Ok (set "tabindex" (MText (text_of tv)) (del "auto_tabindex" a), c))
                  else (ctx, Ok (set "tabindex" (MText (text_of tv)) (del "auto_tabindex" a), c))
              end
         else (ctx, Ok (del "auto_tabindex" a, c))) = (ctx', Ok (a', c'))) as H''
    by (destruct (int_of tv) as [[]|]; easy).
  clear H H'. destruct (forced || _) eqn:Ec; [|now apply G].
  assert (given "tabindex" a -> ~ (exists v, get "auto_tabindex" a = Some v /\ says_yes v) -> False) as Hg.
  { intros Hg Hn. apply effective_forced in He. destruct forced; [apply Hn; now apply He|].
    apply given_dec in Hg. rewrite Hg in Ec. easy. }
  destruct (int_of tv) as [z|]; [|easy]. destruct (0 <? z)%Z; injection H'' as <- <- <-;
    (split; [easy|]); (split; [now gs|]); (split; [same|]); (split; [same|]); intros; exfalso; eauto.
Qed.

Lemma value_rule_frame tag forced el a c a' c' : value_rule tag forced el a c a' c' ->
  same_except ["auto_value"; "value"; "checked"; "selected"]%string a a'
  /\ (given "value" a -> forced = false -> get "value" a' = get "value" a)
  /\ (c <> MNone -> forced = false -> c' = c).
Proof.
  assert (forall ks, incl ks ["auto_value"; "value"; "checked"; "selected"]%string ->
    same_except ks a a' -> same_except ["auto_value"; "value"; "checked"; "selected"]%string a a') as Hw.
  { intros ks Hi H. eapply same_weaken; eauto. }
  destruct 1; (split; [eapply Hw; [|eassumption]; intros x Hx; simpl in *; tauto|]); split; try easy;
    try (intros; eapply same_get; [eassumption|reflexivity]); try (intros; tauto).
  - intros Hc Hf. subst. destruct H0; [easy|congruence].
Qed.
Lemma transform_value_weak tag a c ctx b cv a' c' :
  get "auto_value" ctx = Some cv -> transform_value tag a c ctx b = Ok (a', c') ->
  get "auto_value" a' = None
  /\ same_except ["auto_value"; "value"; "checked"; "selected"]%string a a'
  /\ (~ (exists v, get "auto_value" a = Some v /\ says_yes v) ->
      (given "value" a -> get "value" a' = get "value" a) /\ (c <> MNone -> c' = c)).
Proof.
  intros Hc H. destruct (transform_value_spec tag a c ctx b cv Hc) as (on & forced & a1 & c1 & He & E & H1 & H2 & H3).
  rewrite E in H. injection H as <- <-. split; [easy|].
  assert (~ (exists v, get "auto_value" a = Some v /\ says_yes v) -> forced = false) as Hf.
  { intros Hn. apply effective_forced in He. destruct forced; [|easy]. exfalso. apply Hn. now apply He. }
  destruct on; [destruct b as [el|]|].
  - specialize (H3 eq_refl el eq_refl). apply value_rule_frame in H3 as (V1 & V2 & V3).
    split; [easy|]. intros Hn. specialize (Hf Hn). split; auto.
  - destruct H2 as [-> H2]; [now right|]. split.
    + eapply same_weaken; [|exact H2]. intros x [<-|[]]. simpl. tauto.
    + intros _. split; [|easy]. intros _. eapply same_get; [exact H2|reflexivity].
  - destruct H2 as [-> H2]; [now left|]. split.
    + eapply same_weaken; [|exact H2]. intros x [<-|[]]. simpl. tauto.
    + intros _. split; [|easy]. intros _. eapply same_get; [exact H2|reflexivity].
Qed.
Lemma transform_name_weak tag a c ctx b cv a' c' :
  get "auto_name" ctx = Some cv -> transform_name tag a c ctx b = Ok (a', c') ->
  c' = c /\ get "auto_name" a' = None /\ same_except ["auto_name"; "name"]%string a a'
  /\ (given "name" a -> ~ (exists v, get "auto_name" a = Some v /\ says_yes v) ->
      get "name" a' = get "name" a).
Proof.
  intros Hc H. destruct (transform_name_spec tag a c ctx b cv Hc) as (on & forced & a1 & He & E & H1 & H2 & _ & H3).
  rewrite E in H. injection H as <- <-. split; [easy|]. split; [easy|]. split; [easy|].
  intros Hg Hn. apply H3. intros (_ & _ & [Hf|[Hf _]]); [|easy].
  apply effective_forced in He. apply Hn. now apply He.
Qed.

Lemma run_filters_spec env fs tag a c ctx b ctx' a' c' :
  run_filters env fs tag a c ctx b = (ctx', Ok (a', c'))
  <-> filtered env tag b fs (ctx, a, c) (ctx', a', c').
Proof.
  split.
  - revert a c ctx; induction fs as [|f fs IH]; intros a c ctx H; cbn [run_filters] in H.
    + injection H as <- <- <-. constructor.
    + destruct (f_tags env f) as [|w ws] eqn:Ef.
      * destruct (f_run env f tag a c ctx b) as [ctx1 [[a1 c1]|]] eqn:Er; [|easy].
        eapply fi_run; eauto.
      * destruct (in_tags tag (w :: ws)) eqn:Ei; cbn [negb] in H.
        -- destruct (f_run env f tag a c ctx b) as [ctx1 [[a1 c1]|]] eqn:Er; [|easy].
           eapply fi_run; eauto. right. rewrite Ef. now apply memb_str.
        -- apply fi_skip; [congruence| |auto]. rewrite Ef, <- memb_str. intros H'.
           exact (eq_true_false_abs _ H' Ei).
  - remember (ctx, a, c) as s. remember (ctx', a', c') as s'. intros H. revert a c ctx Heqs Heqs'.
    induction H as [s|f fs s s' Hf Hi H IH|f fs ctx0 a0 c0 ctx1 a1 c1 s' Hf Hr H IH]; intros a c ctx E1 E2.
    + subst. injection E2 as <- <- <-. easy.
    + cbn [run_filters]. destruct (f_tags env f) as [|w ws] eqn:Ef; [easy|].
      destruct (in_tags tag (w :: ws)) eqn:Ei; cbn [negb]; [|now apply IH].
      exfalso. apply Hi. now apply memb_str.
    + injection E1 as -> -> ->. cbn [run_filters]. destruct (f_tags env f) as [|w ws] eqn:Ef.
      * rewrite Hr. now apply IH.
      * destruct Hf as [?|Hf]; [easy|]. apply memb_str in Hf. unfold in_tags. rewrite Hf. cbn [negb].
        rewrite Hr. now apply IH.
Qed.
Lemma transform_filters_spec env tag a c ctx b cv fs ctx' a' c' :
  get "auto_filter" ctx = Some cv -> get "filters" ctx = Some (MFilters fs) ->
  transform_filters env tag a c ctx b = (ctx', Ok (a', c')) <->
  exists on forced, effective "auto_filter" a ctx on forced
    /\ filtered env tag b (if on then fs else []) (ctx, del "auto_filter" a, c) (ctx', a', c').
Proof.
  intros Hc Hf. unfold transform_filters.
  destruct (pop_toggle_spec "auto_filter" a ctx cv ltac:(simpl; tauto) Hc) as (on & forced & E & He).
  rewrite E. unfold setting. rewrite Hf. split.
  - intros H. exists on, forced. split; [easy|]. destruct on; cbn [negb] in H.
    + now apply run_filters_spec.
    + injection H as <- <- <-. constructor.
  - intros (on' & forced' & He' & H). destruct (effective_unique _ _ _ _ _ _ _ He He') as [<- <-].
    destruct on; cbn [negb]; [now apply run_filters_spec|]. inversion H; subst. easy.
Qed.

(* no filter runs *)
Lemma transform_frame env tag a c ctx b ctx' a' c' :
  has_settings ctx -> get "filters" ctx = Some (MFilters []) ->
  transform env tag a c ctx b = (ctx', Ok (a', c')) ->
  (forall k, In k control_keys -> get k a' = None)
  /\ same_except (control_keys ++ ["name"; "value"; "checked"; "selected"; "id"; "for"; "tabindex"])%list%string a a'
  /\ same_except ["tabindex"]%string ctx ctx'
  /\ (forall sw k, In (sw, k) fills -> given k a ->
        ~ (exists v, get sw a = Some v /\ says_yes v) -> get k a' = get k a)
  /\ (c <> MNone -> ~ (exists v, get "auto_value" a = Some v /\ says_yes v) -> c' = c).
Proof.
  intros Hs Hf H. unfold transform in H.
  destruct (Hs "auto_name"%string ltac:(simpl; tauto)) as [v1 S1].
  destruct (Hs "auto_value"%string ltac:(simpl; tauto)) as [v2 S2].
  destruct (Hs "auto_domid"%string ltac:(simpl; tauto)) as [v3 S3].
  destruct (Hs "auto_for"%string ltac:(simpl; tauto)) as [v4 S4].
  destruct (Hs "auto_tabindex"%string ltac:(simpl; tauto)) as [v5 S5].
  destruct (Hs "auto_filter"%string ltac:(simpl; tauto)) as [v6 S6].
  destruct (transform_name tag a c ctx b) as [[a1 c1]|] eqn:E1; [|easy]. cbn [bind] in H.
  destruct (transform_value tag a1 c1 ctx b) as [[a2 c2]|] eqn:E2; [|easy]. cbn [bind] in H.
  destruct (transform_domid tag a2 c2 ctx b) as [[a3 c3]|] eqn:E3; [|easy]. cbn [bind] in H.
  destruct (transform_for tag a3 c3 ctx b) as [[a4 c4]|] eqn:E4; [|easy].
  destruct (transform_tabindex tag a4 c4 ctx) as [ctx5 [[a5 c5]|]] eqn:E5; [|easy].
  apply (transform_name_weak _ _ _ _ _ _ _ _ S1) in E1 as (-> & N1 & N2 & N3).
  apply (transform_value_weak _ _ _ _ _ _ _ _ S2) in E2 as (V1 & V2 & V3).
  apply (transform_domid_weak _ _ _ _ _ _ _ _ S3) in E3 as (-> & D1 & D2 & D3).
  apply (transform_for_weak _ _ _ _ _ _ _ _ S4) in E4 as (-> & F1 & F2 & F3).
  apply (transform_tabindex_weak _ _ _ _ _ _ _ _ S5) in E5 as (-> & T1 & T2 & T3 & T4).
  assert (exists v, get "auto_filter" ctx5 = Some v) as [v6' S6'].
  { exists v6. rewrite (same_get _ _ _ _ T3) by reflexivity. easy. }
  assert (get "filters" ctx5 = Some (MFilters [])) as Hf'.
  { rewrite (same_get _ _ _ _ T3) by reflexivity. easy. }
  apply (transform_filters_spec _ _ _ _ _ _ _ _ _ _ _ S6' Hf') in H as (on & forced & He & H).
  replace (if on then [] else []) with (@nil nat) in H by now destruct on.
  inversion H; subst; clear H.
  assert (forall ks, incl ks (control_keys ++ ["name"; "value"; "checked"; "selected"; "id"; "for"; "tabindex"])%list%string ->
    forall a b, same_except ks a b -> same_except (control_keys ++ ["name"; "value"; "checked"; "selected"; "id"; "for"; "tabindex"])%list%string a b) as Hw.
  { intros ks Hi x y Hxy. eapply same_weaken; eauto. }
  assert (same_except ["auto_filter"]%string a5 (del "auto_filter" a5)) as L1 by same.
  set (a' := del "auto_filter" a5) in *.
  assert (get "auto_filter" a' = None) as L2 by (unfold a'; now gs). clearbody a'.
  Ltac thru := repeat match goal with
    | S : same_except _ ?x ?y |- context [get ?k ?y] => rewrite (same_get _ k _ _ S) by reflexivity
    end.
  split; [|split; [|split; [|split]]].
  - intros k Hk. simpl in Hk. repeat destruct Hk as [<-|Hk]; try easy; thru; easy.
  - eapply same_trans; [eapply Hw; [|exact N2]; intros x Hx; simpl in *; tauto|].
    eapply same_trans; [eapply Hw; [|exact V2]; intros x Hx; simpl in *; tauto|].
    eapply same_trans; [eapply Hw; [|exact D2]; intros x Hx; simpl in *; tauto|].
    eapply same_trans; [eapply Hw; [|exact F2]; intros x Hx; simpl in *; tauto|].
    eapply same_trans; [eapply Hw; [|exact T2]; intros x Hx; simpl in *; tauto|].
    eapply Hw; [|exact L1]; intros x Hx; simpl in *; tauto.
  - exact T3.
  - intros sw k Hk Hg Hn. unfold given in *.
    simpl in Hk. destruct Hk as [[= <- <-]|[[= <- <-]|[[= <- <-]|[[= <- <-]|[[= <- <-]|[]]]]]].
    + thru. now apply N3.
    + thru. destruct V3 as [V3 _]; [now thru|]. rewrite V3; thru; easy.
    + thru. rewrite D3; thru; easy.
    + thru. rewrite F3; thru; easy.
    + thru. destruct T4 as [T4 _]; thru; try easy. rewrite T4; thru; easy.
  - intros Hc Hn. destruct V3 as [_ V3]; [now thru|]. now apply V3.
Qed.
