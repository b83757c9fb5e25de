(* A drawn control reads back as the name and the text of its element. *)
From Verif Require Import PyBase PyBaseFacts ModelMarkup SpecMarkup ProofMarkup ProofMarkup2 ProofMarkup3 ProofMarkup4 ProofMarkup5 SpecForm.
From Coq Require Import Permutation Sorted.

(* ---------------- attributes stay readable ---------------- *)
Definition readable (p : str * mv) : Prop := wf_name (fst p) = true /\ exists t, shown (snd p) = Some t.
Definition tidy (a : attrs) : Prop := NoDup (keys a) /\ Forall readable a.
Lemma In_aset {V} k (v : V) m p : In p (aset str_eqb k v m) -> p = (k, v) \/ In p m.
Proof.
  induction m as [|[k' v'] m IH]; cbn; [intros [<-|[]]; now left|].
  destruct (str_eqb_spec k k') as [->|_]; cbn; (intros [<-|H]; [auto|]); [auto|]. destruct (IH H); auto.
Qed.
Lemma In_adel {V} k (m : list (str * V)) p : In p (adel str_eqb k m) -> In p m.
Proof.
  induction m as [|[k' v'] m IH]; cbn; [easy|].
  destruct (str_eqb k k'); cbn; intros H; auto. destruct H; auto.
Qed.
Lemma tidy_set k t a : wf_name (lit k) = true -> tidy a -> tidy (set k (MText t) a).
Proof.
  intros W [N F]. split; [now apply (NoDup_keys_aset _ str_eqb_eq)|]. rewrite Forall_forall in *.
  intros p [->|H]%In_aset; [|now apply F]. split; [exact W|now exists t].
Qed.
Lemma tidy_del k a : tidy a -> tidy (del k a).
Proof.
  intros [N F]. split; [now apply (NoDup_keys_adel _ str_eqb_eq)|]. rewrite Forall_forall in *. intros p H%In_adel. now apply F.
Qed.
Lemma pop_tidy key a ctx p f a1 : pop_toggle key a ctx = Ok (p, f, a1) -> tidy a -> tidy a1.
Proof.
  intros H T. assert (a1 = del key a) as ->; [|now apply tidy_del].
  unfold pop_toggle in H. destruct (parse_trool (get_or key a MMaybe)); [now injection H as <- <- <-..|].
  destruct (setting key ctx); [|easy]. cbn [bind] in H. destruct (parse_trool a0); now injection H as <- <- <-.
Qed.
Ltac case_if H := match type of H with (if ?c then _ else _) = _ => destruct c end.
Ltac tidying := repeat first [assumption | apply tidy_set; [reflexivity|] | apply tidy_del].
Lemma toggle_tidy k b a : wf_name (lit k) = true -> tidy a -> tidy (toggle_attr k b a).
Proof. intros W T. destruct b; [now apply tidy_set|now apply tidy_del]. Qed.
Lemma name_tidy tag a c ctx b a' c' : transform_name tag a c ctx b = Ok (a', c') -> tidy a -> tidy a'.
Proof.
  unfold transform_name. intros H T. destruct (pop_toggle _ _ _) as [[[p f] a1]|] eqn:E; [|easy]. apply pop_tidy in E; [|exact T].
  cbn [bind] in H. destruct p; [destruct b as [el|]|]; [destruct (b_name el); [|destruct (_ || _)]|..]; injection H as <- <-; tidying.
Qed.
Lemma value_tidy tag a c ctx b a' c' : transform_value tag a c ctx b = Ok (a', c') -> tidy a -> tidy a'.
Proof.
  unfold transform_value. intros H T. destruct (pop_toggle _ _ _) as [[[p f] a1]|] eqn:E; [|easy]. apply pop_tidy in E; [|exact T].
  cbn [bind] in H. destruct p; [destruct b as [el|]|]; [|injection H as <- <-; tidying..].
  destruct (negb f && _); [injection H as <- <-; tidying|].
  destruct (tag_is tag "input").
  { destruct (_ || _) eqn:R.
    - destruct (mv_is _ (lit "checkbox")).
      + destruct (get_or "value" a1 MNone); try (injection H as <- <-; apply toggle_tidy; [reflexivity|tidying]).
        destruct (b_kind el); injection H as <- <-; (apply toggle_tidy; [reflexivity|tidying]).
      + injection H as <- <-; apply toggle_tidy; [reflexivity|tidying].
    - clear R. case_if H; case_if H; injection H as <- <-; tidying. }
  destruct (tag_is tag "option"); [injection H as <- <-; apply toggle_tidy; [reflexivity|tidying]|].
  destruct (tag_is tag "textarea").
  { destruct (_ || f); [|injection H as <- <-; tidying]. destruct (markup_escape _); [|easy]. injection H as <- <-. tidying. }
  destruct (_ || _); injection H as <- <-; tidying.
Qed.
Lemma put_tidy key tags f tag a c ctx b a' c' : wf_name (lit key) = true ->
  put_domid key tags f tag a c ctx b = Ok (a', c') -> tidy a -> tidy a'.
Proof.
  unfold put_domid. intros W H T. destruct (_ || _); [|injection H as <- <-; tidying].
  destruct (raw_domid _ _ _); [|easy]. cbn [bind] in H. destruct (truth _) as [[]|]; [|injection H as <- <-; tidying|easy].
  cbn [bind negb] in H. destruct (setting _ _); [|easy]. cbn [bind] in H. destruct (format_mv _ _); [|easy].
  injection H as <- <-. now apply tidy_set.
Qed.
Lemma domid_tidy tag a c ctx b a' c' : transform_domid tag a c ctx b = Ok (a', c') -> tidy a -> tidy a'.
Proof.
  unfold transform_domid. intros H T. destruct (pop_toggle _ _ _) as [[[p f] a1]|] eqn:E; [|easy]. apply pop_tidy in E; [|exact T].
  cbn [bind] in H. destruct p; cbn [negb] in H; [now apply put_tidy in H|injection H as <- <-; tidying].
Qed.
Lemma for_tidy tag a c ctx b a' c' : transform_for tag a c ctx b = Ok (a', c') -> tidy a -> tidy a'.
Proof.
  unfold transform_for. intros H T. destruct (pop_toggle _ _ _) as [[[p f] a1]|] eqn:E; [|easy]. apply pop_tidy in E; [|exact T].
  cbn [bind] in H. destruct p; [destruct b|]; [now apply put_tidy in H|injection H as <- <-; tidying..].
Qed.
Lemma tabindex_tidy tag a c ctx ctx' a' c' : transform_tabindex tag a c ctx = (ctx', Ok (a', c')) -> tidy a -> tidy a'.
Proof.
  unfold transform_tabindex. intros H T. destruct (pop_toggle _ _ _) as [[[p f] a1]|] eqn:E; [|easy]. apply pop_tidy in E; [|exact T].
  destruct p; cbn [negb] in H; [|injection H as <- <- <-; tidying]. destruct (setting _ _) as [tv|]; [|easy].
  destruct (int_of tv) as [[|z|z]|]; [injection H as <- <- <-; tidying|..];
    (destruct (_ || _); [|injection H as <- <- <-; tidying]); try easy; try (destruct (_ <? _)%Z); injection H as <- <- <-; tidying.
Qed.

(* ---------------- keyword arguments ---------------- *)
Lemma unicode_keyed_In kw p : In p (unicode_keyed kw) -> exists k, In (k, snd p) kw /\ fst p = drop_tail_underscores k.
Proof.
  unfold unicode_keyed. assert (G : forall m, In p (fold_left (fun m p => aset str_eqb (rstrip_by (N.eqb (ch "_")) (fst p)) (snd p) m) kw m) ->
    In p m \/ exists k, In (k, snd p) kw /\ fst p = drop_tail_underscores k).
  { induction kw as [|[k v] kw IH]; intros m H; [now left|]. cbn [fold_left fst snd] in H. apply IH in H as [H|(k' & H & E)].
    - apply In_aset in H as [->|H]; [|now left]. right. exists k. split; [now left|]. cbn [fst]. now rewrite drop_tail_eq.
    - right. exists k'. split; [now right|easy]. }
  intros H. now destruct (G _ H).
Qed.
(* what the transforms start from *)
Definition free (a : attrs) : Prop := tidy a /\ forall k, In k ("name" :: control_keys)%string -> get k a = None.
Lemma contents_free kw : (forall k v, In (k, v) kw -> ~ In (drop_tail_underscores k) [lit "contents"]) ->
  get_or "contents" kw MNone = MNone /\ del "contents" kw = kw.
Proof.
  intros Q. assert (get "contents" kw = None) as C.
  { apply (aget_None _ str_eqb_eq). intros I. apply in_map_iff in I as ([k v] & E & I). cbn in E. subst k.
    apply Q in I. apply I. vm_compute. tauto. }
  split; [unfold get_or; now rewrite C|now apply adel_absent].
Qed.
Lemma keyed_absent kw n : (forall k v, In (k, v) kw -> drop_tail_underscores k <> lit n) -> get n (unicode_keyed kw) = None.
Proof.
  intros Q. apply (aget_None _ str_eqb_eq). intros I. apply in_map_iff in I as (p & E & I).
  apply unicode_keyed_In in I as (k' & I & E'). apply Q in I. apply I. now rewrite <- E', E.
Qed.
Lemma keyed_tidy kw : (forall k v, In (k, v) kw -> wf_name (drop_tail_underscores k) = true /\ exists t, shown v = Some t) -> tidy (unicode_keyed kw).
Proof.
  intros Q. split; [apply unicode_keyed_NoDup|]. apply Forall_forall. intros p (k & I & E)%unicode_keyed_In.
  apply Q in I as (W & S). split; [now rewrite E|exact S].
Qed.
Lemma quiet_start kw : quiet kw -> get_or "contents" kw MNone = MNone /\ del "contents" kw = kw
  /\ free (unicode_keyed kw) /\ get "value" (unicode_keyed kw) = None
  /\ ~ type_is (unicode_keyed kw) unsuited_types.
Proof.
  intros Q. destruct (contents_free kw) as [C1 C2].
  { intros k v I [E|[]]. apply Q in I as (_ & _ & I & _). apply I. rewrite <- E. right. right. now left. }
  split; [exact C1|]. split; [exact C2|]. split; [split|split].
  - apply keyed_tidy. intros k v I. apply Q in I as (W & S & _). now split.
  - intros n N. apply keyed_absent. intros k v I E. apply Q in I as (_ & _ & I & _). apply I. rewrite E. apply in_map. simpl in *; tauto.
  - apply keyed_absent. intros k v I E. apply Q in I as (_ & _ & I & _). apply I. rewrite E. apply in_map. simpl in *. tauto.
  - intros (n & v & I & G & V). apply (aget_In _ str_eqb_eq) in G. apply unicode_keyed_In in G as (k & G & E).
    apply Q in G as (_ & _ & _ & G). exact (G (eq_sym E) n I V).
Qed.
Lemma box_start ty vo kw : quiet kw -> typeless kw ->
  let kw' := (lit "type", MText (lit ty)) :: match vo with Some v => (lit "value", MText v) :: kw | None => kw end in
  get_or "contents" kw' MNone = MNone /\ del "contents" kw' = kw'
  /\ free (unicode_keyed kw') /\ get "value" (unicode_keyed kw') = option_map MText vo
  /\ get "type" (unicode_keyed kw') = Some (MText (lit ty)).
Proof.
  intros Q T kw'.
  assert (forall k x, In (k, x) kw' -> (k, x) = (lit "type", MText (lit ty)) \/ (exists v, vo = Some v /\ (k, x) = (lit "value", MText v)) \/ In (k, x) kw) as K.
  { intros k x [I|I]; [now left|]. destruct vo as [v|]; [|tauto]. destruct I as [I|I]; [|tauto]. right. left. now exists v. }
  destruct (contents_free kw') as [C1 C2].
  { intros k x [[= -> ->]|[(v & _ & [= -> ->])|I]]%K [E|[]]; try (vm_compute in E; discriminate). apply Q in I as (_ & _ & I & _). apply I. rewrite <- E. right. right. now left. }
  split; [exact C1|]. split; [exact C2|]. split; [split|split].
  - apply keyed_tidy. intros k x [[= -> ->]|[(v & _ & [= -> ->])|I]]%K; [split; [reflexivity|eexists; reflexivity]..|]. apply Q in I as (W & S & _). now split.
  - intros n N. apply keyed_absent. intros k x [[= -> ->]|[(v & _ & [= -> ->])|I]]%K E.
    + simpl in N. repeat (destruct N as [<-|N]; [vm_compute in E; discriminate|]). easy.
    + simpl in N. repeat (destruct N as [<-|N]; [vm_compute in E; discriminate|]). easy.
    + apply Q in I as (_ & _ & I & _). apply I. rewrite E. apply in_map. simpl in *. tauto.
  - destruct vo as [v|].
    + unfold get. rewrite unicode_keyed_get. change (keyword_name kw') with ((lit "type", MText (lit ty)) :: (lit "value", MText v) :: keyword_name kw). cbn [rev].
      assert (aget str_eqb (lit "value") (rev (keyword_name kw)) = None) as A.
      { apply (aget_None _ str_eqb_eq). unfold keys. rewrite map_rev. intros I. apply in_rev in I. unfold keyword_name in I. rewrite map_map in I.
        apply in_map_iff in I as ([k x] & E & I). cbn in E. apply Q in I as (_ & _ & I & _). apply I. rewrite E. right. now left. }
      rewrite <- app_assoc, aget_app, A. reflexivity.
    + apply keyed_absent. intros k x [[= -> ->]|[(v & [=] & _)|I]]%K E; [vm_compute in E; discriminate|].
      apply Q in I as (_ & _ & I & _). apply I. rewrite E. right. now left.
  - unfold get. rewrite unicode_keyed_get.
    assert (aget str_eqb (lit "type") (rev (keyword_name kw)) = None) as A.
    { apply (aget_None _ str_eqb_eq). unfold keys. rewrite map_rev. intros I. apply in_rev in I. unfold keyword_name in I. rewrite map_map in I.
      apply in_map_iff in I as ([k x] & E & I). cbn in E. now apply T in I. }
    destruct vo as [v|].
    + change (keyword_name kw') with ((lit "type", MText (lit ty)) :: (lit "value", MText v) :: keyword_name kw). cbn [rev].
      rewrite <- app_assoc, aget_app, A. reflexivity.
    + change (keyword_name kw') with ((lit "type", MText (lit ty)) :: keyword_name kw). cbn [rev].
      rewrite aget_app, A. reflexivity.
Qed.

Lemma keyed_first n v kw : drop_tail_underscores (lit n) = lit n -> without n kw -> get n (unicode_keyed ((lit n, v) :: kw)) = Some v.
Proof.
  intros D T. unfold get. rewrite unicode_keyed_get.
  assert (aget str_eqb (lit n) (rev (keyword_name kw)) = None) as A.
  { apply (aget_None _ str_eqb_eq). unfold keys. rewrite map_rev. intros I. apply in_rev in I. unfold keyword_name in I. rewrite map_map in I.
    apply in_map_iff in I as ([k x] & E & I). cbn in E. now apply T in I. }
  change (keyword_name ((lit n, v) :: kw)) with ((drop_tail_underscores (lit n), v) :: keyword_name kw). rewrite D. cbn [rev].
  rewrite aget_app, A. cbn [aget]. now rewrite str_eqb_refl.
Qed.
Lemma with_start n c vo kw : quiet kw -> In n ["value"; "multiple"]%string -> without n kw ->
  let kw' := match vo with Some v => (lit n, MText v) :: kw | None => kw end in
  get_or "contents" ((lit "contents", c) :: kw') MNone = c /\ del "contents" ((lit "contents", c) :: kw') = kw'
  /\ free (unicode_keyed kw') /\ get n (unicode_keyed kw') = option_map MText vo.
Proof.
  intros Q N T kw'.
  assert (forall k x, In (k, x) kw' -> (exists v, (k, x) = (lit n, MText v)) \/ In (k, x) kw) as K.
  { intros k x I. destruct vo as [v|]; [|tauto]. destruct I as [I|I]; [|tauto]. left. now exists v. }
  destruct (contents_free kw') as [_ C2].
  { intros k x [(v & [= -> ->])|I]%K [E|[]]; [destruct N as [<-|[<-|[]]]; vm_compute in E; discriminate|]. apply Q in I as (_ & _ & I & _). apply I. rewrite <- E. right. right. now left. }
  split; [reflexivity|]. split; [exact C2|]. split; [split|].
  - apply keyed_tidy. intros k x [(v & [= -> ->])|I]%K; [split; [destruct N as [<-|[<-|[]]]; reflexivity|eexists; reflexivity]|]. apply Q in I as (W & S & _). now split.
  - intros m M. apply keyed_absent. intros k x [(v & [= -> ->])|I]%K E.
    + destruct N as [<-|[<-|[]]]; simpl in M; repeat (destruct M as [<-|M]; [vm_compute in E; discriminate|]); easy.
    + apply Q in I as (_ & _ & I & _). apply I. rewrite E. apply in_map. simpl in *. tauto.
  - destruct vo as [v|]; [|now apply keyed_absent]. apply keyed_first; [|easy]. destruct N as [<-|[<-|[]]]; reflexivity.
Qed.

(* ---------------- the pipeline for a bound control ---------------- *)
Definition control_tags : list string := ["input"; "textarea"; "select"; "option"]%string.
Definition later_keys : list string := ["auto_filter"; "auto_tabindex"; "tabindex"; "auto_for"; "for"; "auto_domid"; "id"]%string.
Definition changed_keys : list string := (control_keys ++ ["name"; "value"; "checked"; "selected"; "id"; "for"; "tabindex"])%list%string.
Lemma effective_on key a ctx o f : In key ["auto_name"; "auto_value"]%string -> get key a = None ->
  (forall v, get key ctx = Some v -> ~ says_no v) -> effective key a ctx o f -> o = true /\ f = false.
Proof.
  intros K A N H. destruct H as [v H|v H|c _ H|c _ H S|c _ H]; try congruence.
  - easy.
  - now apply N in H.
  - destruct K as [<-|[<-|[]]]; easy.
Qed.
Lemma pipeline env tag a c ctx b ctx' a' c' : free a -> b_name b <> [] -> tag_among tag control_tags ->
  has_settings ctx -> get "filters" ctx = Some (MFilters []) ->
  (forall v, get "auto_name" ctx = Some v -> ~ says_no v) -> (forall v, get "auto_value" ctx = Some v -> ~ says_no v) ->
  transform env tag a c ctx (Some b) = (ctx', Ok (a', c')) ->
  tidy a' /\ same_except ["tabindex"]%string ctx ctx' /\ (tag <> lit "option" -> get "name" a' = Some (MText (b_name b)))
  /\ (forall k, memb str_eqb (lit k) (map lit changed_keys) = false -> get k a' = get k a)
  /\ exists a1 a2, (forall k, memb str_eqb (lit k) (map lit ["auto_name"; "name"]%string) = false -> get k a1 = get k a)
     /\ value_rule tag false b a1 c a2 c'
     /\ (forall k, memb str_eqb (lit k) (map lit later_keys) = false -> get k a' = get k a2)
     /\ (tag = lit "textarea" -> c = MNone -> exists s, c' = MHtml s /\ markup_escape (MText (b_u b)) = Ok s).
Proof.
  intros [T0 K0] Nm Tg Hs Hf ON OV H.
  pose proof (transform_frame _ _ _ _ _ _ _ _ _ Hs Hf H) as (_ & SA & SX & _). unfold transform in H.
  destruct (Hs "auto_name"%string ltac:(simpl; tauto)) as [v1 S1].
  destruct (Hs "auto_value"%string ltac:(simpl; tauto)) as [v2 S2].
  destruct (Hs "auto_domid"%string ltac:(simpl; tauto)) as [v3 S3].
  destruct (Hs "auto_for"%string ltac:(simpl; tauto)) as [v4 S4].
  destruct (Hs "auto_tabindex"%string ltac:(simpl; tauto)) as [v5 S5].
  destruct (Hs "auto_filter"%string ltac:(simpl; tauto)) as [v6 S6].
  destruct (transform_name tag a c ctx (Some b)) as [[a1 c1]|] eqn:E1; [|easy]. cbn [bind] in H.
  destruct (transform_value tag a1 c1 ctx (Some b)) as [[a2 c2]|] eqn:E2; [|easy]. cbn [bind] in H.
  destruct (transform_domid tag a2 c2 ctx (Some b)) as [[a3 c3]|] eqn:E3; [|easy]. cbn [bind] in H.
  destruct (transform_for tag a3 c3 ctx (Some b)) as [[a4 c4]|] eqn:E4; [|easy].
  destruct (transform_tabindex tag a4 c4 ctx) as [ctx5 [[a5 c5]|]] eqn:E5; [|easy].
  pose proof (name_tidy _ _ _ _ _ _ _ E1 T0) as T1. pose proof (value_tidy _ _ _ _ _ _ _ E2 T1) as T2.
  pose proof (domid_tidy _ _ _ _ _ _ _ E3 T2) as T3. pose proof (for_tidy _ _ _ _ _ _ _ E4 T3) as T4.
  pose proof (tabindex_tidy _ _ _ _ _ _ _ E5 T4) as T5.
  assert (c1 = c /\ (tag <> lit "option" -> get "name" a1 = Some (MText (b_name b))) /\ same_except ["auto_name"; "name"]%string a a1) as (-> & N1 & X1).
  { destruct (transform_name_spec tag a c ctx (Some b) v1 S1) as (on & forced & a1' & He & E & _ & X & Ap & _).
    rewrite E1 in E. injection E as <- <-. split; [easy|]. split; [|exact X]. intros NO. refine (Ap _ b eq_refl). split; [|split].
    - exact (proj1 (effective_on "auto_name" a ctx on forced ltac:(simpl; tauto) (K0 "auto_name"%string ltac:(simpl; tauto)) ON He)).
    - now exists b.
    - right. split.
      + intros (v & G & _). rewrite (K0 "name"%string) in G; [easy|simpl; tauto].
      + destruct Tg as (n & Tg & ->). exists n. split; [|easy]. simpl in Tg. destruct Tg as [<-|[<-|[<-|[<-|[]]]]]; try (simpl; tauto). }
  assert (forall k, memb str_eqb (lit k) (map lit ["auto_name"; "name"]%string) = false -> get k a1 = get k a) as G1.
  { intros k. now apply same_get. }
  destruct (transform_value_spec tag a1 c ctx (Some b) v2 S2) as (on & forced & a2' & c2' & He & E & A2 & _ & V).
  rewrite E2 in E. injection E as <- <-.
  destruct (effective_on "auto_value" a1 ctx on forced) as [-> ->]; [simpl; tauto| |exact OV|exact He|].
  { rewrite G1 by reflexivity. apply K0. simpl; tauto. }
  specialize (V eq_refl b eq_refl).
  apply (transform_domid_weak _ _ _ _ _ _ _ _ S3) in E3 as (-> & D1 & D2 & _).
  apply (transform_for_weak _ _ _ _ _ _ _ _ S4) in E4 as (-> & F1 & F2 & _).
  pose proof (transform_tabindex_weak _ _ _ _ _ _ _ _ S5 E5) as (-> & P1 & P2 & P3 & _).
  assert (exists v, get "auto_filter" ctx5 = Some v) as [v6' S6'].
  { exists v6. rewrite (same_get _ _ _ _ P3) by reflexivity. easy. }
  assert (get "filters" ctx5 = Some (MFilters [])) as Hf'.
  { rewrite (same_get _ _ _ _ P3) by reflexivity. easy. }
  apply (transform_filters_spec _ _ _ _ _ _ _ _ _ _ _ S6' Hf') in H as (on' & forced' & _ & H).
  replace (if on' then [] else []) with (@nil nat) in H by now destruct on'.
  inversion H; subst; clear H.
  assert (same_except ["auto_filter"]%string a5 (del "auto_filter" a5)) as L1 by same.
  assert (forall k, memb str_eqb (lit k) (map lit ["auto_filter"; "auto_tabindex"; "tabindex"; "auto_for"; "for"; "auto_domid"; "id"]%string) = false ->
    get k (del "auto_filter" a5) = get k a2) as R.
  { intros k K. assert (W : forall l, incl l ["auto_filter"; "auto_tabindex"; "tabindex"; "auto_for"; "for"; "auto_domid"; "id"]%string ->
      memb str_eqb (lit k) (map lit l) = false).
    { intros l L. destruct (memb str_eqb (lit k) (map lit l)) eqn:E; [|easy]. apply memb_str in E.
      rewrite <- K. symmetry. apply memb_str. eapply incl_map; eassumption. }
    rewrite (same_get _ _ _ _ L1), (same_get _ _ _ _ P2), (same_get _ _ _ _ F2), (same_get _ _ _ _ D2); [reflexivity|..];
      apply W; intros x X; simpl in *; tauto. }
  split; [now apply tidy_del|]. split; [exact SX|]. split; [|split; [intros k; exact (same_get _ _ _ _ SA)|]].
  - intros NO. rewrite R by reflexivity. apply value_rule_frame in V as (V & _). rewrite (same_get _ _ _ _ V) by reflexivity. now apply N1.
  - exists a1, a2. split; [exact G1|]. split; [exact V|]. split; [exact R|]. intros -> ->.
    unfold transform_value in E2. destruct (pop_toggle _ _ _) as [[[p f] ax]|] eqn:Ep; [|easy]. cbn [bind] in E2.
    assert (p = true) as ->.
    { destruct (pop_toggle_spec "auto_value" a1 ctx v2 ltac:(simpl; tauto) S2) as (on2 & f2 & E' & He2). rewrite Ep in E'. injection E' as -> -> ->.
      now destruct (effective_unique _ _ _ _ _ _ _ He He2) as [<- _]. }
    destruct (negb f && _) eqn:En; [destruct f; discriminate|].
    change (tag_is (lit "textarea") "input") with false in E2. change (tag_is (lit "textarea") "option") with false in E2.
    change (tag_is (lit "textarea") "textarea") with true in E2. cbv iota in E2. cbn [orb] in E2.
    destruct (markup_escape (MText (b_u b))) as [s'|] eqn:ES; [|discriminate]. cbn [rmap] in E2. injection E2 as _ <-. now exists s'.
Qed.

(* ---------------- reading a control ---------------- *)
Lemma shows_of a : Forall readable a -> exists l, Forall2 shows a l.
Proof.
  induction 1 as [|[k v] a (_ & t & S) _ [l IH]]; [now exists []|]. exists ((k, t) :: l). constructor; [|exact IH]. now split.
Qed.
Lemma shows_get a l k t : NoDup (keys a) -> Forall2 shows a l -> get k a = Some (MText t) -> aget str_eqb (lit k) l = Some t.
Proof.
  intros _ S. unfold get. induction S as [|[k1 v1] [k2 v2] a l [E1 E2] _ IH]; [easy|]. cbn in E1, E2. subst k2. cbn [aget].
  destruct (str_eqb (lit k) k1); [|exact IH]. intros [= ->]. cbn in E2. now symmetry.
Qed.
Lemma shows_keys a l : Forall2 shows a l -> keys l = keys a.
Proof. induction 1 as [|[k1 v1] [k2 v2] a l [E1 _] _ IH]; [easy|]. cbn in *. unfold keys in *. now rewrite IH, E1. Qed.
Lemma attr_perm k l l' : Permutation l' l -> NoDup (keys l) -> attr k l' = attr k l.
Proof.
  intros P N. unfold attr. destruct (aget str_eqb (lit k) l) as [v|] eqn:E.
  - apply (aget_In _ str_eqb_eq) in E. apply (In_aget _ str_eqb_eq).
    + unfold keys. eapply Permutation_NoDup; [|exact N]. apply Permutation_map. now symmetry.
    + eapply Permutation_in; [symmetry; exact P|exact E].
  - apply (aget_None _ str_eqb_eq) in E. apply (aget_None _ str_eqb_eq). intros I. apply E. unfold keys.
    eapply Permutation_in; [apply Permutation_map; exact P|exact I].
Qed.
Lemma contents_back tag u s : markup_escape (MText u) = Ok s -> ~ In 60%N tag ->
  contents_of tag (lit ">" ++ s ++ lit "</" ++ tag ++ lit ">") = Some u.
Proof.
  intros E T. assert (decode content_table content_bad s = Some u /\ forall c, In c s -> ~ In c content_bad) as [D I].
  { destruct (markup_escape_safe u) as [[J _] H]. unfold markup_escape in E. cbn [truth bind] in E. destruct u as [|x u]; cbn [negb] in E; injection E as <-.
    - split; [reflexivity|easy].
    - split; [exact H|exact J]. }
  change (contents_of tag (lit ">" ++ s ++ lit "</" ++ tag ++ lit ">")) with
    (let '(body, close) := span (fun c => negb (N.eqb c 60)) (s ++ 60%N :: 47%N :: tag ++ lit ">") in
     if str_eqb close (lit "</" ++ tag ++ lit ">") then decode content_table content_bad body else None).
  rewrite span_app; [|apply forallb_forall; intros c C; apply I in C|reflexivity].
  - change (lit "</" ++ tag ++ lit ">") with (60%N :: 47%N :: tag ++ lit ">"). now rewrite str_eqb_refl, D.
  - destruct (N.eqb_spec c 60) as [->|]; [|easy]. exfalso. apply C. simpl. tauto.
Qed.
Lemma shows_none a l k : Forall2 shows a l -> get k a = None -> aget str_eqb (lit k) l = None.
Proof.
  intros S. unfold get. induction S as [|[k1 v1] [k2 v2] a l [E1 E2] _ IH]; [easy|]. cbn in E1. subst k2. cbn [aget].
  destruct (str_eqb (lit k) k1); [easy|exact IH].
Qed.
Lemma call_reads env g d p tag c kw kw0 b g' out : form_settings g -> b_name b <> [] ->
  tag_among tag control_tags -> get_or "contents" kw MNone = c -> del "contents" kw = kw0 -> free (unicode_keyed kw0) ->
  gen_step env g (OTag d p tag kw (Some b)) = (g', Ok out) ->
  form_settings g' /\ exists l a' a1 a2 c' t, truth c' = Ok t
    /\ parse_tag out = Some (tag, l, remainder (g_xml g) d p tag (if t then text_of c' else []))
    /\ (forall k, attr k l = match get k a' with Some v => shown v | None => None end)
    /\ (tag <> lit "option" -> get "name" a' = Some (MText (b_name b)))
    /\ (forall k, memb str_eqb (lit k) (map lit changed_keys) = false -> get k a' = get k (unicode_keyed kw0))
    /\ (forall k, memb str_eqb (lit k) (map lit ["auto_name"; "name"]%string) = false -> get k a1 = get k (unicode_keyed kw0))
    /\ value_rule tag false b a1 c a2 c'
    /\ (forall k, memb str_eqb (lit k) (map lit later_keys) = false -> get k a' = get k a2)
    /\ (tag = lit "textarea" -> c = MNone -> exists s, c' = MHtml s /\ markup_escape (MText (b_u b)) = Ok s).
Proof.
  intros (top & below & G & Hs & Hf & ON & OV) Nm Tg Q1 Q2 Fr H. unfold gen_step in H. rewrite G in H.
  destruct (tag_call env (g_xml g) d p tag kw top (Some b)) as [f r] eqn:E. injection H as <- ->.
  apply tag_call_parses in E; [|destruct Tg as (n & Tg & ->); simpl in Tg; destruct Tg as [<-|[<-|[<-|[<-|[]]]]]; reflexivity]. destruct E as (a & ct & t & T1 & T2 & T3).
  rewrite Q1, Q2 in T1.
  destruct (pipeline env tag _ c top b f a ct Fr Nm Tg Hs Hf ON OV T1) as ([ND RD] & SX & N & Ty & a1 & a2 & G1 & V & R & A).
  destruct (shows_of a RD) as [l SL]. destruct (T3 l ND SL) as (l' & P & Pm & _).
  { eapply Forall_impl; [|exact RD]. now intros p0 [W _]. }
  assert (NoDup (keys l)) as NDl by (rewrite (shows_keys _ _ SL); exact ND).
  split.
  - exists f, below. cbn [g_frames]. split; [reflexivity|].
    assert (forall k, memb str_eqb (lit k) [lit "tabindex"] = false -> get k f = get k top) as K.
    { intros k. exact (same_get _ _ _ _ SX). }
    rewrite !K by reflexivity. split; [|tauto].
    intros k I'. destruct (Hs k I') as [v V']. exists v. rewrite K; [exact V'|]. simpl in I'. repeat (destruct I' as [<-|I']; [reflexivity|]). easy.
  - exists l', a, a1, a2, ct, t. split; [exact T2|]. split; [exact P|]. split; [|tauto].
    intros k. rewrite (attr_perm _ _ _ Pm NDl). unfold attr. destruct (get k a) as [v|] eqn:Ek; [|now apply (shows_none a)].
    clear -SL Ek. unfold get in Ek. induction SL as [|[k1 v1] [k2 v2] a l [E1 E2] _ IH]; [easy|]. cbn in E1, E2. subst k2. cbn [aget] in *.
    destruct (str_eqb (lit k) k1); [|now apply IH]. injection Ek as ->. now symmetry.
Qed.
Lemma among n : In n control_tags -> tag_among (lit n) control_tags.
Proof. intros I. now exists n. Qed.
Lemma input_read env g kw b g' out : form_settings g -> quiet kw -> b_name b <> [] ->
  gen_step env g (OTag true false (lit "input") kw (Some b)) = (g', Ok out) -> submits out = Some [(b_name b, b_u b)] /\ form_settings g'.
Proof.
  intros F Q Nm H. destruct (quiet_start kw Q) as (Q1 & Q2 & Fr & NV & NT).
  destruct (call_reads env g _ _ _ _ kw kw b g' out F Nm (among "input" ltac:(simpl; tauto)) Q1 Q2 Fr H) as (F' & l & a' & a1 & a2 & c' & t & _ & P & At & N & Ty & G1 & V & R & _).
  split; [|exact F']. unfold submits. rewrite P, (At "name"%string), N by discriminate. cbn [shown]. change (str_eqb (lit "input") (lit "input")) with true. cbv iota.
  assert (forall t, In t unsuited_types -> attr_is "type" t l = false) as NA.
  { intros t0 I. unfold attr_is. rewrite At, Ty by reflexivity. destruct (get "type" (unicode_keyed kw)) as [v|] eqn:Ev; [|easy].
    destruct (shown v) as [s|] eqn:Es; [|easy]. destruct (str_eqb_spec s (lit t0)) as [->|]; [|easy]. exfalso. apply NT. exists t0, v.
    split; [exact I|]. split; [easy|]. left.
    destruct v; cbn in Es; try discriminate; try (injection Es as Es); try now rewrite Es.
    all: repeat match type of Es with context [match ?x with _ => _ end] => destruct x; try discriminate end; try (injection Es as Es).
    all: simpl in I; repeat (destruct I as [<-|I]; [discriminate|]); easy. }
  rewrite !NA by (simpl; tauto). cbn [orb andb]. rewrite At, R by reflexivity.
  assert (get "value" a2 = Some (MText (b_u b))) as ->; [|easy].
  assert (~ type_is a1 unsuited_types) as NT1.
  { intros (n & v & I & G & W). apply NT. exists n, v. rewrite G1 in G by reflexivity. easy. }
  inversion V; subst; try discriminate;
    try match goal with I : type_is a1 ?l |- _ => exfalso; apply NT1; destruct I as (n & v' & I & J); exists n, v'; split; [simpl in *; tauto|exact J] end.
  + exfalso. match goal with I : ~ tag_among _ _ |- _ => apply I; exists "input"%string; simpl; tauto end.
  + match goal with I : _ \/ false = true -> _ |- _ => apply I end. left. intros (v & G & _). rewrite G1, NV in G by reflexivity. easy.
Qed.
Lemma area_read env g kw b g' out : form_settings g -> quiet kw -> b_name b <> [] ->
  gen_step env g (OTag false true (lit "textarea") kw (Some b)) = (g', Ok out) -> submits out = Some [(b_name b, b_u b)] /\ form_settings g'.
Proof.
  intros F Q Nm H. destruct (quiet_start kw Q) as (Q1 & Q2 & Fr & NV & NT).
  destruct (call_reads env g _ _ _ _ kw kw b g' out F Nm (among "textarea" ltac:(simpl; tauto)) Q1 Q2 Fr H) as (F' & l & a' & a1 & a2 & c' & t & T & P & At & N & _ & _ & _ & _ & A).
  split; [|exact F']. unfold submits. rewrite P, (At "name"%string), N by discriminate. cbn [shown].
  destruct (A eq_refl eq_refl) as (s & -> & Es). change (str_eqb (lit "textarea") (lit "input")) with false. change (str_eqb (lit "textarea") (lit "textarea")) with true. cbv iota.
  assert (contents_of (lit "textarea") (remainder (g_xml g) false true (lit "textarea") (if t then text_of (MHtml s) else [])) = Some (b_u b)) as ->; [|easy].
  rewrite <- (contents_back (lit "textarea") (b_u b) s Es) by (vm_compute; intuition discriminate). f_equal.
  destruct s; cbn [truth] in T; injection T as <-; reflexivity.
Qed.
Lemma has_chosen b v : has_value b v = true <-> chosen b (MText v).
Proof.
  unfold has_value, chosen. destruct (b_kind b); try reflexivity; unfold value_is;
    (split; [intros E; apply str_eqb_eq in E as ->; now left|intros [[= E]|[=]]; apply str_eqb_eq; exact E]).
Qed.
Lemma box_read env g ty vo kw b g' out : form_settings g -> quiet kw -> typeless kw -> b_name b <> [] ->
  In ty ["radio"; "checkbox"]%string -> (vo = None -> ty = "checkbox"%string /\ exists t, b_kind b = BBoolean t) ->
  gen_step env g (box_call ty vo kw b) = (g', Ok out) ->
  form_settings g' /\
  let v := match vo with Some v => v | None => match b_kind b with BBoolean t => t | _ => [] end end in
  submits out = Some (if has_value b v then [(b_name b, v)] else []).
Proof.
  intros F Q T Nm I NB H. destruct (box_start ty vo kw Q T) as (Q1 & Q2 & Fr & EV & ET).
  destruct (call_reads env g _ _ _ _ _ _ b g' out F Nm (among "input" ltac:(simpl; tauto)) Q1 Q2 Fr H) as (F' & l & a' & a1 & a2 & c' & t & _ & P & At & N & Ty & G1 & V & R & _).
  split; [exact F'|]. intros v. unfold submits. rewrite P, (At "name"%string), N by discriminate. cbn [shown]. change (str_eqb (lit "input") (lit "input")) with true. cbv iota.
  assert ((attr_is "type" "radio" l || attr_is "type" "checkbox" l)%bool = true) as ->.
  { unfold attr_is. rewrite At, Ty by reflexivity. refine (eq_trans (f_equal (fun x => orb (match match x with Some v => shown v | None => None end with Some x => str_eqb x (lit "radio") | None => false end) (match match x with Some v => shown v | None => None end with Some x => str_eqb x (lit "checkbox") | None => false end)) ET) _).
    destruct I as [<-|[<-|[]]]; reflexivity. }
  cbn [andb]. rewrite !At, !R by reflexivity.
  assert (forall n w, get "type" a1 = Some w -> value_is w (lit n) -> lit n = lit ty) as TT.
  { intros n w E W. rewrite G1 in E by reflexivity. pose proof (eq_trans (eq_sym E) ET) as X. injection X as ->. destruct W as [[= W]|[=]]. now symmetry. }
  assert (get "value" a1 = option_map MText vo) as V1 by (rewrite G1 by reflexivity; exact EV).
  assert (type_is a1 [ty]) as TY.
  { exists ty, (MText (lit ty)). split; [now left|]. split; [rewrite G1 by reflexivity; exact ET|now left]. }
  set (ch := has_value b v).
  assert (get "value" a2 = Some (MText v) /\ choice_attr "checked" b (MText v) a2) as [-> Ch].
  { inversion V; subst; try discriminate.
    - exfalso. match goal with I : ~ tag_among _ _ |- _ => apply I; exists "input"%string; simpl; tauto end.
    - assert (vo = None) as ->.
      { destruct vo as [x|]; [|easy]. exfalso. match goal with I : ~ given _ _ |- _ => apply I end. exists (MText x). rewrite V1. easy. }
      subst v. match goal with I : b_kind b = BBoolean _ |- _ => rewrite I end. now split.
    - destruct vo as [x|].
      + cbn in V1. assert (v0 = MText x) as ->.
        { match goal with I : _ \/ _ |- _ => destruct I as [I|[I _]] end; congruence. }
        split; [|easy]. erewrite same_get; [exact V1|eassumption|reflexivity].
      + exfalso. destruct (NB eq_refl) as (_ & tx & K). match goal with X : given _ _ \/ _ |- _ => destruct X as [(w & W & _)|X]; [|exact (X tx K)] end.
        rewrite V1 in W. discriminate.
    - destruct vo as [x|].
      + cbn in V1. assert (v0 = MText x) as ->.
        { match goal with I : _ \/ _ |- _ => destruct I as [I|[I _]] end; congruence. }
        split; [|easy]. erewrite same_get; [exact V1|eassumption|reflexivity].
      + exfalso. destruct (NB eq_refl) as [-> _]. match goal with I : type_is a1 ["radio"%string] |- _ => destruct I as (n & w & [<-|[]] & W & X) end.
        pose proof (TT _ _ W X) as Y. vm_compute in Y. discriminate.
    - exfalso. match goal with I : type_is a1 ["password"%string; _; _] |- _ => destruct I as (n & w & J & W & X) end.
      pose proof (TT _ _ W X) as Y. simpl in J. destruct I as [<-|[<-|[]]]; repeat (destruct J as [<-|J]; [vm_compute in Y; discriminate|]); easy.
    - exfalso. match goal with I : _ \/ _ |- _ => destruct I as [[_ I0]|(I0 & _)] end; [|now apply I0].
      apply I0. destruct TY as (n & w & [<-|[]] & W). exists ty, w. split; [|exact W]. destruct I as [<-|[<-|[]]]; simpl; tauto. }
  assert (ch = true <-> chosen b (MText v)) as CH by apply has_chosen.
  destruct Ch as [C1 C2]. destruct ch.
  - rewrite C1 by now apply CH. reflexivity.
  - rewrite C2; [reflexivity|]. intros E. apply CH in E. discriminate.
Qed.
Lemma boxes_read env (many : bool) values kw b g g' outs : form_settings g -> quiet kw -> typeless kw -> b_name b <> [] ->
  drawn env g (map (fun v => box_call (if many then "checkbox" else "radio")%string (Some v) kw b) values) g' outs ->
  submitted outs (map (pair (b_name b)) (filter (has_value b) values)) /\ form_settings g'.
Proof.
  intros F Q S Nm D. revert g outs F D. induction values as [|v values IH]; intros g outs F D; cbn [map] in D.
  - inversion D; subst. split; [constructor|exact F].
  - inversion D as [|? ? g1 out ? ? outs' H D']; subst.
    apply box_read in H as [F1 R]; [|easy|easy|easy|easy|destruct many; simpl; tauto|easy]. destruct (IH g1 outs' F1 D') as [IH' F2]. split; [|exact F2].
    cbn [filter]. cbv zeta in R. destruct (has_value b v).
    + change (submitted (out :: outs') ([(b_name b, v)] ++ map (pair (b_name b)) (filter (has_value b) values))). now constructor.
    + change (submitted (out :: outs') ([] ++ map (pair (b_name b)) (filter (has_value b) values))). now constructor.
Qed.

(* ---------------- menus ---------------- *)
Lemma span_more f s a c r m : span f s = (a, c :: r) -> span f (s ++ m) = (a, c :: r ++ m).
Proof.
  revert a. induction s as [|x s IH]; intros a; cbn; [easy|]. destruct (f x).
  - destruct (span f s) as [a' b'] eqn:E. intros [= <- ->]. now rewrite (IH a' eq_refl).
  - now intros [= <- <- <-].
Qed.
Lemma parse_attrs_more fuel fuel' s l r m : parse_attrs fuel s = Some (l, 62%N :: r) -> fuel <= fuel' ->
  parse_attrs fuel' (s ++ m) = Some (l, 62%N :: r ++ m).
Proof.
  revert fuel' s l. induction fuel as [|fuel IH]; intros fuel' s l H L; [easy|]. destruct fuel' as [|fuel']; [lia|].
  destruct s as [|x s]; [cbn in H; discriminate|].
  destruct (N.eq_dec x 32) as [->|n].
  - cbn [parse_attrs app] in H |- *. destruct (span name_char s) as [nm r1] eqn:E1.
    destruct nm as [|y nm]; [discriminate|].
    destruct r1 as [|z r1]; [discriminate|]. rewrite (span_more _ _ _ _ _ m E1).
    destruct (N.eq_dec z 61) as [->|n].
    2:{ exfalso. clear -H n. destruct z as [|z]; [discriminate|]. repeat (destruct z as [z|z|]; try discriminate). now apply n. }
    destruct r1 as [|z r2]; [discriminate|].
    destruct (N.eq_dec z 34) as [->|n].
    2:{ exfalso. clear -H n. destruct z as [|z]; [discriminate|]. repeat (destruct z as [z|z|]; try discriminate). now apply n. }
    cbn [app]. destruct (span _ r2) as [v r3] eqn:E2. destruct r3 as [|z r4]; [discriminate|]. rewrite (span_more _ _ _ _ _ m E2).
    destruct (N.eq_dec z 34) as [->|n].
    2:{ exfalso. clear -H n. destruct z as [|z]; [discriminate|]. repeat (destruct z as [z|z|]; try discriminate). now apply n. }
    destruct (decode _ _ v) as [t|]; [|discriminate]. destruct (parse_attrs fuel r4) as [[l' rest]|] eqn:E3; [|discriminate].
    injection H as <- ->. rewrite (IH fuel' _ _ E3) by lia. reflexivity.
  - assert (l = [] /\ x = 62%N /\ s = r) as (-> & -> & ->).
    { clear -H n. cbn [parse_attrs] in H. destruct x as [|x]; [discriminate|]. repeat (destruct x as [x|x|]; try discriminate); try now injection H as <- <-. now contradiction n. }
    reflexivity.
Qed.
Lemma parse_tag_more s tag l r m : parse_tag s = Some (tag, l, 62%N :: r) -> parse_tag (s ++ m) = Some (tag, l, 62%N :: r ++ m).
Proof.
  unfold parse_tag. destruct s as [|x s]; [easy|]. intros H. destruct (N.eq_dec x 60) as [->|n].
  2:{ exfalso. clear -H n. destruct x as [|x]; [discriminate|]. repeat (destruct x as [x|x|]; try discriminate). now apply n. }
  cbn [app]. destruct (span name_char s) as [nm r1] eqn:E1. destruct nm as [|y nm]; [discriminate|].
  destruct (parse_attrs _ r1) as [[l' rest]|] eqn:E2; [|discriminate]. injection H as <- -> ->.
  destruct r1 as [|z r1]; [discriminate|]. rewrite (span_more _ _ _ _ _ m E1). change (z :: r1 ++ m) with ((z :: r1) ++ m).
  rewrite (parse_attrs_more _ (S (List.length ((z :: r1) ++ m))) _ _ _ m E2); [easy|]. rewrite app_length. lia.
Qed.
Lemma after_app p s : after p (p ++ s) = Some s.
Proof. induction p as [|x p IH]; [now destruct s|]. cbn [app after]. now rewrite N.eqb_refl. Qed.

Lemma quiet_without n kw : quiet kw -> In n ("name" :: "value" :: "contents" :: control_keys)%string -> without n kw.
Proof. intros Q I k v H E. apply Q in H as (_ & _ & H & _). apply H. rewrite E. now apply in_map. Qed.
Lemma option_read env g p b g' out : form_settings g -> suited_pick p -> b_name b <> [] ->
  gen_step env g (pick_call b p) = (g', Ok out) ->
  form_settings g' /\ exists l, parse_tag out = Some (lit "option", l, 62%N :: pk_label p ++ lit "</option>")
    /\ attr "value" l = pk_value p /\ attr "selected" l = if has_value b (worth p) then Some (lit "selected") else None.
Proof.
  intros F (Q & NL & NV) Nm H.
  destruct (with_start "value" (MText (pk_label p)) (pk_value p) (pk_attrs p) Q ltac:(simpl; tauto)
    (quiet_without "value" _ Q ltac:(simpl; tauto))) as (Q1 & Q2 & Fr & GV).
  destruct (call_reads env g _ _ _ _ _ _ b g' out F Nm (among "option" ltac:(simpl; tauto)) Q1 Q2 Fr H) as (F' & l & a' & a1 & a2 & c' & t & T & P & At & _ & _ & G1 & V & R & _).
  split; [exact F'|]. exists l.
  assert (get "value" a1 = option_map MText (pk_value p)) as V1 by (rewrite G1 by reflexivity; exact GV).
  assert (c' = MText (pk_label p) /\ get "value" a2 = get "value" a1 /\ choice_attr "selected" b (MText (worth p)) a2) as (-> & E2 & Ch).
  { inversion V; subst; try discriminate.
    - exfalso. match goal with I : ~ tag_among _ _ |- _ => apply I; exists "option"%string; simpl; tauto end.
    - split; [easy|]. split; [eapply same_get; [eassumption|reflexivity]|].
      replace (MText (worth p)) with v; [easy|]. unfold worth. destruct (pk_value p) as [x|].
      + assert (get "value" a1 = Some v) as E by (match goal with I : given _ _ -> _ |- _ => apply I end; exists (MText x); rewrite V1; easy).
        rewrite V1 in E. now injection E.
      + destruct (NV eq_refl) as [_ S]. cbn in V1. match goal with I : ~ given _ _ -> v = _ |- _ => rewrite I, S; [easy|] end.
        intros (w & W & _). rewrite V1 in W. discriminate.
    - match goal with I : _ \/ _ |- _ => destruct I as [[I _]|(_ & I & _)] end; [discriminate|now exfalso]. }
  split; [|split].
  - rewrite P. f_equal. f_equal. cbn [truth] in T. destruct (pk_label p); injection T as <-; reflexivity.
  - rewrite At, R, E2, V1 by reflexivity. now destruct (pk_value p).
  - rewrite At, R by reflexivity. destruct Ch as [C1 C2]. destruct (has_value b (worth p)) eqn:E.
    + now rewrite C1 by now apply has_chosen.
    + rewrite C2; [reflexivity|]. intros C. apply has_chosen in C. congruence.
Qed.
Lemma options_read env b picks g g' outs : form_settings g -> Forall suited_pick picks -> b_name b <> [] ->
  drawn env g (map (pick_call b) picks) g' outs ->
  form_settings g' /\ List.length picks <= List.length (List.concat outs)
  /\ forall fuel, List.length picks < fuel ->
     options_of fuel (List.concat outs ++ lit "</select>") = Some (map (fun p => (worth p, has_value b (worth p))) picks, lit "</select>").
Proof.
  intros F S Nm D. revert g outs F D. induction S as [|p picks Sp _ IH]; intros g outs F D; cbn [map] in D.
  - inversion D; subst. split; [exact F|]. split; [easy|]. intros [|fuel] L; [lia|]. reflexivity.
  - inversion D as [|? ? g1 out ? ? outs' H D']; subst. pose proof (option_read _ _ _ _ _ _ F Sp Nm H) as (F1 & l & P & V & Se).
    destruct (IH _ _ F1 D') as (F2 & Le & R). split; [exact F2|]. split.
    + cbn [List.concat List.length]. rewrite app_length. destruct out; [discriminate|]. cbn [List.length]. lia.
    + intros [|fuel] L; [lia|]. cbn [List.length] in L. cbn [options_of List.concat map]. rewrite <- app_assoc.
      rewrite (parse_tag_more _ _ _ _ (List.concat outs' ++ lit "</select>") P). rewrite <- app_assoc.
      change ((lit "</option>" ++ ?x)%list) with (60%N :: 47%N :: lit "option>" ++ x)%list.
      rewrite span_app; [|apply forallb_forall; intros c C|reflexivity].
      2:{ destruct (N.eqb_spec c 60) as [->|]; [|easy]. now destruct Sp as (_ & NL & _). }
      change (str_eqb (lit "option") (lit "option")) with true. cbv iota.
      change (60%N :: 47%N :: lit "option>" ++ ?x)%list with (lit "</option>" ++ x)%list. rewrite after_app, R by lia. rewrite V, Se.
      assert (match pk_value p with Some v => Some v | None => decode content_table content_bad (pk_label p) end = Some (worth p)) as ->.
      { unfold worth. destruct (pk_value p) eqn:E; [easy|]. now destruct Sp as (_ & _ & N); destruct (N E). }
      now destruct (has_value b (worth p)).
Qed.
Lemma selected_sent (b : belement) many picks kw :
  map (pair (b_name b)) (selected many (map (fun p => (worth p, has_value b (worth p))) picks)) = sent (Menu many picks kw) b.
Proof.
  assert (map fst (filter snd (map (fun p => (worth p, has_value b (worth p))) picks)) = filter (has_value b) (map worth picks)) as E.
  { induction picks as [|p picks IH]; [easy|]. cbn [map filter snd]. destruct (has_value b (worth p)); cbn [map fst]; now rewrite IH. }
  unfold selected. cbv zeta. rewrite E. unfold sent. destruct many; [easy|].
  destruct (rev (filter (has_value b) (map worth picks))); [|easy]. now destruct picks.
Qed.
Lemma menu_read env g many inside picks kw b g' out : form_settings g -> quiet kw -> without "multiple" kw -> b_name b <> [] ->
  (forall fuel, List.length picks < fuel ->
     options_of fuel (inside ++ lit "</select>") = Some (map (fun p => (worth p, has_value b (worth p))) picks, lit "</select>")) ->
  List.length picks <= List.length inside ->
  gen_step env g (menu_call many inside kw b) = (g', Ok out) -> submits out = Some (sent (Menu many picks kw) b) /\ form_settings g'.
Proof.
  intros F Q W Nm R Le H.
  destruct (with_start "multiple" (MHtml inside) (if many then Some (lit "multiple") else None) kw Q ltac:(simpl; tauto) W) as (Q1 & Q2 & Fr & GM).
  assert (menu_call many inside kw b = OTag false true (lit "select") ((lit "contents", MHtml inside) ::
    match (if many then Some (lit "multiple") else None) with Some v => (lit "multiple", MText v) :: kw | None => kw end) (Some b)) as E by now destruct many.
  rewrite E in H.
  destruct (call_reads env g _ _ _ _ _ _ b g' out F Nm (among "select" ltac:(simpl; tauto)) Q1 Q2 Fr H) as (F' & l & a' & a1 & a2 & c' & t & T & P & At & N & Ty & G1 & V & _ & _).
  split; [|exact F']. unfold submits. rewrite P, (At "name"%string), N by discriminate. cbn [shown].
  change (str_eqb (lit "select") (lit "input")) with false. change (str_eqb (lit "select") (lit "textarea")) with false.
  change (str_eqb (lit "select") (lit "select")) with true. cbv iota.
  assert (c' = MHtml inside) as ->.
  { inversion V; subst; try discriminate; [easy|]. match goal with I : _ \/ _ |- _ => destruct I as [[I _]|(_ & _ & _ & [I|I])] end; discriminate. }
  assert (remainder (g_xml g) false true (lit "select") (if t then text_of (MHtml inside) else []) = 62%N :: inside ++ lit "</select>") as ->.
  { cbn [truth] in T. destruct inside; injection T as <-; reflexivity. }
  unfold menu_values. rewrite R by (rewrite app_length; lia). rewrite str_eqb_refl. rewrite At, Ty, GM by reflexivity. cbn [option_map].
  rewrite <- selected_sent with (kw := kw). now destruct many.
Qed.
Lemma control_lemma env g c b g' outs : form_settings g -> suited c b -> b_name b <> [] ->
  control_drawn env g c b g' outs -> submitted outs (sent c b) /\ form_settings g'.
Proof.
  intros F [Q S] Nm D. destruct D as [g c b calls g' outs E D|g many picks kw b g1 inside g2 out D H].
  - assert (one : forall o p, calls = [o] -> (forall g1 out, gen_step env g o = (g1, Ok out) -> submits out = Some p /\ form_settings g1) ->
      submitted outs p /\ form_settings g').
    { intros o p -> R. inversion D as [|? ? g1 out ? ? outs' H D']; subst. inversion D'; subst. apply R in H as [H F']. split; [|exact F'].
      rewrite <- (app_nil_r p). constructor; [exact H|constructor]. }
    destruct c as [kw|kw|many values kw|kw|many picks kw]; cbn [given_attrs sent control_calls] in *; try injection E as <-.
    + eapply one; [reflexivity|]. intros g1 out H. eapply input_read; eassumption.
    + eapply one; [reflexivity|]. intros g1 out H. eapply area_read; eassumption.
    + eapply boxes_read; eassumption.
    + destruct S as (Tl & t & K). eapply one; [reflexivity|]. intros g1 out H.
      apply box_read in H as [F1 R]; [|easy|easy|easy|easy|simpl; tauto|intros _; split; [easy|now exists t]].
      cbv zeta in R. unfold has_value in R. rewrite K in R |- *. split; [|exact F1]. rewrite R. destruct (str_eqb_spec t (b_u b)) as [->|n].
      * now rewrite str_eqb_refl.
      * destruct (str_eqb_spec (b_u b) t); [congruence|easy].
    + discriminate.
  - cbn [given_attrs] in Q. destruct S as [W S]. destruct (options_read _ _ _ _ _ _ F S Nm D) as (F1 & Le & R).
    destruct (menu_read _ _ _ _ picks _ _ _ _ F1 Q W Nm R Le H) as [H' F2]. split; [|exact F2].
    rewrite <- (app_nil_r (sent _ _)). constructor; [exact H'|constructor].
Qed.
Lemma submitted_app o1 p1 o2 p2 : submitted o1 p1 -> submitted o2 p2 -> submitted (o1 ++ o2) (p1 ++ p2).
Proof. intros A B. induction A as [|out outs p ps H A IH]; [exact B|]. cbn [app]. rewrite <- app_assoc. now constructor. Qed.
Lemma drawn_lemma env g l g' outs : form_settings g -> form_drawn env g l g' outs ->
  Forall (fun cb => suited (fst cb) (snd cb) /\ b_name (snd cb) <> []) l ->
  submitted outs (List.concat (map (fun cb => sent (fst cb) (snd cb)) l)) /\ form_settings g'.
Proof.
  intros F D. revert F. induction D as [g|g c b l g1 g2 o1 o2 D _ IH]; intros F A; inversion A as [|? ? [S N] A']; subst; cbn in *.
  - split; [constructor|exact F].
  - destruct (control_lemma _ _ _ _ _ _ F S N D) as [P F1]. destruct (IH F1 A') as [P' F2]. split; [|exact F2]. now apply submitted_app.
Qed.
Lemma filter_one (x : str) l : NoDup l -> In x l -> filter (fun v => str_eqb v x) l = [x].
Proof.
  induction 1 as [|y l N _ IH]; [easy|]. cbn [filter]. intros [->|I].
  - rewrite str_eqb_refl. f_equal. clear IH. induction l as [|z l IH]; [easy|]. cbn [filter]. destruct (str_eqb_spec z x) as [->|]; [exfalso; apply N; now left|].
    apply IH. intros I. apply N. now right.
  - destruct (str_eqb_spec y x) as [->|]; [easy|]. now apply IH.
Qed.
Lemma sent_place c b : has_place c b -> sent c b = [(b_name b, b_u b)].
Proof.
  assert (P : (forall has, b_kind b <> BArray has) -> forall l, filter (has_value b) l = filter (fun v => str_eqb v (b_u b)) l).
  { intros A l. apply filter_ext. intros v. unfold has_value. destruct (b_kind b) eqn:E; try easy. exfalso; exact (A _ eq_refl). }
  destruct c as [kw|kw|many values kw|kw|many picks kw]; cbn [has_place sent]; [easy..| | |].
  - intros (N & I & A). rewrite P by exact A. now rewrite filter_one.
  - intros K. rewrite K. now rewrite str_eqb_refl.
  - intros (I & A & N). rewrite P by exact A. destruct many; [now rewrite filter_one by auto|].
    destruct (rev _) as [|v l] eqn:E.
    + exfalso. assert (In (b_u b) (rev (filter (fun v => str_eqb v (b_u b)) (map worth picks)))) as X.
      { apply -> in_rev. apply filter_In. split; [exact I|apply str_eqb_refl]. }
      rewrite E in X. destruct X.
    + assert (In v (filter (fun v => str_eqb v (b_u b)) (map worth picks))) as X by (apply in_rev; rewrite E; now left).
      apply filter_In in X as [_ X]. apply str_eqb_eq in X. now subst v.
Qed.

(* ---------------- with ids and tab indexes off nothing raises ---------------- *)
Lemma switched_off key a ctx : In key control_keys -> get key a = None -> (exists v, get key ctx = Some v /\ says_no v) ->
  pop_toggle key a ctx = Ok (false, false, a).
Proof.
  intros K A (v & V & No). destruct (pop_toggle_spec key a ctx v K V) as (on & forced & E & He).
  destruct (effective_off key a ctx on forced A) as [-> ->]; [now exists v|exact He|]. rewrite E. unfold del. now rewrite adel_absent.
Qed.
Lemma control_works env tag a c0 t0 ctx b : free a -> tag_among tag control_tags -> plain_ctx ctx -> truth c0 = Ok t0 ->
  exists a' c t, transform env tag a c0 ctx (Some b) = (ctx, Ok (a', c)) /\ tidy a' /\ truth c = Ok t.
Proof.
  intros [T0 K0] Tg (Hs & (fv & Hf) & Off) Tc.
  destruct (Hs "auto_name"%string ltac:(simpl; tauto)) as [v1 S1].
  destruct (Hs "auto_value"%string ltac:(simpl; tauto)) as [v2 S2].
  destruct (Hs "auto_for"%string ltac:(simpl; tauto)) as [v4 S4].
  destruct (transform_name_spec tag a c0 ctx (Some b) v1 S1) as (on1 & f1 & a1 & _ & E1 & _ & X1 & _).
  destruct (transform_value_spec tag a1 c0 ctx (Some b) v2 S2) as (on2 & f2 & a2 & c2 & He2 & E2 & _).
  pose proof (transform_value_weak _ _ _ _ _ _ _ _ S2 E2) as (_ & X2 & _).
  assert (forall k, In k control_keys -> k <> "auto_name" -> k <> "auto_value" -> get k a2 = None)%string as G.
  { intros k K A B. simpl in K. repeat (destruct K as [<-|K]; [try easy; rewrite (same_get _ _ _ _ X2), (same_get _ _ _ _ X1) by reflexivity; apply K0; simpl; tauto|]). easy. }
  exists a2, c2. assert (exists t, truth c2 = Ok t) as [t Tt].
  { unfold transform_value in E2. destruct (pop_toggle _ _ _) as [[[p f] ax]|]; [|easy]. cbn [bind] in E2.
    destruct p; [|injection E2 as _ <-; now exists t0]. case_if E2; [injection E2 as _ <-; now exists t0|].
    case_if E2.
    { case_if E2.
      - match type of E2 with (let '(_, _) := ?x in _) = _ => destruct x end. injection E2 as _ <-. now exists t0.
      - case_if E2; case_if E2; injection E2 as _ <-; now exists t0. }
    case_if E2; [injection E2 as _ <-; now exists t0|].
    case_if E2; [|case_if E2; injection E2 as _ <-; now exists t0].
    case_if E2; [|injection E2 as _ <-; now exists t0].
    destruct (markup_escape (MText (b_u b))) as [s'|]; [|discriminate]. injection E2 as _ <-. now eexists. }
  exists t. split; [|split; [|exact Tt]].
  2:{ apply value_tidy in E2; [exact E2|]. apply name_tidy in E1; [exact E1|exact T0]. }
  unfold transform. rewrite E1. cbn [bind]. rewrite E2. cbn [bind].
  unfold transform_domid. rewrite (switched_off "auto_domid") by (try (apply G; [simpl; tauto|discriminate..]); try (apply Off; simpl; tauto); simpl; tauto).
  cbn [bind negb].
  assert (transform_for tag a2 c2 ctx (Some b) = Ok (a2, c2)) as ->.
  { unfold transform_for. destruct (pop_toggle_spec "auto_for" a2 ctx v4 ltac:(simpl; tauto) S4) as (on & forced & E & He). rewrite E. cbn [bind].
    assert (forced = false) as ->.
    { destruct forced; [|easy]. apply effective_forced in He as [He _]. destruct (He eq_refl) as (w & W & _). rewrite G in W; [easy|simpl; tauto|discriminate..]. }
    assert (del "auto_for" a2 = a2) as -> by (apply adel_absent; apply G; [simpl; tauto|discriminate..]).
    destruct on; [|easy]. unfold put_domid. replace (in_tags tag for_tags) with false by (destruct Tg as (n & Tg & ->); simpl in Tg; destruct Tg as [<-|[<-|[<-|[<-|[]]]]]; reflexivity). now rewrite andb_false_r. }
  unfold transform_tabindex. rewrite (switched_off "auto_tabindex") by (try (apply G; [simpl; tauto|discriminate..]); try (apply Off; simpl; tauto); simpl; tauto).
  cbn [negb]. unfold transform_filters. rewrite (switched_off "auto_filter") by (try (apply G; [simpl; tauto|discriminate..]); try (apply Off; simpl; tauto); simpl; tauto).
  unfold setting. now rewrite Hf.
Qed.
Lemma call_works env g d p tag kw kw0 c t0 b top below ov o : g_frames g = top :: below -> plain_ctx top ->
  get "ordered_attributes" top = Some ov -> truth ov = Ok o -> tag_among tag control_tags ->
  get_or "contents" kw MNone = c -> truth c = Ok t0 -> del "contents" kw = kw0 -> free (unicode_keyed kw0) ->
  exists out, gen_step env g (OTag d p tag kw (Some b)) = (g, Ok out).
Proof.
  intros G P Ov To Tg Q1 Tc Q2 Fr. unfold gen_step. rewrite G. unfold tag_call, tag_open_. rewrite Q1, Q2.
  destruct (control_works env tag _ c t0 top b Fr Tg P Tc) as (a & ct & t & -> & [ND RD] & Tt). rewrite Tt. cbn [bind].
  unfold setting. rewrite Ov. cbn [bind]. rewrite To. cbn [bind].
  assert (exists l, escape_all (if o then sort_attrs a else a) = Ok l) as [l ->].
  { destruct (shows_of a RD) as [l SL]. destruct o.
    - destruct (shows_sorted _ _ SL) as (l' & _ & S'). destruct (escape_all_shown _ _ S') as (e & E & _). eauto.
    - destruct (escape_all_shown _ _ SL) as (e & E & _). eauto. }
  cbn [bind]. destruct g as [x fr]. cbn in G. subst fr. eexists. reflexivity.
Qed.
Lemma works_drawn env g l : Forall (fun o => exists out, gen_step env g o = (g, Ok out)) l -> exists outs, drawn env g l g outs.
Proof. induction 1 as [|o' l' [out E] _ [outs IH]]; [exists []; constructor|]. exists (out :: outs). econstructor; [exact E|exact IH]. Qed.
Lemma drawn_works env g top below ov o l : g_frames g = top :: below -> plain_ctx top ->
  get "ordered_attributes" top = Some ov -> truth ov = Ok o -> Forall (fun cb => suited (fst cb) (snd cb)) l ->
  exists outs, form_drawn env g l g outs.
Proof.
  intros G P Ov To A.
  assert (forall c b, suited c b -> exists outs, control_drawn env g c b g outs) as W.
  { intros c b [Q S].
    assert (forall ty vo kw, quiet kw -> typeless kw -> exists out, gen_step env g (box_call ty vo kw b) = (g, Ok out)) as B.
    { intros ty vo kw Qk Tk. destruct (box_start ty vo kw Qk Tk) as (Q1 & Q2 & Fr & _).
      eapply call_works; [exact G|exact P|exact Ov|exact To|exact (among "input" ltac:(simpl; tauto))|exact Q1|reflexivity|exact Q2|exact Fr]. }
    assert (forall o, control_calls c b = Some o -> Forall (fun o => exists out, gen_step env g o = (g, Ok out)) o -> exists outs, control_drawn env g c b g outs) as K.
    { intros os E H. destruct (works_drawn _ _ _ H) as [outs D]. exists outs. econstructor; eassumption. }
    destruct c as [kw|kw|many values kw|kw|many picks kw]; cbn [given_attrs] in Q; try (eapply K; [reflexivity|]; clear K).
    - constructor; [|constructor]. destruct (quiet_start kw Q) as (Q1 & Q2 & Fr & _).
      eapply call_works; [exact G|exact P|exact Ov|exact To|exact (among "input" ltac:(simpl; tauto))|exact Q1|reflexivity|exact Q2|exact Fr].
    - constructor; [|constructor]. destruct (quiet_start kw Q) as (Q1 & Q2 & Fr & _).
      eapply call_works; [exact G|exact P|exact Ov|exact To|exact (among "textarea" ltac:(simpl; tauto))|exact Q1|reflexivity|exact Q2|exact Fr].
    - apply Forall_map, Forall_forall. intros v _. now apply B.
    - constructor; [|constructor]. now apply B.
    - destruct S as [Wm S].
      destruct (works_drawn env g (map (pick_call b) picks)) as [inside D].
      { apply Forall_map. eapply Forall_impl; [|exact S]. intros p (Qp & _).
        destruct (with_start "value" (MText (pk_label p)) (pk_value p) (pk_attrs p) Qp ltac:(simpl; tauto) (quiet_without "value" _ Qp ltac:(simpl; tauto))) as (Q1 & Q2 & Fr & _).
        eapply call_works; [exact G|exact P|exact Ov|exact To|exact (among "option" ltac:(simpl; tauto))|exact Q1|reflexivity|exact Q2|exact Fr]. }
      destruct (with_start "multiple" (MHtml (List.concat inside)) (if many then Some (lit "multiple") else None) kw Q ltac:(simpl; tauto) Wm) as (Q1 & Q2 & Fr & _).
      assert (exists out, gen_step env g (menu_call many (List.concat inside) kw b) = (g, Ok out)) as [out E].
      { destruct many; eapply call_works; first [exact G|exact P|exact Ov|exact To|exact (among "select" ltac:(simpl; tauto))|exact Q1|exact Q2|exact Fr|reflexivity]. }
      exists [out]. econstructor; eassumption. }
  induction A as [|[c b] l S _ [outs IH]]; [exists []; constructor|]. destruct (W c b S) as [o1 D]. exists (o1 ++ outs)%list. econstructor; eassumption.
Qed.
