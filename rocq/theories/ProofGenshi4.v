(* Proofs: the rewriting of a tag. *)
From Verif Require Import PyBase PyBaseFacts ModelMarkup SpecMarkup ProofMarkup ProofMarkup4 ModelGenshi SpecGenshi ProofGenshi ProofGenshi2 ProofGenshi3.
From Coq Require Import Sorting.Sorted Permutation.

(* ---- control attributes ---- *)
Lemma setting_spec k : setting_name k (to_context k).
Proof.
  unfold to_context. destruct (memb str_eqb k control_names) eqn:M.
  - apply existsb_exists in M as (x & I & E). apply str_eqb_eq in E. subst x. unfold control_names in I. cbn [map] in I.
    repeat destruct I as [<-|I]; try easy.
    + apply (sn_listed "auto-name" "auto_name"). cbn. tauto.
    + apply (sn_listed "auto-value" "auto_value"). cbn. tauto.
    + apply (sn_listed "auto-domid" "auto_domid"). cbn. tauto.
    + apply (sn_listed "auto-for" "auto_for"). cbn. tauto.
    + apply (sn_listed "auto-tabindex" "auto_tabindex"). cbn. tauto.
    + apply (sn_listed "auto-filter" "auto_filter"). cbn. tauto.
    + apply (sn_listed "domid-format" "domid_format"). cbn. tauto.
  - apply sn_other. intros c I ->. enough (memb str_eqb (lit (fst c)) control_names = true) by congruence.
    unfold control_table in I. cbn [In] in I. repeat destruct I as [<-|I]; reflexivity || easy.
Qed.
Lemma setting_unique k k1 k2 : setting_name k k1 -> setting_name k k2 -> k1 = k2.
Proof.
  assert (G : forall k k', setting_name k k' -> k' = to_context k).
  { intros ? ? [x x' I|x H].
    - unfold control_table in I. cbn [In] in I. repeat destruct I as [E|I]; try easy; injection E as <- <-; reflexivity.
    - unfold to_context. destruct (memb str_eqb x control_names) eqn:M; [|easy].
      apply existsb_exists in M as (y & I & E). apply str_eqb_eq in E. subst y. exfalso.
      unfold control_names in I. cbn [map] in I.
      assert (exists c, In c control_table /\ x = lit (fst c)) as (c & Ic & Ec).
      { unfold control_table. repeat destruct I as [<-|I]; try easy.
        - exists ("auto-name", "auto_name")%string. cbn. tauto.
        - exists ("auto-value", "auto_value")%string. cbn. tauto.
        - exists ("auto-domid", "auto_domid")%string. cbn. tauto.
        - exists ("auto-for", "auto_for")%string. cbn. tauto.
        - exists ("auto-tabindex", "auto_tabindex")%string. cbn. tauto.
        - exists ("auto-filter", "auto_filter")%string. cbn. tauto.
        - exists ("domid-format", "domid_format")%string. cbn. tauto. }
      now apply (H c Ic). }
  intros A B. now rewrite (G _ _ A), (G _ _ B).
Qed.
Lemma pieces_spec raw : pieces_say raw (List.concat (map piece_text raw)).
Proof. induction raw as [|[s|v] raw IH]; cbn [map List.concat piece_text]; now constructor. Qed.
Lemma pieces_unique raw t : pieces_say raw t -> t = List.concat (map piece_text raw).
Proof. induction 1; cbn [map List.concat piece_text]; congruence. Qed.
Lemma inject_spec : forall ds m m', inject_all m ds = Ok m' ->
  exists pairs, Forall2 control_says ds pairs
    /\ (forall k, aget str_eqb k m' = match aget str_eqb k (rev pairs) with Some v => Some v | None => aget str_eqb k m end)
    /\ (NoDup (keys m) -> NoDup (keys m')).
Proof.
  induction ds as [|d ds IH]; intros m m' E; cbn [inject_all] in E.
  - injection E as <-. exists []. repeat split; [constructor|easy].
  - destruct d as [|k raw| | |]; try discriminate. cbn [inject bind] in E. apply IH in E as (pairs & F & G & N0).
    exists ((to_context k, MText (List.concat (map piece_text raw))) :: pairs). split; [|split].
    + constructor; [|easy]. constructor; [apply setting_spec|apply pieces_spec].
    + intros k'. rewrite G, sget_set. cbn [rev]. rewrite aget_app. cbn [aget]. now destruct (aget str_eqb k' (rev pairs)), (str_eqb k' (to_context k)).
    + intros Nm. apply N0. now apply (NoDup_keys_aset _ str_eqb_eq).
Qed.
Lemma inject_ok : forall ds pairs m, Forall2 control_says ds pairs -> exists m', inject_all m ds = Ok m'.
Proof.
  intros ds pairs m F. revert m. induction F as [|d p ds pairs C F IH]; intros m; [now exists m|]. inversion C; subst. cbn [inject_all inject bind]. apply IH.
Qed.
Lemma inject_err : forall ds m e, inject_all m ds = Err e -> e = AttributeErr /\ exists d, In d ds /\ (forall k raw, d <> DControl k raw).
Proof.
  induction ds as [|d ds IH]; intros m e E; [discriminate|]. cbn [inject_all] in E. destruct d as [b|k raw|s|s|n]; cbn [inject bind] in E.
  2: { apply IH in E as (-> & d & I & D). split; [easy|]. exists d. split; [now right|easy]. }
  all: injection E as <-; split; [easy|]; eexists; split; [now left|easy].
Qed.
Lemma says_unique ds : forall p1 p2, Forall2 control_says ds p1 -> Forall2 control_says ds p2 -> p1 = p2.
Proof.
  induction ds as [|d ds IH]; intros p1 p2 F1 F2; inversion F1 as [|? ? ? ? C1 F1']; inversion F2 as [|? ? ? ? C2 F2']; subst; [easy|].
  f_equal; [|now apply IH]. destruct C1 as [k k1 raw t1 S1 P1]. inversion C2 as [? k2 ? t2 S2 P2]; subst.
  rewrite (setting_unique _ _ _ S1 S2). apply pieces_unique in P1, P2. now subst.
Qed.

(* ---- the transforms keep mappings mappings ---- *)
Lemma nd_set k v (a : attrs) : NoDup (keys a) -> NoDup (keys (set k v a)).
Proof. apply (NoDup_keys_aset _ str_eqb_eq). Qed.
Lemma nd_del k (a : attrs) : NoDup (keys a) -> NoDup (keys (del k a)).
Proof. apply (NoDup_keys_adel _ str_eqb_eq). Qed.
Lemma nd_toggle k on (a : attrs) : NoDup (keys a) -> NoDup (keys (toggle_attr k on a)).
Proof. unfold toggle_attr. destruct on; [apply nd_set|apply nd_del]. Qed.
Lemma pop_left key a ctx on forced a1 : pop_toggle key a ctx = Ok (on, forced, a1) -> a1 = del key a.
Proof.
  unfold pop_toggle. destruct (parse_trool (get_or key a MMaybe)); try (intros [= <- <- <-]; easy).
  destruct (setting key ctx) as [cv|]; [|discriminate]. cbn [bind]. destruct (parse_trool cv); intros [= <- <- <-]; easy.
Qed.
Ltac nd := repeat first [apply nd_toggle | apply nd_set | apply nd_del | assumption].
Ltac fin := match goal with
  | E : Ok _ = Ok _ |- _ => injection E; intros; subst; nd
  | E : Err _ = Ok _ |- _ => discriminate E
  end.
Lemma nd_name tag a c ctx b a' c' : transform_name tag a c ctx b = Ok (a', c') -> NoDup (keys a) -> NoDup (keys a').
Proof.
  unfold transform_name. intros E N0. destruct (pop_toggle "auto_name" a ctx) as [[[on forced] a1]|] eqn:P; [|discriminate].
  apply pop_left in P. cbn [bind] in E. assert (NoDup (keys a1)) by (subst a1; now apply nd_del). clear P.
  destruct on, b as [el|]; try fin. destruct (b_name el); try fin. destruct (forced || _); fin.
Qed.
Lemma nd_put key tags forced tag a c ctx b a' c' : put_domid key tags forced tag a c ctx b = Ok (a', c') -> NoDup (keys a) -> NoDup (keys a').
Proof.
  unfold put_domid. intros E N0. destruct (forced || _); [|fin]. destruct (raw_domid tag a b) as [raw|]; [|discriminate]. cbn [bind] in E.
  destruct (truth raw) as [t|]; [|discriminate]. cbn [bind] in E. destruct (negb t); [fin|].
  destruct (setting "domid_format" ctx) as [fmt|]; [|discriminate]. cbn [bind] in E. destruct (format_mv fmt raw); [|discriminate]. cbn [rmap] in E. fin.
Qed.
Lemma nd_domid tag a c ctx b a' c' : transform_domid tag a c ctx b = Ok (a', c') -> NoDup (keys a) -> NoDup (keys a').
Proof.
  unfold transform_domid. intros E N0. destruct (pop_toggle "auto_domid" a ctx) as [[[on forced] a1]|] eqn:P; [|discriminate].
  apply pop_left in P. cbn [bind] in E. assert (NoDup (keys a1)) by (subst a1; now apply nd_del). destruct (negb on); [fin|]. eapply nd_put; eauto.
Qed.
Lemma nd_for tag a c ctx b a' c' : transform_for tag a c ctx b = Ok (a', c') -> NoDup (keys a) -> NoDup (keys a').
Proof.
  unfold transform_for. intros E N0. destruct (pop_toggle "auto_for" a ctx) as [[[on forced] a1]|] eqn:P; [|discriminate].
  apply pop_left in P. cbn [bind] in E. assert (NoDup (keys a1)) by (subst a1; now apply nd_del). destruct on, b; try fin. eapply nd_put; eauto.
Qed.
Lemma nd_value tag a c ctx b a' c' : transform_value tag a c ctx b = Ok (a', c') -> NoDup (keys a) -> NoDup (keys a').
Proof.
  unfold transform_value. intros E N0. destruct (pop_toggle "auto_value" a ctx) as [[[on forced] a1]|] eqn:P; [|discriminate].
  apply pop_left in P. cbn [bind] in E. assert (NoDup (keys a1)) by (subst a1; now apply nd_del). clear P.
  destruct on, b as [el|]; try fin. destruct (negb forced && _); [fin|]. destruct (tag_is tag "input").
  - destruct (mv_is _ (lit "radio") || _).
    + destruct (mv_is _ (lit "checkbox")); [|fin].
      destruct (get_or "value" a1 MNone), (b_kind el); fin.
    + destruct (mv_is _ (lit "password") || _ || _); [destruct forced; fin|]. destruct (_ || forced); fin.
  - destruct (tag_is tag "option"); [fin|]. destruct (tag_is tag "textarea").
    + destruct (_ || forced); [|fin]. destruct (markup_escape _); [|discriminate]. cbn [rmap] in E. fin.
    + destruct (_ || forced); fin.
Qed.
Lemma nd_tabindex tag a c ctx ctx' a' c' : transform_tabindex tag a c ctx = (ctx', Ok (a', c')) -> NoDup (keys a) -> NoDup (keys a').
Proof.
  unfold transform_tabindex. intros E N0. destruct (pop_toggle "auto_tabindex" a ctx) as [[[on forced] a1]|] eqn:P; [|discriminate].
  apply pop_left in P. assert (NoDup (keys a1)) by (subst a1; now apply nd_del). clear P.
  destruct (negb on); [injection E; intros; subst; nd|]. destruct (setting "tabindex" ctx) as [tv|]; [|discriminate].
  destruct (int_of tv) as [[|p|p]|]; try (injection E; intros; subst; nd; fail);
    (destruct (forced || _); [|injection E; intros; subst; nd]); try discriminate; cbn in E; injection E; intros; subst; nd.
Qed.
Lemma nd_run env fs : keeps_keys env -> forall tag a c ctx b ctx' a' c', run_filters env fs tag a c ctx b = (ctx', Ok (a', c')) -> NoDup (keys a) -> NoDup (keys a').
Proof.
  intros K. induction fs as [|f fs IH]; intros tag a c ctx b ctx' a' c' E N0; cbn [run_filters] in E; [injection E; intros; now subst|].
  assert (G : match f_run env f tag a c ctx b with (ctx, Err e) => (ctx, Err e) | (ctx, Ok (a, c)) => run_filters env fs tag a c ctx b end = (ctx', Ok (a', c')) -> NoDup (keys a')).
  { destruct (f_run env f tag a c ctx b) as [ctx1 [[a1 c1]|]] eqn:F; [|discriminate]. intros E1. eapply IH; eauto. }
  destruct (f_tags env f); [auto|]. destruct (negb _); [eauto|auto].
Qed.
Lemma transform_NoDup env tag a c ctx b ctx' a' c' : keeps_keys env -> transform env tag a c ctx b = (ctx', Ok (a', c')) -> NoDup (keys a) -> NoDup (keys a').
Proof.
  intros K E N0. unfold transform in E.
  destruct (transform_name tag a c ctx b) as [[a1 c1]|] eqn:E1; [|easy]. cbn [bind] in E.
  destruct (transform_value tag a1 c1 ctx b) as [[a2 c2]|] eqn:E2; [|easy]. cbn [bind] in E.
  destruct (transform_domid tag a2 c2 ctx b) as [[a3 c3]|] eqn:E3; [|easy]. cbn [bind] in E.
  destruct (transform_for tag a3 c3 ctx b) as [[a4 c4]|] eqn:E4; [|easy].
  destruct (transform_tabindex tag a4 c4 ctx) as [ctx5 [[a5 c5]|]] eqn:E5; [|easy].
  apply nd_name in E1; [|easy]. apply nd_value in E2; [|easy]. apply nd_domid in E3; [|easy]. apply nd_for in E4; [|easy]. apply nd_tabindex in E5; [|easy].
  unfold transform_filters in E. destruct (pop_toggle "auto_filter" a5 ctx5) as [[[on forced] a6]|] eqn:P; [|discriminate].
  apply pop_left in P. assert (NoDup (keys a6)) as N6 by (subst a6; now apply nd_del). destruct (setting "filters" ctx5) as [fv|]; [|discriminate].
  destruct (negb on); [injection E; intros; now subst|]. destruct fv; try discriminate. eapply nd_run; eauto.
Qed.

(* ---- contents ---- *)
Lemma simplify_same : forall fuel done parts l l', (forall x, ~ In (Iter x) l) -> simplify_loop fuel done parts l = Ok (inr l') -> l' = done ++ l.
Proof.
  induction fuel as [|fuel IH]; intros done parts l l' H E; [discriminate|]. cbn [simplify_loop] in E. destruct l as [|e l].
  - destruct (join_parts parts); discriminate.
  - assert (H' : forall x, ~ In (Iter x) l) by (intros x I; apply (H x); now right).
    destruct e; try (injection E as <-; easy); try (apply IH in E; [now rewrite E, <- app_assoc|easy]). elim (H l0). now left.
Qed.
Definition cont_of (mid : list event) : res (option (str + list event)) :=
  match mid with [] => Ok None | _ => rmap Some (simplify mid) end.
Lemma rest_cont mid e : match mid ++ [e] with [_] => Ok None | _ => rmap Some (simplify (removelast (mid ++ [e]))) end = cont_of mid.
Proof.
  rewrite removelast_last. destruct mid as [|x mid]; [easy|]. cbn [app]. destruct mid; reflexivity.
Qed.
Lemma cont_in mid c : cont_of mid = Ok c -> contents_in mid (contents_of c).
Proof.
  unfold cont_of. destruct mid as [|x mid]; [intros [= <-]; constructor|]. destruct (simplify (x :: mid)) as [[t|l]|] eqn:E; [| |discriminate]; intros [= <-].
  - apply ci_text; [easy|]. now apply simplify_text. - apply ci_events. now apply simplify_events in E.
Qed.
Lemma new_out mid c v l : cont_of mid = Ok c -> new_contents c v = Ok l ->
  exists l', contents_out mid v l' /\ match l with [] => mid | _ => l end = l' /\ (v = MNone -> l = []) /\ (v <> MNone -> l = l' /\ l <> []).
Proof.
  intros C E. destruct v; cbn [new_contents] in E; try discriminate.
  - injection E as <-. exists mid. repeat split; try easy. constructor.
  - injection E as <-. eexists. repeat split; try easy. constructor.
  - injection E as <-. eexists. repeat split; try easy. constructor.
  - destruct c as [[t|l0]|]; try discriminate. injection E as ->. unfold cont_of in C. destruct mid as [|x mid]; [discriminate|].
    destruct (simplify (x :: mid)) as [[t|l1]|] eqn:S0; try discriminate. injection C as ->.
    pose proof (fun H => simplify_same _ _ _ _ _ H S0) as Same. cbn [app] in Same. apply simplify_events in S0 as (S1 & S2 & S3).
    exists l. assert (l <> []) as Hl.
    { intros ->. unfold tags_in in S3. rewrite <- S1 in S3. cbn in S3. lia. }
    repeat split; try easy; [now constructor|now destruct l].
Qed.
Lemma bound_nonempty q b l l' : bound_to q b l l' -> l <> [] -> l' <> [].
Proof. destruct 1; easy. Qed.
Lemma option_name tag : QName (match q_ns tag with Some [] => None | n => n end) (lit "option") = option_of tag.
Proof. reflexivity. Qed.

Theorem rewrite_spec env controls rc tag a mid e b rc' out : keeps_keys env -> NoDup (map fst a) ->
  rewrite env controls rc tag a (mid ++ [e]) b = (rc', Ok out) ->
  exists pairs m c top below top' m' c' a' mid1 mid2,
    Forall2 control_says controls pairs /\ handed pairs a m /\ contents_in mid c
    /\ render_frames rc = top :: below /\ transform env (q_local tag) m c top b = (top', Ok (m', c')) /\ rc' = Some (top' :: below)
    /\ written a m' a' /\ contents_out mid c' mid1
    /\ (c' = MNone -> mid2 = mid) /\ (c' <> MNone -> options_bound tag b mid1 mid2)
    /\ out = Start tag a' :: mid2 ++ [e].
Proof.
  intros K Na E. unfold rewrite in E. rewrite rest_cont in E.
  destruct (inject_all [] controls) as [m0|] eqn:I; [|discriminate]. cbn [bind] in E. destruct (cont_of mid) as [c|] eqn:C; [|discriminate]. cbn [bind] in E.
  destruct (read_attrs a a [] m0) as [[[a1 ex] m]|] eqn:R; [|discriminate]. cbn [bind] in E.
  destruct (render_frames rc) as [|top below] eqn:Fr; [discriminate|].
  destruct (transform env (q_local tag) m (contents_of c) top b) as [top' [[m' c']|]] eqn:T; [|discriminate]. injection E as <- E.
  destruct (new_contents c c') as [l|] eqn:Nc; [|discriminate]. cbn [bind] in E.
  apply inject_spec in I as (pairs & Fp & Gp & N0). specialize (N0 (NoDup_nil _)).
  apply read_spec in R as (Ka & Fa & La & Nm & Nx); [|exact Na|easy]. specialize (Nm N0). specialize (Nx (NoDup_nil _)).
  destruct (new_out _ _ _ _ C Nc) as (mid1 & Co & Lm & Ln & Lt).
  set (a' := write_attrs (sort_attrs m') a1 ex) in *.
  assert (W : written a m' a').
  { apply write_spec; try easy.
    - intros k. specialize (La k). destruct (aget qname_eqb (QName None k) a) eqn:G.
      + assert (memb qname_eqb (QName None k) (keys a) = true) as -> by (apply memb_q, qget_in; eauto). now destruct La as (w & _ & _ & ->).
      + assert (memb qname_eqb (QName None k) (keys a) = false) as -> by (now apply memb_q_false, qget_out). now destruct La as (_ & ->).
    - eapply transform_NoDup; eauto. }
  assert (Hh : handed pairs a m).
  { intros k. specialize (La k). destruct (aget qname_eqb (QName None k) a) eqn:G.
    - destruct La as (w & La1 & La2 & _). eauto.
    - destruct La as (La1 & _). rewrite La1, Gp. now destruct (aget str_eqb k (rev pairs)). }
  destruct l as [|x l].
  - (* nothing comes back *)
    assert (c' = MNone) as -> by (destruct c'; try reflexivity; exfalso; now apply Lt). cbn [bind] in E. injection E as <-.
    exists pairs, m, (contents_of c), top, below, top', m', MNone, a', mid1, mid.
    do 2 (split; [easy|]). split; [now apply cont_in|]. repeat (split; [easy|]). easy.
  - assert (c' <> MNone) as Nn by (intros ->; now specialize (Ln eq_refl)). destruct (Lt Nn) as (Em & _). subst mid1.
    set (bound := match b with Some el => _ | None => _ end) in E.
    assert (B : exists mid2, bound = Ok mid2 /\ options_bound tag b (x :: l) mid2 /\ mid2 <> []).
    { subst bound. destruct b as [el|]; [|eexists; repeat split; easy]. unfold options_bound. destruct (str_eqb (q_local tag) (lit "select")); [|eexists; repeat split; easy].
      rewrite option_name in *. destruct (bind_unbound (option_of tag) el (x :: l)) as [l2|] eqn:B; [|discriminate]. exists l2.
      apply bind_unbound_iff in B. split; [easy|]. split; [easy|]. eapply bound_nonempty; eauto. easy. }
    destruct B as (mid2 & -> & B & Nb). cbn [bind] in E. injection E as <-.
    exists pairs, m, (contents_of c), top, below, top', m', c', a', (x :: l), mid2.
    do 2 (split; [easy|]). split; [now apply cont_in|]. repeat (split; [easy|]). destruct mid2 as [|y mid2]; [easy|]. f_equal. cbn [app]. f_equal. f_equal.
    f_equal. destruct mid as [|z mid]; [easy|]. cbn [app]. f_equal. apply last_last.
Qed.

Lemma read_ok : forall l a ex m, (forall k v, In (QName None k, v) l -> exists w, attr_reads v w) -> exists r, read_attrs l a ex m = Ok r.
Proof.
  induction l as [|[[[n|] k] v] l IH]; intros a ex m H; cbn [read_attrs q_ns q_local]; [eauto| |].
  - apply IH. intros k0 v0 I. apply (H k0). now right.
  - destruct (H k v (or_introl eq_refl)) as (w & Hw).
    assert (H' : forall k0 v0, In (QName None k0, v0) l -> exists w, attr_reads v0 w) by (intros k0 v0 I; apply (H k0); now right).
    destruct Hw as [s|s|lv t Ht]; cbn [bind fst snd]; try (now apply IH).
    apply simplify_text in Ht. rewrite Ht. cbn [bind fst snd]. now apply IH.
Qed.
Lemma cont_ok mid : sound mid -> exists c, cont_of mid = Ok c.
Proof.
  intros S0. unfold cont_of. destruct mid as [|x mid]; [eauto|]. destruct (simplify (x :: mid)) eqn:E; [cbn; eauto|]. apply simplify_error in E. easy.
Qed.
Theorem rewrite_works env controls pairs rc tag a mid e b top below : NoDup (map fst a) ->
  Forall2 control_says controls pairs -> (forall k v, In (QName None k, v) a -> exists w, attr_reads v w) -> sound mid ->
  render_frames rc = top :: below ->
  exists m c, handed pairs a m /\ contents_in mid c /\ NoDup (keys m)
    /\ (forall top' x, transform env (q_local tag) m c top b = (top', Err x) ->
         rewrite env controls rc tag a (mid ++ [e]) b = (Some (top' :: below), Err x))
    /\ (forall top' m' c', transform env (q_local tag) m c top b = (top', Ok (m', c')) -> usable c c' ->
         b = None \/ q_local tag <> lit "select" \/ orderly (option_of tag) mid /\ (forall x, ~ In (Iter x) mid) ->
         exists out, rewrite env controls rc tag a (mid ++ [e]) b = (Some (top' :: below), Ok out)).
Proof.
  intros Na Fc Ra Sm Fr. destruct (inject_ok controls pairs [] Fc) as (m0 & I). destruct (cont_ok mid Sm) as (c & C).
  destruct (read_ok a a [] m0 Ra) as (((a1 & ex) & m) & R).
  pose proof (inject_spec _ _ _ I) as (pairs' & Fp & Gp & N0). specialize (N0 (NoDup_nil _)). rewrite (says_unique _ _ _ Fp Fc) in *. clear Fp.
  pose proof (read_spec _ _ _ _ _ _ _ R Na (fun x H => H)) as (Ka & Fa & La & Nm & Nx).
  exists m, (contents_of c). split; [|split; [|split; [|split]]].
  - intros k. specialize (La k). destruct (aget qname_eqb (QName None k) a) eqn:G.
    + destruct La as (w & La1 & La2 & _). eauto.
    + destruct La as (La1 & _). rewrite La1, Gp. now destruct (aget str_eqb k (rev pairs)).
  - now apply cont_in.
  - now apply Nm.
  - intros top' x T. unfold rewrite. rewrite I. cbn [bind]. rewrite rest_cont, C. cbn [bind]. rewrite R. cbn [bind]. now rewrite Fr, T.
  - intros top' m' c' T U O. unfold rewrite. rewrite I. cbn [bind]. rewrite rest_cont, C. cbn [bind]. rewrite R. cbn [bind]. rewrite Fr, T.
    assert (exists l, new_contents c c' = Ok l /\ (b = None \/ q_local tag <> lit "select" \/ exists l', bound_to (option_of tag) (match b with Some el => el | None => Bound [] [] BOther end) l l')) as (l & Nc & Ol).
    { destruct U as [-> |[(s & [-> | ->])|(-> & Ec)]].
      - exists []. split; [easy|]. right. right. eexists. constructor.
      - eexists. split; [reflexivity|]. right. right. eexists. apply bt_same; [easy|easy|constructor].
      - eexists. split; [reflexivity|]. right. right. eexists. apply bt_same; [easy|easy|constructor].
      - destruct c as [[t|l]|]; cbn in Ec; try discriminate. exists l. split; [reflexivity|]. destruct O as [O|[O|(O1 & O2)]]; [now left|now right; left|]. right. right.
        unfold cont_of in C. destruct mid as [|x mid]; [discriminate|]. destruct (simplify (x :: mid)) as [[t|l1]|] eqn:S0; try discriminate. injection C as ->.
        apply simplify_same in S0; [|easy]. cbn [app] in S0. subst l. now apply bind_unbound_orderly. }
    rewrite Nc. cbn [bind]. destruct l as [|x l]; [eexists; reflexivity|]. destruct b as [el|]; [|eexists; reflexivity].
    destruct (str_eqb (q_local tag) (lit "select")) eqn:Es; [|eexists; reflexivity].
    destruct Ol as [Ol|[Ol|(l' & Bl)]]; [discriminate|apply str_eqb_eq in Es; now elim Ol|].
    rewrite option_name. apply bind_unbound_iff in Bl. rewrite Bl. eexists. reflexivity.
Qed.
(* what goes wrong before the transforms leaves the settings alone *)
Theorem rewrite_rejects env controls rc tag a rest b :
  (exists d, In d controls /\ forall k raw, d <> DControl k raw) ->
  rewrite env controls rc tag a rest b = (rc, Err AttributeErr).
Proof.
  intros (d & I & D). unfold rewrite. destruct (inject_all [] controls) as [m|x] eqn:E.
  - apply inject_spec in E as (pairs & F & _). exfalso. revert I. clear -F D. induction F as [|? ? ? ? C F IH]; [easy|].
    intros [->|I]; [|auto]. inversion C; subst. now apply (D k raw).
  - cbn [bind]. now apply inject_err in E as (-> & _).
Qed.
