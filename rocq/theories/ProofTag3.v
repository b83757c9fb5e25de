From Verif Require Import PyBase PyBaseFacts ModelMarkup SpecMarkup ProofMarkup4 ProofMarkup5 ModelTag SpecTag ProofTag ProofTag2.
From Coq Require Import Sorted Lia.

Lemma get_tag_cases r nm d p : let '(r', t) := get_tag r nm d p in
  (forall n, opened r' n = opened r n) /\ r_next r <= r_next r'
  /\ ((exists l, opened r nm = l ++ [t] /\ r' = r)
      \/ (opened r nm = [] /\ t = TagObj (r_next r) nm d p /\ r_next r' = S (r_next r))).
Proof.
  unfold get_tag. destruct (opened r nm) as [|x l] eqn:E using rev_ind.
  - cbn. split; [easy|]. split; [lia|]. now right.
  - rewrite last_error_snoc. split; [easy|]. split; [easy|]. left. now exists l.
Qed.
Lemma old_contents env s o u c : g_frames (ts_gen s) <> [] ->
  contents (fst (tag_step env s o)) u = Some c ->
  contents s u = Some c \/ exists t kw b, renders s o = Some (t, kw, b) /\ t_id u = t_id t.
Proof.
  intros Hf. pose proof (step_contents env s o u Hf) as H. destruct (tag_step env s o) as [s' r].
  destruct H as (top & below & _ & H & _). cbn [fst]. intros Hc. unfold contents_rule in H.
  destruct (renders s o) as [[[t kw] b]|]; [|left; congruence].
  destruct (Nat.eq_dec (t_id u) (t_id t)) as [E|E]; [right; exists t, kw, b; easy|].
  left. destruct H as (H & _). now rewrite H in Hc.
Qed.
Lemma history_found s tr nm d p s' t : history s tr ->
  get_tag (ts_reg s) nm d p = (ts_reg s', t) ->
  (ts_got s' = ts_got s \/ ts_got s' = ts_got s ++ [t]) ->
  (forall u c, contents s' u = Some c -> contents s u = Some c \/ t_id u = t_id t) ->
  history s' tr.
Proof.
  intros H Hg Hgot Hc. pose proof (get_tag_cases (ts_reg s) nm d p) as G. rewrite Hg in G.
  destruct G as (Ho & Hn & Hcase).
  assert (t_id t < r_next (ts_reg s')) as Ht.
  { destruct Hcase as [(l & E & ->)|(_ & -> & ->)]; [|cbn; lia].
    apply (h_got _ _ H). eapply listed_got; eauto. rewrite E. apply in_or_app. right. now left. }
  assert (In t (ts_got s) \/ t_id t = r_next (ts_reg s)) as Hold.
  { destruct Hcase as [(l & E & _)|(_ & -> & _)]; [left|now right].
    eapply listed_got; eauto. rewrite E. apply in_or_app. right. now left. }
  assert (forall u, In u (ts_got s') -> In u (ts_got s) \/ u = t) as Hin.
  { intros u Hu. destruct Hgot as [E|E]; rewrite E in Hu; [now left|].
    apply in_app_or in Hu as [Hu|[<-|[]]]; [now left|now right]. }
  constructor.
  - intros n. destruct (h_listed _ _ H n) as (L & HL). exists L. now rewrite Ho.
  - intros u Hu. apply Hin in Hu as [Hu| ->]; [|easy]. pose proof (h_got _ _ H u Hu). lia.
  - intros u v Hu Hv E. apply Hin in Hu as [Hu| ->]; apply Hin in Hv as [Hv| ->]; [|  |  |easy].
    + now apply (h_same _ _ H).
    + destruct Hold as [Hold|Hold]; [now apply (h_same _ _ H)|]. pose proof (h_got _ _ H u Hu). lia.
    + destruct Hold as [Hold|Hold]; [now apply (h_same _ _ H)|]. pose proof (h_got _ _ H v Hv). lia.
  - intros u Hu. apply (h_events _ _ H) in Hu. destruct Hgot as [-> | ->]; [easy|]. apply in_or_app. now left.
  - intros u c Hu. apply Hc in Hu as [Hu| ->]; [|easy]. pose proof (h_contents _ _ H u c Hu). lia.
Qed.
Lemma event_open_inj t u : EOpen t = EOpen u -> t = u. Proof. congruence. Qed.
Lemma history_open s tr t s' : history s tr -> In t (ts_got s) ->
  ts_reg s' = tag_open (ts_reg s) t -> ts_got s' = ts_got s ->
  (forall u c, contents s' u = Some c -> contents s u = Some c \/ t_id u = t_id t) ->
  history s' (tr ++ [EOpen t]).
Proof.
  intros H Ht Hr Hg Hc.
  assert (r_next (ts_reg s') = r_next (ts_reg s)) as Hn.
  { rewrite Hr. unfold tag_open, put_opened. now destruct (memb _ _ _). }
  constructor.
  - intros nm. destruct (h_listed _ _ H nm) as (L & E & HS & HL).
    rewrite Hr. unfold tag_open.
    destruct (memb tag_eqb t (opened (ts_reg s) (t_name t))) eqn:Em.
    + (* already open *)
      assert (exists k, opened_at tr t k) as (k0 & Hk0).
      { apply memb_tag in Em. apply in_map_iff in Em as (u & Eu & Hu).
        pose proof (listed_got _ _ _ _ H Hu) as (_ & Hgu & Ho).
        now rewrite (h_same _ _ H u t Hgu Ht Eu) in Ho. }
      exists L. split; [easy|]. split; [easy|]. intros u k. rewrite HL. split.
      * intros [Hu Ho]. split; [easy|]. now apply opened_keep.
      * intros [Hu Ho]. split; [easy|].
        destruct (Nat.eq_dec k (List.length tr)) as [->|Hk].
        { apply opened_new in Ho as [[= <-] Hno]. exfalso. eapply Hno. exact Hk0. }
        { pose proof (opened_at_lt _ _ _ Ho) as Hl. rewrite app_length in Hl. cbn in Hl.
          apply opened_before in Ho as [Ho _]; [easy|lia]. }
    + assert (forall k, ~ opened_at tr t k) as Hno.
      { intros k Hk. apply (opened_listed _ _ _ _ H) in Hk.
        assert (memb tag_eqb t (opened (ts_reg s) (t_name t)) = true); [|congruence].
        apply memb_tag. now apply in_map. }
      rewrite opened_put. destruct (str_eqb_spec nm (t_name t)) as [->|Hnm].
      * exists (L ++ [(t, List.length tr)]). split; [rewrite map_app, <- E; reflexivity|].
        split.
        { apply sorted_snoc; [easy|]. intros [u k] Hu. apply HL in Hu as [_ Hu]. now apply opened_at_lt in Hu. }
        intros u k. rewrite in_app_iff, HL. split.
        -- intros [[Hu Ho]|[[= <- <-]|[]]].
           ++ split; [easy|]. now apply opened_keep.
           ++ split; [easy|]. now apply opened_open.
        -- intros [Hu Ho]. destruct (Nat.eq_dec k (List.length tr)) as [->|Hk].
           ++ apply opened_new in Ho as [[= <-] _]. right. now left.
           ++ pose proof (opened_at_lt _ _ _ Ho) as Hl. rewrite app_length in Hl. cbn in Hl.
              apply opened_before in Ho as [Ho _]; [now left|lia].
      * exists L. split; [easy|]. split; [easy|]. intros u k. rewrite HL. split.
        -- intros [Hu Ho]. split; [easy|]. now apply opened_keep.
        -- intros [Hu Ho]. split; [easy|]. destruct (Nat.eq_dec k (List.length tr)) as [->|Hk].
           ++ apply opened_new in Ho as [[= <-] _]. now rewrite Hu in Hnm.
           ++ pose proof (opened_at_lt _ _ _ Ho) as Hl. rewrite app_length in Hl. cbn in Hl.
              now apply opened_before in Ho as [Ho _]; [|lia].
  - rewrite Hn, Hg. exact (h_got _ _ H).
  - rewrite Hg. exact (h_same _ _ H).
  - rewrite Hg. intros u Hu. rewrite !in_app_iff in Hu.
    destruct Hu as [[Hu|[[= <-]|[]]]|[Hu|[[=]|[]]]]; try easy; apply (h_events _ _ H); tauto.
  - rewrite Hn. intros u c Hu. apply Hc in Hu as [Hu| ->]; [now apply (h_contents _ _ H u c)|].
    now apply (h_got _ _ H).
Qed.
Lemma history_close s tr t s' : history s tr -> In t (ts_got s) ->
  ts_reg s' = tag_close (ts_reg s) t -> ts_got s' = ts_got s ->
  (forall u c, contents s' u = Some c -> contents s u = Some c) ->
  history s' (tr ++ [EClose t]).
Proof.
  intros H Ht Hr Hg Hc.
  assert (r_next (ts_reg s') = r_next (ts_reg s)) as Hn by now rewrite Hr.
  assert (forall u k, opened_at (tr ++ [EClose t]) u k <-> opened_at tr u k /\ u <> t) as Ho.
  { intros u k. split.
    - intros Ho. destruct (Nat.eq_dec k (List.length tr)) as [->|Hk].
      + now apply opened_new in Ho as [[=] _].
      + pose proof (opened_at_lt _ _ _ Ho) as Hl. rewrite app_length in Hl. cbn in Hl.
        apply opened_before in Ho as [Ho Hne]; [|lia]. split; [easy|]. now intros ->.
    - intros [Ho Hne]. apply opened_keep; [easy|]. congruence. }
  constructor.
  - intros nm. destruct (h_listed _ _ H nm) as (L & E & HS & HL).
    rewrite Hr. unfold tag_close. rewrite opened_put.
    destruct (str_eqb_spec nm (t_name t)) as [->|Hnm].
    + destruct (remove_listed L t) as (L' & E' & S' & I').
      * intros u k Hu Eu. apply (h_same _ _ H); [|easy|easy]. apply (listed_got _ _ (t_name t) u H).
        rewrite E. now apply (in_map fst) in Hu.
      * intros k k' Hk Hk'. apply HL in Hk as [_ Hk]. apply HL in Hk' as [_ Hk']. eapply opened_once; eauto.
      * easy.
      * exists L'. split; [now rewrite E|]. split; [easy|]. intros u k. rewrite I', HL, Ho. tauto.
    + exists L. split; [easy|]. split; [easy|]. intros u k. rewrite HL, Ho. split; [|tauto].
      intros [Hu Hk]. split; [easy|]. split; [easy|]. intros ->. now rewrite Hu in Hnm.
  - rewrite Hn, Hg. exact (h_got _ _ H).
  - rewrite Hg. exact (h_same _ _ H).
  - rewrite Hg. intros u Hu. rewrite !in_app_iff in Hu.
    destruct Hu as [[Hu|[[=]|[]]]|[Hu|[[= <-]|[]]]]; try easy; apply (h_events _ _ H); tauto.
  - rewrite Hn. intros u c Hu. apply Hc in Hu. now apply (h_contents _ _ H u c).
Qed.
Lemma history_same s tr s' : history s tr -> ts_reg s' = ts_reg s -> ts_got s' = ts_got s ->
  (forall u c, contents s' u = Some c -> contents s u = Some c \/ exists t, In t (ts_got s) /\ t_id u = t_id t) ->
  history s' tr.
Proof.
  intros H Hr Hg Hc. constructor; rewrite ?Hr, ?Hg.
  - exact (h_listed _ _ H). - exact (h_got _ _ H). - exact (h_same _ _ H). - exact (h_events _ _ H).
  - intros u c Hu. apply Hc in Hu as [Hu|(t & Ht & ->)]; [now apply (h_contents _ _ H u c)|now apply (h_got _ _ H)].
Qed.
Lemma history_step env s tr o : g_frames (ts_gen s) <> [] -> history s tr ->
  history (fst (tag_step env s o)) (tr ++ acts (ts_got s) o).
Proof.
  intros Hf H. pose proof (step_reg env s o Hf) as Hs. pose proof (old_contents env s o) as Hc.
  destruct (tag_step env s o) as [s' r]. destruct Hs as [Hgot Hs]. cbn [fst] in *.
  assert (forall u c, contents s' u = Some c ->
    contents s u = Some c \/ exists t kw b, renders s o = Some (t, kw, b) /\ t_id u = t_id t) as Hc'
    by (intros; now apply Hc). clear Hc.
  destruct o; cbn [acts renders] in *; rewrite ?app_nil_r.
  - destruct Hs as (t & -> & Hs). eapply history_found; eauto.
    intros u c Hu. apply Hc' in Hu as [Hu|(? & ? & ? & [=] & _)]. now left.
  - destruct Hs as (t & Hs & Ht). eapply history_found; [exact H|exact Hs| |].
    + rewrite Hgot. destruct r as [[t'|x]|e]; cbn; rewrite ?app_nil_r; [|tauto|tauto]. right. now rewrite (Ht t' eq_refl).
    + intros u c Hu. apply Hc' in Hu as [Hu|(t' & kw' & b' & E & Eu)]; [now left|]. right. rewrite Eu.
      assert (t' = snd (find_tag s (lower nm) false false)) as -> by (destruct b, kw; congruence).
      unfold find_tag. now rewrite Hs.
  - destruct Hs as [Hr Hs]. rewrite Hr, app_nil_r in Hgot.
    destruct (nth_error (ts_got s) i) as [t|] eqn:E; cbn [option_map] in *; rewrite ?app_nil_r.
    + apply nth_error_In in E. eapply history_open; [exact H|exact E|exact Hs|exact Hgot|].
      intros u c Hu. apply Hc' in Hu as [Hu|(t' & kw' & b' & [= <- <- <-] & Eu)]; [now left|now right].
    + eapply history_same; [exact H|exact Hs|exact Hgot|].
      intros u c Hu. apply Hc' in Hu as [Hu|(? & ? & ? & [=] & _)]. now left.
  - destruct Hs as [Hr Hs]. rewrite Hr, app_nil_r in Hgot.
    assert (forall u c, contents s' u = Some c -> contents s u = Some c) as Hc.
    { intros u c Hu. now apply Hc' in Hu as [Hu|(? & ? & ? & [=] & _)]. }
    destruct (nth_error (ts_got s) i) as [t|] eqn:E; rewrite ?app_nil_r.
    + apply nth_error_In in E. eapply history_close; eauto.
    + eapply history_same; eauto.
  - destruct Hs as [Hr Hs]. rewrite Hr, app_nil_r in Hgot.
    eapply history_same; [exact H|exact Hs|exact Hgot|].
    intros u c Hu. apply Hc' in Hu as [Hu|(t' & kw' & b' & E & Eu)]; [now left|]. right.
    destruct (nth_error (ts_got s) i) as [t|] eqn:En; [|easy]. injection E as <- <- <-.
    exists t. split; [|easy]. now apply nth_error_In in En.
  - destruct Hs as [Hr Hs]. rewrite Hr, app_nil_r in Hgot. eapply history_same; [exact H|exact Hs|exact Hgot|].
    intros u c Hu. apply Hc' in Hu as [Hu|(? & ? & ? & [=] & _)]. now left.
  - destruct Hs as [Hr Hs]. rewrite Hr, app_nil_r in Hgot. eapply history_same; [exact H|exact Hs|exact Hgot|].
    intros u c Hu. apply Hc' in Hu as [Hu|(? & ? & ? & [=] & _)]. now left.
  - destruct Hs as [Hr Hs]. rewrite Hr, app_nil_r in Hgot. eapply history_same; [exact H|exact Hs|exact Hgot|].
    intros u c Hu. apply Hc' in Hu as [Hu|(? & ? & ? & [=] & _)]. now left.
Qed.
Lemma new_tags_ok markup settings s : new_tags markup settings = Ok s ->
  gen_init markup settings = Ok (ts_gen s) /\ g_frames (ts_gen s) <> [] /\ ts_got s = [] /\ history s [].
Proof.
  unfold new_tags. destruct (gen_init markup settings) as [g|e] eqn:E; [|easy]. intros [= <-].
  cbn [ts_gen ts_got]. split; [easy|]. split; [|split; [easy|]].
  - pose proof (init_spec markup settings) as H. cbv zeta in H. destruct H as [H _].
    destruct (H g E) as (f & -> & _). easy.
  - constructor; cbn; try easy.
    + intros nm. exists []. split; [easy|]. split; [constructor|]. intros t k. split; [easy|].
      intros [_ (Hk & _)]. now destruct k.
    + intros t [[]|[]].
Qed.
Lemma run_history env s tr os : g_frames (ts_gen s) <> [] -> history s tr ->
  history (tag_run env s os) (tr ++ events env s (ts_got s) os)
  /\ ts_got (tag_run env s os) = ts_got s ++ tags_in (outcomes env s os)
  /\ g_frames (ts_gen (tag_run env s os)) <> [].
Proof.
  revert s tr; induction os as [|o os IH]; intros s tr Hf H; cbn [tag_run events outcomes].
  - cbn. now rewrite !app_nil_r.
  - pose proof (step_reg env s o Hf) as Hs. pose proof (history_step env s tr o Hf H) as Hh.
    pose proof (step_frames env s o Hf) as Hf'.
    destruct (tag_step env s o) as [s' r]. cbn [fst] in *. destruct Hs as [Hgot _].
    destruct (IH s' _ Hf' Hh) as (I1 & I2 & I3). rewrite <- Hgot, app_assoc. split; [easy|]. split; [|easy].
    rewrite I2, Hgot, <- app_assoc. f_equal. destruct r as [[t|x]|e]; reflexivity.
Qed.
(* the last entry of a sorted list *)
Lemma found_spec env s tr nm d p : g_frames (ts_gen s) <> [] -> history s tr ->
  let '(s', r) := tag_step env s (Get nm d p) in
  exists t, r = Ok (inl t)
  /\ (innermost tr nm t
      \/ (none_open tr nm /\ t_name t = nm /\ t_dangle t = d /\ t_paired t = p
          /\ (forall u, In u (ts_got s) -> t_id u <> t_id t) /\ contents s' t = None)).
Proof.
  intros Hf H. cbn [tag_step]. unfold find_tag.
  pose proof (get_tag_cases (ts_reg s) nm d p) as G.
  destruct (get_tag (ts_reg s) nm d p) as [r' t]. exists t. split; [easy|].
  destruct G as (_ & _ & G). destruct (h_listed _ _ H nm) as (L & E & HS & HL).
  destruct G as [(l & El & ->)|(El & -> & _)].
  - left. rewrite E in El.
    destruct L as [|[t' k] L _] using rev_ind; [now destruct l|].
    rewrite map_app in El. apply app_inj_tail in El as [_ Et]. cbn in Et. subst t'.
    assert (In (t, k) (L ++ [(t, k)])) as Hin by (apply in_or_app; right; now left).
    apply HL in Hin as [Hn Ho]. split; [easy|]. exists k. split; [easy|].
    intros t' k' Hn' Ho'. assert (In (t', k') (L ++ [(t, k)])) as Hin by now apply HL.
    apply in_app_or in Hin as [Hin|[[= <- <-]|[]]]; [|easy].
    clear -HS Hin. induction L as [|q L IH]; [easy|]. cbn [app] in HS. inversion_clear HS as [|? ? HS' HF].
    destruct Hin as [->|Hin]; [|now apply IH]. rewrite Forall_forall in HF.
    apply Nat.lt_le_incl. apply (HF (t, k)). apply in_or_app. right. now left.
  - right. cbn. split.
    + intros t k Hn Ho. rewrite E in El. destruct L; [|easy]. now apply (HL t k).
    + split; [easy|]. split; [easy|]. split; [easy|]. split.
      * intros u Hu. pose proof (h_got _ _ H u Hu). lia.
      * unfold contents. cbn. destruct (aget _ _ _) as [c|] eqn:Ec; [|easy].
        pose proof (h_contents _ _ H (TagObj (r_next (ts_reg s)) nm d p) c Ec). cbn in *. lia.
Qed.
Lemma program_found env markup settings s0 os nm d p : new_tags markup settings = Ok s0 ->
  let s := tag_run env s0 os in
  let tr := events env s0 [] os in
  let given := tags_in (outcomes env s0 os) in
  let '(s', r) := tag_step env s (Get nm d p) in
  exists t, r = Ok (inl t)
  /\ (innermost tr nm t
      \/ (none_open tr nm /\ t_name t = nm /\ t_dangle t = d /\ t_paired t = p
          /\ (forall u, In u given -> t_id u <> t_id t) /\ contents s' t = None)).
Proof.
  intros Hs. cbv zeta. apply new_tags_ok in Hs as (_ & Hf & Hg & H).
  destruct (run_history env s0 [] os Hf H) as (I1 & I2 & I3). cbn [app] in I1. rewrite Hg in *. cbn [app] in I2.
  rewrite <- I2. now apply found_spec.
Qed.
Lemma innermost_unique tr nm t u : innermost tr nm t -> innermost tr nm u -> t = u.
Proof.
  intros (Hn & k & Ho & H) (Hn' & k' & Ho' & H').
  pose proof (H u k' Hn' Ho'). pose proof (H' t k Hn Ho). assert (k = k') as <- by lia.
  destruct Ho as (Ho & _), Ho' as (Ho' & _). congruence.
Qed.
(* generator.tag(name) is generator.<name> with the flags of an ordinary tag,
   and with arguments it calls that tag *)
Lemma generate_is_get env s nm kw b :
  (b = None /\ kw = [] -> tag_step env s (Generate nm kw b) = tag_step env s (Get (lower nm) false false))
  /\ (~ (b = None /\ kw = []) ->
      exists s1 t, tag_step env s (Get (lower nm) false false) = (s1, Ok (inl t))
      /\ forall i, nth_error (ts_got s1) i = Some t ->
        let '(s2, r2) := tag_step env s (Generate nm kw b) in
        let '(s3, r3) := tag_step env s1 (Call i kw b) in
        r2 = r3 /\ ts_gen s2 = ts_gen s3 /\ ts_reg s2 = ts_reg s3 /\ ts_contents s2 = ts_contents s3).
Proof.
  cbn [tag_step]. split.
  - intros [-> ->]. rewrite generate_eq. now destruct (find_tag s (lower nm) false false).
  - intros Hn. destruct (find_tag s (lower nm) false false) as [s1 t] eqn:E. exists (give s1 t), t.
    split; [easy|]. intros i Hi. rewrite Hi. rewrite generate_eq, E.
    replace (match b, kw with None, [] => true | _, _ => false end) with false
      by (destruct b, kw; tauto).
    unfold call_tag, start_tag, give. cbn [ts_gen ts_reg ts_contents ts_got].
    destruct (g_frames (ts_gen s1)) as [|top below]; [easy|].
    destruct (opener env (t_name t) kw top b) as [[f body] r]. cbn [ts_gen ts_reg ts_contents]. 
    unfold contents. cbn [ts_contents ts_gen]. easy.
Qed.
Lemma program_held env markup settings s0 os : new_tags markup settings = Ok s0 ->
  ts_got (tag_run env s0 os) = tags_in (outcomes env s0 os)
  /\ (forall t u, In t (tags_in (outcomes env s0 os)) -> In u (tags_in (outcomes env s0 os)) ->
        t_id t = t_id u -> t = u)
  /\ gen_init markup settings = Ok (ts_gen s0)
  /\ g_frames (ts_gen (tag_run env s0 os)) <> [].
Proof.
  intros Hs. apply new_tags_ok in Hs as (Hi & Hf & Hg & H).
  destruct (run_history env s0 [] os Hf H) as (I1 & I2 & I3). rewrite Hg in I2. cbn [app] in I2.
  split; [easy|]. split; [|split; easy]. rewrite <- I2. exact (h_same _ _ I1).
Qed.
Lemma given_contents env (s : tags) top below t kw body : g_frames (ts_gen s) = top :: below ->
  plain_ctx top ->
  (forall k, In k ("contents" :: control_keys)%string -> ~ In (lit k) (keys (unicode_keyed kw))) ->
  ~ In (lit "contents") (keys kw) ->
  left_contents env top t (kwargs kw body) None body.
Proof.
  intros _ Hp Hk Hc. unfold left_contents.
  assert (get "contents" kw = None) as En by now apply (aget_None _ str_eqb_eq).
  assert (del "contents" (kwargs kw body) = kw) as Ed.
  { destruct body as [|x body]; unfold kwargs, del; [now apply adel_absent|].
    change (adel str_eqb (lit "contents") ((lit "contents", MText (x :: body)) :: kw)) with (adel str_eqb (lit "contents") kw).
    now apply adel_absent. }
  rewrite Ed, transform_plain; [|easy|].
  2:{ intros k Hin. apply (aget_None _ str_eqb_eq). apply Hk. now right. }
  destruct body as [|x body]; unfold kwargs, get_or.
  - rewrite En. exists top, (unicode_keyed kw), MNone, false. split; [easy|]. split; [easy|]. now right.
  - change (get "contents" ((lit "contents", MText (x :: body)) :: kw)) with (Some (MText (x :: body))).
    exists top, (unicode_keyed kw), (MText (x :: body)), true. split; [easy|]. split; [easy|]. now left.
Qed.
