From Verif Require Import PyBase PyBaseFacts ModelScalar SpecScalar ProofScalar ProofScalar2.

(* ---------------- temporal ---------------- *)
Lemma ascii_field_field w s n : ascii_field w s n -> field w s n.
Proof. now intros []. Qed.
Lemma date_form_mono s d : date_form ascii_field s d -> date_form field s d.
Proof. intros []. constructor; now apply ascii_field_field. Qed.
Lemma time_form_mono s d : time_form ascii_field s d -> time_form field s d.
Proof. intros []. constructor; now apply ascii_field_field. Qed.
Lemma temporal_mono t s v : temporal_text ascii_field t s v -> temporal_text field t s v.
Proof. intros []; constructor; try easy; try (now apply date_form_mono); now apply time_form_mono. Qed.
Lemma date_text_form d : real_date d -> date_form ascii_field (date_text d) d.
Proof.
  intros (Hy & n & Hm & Hd). pose proof (month_length_range _ _ _ Hm).
  assert (n <= 31)%N by (destruct Hm; lia).
  destruct d as [y m d]; cbn [d_y d_m d_d] in *. unfold date_text. cbn [d_y d_m d_d].
  apply df; apply dec_pad_field; simpl; lia.
Qed.
Lemma time_text_form t : real_time t -> time_form ascii_field (time_text t) (whole t).
Proof.
  intros (H1 & H2 & H3 & H4). destruct t as [h m s u]; cbn [t_h t_m t_s t_us] in *.
  unfold time_text, whole. cbn [t_h t_m t_s t_us].
  apply tf; apply dec_pad_field; simpl; lia.
Qed.
Lemma parse_real t s v : parse t s = Ok v -> real_val v /\ temporal_text ascii_field t (serialize (KTemporal t true) v) v /\ v <> VNone.
Proof.
  intros H. apply parse_ok in H as (s0 & r & _ & _ & H).
  destruct H as [s' d Hf Hr|s' x Hf Hr|s1 s2 d x Hf Hg Hr Hx]; (split; [easy|]; split; [|easy]); cbn [serialize].
  - constructor; [now apply date_text_form|easy].
  - constructor; [|easy]. replace x with (whole x) at 2 by (destruct Hf; easy). now apply time_text_form.
  - constructor; try easy; [now apply date_text_form|].
    replace x with (whole x) at 2 by (destruct Hg; easy). now apply time_text_form.
Qed.
Lemma clean_no_nl s0 r s : strip s = s0 ++ r -> optnl r -> r = [].
Proof.
  intros H [->| ->]; [easy|]. destruct (outer_clean_strip s) as [_ Hc].
  specialize (Hc _ _ H). discriminate.
Qed.
Lemma looked_parse t (st : bool) s v : parse t (if st then strip s else s) = Ok v <->
  exists s0, looked_at st s s0 /\ temporal_text field t s0 v.
Proof.
  rewrite parse_ok. destruct st; unfold looked_at.
  - split.
    + intros (s0 & r & H & Hr & Ht). pose proof (clean_no_nl _ _ _ H Hr) as ->. rewrite app_nil_r in H.
      exists s0. split; [now apply trimmed_eq|easy].
    + intros (s0 & H & Ht). apply trimmed_eq in H. exists s0, []. rewrite app_nil_r.
      split; [now symmetry|]. split; [now left|easy].
  - split.
    + intros (s0 & r & H & Hr & Ht). exists s0. split; [|easy]. destruct Hr as [->| ->]; [left|right]; [|easy].
      now rewrite app_nil_r in H.
    + intros (s0 & [H|H] & Ht); [exists s0, []|exists s0, [10%N]]; (split; [|split; [|easy]]).
      * now rewrite app_nil_r.
      * now left.
      * easy.
      * now right.
Qed.
Lemma adapt_temporal_text t st s : adapt (KTemporal t st) (VText s) = parse t (if st then strip s else s).
Proof. destruct t; reflexivity. Qed.
Lemma serialize_strip_irr t st st' v : serialize (KTemporal t st) v = serialize (KTemporal t st') v.
Proof. reflexivity. Qed.
Lemma temporal_text_not_none f t s v : temporal_text f t s v -> is_none v = false.
Proof. now intros []. Qed.
Lemma temporal_set_text t st el s :
  let '(el', r) := scalar_set (KTemporal t st) el (VText s) in
  exists b, r = Ok b
  /\ (b = true <-> exists s0 v, looked_at st s s0 /\ temporal_text field t s0 v)
  /\ (forall s0 v, looked_at st s s0 -> temporal_text field t s0 v ->
        s_value el' = v /\ temporal_text ascii_field t (s_u el') v)
  /\ (b = false -> s_value el' = VNone /\ s_u el' = s).
Proof.
  unfold scalar_set. rewrite adapt_temporal_text.
  destruct (parse t (if st then strip s else s)) as [v|e] eqn:E.
  - exists true. split; [easy|]. apply parse_real in E as Hr. destruct Hr as (Hr & Ht & Hn).
    apply looked_parse in E as H. destruct H as (s0 & H1 & H2).
    split; [split; [intros _; eauto|easy]|]. split; [|easy].
    intros s1 v1 G1 G2. assert (parse t (if st then strip s else s) = Ok v1) as E1 by (apply looked_parse; eauto).
    rewrite E in E1. injection E1 as <-. cbn [s_value s_u]. split; [easy|].
    rewrite (temporal_text_not_none _ _ _ _ Ht). exact Ht.
  - assert (~ exists s0 v, looked_at st s s0 /\ temporal_text field t s0 v) as Hno.
    { intros (s0 & v & H). assert (parse t (if st then strip s else s) = Ok v) by (apply looked_parse; eauto). congruence. }
    apply parse_err in E as ->. exists false. split; [easy|]. split; [split; [easy|intros H; now destruct Hno]|].
    split; [|easy]. intros s0 v H1 H2. destruct Hno; eauto.
Qed.
Lemma has_type_iff t v : has_type t v = true <-> instance_of t v.
Proof.
  destruct t, v; simpl; split; try easy; try (intros _; eauto; fail).
  all: try (intros [(? & ?)|(? & ? & ?)]; easy).
  all: try (intros (? & ?); easy). all: try (intros (? & ? & ?); easy).
Qed.
Lemma shown_serialize t st v : real_val v -> instance_of t v -> shown t v (serialize (KTemporal t st) v).
Proof.
  intros Hr H. destruct t.
  - destruct H as [(d & ->)|(d & x & ->)]; cbn [serialize].
    + apply sh_date; [easy|]. now apply date_text_form.
    + apply sh_date_dt; [easy|]. destruct Hr. now apply date_text_form.
  - destruct H as (x & ->). apply sh_time; [easy|]. now apply time_text_form.
  - destruct H as (d & x & ->). destruct Hr. apply sh_dt; [easy| |]; [now apply date_text_form|now apply time_text_form].
Qed.
Lemma temporal_set_native t st el v : real_val v -> is_text v = false -> v <> VNone ->
  (instance_of t v -> exists u, scalar_set (KTemporal t st) el v = (Scalar (Some v) v u, Ok true) /\ shown t v u)
  /\ (~ instance_of t v -> scalar_set (KTemporal t st) el v = (Scalar (Some v) VNone (vtext v), Ok false)).
Proof.
  intros Hr Ht Hn. split.
  - intros H. exists (serialize (KTemporal t st) v). split; [|now apply shown_serialize].
    unfold scalar_set. assert (adapt (KTemporal t st) v = Ok v) as ->.
    { apply has_type_iff in H. destruct v; try easy; cbn [adapt]; now rewrite H. }
    destruct v; easy.
  - intros H. unfold scalar_set. assert (adapt (KTemporal t st) v = Err AdaptErr) as ->.
    { rewrite <- has_type_iff in H. apply not_true_iff_false in H. destruct v; try easy; cbn [adapt]; now rewrite H. }
    destruct v; easy.
Qed.
Lemma temporal_ascii_clean t s v : temporal_text ascii_field t s v -> strip s = s.
Proof.
  intros H.
  assert (forall w x n, ascii_field (S w) x n -> exists c r, x = c :: r /\ is_space c = false) as Gh.
  { intros w x n [[Hl _] Hf]. destruct x as [|c r]; [easy|]. exists c, r. split; [easy|].
    inversion Hf; subst. unfold is_space. lia. }
  assert (forall w x n, ascii_field (S w) x n -> exists c r, x = r ++ [c] /\ is_space c = false) as Gl.
  { intros w x n [[Hl _] Hf]. destruct (@exists_last _ x) as (r & c & ->); [now intros ->|].
    exists c, r. split; [easy|]. apply Forall_app in Hf as [_ Hf]. inversion Hf; subst. unfold is_space. lia. }
  assert (forall x c r a, x = c :: r -> is_space c = false -> headp is_space (x ++ a) = false) as Hh.
  { intros x c r a -> Hc. exact Hc. }
  assert (forall x c r a, x = r ++ [c] -> is_space c = false -> lastp is_space (a ++ x) = false) as Hl.
  { intros x c r a -> Hc. apply lastp_false. intros c' r' E. rewrite app_assoc in E.
    apply app_inj_tail in E as [_ <-]. exact Hc. }
  destruct H as [s' d Hf Hr|s' x Hf Hr|s1 s2 d x Hf Hg Hr Hx].
  - destruct Hf as [y m dd a b c Ha Hb Hc]. destruct (Gh _ _ _ Ha) as (? & ? & ? & ?).
    destruct (Gl _ _ _ Hc) as (? & ? & ? & ?). apply strip_id; [eapply Hh; eauto|].
    rewrite !app_assoc. eapply Hl; eauto.
  - destruct Hf as [h m dd a b c Ha Hb Hc]. destruct (Gh _ _ _ Ha) as (? & ? & ? & ?).
    destruct (Gl _ _ _ Hc) as (? & ? & ? & ?). apply strip_id; [eapply Hh; eauto|].
    rewrite !app_assoc. eapply Hl; eauto.
  - destruct Hf as [y m dd a b c Ha Hb Hc]. destruct Hg as [h mi se a' b' c' Ha' Hb' Hc'].
    destruct (Gh _ _ _ Ha) as (? & ? & ? & ?).
    destruct (Gl _ _ _ Hc') as (? & ? & ? & ?). apply strip_id; [rewrite <- app_assoc; eapply Hh; eauto|].
    rewrite !app_assoc. eapply Hl; eauto.
Qed.

(* ---------------- the set contract ---------------- *)
Lemma set_contract k st v :
  let '(st', r) := scalar_set k st v in
  s_raw st' = Some v
  /\ match adapt k v with
     | Ok n => r = Ok true /\ s_value st' = n /\ s_u st' = (match n with VNone => [] | _ => serialize k n end)
     | Err AdaptErr => r = Ok false /\ s_value st' = VNone /\ s_u st' = (match v with VNone => [] | _ => vtext v end)
     | Err e => r = Err e /\ s_value st' = s_value st /\ s_u st' = s_u st
     end.
Proof.
  unfold scalar_set. destruct (adapt k v) as [n|[]]; cbn; try easy.
  - destruct n; easy.
  - destruct v; easy.
Qed.
Lemma adaptation_ok {A} b (r : res A) x : adaptation b r = Ok x <-> r = Ok x.
Proof. destruct r as [|[]], b; simpl; split; congruence. Qed.
Lemma adapt_tame k v e : tame k v -> adapt k v = Err e -> e = AdaptErr.
Proof.
  induction k as [st|nt sg|tr ts fa fs|t st|c IH valid|c IH vals|own]; cbn [tame].
  - intros _. destruct v; easy.
  - intros [H1 H2] H. cbn [adapt] in H. destruct v as [|b|z|s|d|d x|x|o]; try easy;
    (match type of H with context [nt_conv nt ?w] =>
           pose proof (H1 w) as G; destruct (nt_conv nt w) as [n|f] eqn:En end);
    try (cbn [adaptation bind] in H; destruct sg; [easy|]; destruct H2 as [H2|H2]; [easy|];
              destruct (H2 _ _ En) as [b' Eb]; rewrite Eb in H; destruct b'; cbn in H; congruence);
    destruct (G f) as [->|[->|[->| ->]]]; try reflexivity; eauto; cbn in H; congruence.
  - intros _. destruct v; cbn [adapt]; try easy. destruct (_ || _); [easy|]. destruct (_ || _); congruence.
  - intros _. destruct (is_text v) eqn:Et.
    + destruct v; try easy. rewrite adapt_temporal_text. apply parse_err.
    + destruct v; cbn [adapt]; try easy; destruct (has_type t _); congruence.
  - intros [H1 H2] H. cbn [adapt] in H. destruct (adapt c v) as [n|f]; cbn [bind] in H.
    + destruct (H2 n) as [b Eb]. rewrite Eb in H. cbn in H. destruct b; congruence.
    + injection H as <-. auto.
  - intros H1 H. cbn [adapt] in H. destruct (adapt c v) as [n|f]; cbn [bind] in H.
    + destruct (py_in n vals); congruence.
    + injection H as <-. auto.
  - intros H. exact (H e).
Qed.
Lemma set_never_raises k st v : tame k v -> exists st' b, scalar_set k st v = (st', Ok b).
Proof.
  intros H. pose proof (fun e => adapt_tame k v e H) as G. unfold scalar_set.
  destruct (adapt k v) as [n|e]; [eauto|]. rewrite (G e eq_refl). eauto.
Qed.
(* a class with its own adapt: what that returns is the value *)
Lemma custom_set own st v :
  (forall n, own v = Ok n ->
     scalar_set (KCustom own) st v = (Scalar (Some v) n (match n with VNone => [] | _ => vtext n end), Ok true))
  /\ (own v = Err AdaptErr ->
     scalar_set (KCustom own) st v = (Scalar (Some v) VNone (match v with VNone => [] | _ => vtext v end), Ok false))
  /\ (forall e, own v = Err e -> e <> AdaptErr ->
     scalar_set (KCustom own) st v = (Scalar (Some v) (s_value st) (s_u st), Err e)).
Proof.
  unfold scalar_set. cbn [adapt serialize]. split; [|split].
  - intros n ->. destruct n; reflexivity.
  - intros ->. destruct v; reflexivity.
  - intros e -> H. destruct e; easy.
Qed.
Lemma abstract_set st v : scalar_set KAbstract st v = (Scalar (Some v) (s_value st) (s_u st), Err NotImplErr).
Proof. reflexivity. Qed.
Lemma set_independent k st1 st2 v :
  snd (scalar_set k st1 v) = snd (scalar_set k st2 v)
  /\ (forall b, snd (scalar_set k st1 v) = Ok b -> scalar_set k st1 v = scalar_set k st2 v).
Proof.
  unfold scalar_set. destruct (adapt k v) as [n|[]]; cbn; split; try easy.
Qed.

(* ---------------- round trips ---------------- *)
Lemma adapt_real k v n : real_val v -> adapt k v = Ok n ->
  match k with KTemporal _ _ => real_val n | _ => True end.
Proof.
  destruct k; try easy. intros Hr H. destruct (is_text v) eqn:Et.
  - destruct v; try easy. rewrite adapt_temporal_text in H. now apply parse_real in H.
  - destruct v; cbn [adapt] in H; try easy; try (destruct (has_type t _); try easy; injection H as <-; easy).
    injection H as <-. easy.
Qed.
Lemma roundtrip_adapt k v n : adapt k v = Ok n -> n <> VNone -> real_val v -> lossless k n -> sound_texts k ->
  adapt k (VText (serialize k n)) = Ok n.
Proof.
  induction k as [st|nt sg|tr ts fa fs|t st|c IH valid|c IH vals|own]; intros H Hn Hr Hl Hs.
  - cbn [adapt serialize vtext] in *. destruct v; injection H as <-; try easy;
      cbn [vtext]; destruct st; rewrite ?strip_idem; easy.
  - cbn [adapt serialize] in *. destruct Hl as [H1 H2]. rewrite H1, H2. cbn [adaptation bind].
    destruct sg; [easy|].
    assert (forall w, bind (adaptation true (nt_conv nt w))
        (fun native => bind (nt_neg nt native) (fun neg => if neg then Err AdaptErr else Ok native)) = Ok n ->
       bind (nt_neg nt n) (fun neg => if neg then Err AdaptErr else Ok n) = Ok n) as G.
    { intros w Hw. destruct (adaptation true (nt_conv nt w)) as [m|]; [|easy]. cbn [bind] in Hw.
      destruct (nt_neg nt m) as [[]|] eqn:Em; try easy. cbn [bind] in Hw. injection Hw as ->. now rewrite Em. }
    destruct v; try (eapply G; exact H). now injection H as <-.
  - assert (exists b, n = VBool b) as [b ->].
    { cbn [adapt] in H. destruct v; try (injection H as <-; eauto).
      destruct (_ || _); [injection H as <-; eauto|]. destruct (_ || _); [injection H as <-; eauto|easy]. }
    cbn [serialize vtruth sound_texts] in *. destruct Hs as [Hs1 Hs2]. destruct b; cbn [adapt].
    + now rewrite str_eqb_refl.
    + assert (str_eqb fa tr = false) as -> by now apply str_eqb_neq.
      assert (memb str_eqb fa ts = false) as ->.
      { apply not_true_iff_false. rewrite memb_In; [exact Hs2|]. intros. apply str_eqb_eq. }
      rewrite str_eqb_refl. easy.
  - pose proof (adapt_real _ _ _ Hr H) as Hrn. rewrite adapt_temporal_text.
    assert (temporal_text ascii_field t (serialize (KTemporal t st) n) n) as Ht.
    { cbn [lossless] in Hl. destruct t.
      - destruct Hl as [d ->]. constructor; [now apply date_text_form|easy].
      - destruct Hl as (x & -> & Hx). constructor; [|easy].
        replace x with (whole x) at 2 by (destruct x; cbn in Hx; subst; easy). now apply time_text_form.
      - destruct Hl as (d & x & -> & Hx). destruct Hrn. constructor; try easy; [now apply date_text_form|].
        replace x with (whole x) at 2 by (destruct x; cbn in Hx; subst; easy). now apply time_text_form. }
    apply looked_parse. exists (serialize (KTemporal t st) n). split; [|now apply temporal_mono].
    destruct st; cbn; [|now left]. apply trimmed_eq. symmetry. eapply temporal_ascii_clean; eauto.
  - cbn [adapt serialize lossless sound_texts] in *. destruct (adapt c v) as [m|] eqn:E; [|easy]. cbn [bind] in H.
    destruct (valid m) as [[]|] eqn:Em; try easy. cbn [bind] in H. injection H as ->.
    rewrite (IH eq_refl Hn Hr Hl Hs). cbn [bind]. now rewrite Em.
  - cbn [adapt serialize lossless sound_texts] in *. destruct (adapt c v) as [m|] eqn:E; [|easy]. cbn [bind] in H.
    destruct (py_in m vals) eqn:Em; try easy. injection H as ->.
    rewrite (IH eq_refl Hn Hr Hl Hs). cbn [bind]. now rewrite Em.
  - exact Hl.
Qed.
Lemma roundtrip k st v st' st2 :
  scalar_set k st v = (st', Ok true) -> s_value st' <> VNone -> real_val v ->
  lossless k (s_value st') -> sound_texts k ->
  scalar_set k st2 (VText (s_u st')) = (Scalar (Some (VText (s_u st'))) (s_value st') (s_u st'), Ok true).
Proof.
  intros H Hn Hr Hl Hs. pose proof (set_contract k st v) as C. rewrite H in C. destruct C as [_ C].
  destruct (adapt k v) as [n|[]] eqn:E; try (destruct C as [C _]; discriminate).
  destruct C as (_ & Cv & Cu). rewrite Cv in *.
  assert (s_u st' = serialize k n) as Hu by (rewrite Cu; destruct n; easy).
  rewrite Hu. unfold scalar_set. rewrite (roundtrip_adapt k v n) by easy. destruct n; easy.
Qed.
Lemma exact_lossless k v n : exact_type k -> adapt k v = Ok n -> n <> VNone -> lossless k n.
Proof.
  induction k as [st|nt sg|tr ts fa fs|t st|c IH valid|c IH vals|own]; intros Hx H Hn; cbn [exact_type lossless] in *; try easy.
  - subst nt. pose proof (proj2 (integer_history sg [v] blank (fun z (E : VNone = VInt z) => ltac:(discriminate)) (or_intror eq_refl))) as G.
    cbn [scalar_sets] in G. unfold scalar_set in G. unfold KInteger in G. rewrite H in G. cbn [fst s_value] in G.
    destruct G as [[z ->]|G]; [|easy]. split; [easy|]. cbn [nt_conv int_type nt_format int_conv].
    rewrite py_int_strip, py_int_dec_z. easy.
  - cbn [adapt] in H. destruct (adapt c v) as [m|] eqn:E; [|easy]. cbn [bind] in H.
    destruct (valid m) as [[]|]; try easy. injection H as ->. now apply IH.
  - cbn [adapt] in H. destruct (adapt c v) as [m|] eqn:E; [|easy]. cbn [bind] in H.
    destruct (py_in m vals); try easy. injection H as ->. now apply IH.
Qed.
Lemma roundtrip_exact k st v st' st2 :
  scalar_set k st v = (st', Ok true) -> s_value st' <> VNone -> real_val v -> exact_type k -> sound_texts k ->
  scalar_set k st2 (VText (s_u st')) = (Scalar (Some (VText (s_u st'))) (s_value st') (s_u st'), Ok true).
Proof.
  intros H Hn Hr Hx Hs. apply (roundtrip k st v); try easy.
  pose proof (set_contract k st v) as C. rewrite H in C. destruct C as [_ C].
  destruct (adapt k v) as [n|[]] eqn:E; try (destruct C as [C _]; discriminate).
  destruct C as (_ & -> & _). eapply exact_lossless; eauto.
  pose proof (set_contract k st v) as C. rewrite H, E in C. destruct C as (_ & _ & C & _). congruence.
Qed.

(* ---------------- truth and equality ---------------- *)
Lemma vtruth_iff v : vtruth v = true <-> truthy v.
Proof.
  destruct v as [|[]|z|s|d|d t|t|o]; cbn [vtruth]; split; try easy; try (intros _; constructor; fail).
  - rewrite negb_true_iff, Z.eqb_neq. now constructor.
  - inversion 1; subst. now rewrite negb_true_iff, Z.eqb_neq.
  - destruct s; [easy|]. now constructor.
  - inversion 1; subst. now destruct s.
  - rewrite negb_true_iff. intros H. constructor. intros ->. discriminate.
  - inversion 1; subst. rewrite negb_true_iff. apply not_true_iff_false. rewrite !andb_true_iff, !N.eqb_eq.
    destruct t; cbn. intros [[[-> ->] ->] ->]. easy.
  - now constructor.
  - now inversion 1; subst.
Qed.
Lemma py_eq_iff a b : py_eq a b = true <-> equal_values a b.
Proof.
  assert (forall x, py_eq x x = true) as Hrefl.
  { intros x. destruct x as [|[]|z|s|d|d t|t|o]; unfold py_eq; simpl; try easy.
    - apply Z.eqb_refl. - apply str_eqb_refl.
    - unfold date_eqb. now rewrite !N.eqb_refl.
    - unfold date_eqb, time_eqb. now rewrite !N.eqb_refl.
    - unfold time_eqb. now rewrite !N.eqb_refl.
    - apply Nat.eqb_refl. }
  assert (forall x y, date_eqb x y = true -> x = y) as Hd.
  { intros [] []. unfold date_eqb. cbn. rewrite !andb_true_iff, !N.eqb_eq. intros [[-> ->] ->]. easy. }
  assert (forall x y, time_eqb x y = true -> x = y) as Ht.
  { intros [] []. unfold time_eqb. cbn. rewrite !andb_true_iff, !N.eqb_eq. intros [[[-> ->] ->] ->]. easy. }
  split.
  - unfold py_eq. destruct (vnum a) as [x|] eqn:Ea, (vnum b) as [y|] eqn:Eb; try easy.
    + rewrite Z.eqb_eq. intros ->. econstructor 2; eauto.
    + destruct a, b; try easy; intros H; try (constructor; fail).
      * apply str_eqb_eq in H as ->. constructor.
      * apply Hd in H as ->. constructor.
      * apply andb_true_iff in H as [H1 H2]. apply Hd in H1 as ->. apply Ht in H2 as ->. constructor.
      * apply Ht in H as ->. constructor.
      * apply Nat.eqb_eq in H. now constructor.
  - intros [v|x y z Hx Hy|x y H]; [apply Hrefl| |].
    + unfold py_eq. rewrite Hx, Hy. apply Z.eqb_refl.
    + cbn. now apply Nat.eqb_eq.
Qed.
Lemma py_in_iff v l : py_in v l = true <-> exists x, In x l /\ equal_values v x.
Proof.
  unfold py_in. rewrite existsb_exists. split; intros (x & H1 & H2); exists x; (split; [easy|]); now apply py_eq_iff.
Qed.

(* ---------------- Boolean ---------------- *)
Lemma boolean_text tr ts fa fs st s :
  let '(st', r) := scalar_set (KBoolean tr ts fa fs) st (VText s) in
  (s = tr \/ In s ts -> r = Ok true /\ s_value st' = VBool true /\ s_u st' = tr)
  /\ (~ (s = tr \/ In s ts) -> s = fa \/ In s fs -> r = Ok true /\ s_value st' = VBool false /\ s_u st' = fa)
  /\ (~ (s = tr \/ In s ts) -> ~ (s = fa \/ In s fs) -> r = Ok false /\ s_value st' = VNone /\ s_u st' = s).
Proof.
  unfold scalar_set. cbn [adapt].
  assert (forall x l, str_eqb s x || memb str_eqb s l = true <-> s = x \/ In s l) as G.
  { intros x l. rewrite orb_true_iff, str_eqb_eq, memb_In; [easy|]. intros; apply str_eqb_eq. }
  destruct (str_eqb s tr || memb str_eqb s ts) eqn:E1.
  - apply G in E1. cbn. split; [easy|]. split; intros; tauto.
  - apply not_true_iff_false in E1. rewrite G in E1.
    destruct (str_eqb s fa || memb str_eqb s fs) eqn:E2.
    + apply G in E2. cbn. split; [tauto|]. split; [easy|]. intros; tauto.
    + apply not_true_iff_false in E2. rewrite G in E2. cbn. split; [tauto|]. split; [tauto|]. easy.
Qed.
Lemma boolean_other tr ts fa fs st v : is_text v = false ->
  (truthy v -> scalar_set (KBoolean tr ts fa fs) st v = (Scalar (Some v) (VBool true) tr, Ok true))
  /\ (~ truthy v -> scalar_set (KBoolean tr ts fa fs) st v = (Scalar (Some v) (VBool false) fa, Ok true)).
Proof.
  intros Ht. assert (scalar_set (KBoolean tr ts fa fs) st v = (Scalar (Some v) (VBool (vtruth v)) (if vtruth v then tr else fa), Ok true)) as ->
    by (destruct v; easy).
  rewrite <- vtruth_iff. destruct (vtruth v); split; intros H; try easy.
Qed.

(* ---------------- Constrained, Enum ---------------- *)
Lemma constrained_history c valid vs st :
  s_value st = VNone \/ valid (s_value st) = Ok true ->
  s_value (scalar_sets (KConstrained c valid) st vs) = VNone
  \/ valid (s_value (scalar_sets (KConstrained c valid) st vs)) = Ok true.
Proof.
  revert st; induction vs as [|v vs IH]; intros st H; [easy|]. cbn [scalar_sets]. apply IH.
  unfold scalar_set. cbn [adapt]. destruct (adapt c v) as [n|[]]; cbn [bind fst s_value]; auto.
  destruct (valid n) as [[]|[]] eqn:E; cbn [bind fst s_value]; auto.
Qed.
Lemma enum_history c vals vs st :
  s_value st = VNone \/ (exists x, In x vals /\ equal_values (s_value st) x) ->
  s_value (scalar_sets (KEnum c vals) st vs) = VNone
  \/ (exists x, In x vals /\ equal_values (s_value (scalar_sets (KEnum c vals) st vs)) x).
Proof.
  revert st; induction vs as [|v vs IH]; intros st H; [easy|]. cbn [scalar_sets]. apply IH.
  unfold scalar_set. cbn [adapt]. destruct (adapt c v) as [n|[]]; cbn [bind fst s_value]; auto.
  destruct (py_in n vals) eqn:E; cbn [fst s_value]; auto. right. now apply py_in_iff.
Qed.
Lemma constrained_accept c valid st v n :
  snd (scalar_set c blank v) = Ok true -> s_value (fst (scalar_set c blank v)) = n ->
  (valid n = Ok true -> scalar_set (KConstrained c valid) st v = (fst (scalar_set c blank v), Ok true))
  /\ (valid n = Ok false -> scalar_set (KConstrained c valid) st v
        = (Scalar (Some v) VNone (match v with VNone => [] | _ => vtext v end), Ok false))
  /\ (forall e, valid n = Err e -> e <> AdaptErr -> snd (scalar_set (KConstrained c valid) st v) = Err e).
Proof.
  unfold scalar_set. cbn [adapt]. destruct (adapt c v) as [m|[]]; cbn [fst snd s_value bind]; try easy.
  intros _ <-. split; [|split].
  - intros ->. cbn [bind]. easy.
  - intros ->. cbn [bind]. destruct v; easy.
  - intros e ->. destruct e; easy.
Qed.
Lemma constrained_refuse c valid st v :
  snd (scalar_set c blank v) = Ok false ->
  scalar_set (KConstrained c valid) st v = (fst (scalar_set c blank v), Ok false).
Proof. unfold scalar_set. cbn [adapt]. destruct (adapt c v) as [m|[]]; cbn [fst snd s_value bind]; easy. Qed.
Lemma enum_accept c vals st v n :
  snd (scalar_set c blank v) = Ok true -> s_value (fst (scalar_set c blank v)) = n ->
  ((exists x, In x vals /\ equal_values n x) -> scalar_set (KEnum c vals) st v = (fst (scalar_set c blank v), Ok true))
  /\ (~ (exists x, In x vals /\ equal_values n x) -> scalar_set (KEnum c vals) st v
        = (Scalar (Some v) VNone (match v with VNone => [] | _ => vtext v end), Ok false)).
Proof.
  unfold scalar_set. cbn [adapt]. destruct (adapt c v) as [m|[]]; cbn [fst snd s_value bind]; try easy.
  intros _ <-. rewrite <- py_in_iff. split.
  - intros ->. easy.
  - intros H. apply not_true_iff_false in H. rewrite H. destruct v; easy.
Qed.
Lemma enum_refuse c vals st v :
  snd (scalar_set c blank v) = Ok false ->
  scalar_set (KEnum c vals) st v = (fst (scalar_set c blank v), Ok false).
Proof. unfold scalar_set. cbn [adapt]. destruct (adapt c v) as [m|[]]; cbn [fst snd s_value bind]; easy. Qed.
Lemma enum_string strip_ vals st s : In (VText s) vals -> (strip_ = true -> outer_clean s) ->
  scalar_set (KEnum (KString strip_) vals) st (VText s) = (Scalar (Some (VText s)) (VText s) s, Ok true).
Proof.
  intros Hin Hc. assert ((if strip_ then strip s else s) = s) as Es.
  { destruct strip_; [|easy]. destruct (Hc eq_refl) as [H1 H2].
    apply strip_id; [now apply headp_false|now apply lastp_false]. }
  unfold scalar_set. cbn [adapt bind vtext]. rewrite Es.
  assert (py_in (VText s) vals = true) as ->. { apply py_in_iff. exists (VText s). split; [easy|constructor]. }
  cbn [is_none serialize vtext]. now rewrite Es.
Qed.

(* ---------------- String ---------------- *)
Lemma string_set st v : v <> VNone ->
  (exists t, trimmed (vtext v) t /\ scalar_set (KString true) st v = (Scalar (Some v) (VText t) t, Ok true))
  /\ scalar_set (KString false) st v = (Scalar (Some v) (VText (vtext v)) (vtext v), Ok true).
Proof.
  intros Hn. split.
  - exists (strip (vtext v)). split; [apply trimmed_strip|].
    destruct v; try easy; unfold scalar_set; cbn [adapt serialize is_none vtext]; now rewrite strip_idem.
  - destruct v; easy.
Qed.
Lemma string_none b st : scalar_set (KString b) st VNone = (Scalar (Some VNone) VNone [], Ok true).
Proof. reflexivity. Qed.
Lemma trimmed_fun s t t' : trimmed s t -> trimmed s t' -> t = t'.
Proof. rewrite !trimmed_eq. congruence. Qed.
Lemma trimmed_idem s t : trimmed s t -> trimmed t t.
Proof. rewrite !trimmed_eq. intros ->. symmetry. apply strip_idem. Qed.

(* ---------------- flat data, defaults, truth, emptiness ---------------- *)
Lemma first_key_some nm pairs v : first_key (Some nm) pairs = Some v <-> first_pair nm pairs v.
Proof.
  split.
  - induction pairs as [|[k w] ps IH]; cbn [first_key name_eqb]; [easy|].
    destruct (str_eqb k nm) eqn:E.
    + intros [= ->]. apply str_eqb_eq in E as ->. apply (fp nm []). easy.
    + intros H. destruct (IH H) as [before v' after Hb]. apply (fp nm ((k, w) :: before)).
      simpl. intros [->|Hin]; [now rewrite str_eqb_refl in E|easy].
  - intros [before v' after Hb]. induction before as [|[k w] b IH]; cbn [first_key app name_eqb].
    + now rewrite str_eqb_refl.
    + assert (str_eqb k nm = false) as ->. { apply str_eqb_neq. intros ->. apply Hb. now left. }
      apply IH. intros H. apply Hb. now right.
Qed.
Lemma first_key_none nm pairs : first_key nm pairs = None <-> (forall n, nm = Some n -> ~ In n (map fst pairs)).
Proof.
  induction pairs as [|[k w] ps IH]; cbn [first_key]; [easy|].
  destruct nm as [n|]; cbn [name_eqb].
  - destruct (str_eqb k n) eqn:E.
    + split; [easy|]. intros H. apply str_eqb_eq in E as ->. destruct (H n eq_refl). now left.
    + rewrite IH. split; intros H m [= <-].
      * simpl. intros [->|Hin]; [now rewrite str_eqb_refl in E|]. now apply (H n).
      * intros Hin. apply (H n eq_refl). now right.
  - rewrite IH. split; intros; easy.
Qed.
Lemma flat_some k nm st pairs v : first_pair nm pairs v ->
  let '(st1, r1) := scalar_set_flat k (Some nm) st pairs in
  let '(st2, r2) := scalar_set k st v in
  st1 = st2 /\ r1 = match r2 with Ok _ => Ok tt | Err e => Err e end.
Proof.
  intros H. apply first_key_some in H. unfold scalar_set_flat. rewrite H.
  unfold scalar_set. destruct (adapt k v) as [n|[]]; easy.
Qed.
Lemma flat_none k nm st pairs : (forall n, nm = Some n -> ~ In n (map fst pairs)) ->
  scalar_set_flat k nm st pairs = (Scalar None (s_value st) (s_u st), Ok tt).
Proof. intros H. apply first_key_none in H. unfold scalar_set_flat. now rewrite H. Qed.
Lemma default_spec k st d :
  scalar_set_default k None st = (st, Ok tt)
  /\ let '(st1, r1) := scalar_set_default k (Some d) st in
     let '(st2, r2) := scalar_set k st d in
     st1 = st2 /\ r1 = match r2 with Ok _ => Ok tt | Err e => Err e end.
Proof. split; [easy|]. unfold scalar_set_default. destruct (scalar_set k st d) as [s [b|e]]; easy. Qed.
Lemma new_spec k v : scalar_new k None = Ok blank
  /\ scalar_new k (Some v) = match snd (scalar_set k blank v) with Ok _ => Ok (fst (scalar_set k blank v)) | Err e => Err e end.
Proof. split; [easy|]. unfold scalar_new. destruct (scalar_set k blank v) as [s [b|e]]; easy. Qed.
Lemma bool_iff st : scalar_bool st = true <-> s_u st <> [] /\ truthy (s_value st).
Proof.
  unfold scalar_bool. destruct (s_u st); [split; [easy|now intros [? _]]|].
  rewrite vtruth_iff. easy.
Qed.
Lemma empty_iff k st : (forall b, k <> KString b) ->
  (scalar_is_empty k st = true <-> s_value st = VNone /\ s_u st = []).
Proof.
  intros H. assert (scalar_is_empty k st = (is_none (s_value st) && str_eqb (s_u st) [])) as ->
    by (destruct k; try easy; now destruct (H strip_)).
  rewrite andb_true_iff, str_eqb_eq. destruct (s_value st); easy.
Qed.
Lemma empty_string b st : scalar_is_empty (KString b) st = true <-> ~ truthy (s_value st) /\ s_u st = [].
Proof.
  cbn [scalar_is_empty]. rewrite andb_true_iff, negb_true_iff, str_eqb_eq, <- vtruth_iff, not_true_iff_false. easy.
Qed.
Lemma dec_z_nonempty z : dec_z z <> [].
Proof. destruct z; simpl; try easy; apply dec_nonempty. Qed.
Lemma empty_set_string b st v : v <> VNone ->
  let st' := fst (scalar_set (KString b) st v) in
  (scalar_is_empty (KString b) st' = true <-> (if b then all_space (vtext v) else vtext v = []))
  /\ (scalar_bool st' = negb (scalar_is_empty (KString b) st')).
Proof.
  intros Hn st'. destruct (string_set st v Hn) as [(t & Ht & H1) H2].
  assert (exists x, st' = Scalar (Some v) (VText x) x /\ (x = [] <-> if b then all_space (vtext v) else vtext v = [])) as (x & -> & <-).
  { unfold st'. destruct b.
    - rewrite H1. exists t. split; [easy|]. destruct Ht as (l & r & E & Hl & Hr & Hc). split.
      + intros ->. rewrite E. simpl. now apply Forall_app.
      + intros H. rewrite E in H. apply Forall_app in H as [_ H]. apply Forall_app in H as [H _].
        destruct t as [|c t]; [easy|]. destruct Hc as [Hc _]. specialize (Hc c t eq_refl). inversion H; congruence.
    - rewrite H2. exists (vtext v). easy. }
  cbn [scalar_is_empty s_value s_u scalar_bool vtruth]. destruct x; easy.
Qed.
Lemma text_form_nonempty t v u : shown t v u -> u <> [].
Proof.
  intros H. destruct H as [d u _ H|d x u _ H|x u _ H|d x u1 u2 _ H _]; intros E.
  - destruct H as [y m dd a b c [[Ha _] _] _ _]. destruct a; easy.
  - destruct H as [y m dd a b c [[Ha _] _] _ _]. destruct a; easy.
  - destruct x as [xh xm xs xu]. unfold whole in H. cbn in H. inversion H as [h m s a b c [[Ha _] _] _ _]; subst. destruct a; easy.
  - apply app_eq_nil in E as [-> E]. easy.
Qed.
Lemma empty_set_other k st v : (exists sg, k = KInteger sg) \/ (exists t b, k = KTemporal t b) -> real_val v ->
  tame k v ->
  (scalar_is_empty k (fst (scalar_set k st v)) = true <-> v = VNone \/ snd (scalar_set k st v) = Ok false /\ vtext v = []).
Proof.
  intros Hk Hr Ht. rewrite empty_iff by (destruct Hk as [[sg ->]|(t & b & ->)]; easy).
  pose proof (set_contract k st v) as C. pose proof (fun e => adapt_tame k v e Ht) as Ha.
  destruct (scalar_set k st v) as [st' r]. cbn [fst snd]. destruct C as [_ C].
  destruct (adapt k v) as [n|e] eqn:E.
  - destruct C as (-> & -> & ->). split; [|intros [->|[? _]]; [|easy]].
    + intros [-> _]. left. destruct Hk as [[sg ->]|(t & b & ->)].
      * destruct v; try easy; exfalso; cbn [adapt KInteger] in E; unfold KInteger in E; cbn [adapt] in E.
        all: match type of E with context [int_type] => idtac end.
        all: cbn [nt_conv int_type int_conv rmap adaptation bind] in E.
        all: try (destruct (py_int _) as [|[]]; cbn in E); try (destruct (o_int _) as [|[]]; cbn in E); try easy.
        all: destruct sg; cbn in E; try easy.
        all: try (destruct b; cbn in E; easy).
        all: try (destruct (_ <? _)%Z; easy).
      * destruct (is_text v) eqn:Et.
        -- destruct v; try easy. rewrite adapt_temporal_text in E. apply parse_real in E. now destruct E as (_ & _ & ?).
        -- destruct v; try easy; cbn [adapt] in E; destruct (has_type t _); easy.
    + destruct Hk as [[sg ->]|(t & b & ->)]; cbn in E; injection E as <-; easy.
  - rewrite (Ha e eq_refl) in *. destruct C as (-> & -> & ->).
    assert (v <> VNone) as Hn. { intros ->. destruct Hk as [[sg ->]|(t & b & ->)]; cbn in E; easy. }
    split; [intros [_ H]; right; destruct v; easy|]. intros [?|[_ H]]; [easy|]. destruct v; easy.
Qed.

(* ---------------- packaged for the property theorems ---------------- *)
Lemma builtin_tame k v :
  match k with
  | KString _ | KBoolean _ _ _ _ | KTemporal _ _ => True
  | KNumber nt _ => nt = int_type /\ forall o, v <> VObj o
  | _ => False
  end -> tame k v.
Proof.
  destruct k; cbn [tame]; try easy. intros [-> Ho]. split.
  - intros w e Hw H.
    assert (forall o, w <> VObj o) as Hw' by (destruct Hw as [->|[s ->]]; easy).
    destruct w; cbn in H; try easy; try (injection H as <-; auto).
    + destruct (py_int s) eqn:E; [easy|]. injection H as <-. apply py_int_err in E. auto.
    + now destruct (Hw' o).
  - right. intros w n H.
    destruct w; cbn in H; try easy; try (injection H as <-; eexists; reflexivity).
    + destruct (py_int s); cbn in H; [|easy]. injection H as <-; eexists; reflexivity.
    + destruct (o_int o); cbn in H; [|easy]. injection H as <-; eexists; reflexivity.
Qed.
Lemma roundtrip_temporal_text t b st s st' st2 :
  scalar_set (KTemporal t b) st (VText s) = (st', Ok true) ->
  scalar_set (KTemporal t b) st2 (VText (s_u st')) = (Scalar (Some (VText (s_u st'))) (s_value st') (s_u st'), Ok true).
Proof.
  intros H. pose proof (set_contract (KTemporal t b) st (VText s)) as C. rewrite H in C. destruct C as [_ C].
  rewrite adapt_temporal_text in C.
  destruct (parse t (if b then strip s else s)) as [n|[]] eqn:E; try (destruct C as [C _]; discriminate).
  destruct C as (_ & Cv & Cu). pose proof (parse_real _ _ _ E) as (Hr & Ht & Hn).
  apply (roundtrip _ st (VText s)); try easy; rewrite Cv; try easy.
  destruct Ht as [s' d Hf _|s' x Hf _|s1 s2 d x Hf Hg _ _]; cbn [lossless]; eauto.
  - exists x. split; [easy|]. now destruct Hf.
  - exists d, x. split; [easy|]. now destruct Hg.
Qed.
Lemma integer_text_fun s t t' z z' :
  trimmed s t -> trimmed s t' -> integer_text t z -> integer_text t' z' -> t = t' /\ z = z'.
Proof.
  intros H1 H2 H3 H4. split; [now apply (trimmed_fun s)|].
  assert (py_int s = Ok z) by (apply py_int_iff; eauto).
  assert (py_int s = Ok z') by (apply py_int_iff; eauto). congruence.
Qed.
Lemma integer_text_canonical signed st s :
  let '(st', r) := scalar_set (KInteger signed) st (VText s) in
  exists b, r = Ok b
  /\ (b = true <-> exists t z, trimmed s t /\ integer_text t z /\ (signed = true \/ (0 <= z)%Z))
  /\ (forall t z, trimmed s t -> integer_text t z -> b = true ->
        s_value st' = VInt z /\ canonical_int (s_u st') z)
  /\ (b = false -> s_value st' = VNone /\ s_u st' = s).
Proof.
  pose proof (integer_text_set signed st s) as H. destruct (scalar_set _ _ _) as [st' r].
  destruct H as (b & H1 & H2 & H3 & H4). exists b. split; [easy|]. split; [easy|]. split; [|easy].
  intros t z G1 G2 G3. destruct (H3 t z G1 G2 G3) as [-> ->]. split; [easy|]. apply dec_z_canonical.
Qed.
Lemma integer_history_blank signed vs :
  (forall z, s_value (scalar_sets (KInteger signed) blank vs) = VInt z -> signed = true \/ (0 <= z)%Z)
  /\ ((exists z, s_value (scalar_sets (KInteger signed) blank vs) = VInt z)
      \/ s_value (scalar_sets (KInteger signed) blank vs) = VNone).
Proof. apply integer_history; [easy|now right]. Qed.
Lemma constrained_history_blank c valid vs :
  s_value (scalar_sets (KConstrained c valid) blank vs) = VNone
  \/ valid (s_value (scalar_sets (KConstrained c valid) blank vs)) = Ok true.
Proof. apply constrained_history. now left. Qed.
Lemma enum_history_blank c vals vs :
  s_value (scalar_sets (KEnum c vals) blank vs) = VNone
  \/ (exists x, In x vals /\ equal_values (s_value (scalar_sets (KEnum c vals) blank vs)) x).
Proof. apply enum_history. now left. Qed.
Lemma temporal_none t b st : scalar_set (KTemporal t b) st VNone = (Scalar (Some VNone) VNone [], Ok true).
Proof. reflexivity. Qed.
Lemma boolean_default st s :
  let '(st', r) := scalar_set KBool st (VText s) in
  (s_value st' = VBool true <-> In s (map lit ["on"; "true"; "True"; "1"]%string))
  /\ (s_value st' = VBool false <-> In s (map lit ["off"; "false"; "False"; "0"; ""]%string))
  /\ (r = Ok false <-> ~ In s (map lit ["on"; "true"; "True"; "1"; "off"; "false"; "False"; "0"; ""]%string))
  /\ (s_value st' = VBool true -> s_u st' = lit "1") /\ (s_value st' = VBool false -> s_u st' = [])
  /\ (r = Ok false -> s_u st' = s).
Proof.
  pose proof (boolean_text (lit "1") (map lit ["on"; "true"; "True"; "1"]%string) (lit "")
    (map lit ["off"; "false"; "False"; "0"; ""]%string) st s) as H.
  unfold KBool. destruct (scalar_set _ _ _) as [st' r]. destruct H as (H1 & H2 & H3).
  set (T := map lit ["on"; "true"; "True"; "1"]%string) in *.
  set (F := map lit ["off"; "false"; "False"; "0"; ""]%string) in *.
  assert (forall x, In x (map lit ["on"; "true"; "True"; "1"; "off"; "false"; "False"; "0"; ""]%string) <-> In x T \/ In x F) as HTF.
  { intros x. change (map lit ["on"; "true"; "True"; "1"; "off"; "false"; "False"; "0"; ""]%string) with (T ++ F). apply in_app_iff. }
  assert (In (lit "1") T) as I1 by (simpl; auto). assert (In (lit "") F) as I2 by (simpl; auto 9).
  assert (forall x, In x T -> In x F -> False) as Hd.
  { intros x Ha Hb. unfold T, F in *. simpl in Ha, Hb.
    repeat (destruct Ha as [<-|Ha]; [repeat (destruct Hb as [Hb|Hb]; [discriminate|]); easy|]). easy. }
  rewrite HTF.
  destruct (in_dec (list_eq_dec N.eq_dec) s T) as [HT|HT].
  - destruct (H1 (or_intror HT)) as (-> & -> & ->).
    split; [easy|]. split; [split; [easy|intros; now destruct (Hd s)]|]. split; [split; [easy|tauto]|]. easy.
  - assert (~ (s = lit "1" \/ In s T)) as HT' by (intros [->|?]; easy).
    destruct (in_dec (list_eq_dec N.eq_dec) s F) as [HF|HF].
    + destruct (H2 HT' (or_intror HF)) as (-> & -> & ->). split; [split; [easy|tauto]|]. split; [easy|].
      split; [split; [easy|tauto]|]. easy.
    + assert (~ (s = lit "" \/ In s F)) as HF' by (intros [->|?]; easy).
      destruct (H3 HT' HF') as (-> & -> & ->). split; [split; [easy|tauto]|]. split; [split; [easy|tauto]|].
      split; [split; [tauto|easy]|]. easy.
Qed.

(* the canonical text is unique *)
Lemma ascii_digit c d : (48 <= c <= 57)%N -> digit c d -> c = (48 + d)%N.
Proof.
  intros Hc H. apply digit_val_iff in H. rewrite adigit_val in H by (unfold is_adigit; lia).
  injection H as <-. lia.
Qed.
Lemma positional_inj ds es : List.length ds = List.length es ->
  Forall (fun d => d < 10)%N ds -> Forall (fun d => d < 10)%N es -> positional ds = positional es -> ds = es.
Proof.
  revert es; induction ds as [|d ds IH]; intros [|e es] Hl H1 H2 H; try easy.
  cbn [positional] in H. inversion H1; inversion H2; subst.
  assert (d = e) as -> by lia. f_equal. apply IH; try easy; [now injection Hl|lia].
Qed.
Lemma digit_lt c d : digit c d -> (d < 10)%N.
Proof. now intros (z & _ & H & _). Qed.
Lemma Forall2_len {A B} (R : A -> B -> Prop) l l' : Forall2 R l l' -> List.length l = List.length l'.
Proof. induction 1; simpl; congruence. Qed.
Lemma ascii_field_unique w s s' n : ascii_field w s n -> ascii_field w s' n -> s = s'.
Proof.
  intros [[Hl (ds & Hd & En)] Ha] [[Hl' (ds' & Hd' & En')] Ha'].
  assert (forall s ds, Forall2 digit s ds -> Forall (fun c => 48 <= c <= 57)%N s -> s = map (fun d => 48 + d)%N ds) as G.
  { induction 1 as [|c d x xs Hc Hx IH]; intros Hf; [easy|]. inversion Hf; subst. simpl. rewrite (ascii_digit c d) at 1 by easy.
    f_equal. auto. }
  assert (forall s ds, Forall2 digit s ds -> Forall (fun d => d < 10)%N ds) as G2.
  { induction 1; constructor; auto. eapply digit_lt; eauto. }
  rewrite (G s ds), (G s' ds') by easy. f_equal.
  rewrite <- (rev_involutive ds), <- (rev_involutive ds'). f_equal. apply positional_inj.
  - rewrite !rev_length. apply Forall2_len in Hd, Hd'. congruence.
  - apply Forall_rev. eauto.
  - apply Forall_rev. eauto.
  - congruence.
Qed.
Lemma date_form_unique s s' d : date_form ascii_field s d -> date_form ascii_field s' d -> s = s'.
Proof.
  intros [y m dd a b c Ha Hb Hc] H. inversion H as [? ? ? a' b' c' Ha' Hb' Hc']; subst.
  rewrite (ascii_field_unique _ _ _ _ Ha Ha'), (ascii_field_unique _ _ _ _ Hb Hb'), (ascii_field_unique _ _ _ _ Hc Hc'). easy.
Qed.
Lemma time_form_unique s s' d : time_form ascii_field s d -> time_form ascii_field s' d -> s = s'.
Proof.
  intros [y m dd a b c Ha Hb Hc] H. inversion H as [? ? ? a' b' c' Ha' Hb' Hc']; subst.
  rewrite (ascii_field_unique _ _ _ _ Ha Ha'), (ascii_field_unique _ _ _ _ Hb Hb'), (ascii_field_unique _ _ _ _ Hc Hc'). easy.
Qed.
Lemma temporal_text_unique t v s s' :
  temporal_text ascii_field t s v -> temporal_text ascii_field t s' v -> s = s'.
Proof.
  intros [x d Hf _|x k Hf _|s1 s2 d k Hf Hg _ _] H; inversion H; subst.
  - eapply date_form_unique; eauto.
  - eapply time_form_unique; eauto.
  - f_equal; [eapply date_form_unique; eauto|]. f_equal. eapply time_form_unique; eauto.
Qed.

(* ---------------- texts and characters ---------------- *)
Lemma clock_text_iso t : real_time t -> clock_text t (time_iso t).
Proof.
  intros R. unfold time_iso. destruct (N.eqb_spec (t_us t) 0); [apply ct_whole; [easy|now apply time_text_form]|].
  apply ct_fraction; [easy|now apply time_text_form|]. apply dec_pad_field.
  destruct R as (_ & _ & _ & R). change (10 ^ N.of_nat 6)%N with 1000000%N. lia.
Qed.
Lemma vtext_form v : real_val v -> text_form v (vtext v).
Proof.
  destruct v as [|[]|z|s|d|d t|t|o]; cbn [vtext real_val]; intros R; try constructor.
  - apply dec_z_canonical.
  - now apply date_text_form.
  - now apply date_text_form.
  - now apply clock_text_iso.
  - now apply clock_text_iso.
Qed.
Lemma space_iff c : is_space c = true <-> In c unicode_spaces.
Proof.
  split.
  - intros H. unfold is_space in H. repeat rewrite Bool.orb_true_iff in H. repeat rewrite Bool.andb_true_iff in H.
    rewrite ?N.leb_le, ?N.eqb_eq in H. clear - H.
    assert (K : forall a n, (a <= c)%N -> (c < a + N.of_nat n)%N -> In c (map (fun i => a + N.of_nat i)%N (seq 0 n))).
    { intros a n L M. apply in_map_iff. exists (N.to_nat (c - a)). split; [|apply in_seq]; lia. }
    assert (J : forall l, incl l unicode_spaces -> In c l -> In c unicode_spaces) by (intros l X; apply X).
    assert (Q : forall l, forallb (fun a => existsb (N.eqb a) unicode_spaces) l = true -> incl l unicode_spaces).
    { intros l X a I. rewrite forallb_forall in X. specialize (X a I). apply existsb_exists in X as (b & B & ->%N.eqb_eq). exact B. }
    repeat destruct H as [H|H];
      try (match type of H with c = ?k => apply (J [k]); [apply Q; vm_compute; reflexivity|now left] end).
    + apply (J (map (fun i => 9 + N.of_nat i)%N (seq 0 5))); [apply Q; vm_compute; reflexivity|apply K; lia].
    + apply (J (map (fun i => 28 + N.of_nat i)%N (seq 0 5))); [apply Q; vm_compute; reflexivity|apply K; lia].
    + apply (J (map (fun i => 8192 + N.of_nat i)%N (seq 0 11))); [apply Q; vm_compute; reflexivity|apply K; lia].
  - intros H. assert (A : forallb is_space unicode_spaces = true) by (vm_compute; reflexivity).
    rewrite forallb_forall in A. now apply A.
Qed.
Lemma empty_set_none b st : scalar_is_empty (KString b) (fst (scalar_set (KString b) st VNone)) = true
  /\ scalar_bool (fst (scalar_set (KString b) st VNone)) = false.
Proof. destruct b; split; reflexivity. Qed.
