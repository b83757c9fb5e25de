(* Texts of Float elements set again; Decimal elements. *)
From Verif Require Import PyBase PyBaseFacts ModelScalar SpecScalar ProofScalar ProofScalar2 ProofFlat3 ModelNumber SpecNumber
  ProofNumber ProofNumber2 ProofNumber3 ProofNumber4.
From Coq Require Import Znumtheory.
Local Open Scope Z_scope.

Lemma again_real f : real_float f -> real_float (again f).
Proof.
  intros R. destruct f as [neg m e|neg|]; try exact Logic.I. destruct (again_fin neg m e R) as (m' & e' & E & F & _). cbn [again]. now rewrite E.
Qed.
Lemma again_not_below f : real_float f -> ~ below_zero f -> ~ below_zero (again f).
Proof.
  intros R N. destruct f as [neg m e|neg|]; try exact N. destruct (again_fin neg m e R) as (m' & e' & E & F & D & Z0). cbn [again]. rewrite E. cbn in *.
  intros [-> M']. apply N. split; [easy|]. pose proof R as ([M0 _] & _). destruct (Z.eq_dec m 0) as [->|]; [exfalso|lia].
  assert (X : mill 0 e = 0) by reflexivity. rewrite X in Z0. destruct Z0 as [-> _]; [reflexivity|]. lia.
Qed.
Lemma float_again signed st v st' f : real_num v -> float_set signed st v = (st', Ok true) -> n_value st' = Some f ->
  forall st2, exists st3, float_set signed st2 (NText (n_u st')) = (st3, Ok true) /\ n_value st3 = Some (again f) /\ n_u st3 = n_u st'
    /\ real_float f /\ float_text f (n_u st').
Proof.
  intros R S V st2. apply float_set_spec in S as [_ [(_ & _ & X & _)|[(g & A & O1 & _ & X & T)|(_ & _ & X & _)]]]; [congruence| |congruence| easy].
  assert (g = f) by congruence. subst g. pose proof (as_float_real _ _ R A) as RF.
  destruct (again_literal false f _ RF T) as (d & L & F). pose proof (trim_six _ _ T RF) as Tr.
  assert (A2 : as_float (NText (n_u st')) (again f)) by (eapply af_text; eauto).
  destruct (float_set signed st2 (NText (n_u st'))) as [st3 r3] eqn:S3. exists st3.
  pose proof S3 as S4. apply float_set_spec in S4 as [_ [(C & _)|[(h & A3 & O3 & -> & X3 & T3)|(_ & C & _)]]]; [easy| | |exact Logic.I].
  - assert (h = again f) by (eapply as_float_fun; [|exact A3|exact A2]; exact Logic.I). subst h. split; [easy|]. split; [easy|]. split; [|easy].
    eapply float_text_fun; [apply again_real; exact RF|exact T3|now apply again_text].
  - exfalso. destruct (C _ A2) as [-> B]. destruct O1 as [|O1]; [easy|]. now apply (again_not_below f).
Qed.
Lemma float_again_near signed st v st' neg m e : real_num v -> float_set signed st v = (st', Ok true) -> n_value st' = Some (Fin neg m e) ->
  forall st2 st3 r, float_set signed st2 (NText (n_u st')) = (st3, r) ->
  exists m' e', n_value st3 = Some (Fin neg m' e') /\ Z.abs (units m' e' - units m e) * 1000000 <= 2 ^ 1074
    /\ ((exists n, units m e * 1000000 = n * 2 ^ 1074) -> m' = m /\ e' = e).
Proof.
  intros R S V st2 st3 r S3. destruct (float_again _ _ _ _ _ R S V st2) as (st3' & S3' & X & _ & RF & _). rewrite S3 in S3'. injection S3' as <- _.
  cbn in RF. destruct (again_fin neg m e RF) as (m' & e' & E & F & D & Z0). cbn [again] in X. rewrite E in X. exists m', e'. split; [easy|]. split.
  - destruct (round_even_spec (units m e * 1000000) (2 ^ 1074) eq_refl) as [H _]. fold (mill m e) in H.
    rewrite <- (Z.abs_eq 1000000) at 1 by lia. rewrite <- Z.abs_mul. set (c := 2 ^ 1074) in *. clearbody c. lia.
  - intros (n & H). apply Z0. rewrite H. f_equal. symmetry. apply round_even_unique; [reflexivity| |]; rewrite H, Z.sub_diag; [easy|discriminate].
Qed.

(* ---------------- Decimal ---------------- *)
Lemma odd_divides k n : 0 <= k -> Z.odd n = true -> (2 ^ k | n) -> k = 0.
Proof.
  intros K O [q ->]. destruct (Z.eq_dec k 0); [easy|]. exfalso. replace k with (Z.succ (k - 1)) in O by lia. rewrite Z.pow_succ_r in O by lia.
  rewrite !Z.odd_mul in O. cbn in O. rewrite andb_false_r in O. discriminate.
Qed.
Lemma div2_pow k d : 0 <= k -> (d | 2 ^ k) -> 0 < d -> exists j, 0 <= j <= k /\ d = 2 ^ j.
Proof.
  intros K. revert d. pattern k. apply natlike_ind; [| |exact K]; clear k K.
  - intros d D P. exists 0. split; [lia|]. cbn in *. apply Z.divide_1_r_nonneg in D; lia.
  - intros k K IH d D P. destruct (Z.odd d) eqn:Od.
    + assert (R : (d | 2 ^ k)). { rewrite Z.pow_succ_r in D by lia. apply Gauss with 2; [easy|].
        apply rel_prime_sym. apply prime_rel_prime; [apply prime_2|]. intros [q ->]. rewrite Z.odd_mul in Od. cbn in Od. rewrite andb_false_r in Od. discriminate. }
      destruct (IH d R P) as (j & J & ->). exists j. split; [lia|easy].
    + assert (Ev : Z.even d = true) by (rewrite <- Z.negb_odd, Od; easy). apply Z.even_spec in Ev as [h ->].
      rewrite Z.pow_succ_r in D by lia. apply Z.mul_divide_cancel_l in D; [|lia]. destruct (IH h D ltac:(lia)) as (j & J & ->).
      exists (Z.succ j). split; [lia|]. now rewrite Z.pow_succ_r by lia.
Qed.
Lemma ratio_spec m e : 0 <= m -> -1074 <= e -> exists n k, ratio m e = (n, 2 ^ k) /\ 0 <= k /\ units m e * 2 ^ k = n * 2 ^ 1074 /\ (k = 0 \/ Z.odd n = true).
Proof.
  intros M E. unfold ratio. destruct (Z.leb_spec 0 e).
  - exists (m * 2 ^ e), 0. split; [easy|]. split; [lia|]. split; [|now left]. unfold units. rewrite Z.pow_add_r by lia. ring.
  - set (g := Z.gcd m (2 ^ (- e))). assert (P : 0 < 2 ^ (- e)) by (apply pow_pos; lia).
    assert (G0 : 0 < g). { pose proof (Z.gcd_nonneg m (2 ^ (- e))). destruct (Z.eq_dec g 0) as [X|]; [|unfold g in *; lia]. apply Z.gcd_eq_0_r in X. lia. }
    destruct (Z.gcd_divide_l m (2 ^ (- e))) as [a A]. destruct (Z.gcd_divide_r m (2 ^ (- e))) as [b B]. fold g in A, B.
    assert (DA : m / g = a) by (rewrite A; apply Z.div_mul; lia). assert (DB : 2 ^ (- e) / g = b) by (rewrite B; apply Z.div_mul; lia).
    rewrite DA, DB. assert (B0 : 0 < b) by nia. assert (Bd : (b | 2 ^ (- e))) by (exists g; lia).
    destruct (div2_pow (- e) b ltac:(lia) Bd B0) as (k & K & Ek). exists a, k. split; [now rewrite Ek|]. split; [lia|]. split.
    + unfold units. rewrite A. replace 1074 with (- e + (e + 1074)) at 2 by lia. rewrite (Z.pow_add_r 2 (- e)) by lia. rewrite B, Ek. ring.
    + destruct (Z.eq_dec k 0) as [|NK]; [now left|right]. destruct (Z.odd a) eqn:Oa; [easy|exfalso].
      assert (Ev : Z.even a = true) by (rewrite <- Z.negb_odd, Oa; easy). apply Z.even_spec in Ev as [h Eh].
      assert (X : (2 * g | g)). { apply Z.gcd_greatest; [exists h; lia|]. exists (2 ^ (k - 1)). rewrite B, Ek. replace k with (Z.succ (k - 1)) at 1 by lia. rewrite Z.pow_succ_r by lia. ring. }
      apply Z.divide_pos_le in X; lia.
Qed.
Lemma written_out_iff m e c x : 0 <= m -> -1074 <= e ->
  written_out m e c x <-> (let '(n, d) := ratio m e in let k := Z.log2 d in (n * 5 ^ k, - k)) = (c, x).
Proof.
  intros M E. destruct (ratio_spec m e M E) as (n & k & -> & K & U & O). cbv zeta. rewrite Z.log2_pow2 by easy. unfold written_out.
  assert (P : 0 < 2 ^ 1074) by reflexivity. set (w := 2 ^ 1074) in *. clearbody w. set (u := units m e) in *. clearbody u.
  assert (W : u * 10 ^ k = n * 5 ^ k * w). { change 10 with (2 * 5). rewrite Z.pow_mul_l. replace (u * (2 ^ k * 5 ^ k)) with (u * 2 ^ k * 5 ^ k) by ring. rewrite U. ring. }
  assert (Best : forall c' x', x' <= 0 -> u * 10 ^ (- x') = c' * w -> x' <= - k).
  { intros c' x' X H. destruct O as [->|O]; [lia|]. apply Z.nlt_ge. intros C. set (j := - x') in *. assert (J : 0 <= j < k) by lia.
    assert (Q : n * 5 ^ j = c' * 2 ^ (k - j)).
    { apply Z.mul_cancel_r with w; [lia|]. replace (n * 5 ^ j * w) with (n * w * 5 ^ j) by ring. rewrite <- U. replace k with ((k - j) + j) at 1 by lia. rewrite Z.pow_add_r by lia.
      replace (c' * 2 ^ (k - j) * w) with (c' * w * 2 ^ (k - j)) by ring. rewrite <- H. change 10 with (2 * 5). rewrite Z.pow_mul_l. ring. }
    assert (k - j = 0); [|lia]. apply odd_divides with (n * 5 ^ j); [lia| |exists c'; lia].
    rewrite Z.odd_mul, O. clear - J. destruct (Z.eq_dec j 0) as [X|X]; [rewrite X; reflexivity|]. rewrite Z.odd_pow by lia. reflexivity. }
  split.
  - intros (X & H & B). assert (X1 : x <= - k) by exact (Best c x X H). assert (X2 : - k <= x). { apply (B (n * 5 ^ k)); [lia|]. rewrite Z.opp_involutive. exact W. }
    assert (x = - k) by lia. subst x. f_equal. rewrite Z.opp_involutive in H. rewrite W in H. now apply Z.mul_cancel_r in H; [|lia].
  - intros [= <- <-]. split; [lia|]. rewrite Z.opp_involutive. split; [easy|]. exact Best.
Qed.
Lemma as_decimal_iff v d : real_num v -> as_decimal v d <-> (match v with NNone => False | _ => True end) /\
  adaptation true (to_decimal (match v with NText s => NText (strip s) | _ => v end)) = Ok d.
Proof.
  intros R. destruct v as [|s|z|g s|d' s|s]; cbn [to_decimal].
  - split; [intros A; inversion A|easy].
  - split.
    + intros A. inversion A as [? t ? T L| | | | | |]; subst. apply trimmed_eq in T. subst t. apply parse_iff in L. now rewrite L.
    + intros [_ A]. destruct (parse true (strip s)) as [d'|] eqn:P; [|easy]. cbn in A. injection A as <-. apply parse_iff in P. apply (ad_text s (strip s)); [now apply trimmed_eq|easy].
  - cbn [adaptation]. split.
    + intros A. split; [easy|]. inversion A as [|? c C E|? c C E| | | |]; subst.
      * destruct (Z.ltb_spec c 0); [lia|]. now rewrite Z.abs_eq.
      * destruct (Z.ltb_spec (- c) 0); [|lia]. rewrite Z.abs_opp, Z.abs_eq by lia. easy.
    + intros [_ [= <-]]. destruct (Z.ltb_spec z 0); [apply ad_neg|apply ad_int]; lia.
  - destruct g as [neg m e|neg|].
    + cbn in R. pose proof R as ([M0 _] & [E0 _] & _). pose proof (fun c x => written_out_iff m e c x M0 E0) as W. destruct (ratio m e) as [n dd]. cbv zeta in *. cbn [adaptation]. split.
      * intros A. inversion A as [| | |? ? ? ? c x H| | |]; subst. apply W in H. injection H as <- <-. easy.
      * intros [_ [= <-]]. apply ad_float. now apply W.
    + cbn [adaptation]. split; [intros A; inversion A; now subst|intros [_ [= <-]]; constructor].
    + cbn [adaptation]. split; [intros A; inversion A; now subst|intros [_ [= <-]]; constructor].
  - cbn [adaptation]. split; [intros A; inversion A; now subst|intros [_ [= <-]]; constructor].
  - split; [intros A; inversion A|cbn; easy].
Qed.
Lemma to_decimal_errs v e : to_decimal v = Err e -> adaptation true (@Err decimal e) = Err AdaptErr.
Proof.
  destruct v as [|s|z|g s|d s|s]; cbn [to_decimal]; try (intros [= <-]; easy).
  - destruct (parse true s) as [d|]; intros [= <-]; easy.
  - destruct g as [neg m e0|neg|]; try easy. now destruct (ratio m e0).
Qed.
Lemma as_decimal_nonneg v d : real_num v -> as_decimal v d -> match d with DNum _ c _ => 0 <= c | _ => True end.
Proof.
  intros R A. destruct A as [s t d T L|z c C E|z c C E|neg m e s c x W|neg s|s|d s]; try exact Logic.I; try lia.
  - now apply literal_sound in L.
  - destruct W as (X & W & _). destruct R as ([M0 _] & [E0 _] & _). assert (0 <= units m e) by (unfold units; pose proof (pow_pos (e + 1074)); nia).
    assert (0 < 10 ^ (- x)) by (apply Z.pow_pos_nonneg; lia). assert (P : 0 < 2 ^ 1074) by reflexivity. set (w := 2 ^ 1074) in *. clearbody w. nia.
  - cbn in R. now destruct d.
Qed.
Lemma decimal_set_spec signed st v st' r : real_num v -> decimal_set signed st v = (st', r) ->
  n_raw st' = Some v /\
  (v = NNone /\ r = Ok true /\ n_value st' = None /\ n_u st' = []
   \/ (exists d f, as_decimal v d /\ (signed = true \/ ~ negative_decimal d /\ d <> DNan false) /\ float_of d f
        /\ r = Ok true /\ n_value st' = Some d /\ float_text f (n_u st'))
   \/ v <> NNone /\ (forall d, as_decimal v d -> signed = false /\ negative_decimal d)
        /\ r = Ok false /\ n_value st' = None /\ said v (n_u st')
   \/ signed = true /\ as_decimal v (DNan true) /\ r = Err ValueErr /\ n_value st' = Some (DNan true) /\ n_u st' = n_u st
   \/ signed = false /\ (exists sig, as_decimal v (DNan sig)) /\ r = Err ArithErr /\ n_value st' = n_value st /\ n_u st' = n_u st).
Proof.
  intros R. unfold decimal_set, number_set.
  assert (NN : v = NNone \/ v <> NNone) by (destruct v; [now left|..]; now right).
  destruct NN as [->|NN]; [intros [= <- <-]; split; [easy|now left]|].
  rewrite number_adapt_eq by easy. set (w := match v with NText s => NText (strip s) | _ => v end).
  assert (AF : forall d, as_decimal v d <-> adaptation true (to_decimal w) = Ok d).
  { intros d. rewrite as_decimal_iff by easy. unfold w. destruct v; tauto. }
  destruct (adaptation true (to_decimal w)) as [d|e] eqn:A.
  - assert (F : as_decimal v d) by now apply AF. pose proof (as_decimal_nonneg _ _ R F) as RF. cbn [bind].
    assert (U : forall g, as_decimal v g -> g = d) by (intros g G; apply AF in G; congruence).
    assert (Fin' : forall f, dec_to_float d = Ok f -> float_of d f /\ float_text f (fixed6 f)).
    { intros f H. apply dec_to_float_iff in H; [|easy]. split; [easy|]. apply fixed6_iff; [|easy].
      destruct H as [neg c x g H Ro|neg c x g H Ro|neg|]; try exact Logic.I; destruct Ro; easy. }
    destruct signed.
    + destruct (dec_to_float d) as [f|e] eqn:DF; cbn [rmap].
      * destruct (Fin' f eq_refl) as [F1 F2]. intros [= <- <-]. split; [easy|]. right. left. exists d, f. repeat split; auto.
      * intros [= <- <-]. split; [easy|]. assert (d = DNan true /\ e = ValueErr) as [-> ->] by (destruct d as [| |[|]]; cbn in DF; try easy; injection DF as <-; easy).
        right. right. right. left. easy.
    + destruct d as [neg c x|neg|sig].
      * cbn [decimal_neg bind dec_to_float rmap].
        destruct (neg && (0 <? c)) eqn:B.
        -- intros [= <- <-]. split; [easy|]. right. right. left. apply andb_true_iff in B as [-> B]. repeat split; auto; [apply U in H; subst d; split; [easy|now apply Z.ltb_lt]|now apply said_iff].
        -- intros [= <- <-]. split; [easy|]. right. left. destruct (Fin' _ eq_refl) as [F1 F2]. eexists _, _. split; [exact F|]. split; [|eauto].
           right. split; [|easy]. intros [-> X]. apply Z.ltb_lt in X. now rewrite X in B.
      * cbn [decimal_neg bind dec_to_float rmap]. destruct neg.
        -- intros [= <- <-]. split; [easy|]. right. right. left. repeat split; auto; [apply U in H; now subst d|now apply said_iff].
        -- intros [= <- <-]. split; [easy|]. right. left. destruct (Fin' _ eq_refl) as [F1 F2]. eexists _, _. split; [exact F|]. split; [|eauto]. right. easy.
      * cbn [decimal_neg bind]. intros [= <- <-]. split; [easy|]. right. right. right. right. eauto 8.
  - assert (e = AdaptErr) as ->. { destruct (to_decimal w) as [f|e0] eqn:T; [easy|]. pose proof (to_decimal_errs _ _ T). congruence. }
    cbn [bind]. intros [= <- <-]. split; [easy|]. right. right. left. repeat split; auto; [| |now apply said_iff]; apply AF in H; discriminate.
Qed.
Lemma as_decimal_fun v d d' : real_num v -> as_decimal v d -> as_decimal v d' -> d = d'.
Proof. intros R. rewrite !as_decimal_iff by easy. intros [_ A] [_ B]. congruence. Qed.
Lemma decimal_again signed st v st' d : real_num v -> decimal_set signed st v = (st', Ok true) -> n_value st' = Some d ->
  forall st2, exists st3 d2, decimal_set signed st2 (NText (n_u st')) = (st3, Ok true) /\ n_u st3 = n_u st'
    /\ n_value st3 = Some d2 /\ literal true (n_u st') d2.
Proof.
  intros R S V st2.
  apply decimal_set_spec in S as [_ [(_ & _ & X & _)|[(g & f & A & O1 & FO & _ & X & T)|[(_ & _ & X & _)|[(_ & _ & X & _)|(_ & _ & X & _)]]]]]; try congruence; try easy.
  assert (g = d) by congruence. subst g. pose proof (as_decimal_nonneg _ _ R A) as RD.
  assert (RF : real_float f) by (destruct FO as [neg c x g H Ro|neg c x g H Ro|neg|]; try exact Logic.I; destruct Ro; easy).
  destruct (again_literal true f _ RF T) as (d2 & L & F). pose proof (trim_six _ _ T RF) as Tr.
  assert (A2 : as_decimal (NText (n_u st')) d2) by (eapply ad_text; eauto).
  assert (NS : d2 <> DNan true) by (intros ->; inversion F).
  assert (OK2 : signed = true \/ ~ negative_decimal d2 /\ d2 <> DNan false).
  { destruct O1 as [|[O1 O2]]; [now left|right]. 
    assert (NB : ~ below_zero f /\ f <> FNan).
    { destruct FO as [neg c x g H Ro|neg c x g H Ro|neg|]; [| |split; [exact O1|easy]|easy].
      - assert (C0 : neg = true -> c = 0) by (intros ->; cbn in O1; destruct (Z.eq_dec c 0); [easy|exfalso; apply O1; split; [easy|lia]]).
        apply nearest_iff in Ro; [|pose proof (Z.pow_nonneg 10 x); nia|lia]. destruct neg.
        + rewrite C0, Z.mul_0_l in Ro by easy. cbn in Ro. subst g. cbn. split; [lia|easy].
        + subst g. pose proof (nearest_rounded false (c * 10 ^ x) 1 ltac:(pose proof (Z.pow_nonneg 10 x); nia) ltac:(lia)) as N0. destruct N0; cbn; split; easy.
      - assert (C0 : neg = true -> c = 0) by (intros ->; cbn in O1; destruct (Z.eq_dec c 0); [easy|exfalso; apply O1; split; [easy|lia]]).
        assert (0 < 10 ^ (- x)) by (apply Z.pow_pos_nonneg; lia). apply nearest_iff in Ro; [|easy|easy]. destruct neg.
        + rewrite C0 in Ro by easy. cbn in Ro. subst g. cbn. split; [lia|easy].
        + subst g. pose proof (nearest_rounded false c (10 ^ (- x)) RD H0) as N0. destruct N0; cbn; split; easy. }
    destruct NB as [NB NN]. apply fixed6_iff in T; [|easy]. destruct f as [neg m e|neg|]; [| |easy].
    - assert (L' : literal true (n_u st') (DNum neg (mill m e) (-6))).
      { rewrite T. cbn [fixed6]. pose proof RF as ([M0 _] & [E0 _] & _). rewrite <- mill_eq by easy. cbv zeta. fold (six (mill m e)). apply six_literal. now apply mill_nonneg. }
      rewrite (literal_fun _ _ _ _ L L'). split; [|easy]. cbn. intros [-> M]. apply NB. cbn. split; [easy|].
      destruct RF as ([M0 _] & _). destruct (Z.eq_dec m 0) as [->|]; [|lia]. exfalso. assert (Z0 : mill 0 e = 0) by reflexivity. lia.
    - destruct neg; [exfalso; now apply NB|].
      assert (L' : literal true (n_u st') (DInf false)). { rewrite T. change (fixed6 (FInf false)) with ([] ++ lit "inf"). apply li_inf; [constructor|]. left. apply word_inf. reflexivity. }
      rewrite (literal_fun _ _ _ _ L L'). split; easy. }
  destruct (decimal_set signed st2 (NText (n_u st'))) as [st3 r3] eqn:S3. exists st3, d2.
  assert (Fun : forall d', as_decimal (NText (n_u st')) d' -> d' = d2) by (intros d' H; eapply as_decimal_fun; [|exact H|exact A2]; exact Logic.I).
  pose proof S3 as S4. apply decimal_set_spec in S4 as [_ [(C & _)|[(h & f3 & A3 & O3 & F3 & -> & X3 & T3)|[(_ & C & _)|[(_ & A3 & _)|(Sg & (sig & A3) & _)]]]]]; [easy| | | | |exact Logic.I].
  - apply Fun in A3. subst h. split; [easy|]. split; [|easy].
    assert (f3 = again f). { pose proof (literal_sound _ _ _ L). apply dec_to_float_iff in F, F3; auto. congruence. } subst f3.
    eapply float_text_fun; [apply again_real; exact RF|exact T3|now apply again_text].
  - exfalso. destruct (C _ A2) as [-> B]. destruct OK2 as [|[OK2 _]]; easy.
  - exfalso. apply Fun in A3. congruence.
  - exfalso. apply Fun in A3. destruct OK2 as [|[_ OK2]]; [congruence|]. destruct sig; congruence.
Qed.
Lemma float_again_text signed st v st' f : real_num v -> float_set signed st v = (st', Ok true) -> n_value st' = Some f ->
  forall st2, exists st3 f', float_set signed st2 (NText (n_u st')) = (st3, Ok true) /\ n_value st3 = Some f' /\ n_u st3 = n_u st'.
Proof. intros R S V st2. destruct (float_again _ _ _ _ _ R S V st2) as (st3 & A & B & C & _). eauto. Qed.

(* ---------------- set to its own value ---------------- *)
Lemma number_own {V} conv (neg : V -> res bool) signed show st v st' n (back : V -> num_in) :
  (forall w, conv (back w) = Ok w) -> (forall w s, back w <> NText s) -> (forall w, back w <> NNone) ->
  number_set (number_adapt conv neg signed) show st v = (st', Ok true) -> n_value st' = Some n ->
  forall st2, exists st3, number_set (number_adapt conv neg signed) show st2 (back n) = (st3, Ok true)
    /\ n_value st3 = Some n /\ n_u st3 = n_u st'.
Proof.
  intros C T N H E st2. unfold number_set in H. destruct (number_adapt conv neg signed v) as [[n'|]|x] eqn:A.
  - destruct (show n') as [u|] eqn:S; [|discriminate]. injection H as <-. cbn in E. injection E as ->.
    assert (number_adapt conv neg signed (back n) = Ok (Some n)) as B.
    { unfold number_adapt in A |- *.
      assert (signed = true \/ neg n = Ok false) as Sg.
      { destruct v; try discriminate A.
        all: match type of A with bind (adaptation _ ?a) _ = _ => destruct a as [w|[]]; try discriminate end.
        all: cbn [bind adaptation] in A; destruct signed; [now left|].
        all: destruct (neg w) as [[]|] eqn:L; try discriminate; injection A as ->; now right. }
      pose proof (C n) as Cn. pose proof (T n) as Tn. pose proof (N n) as Nn. destruct (back n) as [|s| | | |]; [now contradiction Nn|now contradiction (Tn s)|..].
      all: rewrite Cn; cbn [bind adaptation]; destruct signed; [reflexivity|]; destruct Sg as [|L]; [discriminate|]; now rewrite L. }
    unfold number_set. rewrite B, S. eexists. split; [reflexivity|]. now split.
  - injection H as <-. discriminate.
  - destruct x; discriminate.
Qed.
Lemma float_own signed st v st' f : float_set signed st v = (st', Ok true) -> n_value st' = Some f ->
  forall shown st2, exists st3, float_set signed st2 (NFloat f shown) = (st3, Ok true) /\ n_value st3 = Some f /\ n_u st3 = n_u st'.
Proof. intros H E shown st2. exact (number_own to_float float_neg signed _ st v st' f (fun w => NFloat w shown) (fun w => eq_refl) (fun w s E => ltac:(discriminate E)) (fun w E => ltac:(discriminate E)) H E st2). Qed.
Lemma decimal_own signed st v st' d : decimal_set signed st v = (st', Ok true) -> n_value st' = Some d ->
  forall shown st2, exists st3, decimal_set signed st2 (NDec d shown) = (st3, Ok true) /\ n_value st3 = Some d /\ n_u st3 = n_u st'.
Proof. intros H E shown st2. exact (number_own to_decimal decimal_neg signed _ st v st' d (fun w => NDec w shown) (fun w => eq_refl) (fun w s E => ltac:(discriminate E)) (fun w E => ltac:(discriminate E)) H E st2). Qed.
