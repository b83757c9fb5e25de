(* Setting Float and Decimal elements. *)
From Verif Require Import PyBase PyBaseFacts ModelScalar SpecScalar ProofScalar ProofScalar2 ProofFlat3 ModelNumber SpecNumber
  ProofNumber ProofNumber2 ProofNumber3.
Local Open Scope Z_scope.

Lemma said_iff v u : v <> NNone -> said v u <-> u = num_text v.
Proof.
  intros NN. destruct v; try easy; cbn [num_text]; try (split; [intros S; inversion S; now subst|intros ->; constructor]).
  split; [|intros ->; constructor; apply dec_z_canonical]. intros S. inversion S as [|? ? C| | |]; subst.
  destruct C as (IT & P), (dec_z_canonical z) as (IT' & P').
  destruct P as [[Z0 P]|[Z0 (t & -> & P)]], P' as [[Z0' P']|[Z0' (t' & E' & P')]]; try lia.
  - inversion IT as [? n Ha Hd|t n Ht Hd E|t n Ht Hd E]; subst; [|destruct P as [P _]; apply Forall_inv in P; lia|destruct P as [P _]; apply Forall_inv in P; lia].
    apply (plain_inj _ _ n); auto. 
    inversion IT' as [? n' Ha' Hd' E E1|t n' Ht Hd' E E1|t n' Ht Hd' E E1]; [|rewrite <- E in P'; destruct P' as [P' _]; apply Forall_inv in P'; lia|rewrite <- E in P'; destruct P' as [P' _]; apply Forall_inv in P'; lia].
    apply N2Z.inj in E1. now subst.
  - rewrite E' in *. f_equal.
    inversion IT as [? n Ha Hd E E1|? n Ht Hd E E1|? n Ht Hd E E1]; try lia.
    inversion IT' as [? n' Ha' Hd' E2 E3|? n' Ht' Hd' E2 E3|? n' Ht' Hd' E2 E3]; try lia; subst.
    apply (plain_inj _ _ n); auto. assert (n' = n) by lia. now subst.
Qed.
Lemma as_float_iff v f : real_num v -> as_float v f <-> (match v with NNone => False | _ => True end) /\
  adaptation true (to_float (match v with NText s => NText (strip s) | _ => v end)) = Ok f.
Proof.
  intros R. destruct v as [|s|z|g s|d s|s]; cbn [to_float].
  - split; [intros A; inversion A|easy].
  - split.
    + intros A. inversion A as [? t d ? T L F| | |]; subst. apply trimmed_eq in T. subst t. pose proof (literal_sound _ _ _ L) as S. apply parse_iff in L. rewrite L.
      apply dec_to_float_iff in F; [|easy]. now rewrite F.
    + intros [_ A]. destruct (parse false (strip s)) as [d|] eqn:P; [|easy]. apply parse_iff in P. apply (af_text s (strip s) d); [now apply trimmed_eq|easy|].
      apply dec_to_float_iff; [now apply literal_sound in P|]. destruct (dec_to_float d) as [g|[]]; cbn in A; congruence.
  - pose proof (nearest_rounded (z <? 0) (Z.abs z) 1 ltac:(lia) ltac:(lia)) as N0. split.
    + intros A. inversion A as [|? m e Ro| |]; subst. apply nearest_iff in Ro; [|lia|lia]. now rewrite Ro.
    + intros [_ A]. destruct (nearest (z <? 0) (Z.abs z) 1) as [neg m e|neg|] eqn:E; [|easy|inversion N0]. cbn in A. injection A as <-.
      inversion N0; subst. now apply af_int.
  - split; [intros A; inversion A; now subst|intros [_ [= <-]]; constructor].
  - cbn in R. split.
    + intros A. inversion A as [| | |? ? ? F]; subst. apply dec_to_float_iff in F; [|destruct d; easy]. now rewrite F.
    + intros [_ A]. constructor. apply dec_to_float_iff; [destruct d; easy|]. destruct (dec_to_float d) as [g|[]]; cbn in A; congruence.
  - split; [intros A; inversion A|cbn; easy].
Qed.
Lemma to_float_errs v e : to_float v = Err e -> adaptation true (@Err flt e) = Err AdaptErr.
Proof.
  destruct v as [|s|z|g s|d s|s]; cbn [to_float]; try (intros [= <-]; easy).
  - destruct (parse false s) as [d|]; [|intros [= <-]; easy]. destruct d as [| |[|]]; cbn; intros [= <-]; easy.
  - destruct (nearest _ _ _); intros [= <-]; easy.
  - destruct d as [| |[|]]; cbn; intros [= <-]; easy.
Qed.
Lemma as_float_real v f : real_num v -> as_float v f -> real_float f.
Proof.
  assert (D : forall d f, float_of d f -> real_float f).
  { intros d g H. destruct H as [neg c x g H R|neg c x g H R|neg|]; try exact Logic.I; destruct R; easy. }
  intros R A. destruct A as [s t d f T L F|z m e Ro|g s|d s f F]; eauto.
  - now inversion Ro.
Qed.
Lemma float_neg_iff f : real_float f -> float_neg f = Ok true <-> below_zero f.
Proof.
  intros R. destruct f as [neg m e|neg|]; cbn.
  - destruct R as ([M0 _] & _). split; [intros [= H]; apply andb_true_iff in H as [H1 H2]; split; [easy|now apply Z.ltb_lt]|]. intros [-> H]. unfold float_neg. apply Z.ltb_lt in H. now rewrite H.
  - split; [now intros [= ->]|now intros ->].
  - easy.
Qed.
Lemma number_adapt_eq {V} (conv : num_in -> res V) is_neg signed v : v <> NNone ->
  number_adapt conv is_neg signed v =
  bind (adaptation true (conv (match v with NText s => NText (strip s) | _ => v end))) (fun native =>
  if signed then Ok (Some native) else bind (is_neg native) (fun neg => if neg then Err AdaptErr else Ok (Some native))).
Proof. now destruct v. Qed.
Lemma float_set_spec signed st v st' r : real_num v -> float_set signed st v = (st', r) ->
  n_raw st' = Some v /\
  (v = NNone /\ r = Ok true /\ n_value st' = None /\ n_u st' = []
   \/ (exists f, as_float v f /\ (signed = true \/ ~ below_zero f)
        /\ r = Ok true /\ n_value st' = Some f /\ float_text f (n_u st'))
   \/ v <> NNone /\ (forall f, as_float v f -> signed = false /\ below_zero f)
        /\ r = Ok false /\ n_value st' = None /\ said v (n_u st')).
Proof.
  intros R. unfold float_set, number_set.
  assert (NN : v = NNone \/ v <> NNone) by (destruct v; [now left|..]; now right).
  destruct NN as [->|NN]; [intros [= <- <-]; split; [easy|now left]|].
  rewrite number_adapt_eq by easy. set (w := match v with NText s => NText (strip s) | _ => v end).
  assert (AF : forall f, as_float v f <-> adaptation true (to_float w) = Ok f).
  { intros f. rewrite as_float_iff by easy. unfold w. destruct v; tauto. }
  destruct (adaptation true (to_float w)) as [f|e] eqn:A.
  - assert (F : as_float v f) by now apply AF. pose proof (as_float_real _ _ R F) as RF. cbn [bind].
    assert (U : forall g, as_float v g -> g = f) by (intros g G; apply AF in G; congruence).
    destruct signed.
    + intros [= <- <-]. split; [easy|]. right. left. exists f. repeat split; auto. now apply fixed6_iff.
    + destruct (float_neg f) as [[|]|e] eqn:FN; [| |destruct f; easy]; cbn [bind].
      * intros [= <- <-]. split; [easy|]. right. right. repeat split; auto; [|now apply said_iff]. intros. erewrite U by eauto. now apply float_neg_iff.
      * intros [= <- <-]. split; [easy|]. right. left. exists f. repeat split; auto; [|now apply fixed6_iff].
        right. intros B. apply float_neg_iff in B; [|easy]. congruence.
  - assert (e = AdaptErr) as ->. { destruct (to_float w) as [f|e0] eqn:T; [easy|]. pose proof (to_float_errs _ _ T). congruence. }
    cbn [bind]. intros [= <- <-]. split; [easy|]. right. right. repeat split; auto; [| |now apply said_iff]; apply AF in H; discriminate.
Qed.
Lemma as_float_fun v f g : real_num v -> as_float v f -> as_float v g -> f = g.
Proof. intros R. rewrite !as_float_iff by easy. intros [_ A] [_ B]. congruence. Qed.
Lemma float_text_ex f : real_float f -> exists s, float_text f s.
Proof. intros R. exists (fixed6 f). now apply fixed6_iff. Qed.
Lemma float_text_fun f s t : real_float f -> float_text f s -> float_text f t -> s = t.
Proof. intros R. rewrite !fixed6_iff by easy. congruence. Qed.
Lemma float_of_ex d : match d with DNum _ c _ => 0 <= c | _ => True end -> d <> DNan true -> exists f, float_of d f /\ forall g, float_of d g -> g = f.
Proof.
  intros C N. destruct (dec_to_float d) as [f|e] eqn:E.
  - exists f. split; [now apply dec_to_float_iff|]. intros g G. apply dec_to_float_iff in G; [|easy]. congruence.
  - destruct d as [| |[|]]; easy.
Qed.

(* ---------------- text set again ---------------- *)
Lemma six_literal dc n : 0 <= n -> forall neg : bool, literal dc ((if neg then lit "-" else []) ++ six n) (DNum neg n (-6)).
Proof.
  intros Hn neg. apply li_num; [destruct neg; constructor|]. apply nt_plain.
  assert (P : six_places (six n) n) by now apply six_places_iff. destruct P as [a b w r C W [[L Nb] _]].
  destruct C as (IT & [[_ P]|[? _]]); [|lia]. destruct IT as [a k A Na|a k A Na|a k A Na]; [|destruct P as [P _]; apply Forall_inv in P; lia|destruct P as [P _]; apply Forall_inv in P; lia].
  pose proof (ProofNetwork2.numeral_app _ _ _ _ Na Nb) as NN. rewrite L in NN.
  replace (Z.of_N k * 1000000 + Z.of_N r) with (Z.of_N (k * 10 ^ N.of_nat 6 + r)%N) by (change (10 ^ N.of_nat 6)%N with 1000000%N; lia).
  replace (-6) with (- Z.of_nat (List.length b)) by (rewrite L; reflexivity). apply ma_point; [|easy]. destruct a; easy.
Qed.
Lemma in_range m e : is_float m e -> mill m e < 1000000 * ((2 ^ 54 - 1) * 2 ^ 970).
Proof.
  intros F. assert (U : units m e <= (2 ^ 53 - 1) * 2 ^ 2045).
  { destruct F as ([M0 M1] & [E0 E1] & _). unfold units. apply Z.mul_le_mono_nonneg; [easy|lia|pose proof (pow_pos (e + 1074)); lia|apply Z.pow_le_mono_r; lia]. }
  destruct (round_even_spec (units m e * 1000000) (2 ^ 1074) eq_refl) as [H _]. fold (mill m e) in H.
  set (n := mill m e) in *. clearbody n. set (u := units m e) in *. clearbody u.
  change (2 ^ 2045) with (2 * 2 ^ 970 * 2 ^ 1074) in U. change (2 ^ 54 - 1) with (2 * (2 ^ 53 - 1) + 1).
  assert (0 < 2 ^ 1074) by reflexivity. assert (0 < 2 ^ 970) by reflexivity. assert (0 < 2 ^ 53 - 1) by reflexivity.
  set (c := 2 ^ 1074) in *. set (a := 2 ^ 970) in *. set (b := 2 ^ 53 - 1) in *. clearbody a b c.
  apply Z.nle_gt. intros C. assert (1000000 * ((2 * b + 1) * a) * c <= n * c) by nia. 
  assert (u * 1000000 <= b * (2 * a * c) * 1000000) by nia. nia.
Qed.
(* the float read back from the text *)
Definition again (f : flt) : flt := match f with Fin neg m e => nearest neg (mill m e) 1000000 | _ => f end.
Lemma again_fin neg m e : is_float m e -> exists m' e', nearest neg (mill m e) 1000000 = Fin neg m' e' /\ is_float m' e'
  /\ Z.abs (units m' e' * 1000000 - mill m e * 2 ^ 1074) <= Z.abs (units m e * 1000000 - mill m e * 2 ^ 1074)
  /\ (units m e * 1000000 = mill m e * 2 ^ 1074 -> m' = m /\ e' = e).
Proof.
  intros F. assert (N0 : 0 <= mill m e) by (destruct F as ([? _] & [? _] & _); now apply mill_nonneg).
  pose proof (nearest_rounded neg (mill m e) 1000000 N0 ltac:(lia)) as R. inversion R as [m' e' F' T A B E|T E].
  - exists m', e'. split; [easy|]. split; [easy|]. specialize (A m e F). split; [exact A|]. intros X.
    assert (Y : off (mill m e) 1000000 (units m e) = 0) by (unfold off; rewrite X; lia). rewrite Y in A. unfold off in A.
    apply units_inj; [easy|easy|]. lia.
  - exfalso. pose proof (in_range m e F). lia.
Qed.
Lemma again_text f s : real_float f -> float_text f s -> float_text (again f) s.
Proof.
  intros R T. apply fixed6_iff in T; [|easy]. subst s. destruct f as [neg m e|neg|]; cbn [again]; [|apply fixed6_iff; easy|apply fixed6_iff; easy].
  cbn in R. destruct (again_fin neg m e R) as (m' & e' & E & F' & D & _). rewrite E. apply fixed6_iff; [exact F'|].
  assert (K : mill m' e' = mill m e).
  { apply round_even_unique; [reflexivity| |]; destruct (round_even_spec (units m e * 1000000) (2 ^ 1074) eq_refl) as [H H']; fold (mill m e) in H, H'.
    - lia.
    - intros Q. apply H'. lia. }
  cbn [fixed6]. pose proof R as (_ & [E0 _] & _). pose proof F' as (_ & [E0' _] & _). now rewrite <- !mill_eq, K.
Qed.
Lemma trim_six f s : float_text f s -> real_float f -> trimmed s s.
Proof.
  intros T R. apply fixed6_iff in T; [|easy]. subst s.
  assert (G : forall s, s <> [] -> Forall (fun c => is_space c = false) s -> trimmed s s).
  { intros s N A. exists [], []. rewrite app_nil_r. split; [easy|]. split; [constructor|]. split; [constructor|]. split.
    - intros c r ->. now apply Forall_inv in A.
    - intros c r ->. apply Forall_app in A as [_ A]. now apply Forall_inv in A. }
  assert (D : forall s, Forall (fun c => 48 <= c <= 57)%N s -> Forall (fun c => is_space c = false) s).
  { intros s H. eapply Forall_impl; [|exact H]. intros c C. cbn beta in C. assert (digit c (c - 48)) as X by (exists 48%N; split; [now left|lia]). now apply digit_plain in X. }
  apply G.
  - destruct f as [[] m e|[]|]; cbn; try easy. intros X. apply app_eq_nil in X as [_ X]. discriminate.
  - destruct f as [neg m e|[]|]; cbn [fixed6]; [|repeat constructor|repeat constructor|repeat constructor].
    apply Forall_app; split; [destruct neg; repeat constructor|]. apply Forall_app; split; [apply D; apply (proj1 (dec_plain _))|].
    apply Forall_app; split; [repeat constructor|]. apply D. apply ProofCompound.dec_pad_digits.
Qed.
Lemma again_literal dc f s : real_float f -> float_text f s -> exists d, literal dc s d /\ float_of d (again f).
Proof.
  intros R T. apply fixed6_iff in T; [|easy]. subst s. destruct f as [neg m e|neg|].
  - cbn in R. pose proof R as ([M0 _] & [E0 _] & _). assert (0 <= mill m e) by now apply mill_nonneg.
    exists (DNum neg (mill m e) (-6)). split.
    + cbn [fixed6]. rewrite <- mill_eq by easy. cbv zeta. fold (six (mill m e)). now apply six_literal.
    + apply dec_to_float_iff; [easy|]. reflexivity.
  - exists (DInf neg). split; [|constructor]. change (fixed6 (FInf neg)) with (sign_text neg ++ lit "inf"). apply li_inf; [destruct neg; constructor|].
    left. apply word_inf. reflexivity.
  - exists (DNan false). split; [|constructor]. change (fixed6 FNan) with ([] ++ lit "nan"). apply li_nan with false; [constructor|]. apply word_nan. reflexivity.
Qed.
