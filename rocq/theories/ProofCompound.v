(* DateYYYYMMDD *)
From Verif Require Import PyBase PyBaseFacts ModelScalar SpecScalar ProofScalar ProofScalar2 ProofScalar3 ModelCompound SpecCompound.

Lemma pct_i_iff v z : pct_i v = Ok z <-> counts_as v z.
Proof.
  split.
  - destruct v as [|[|]| | | | | |o]; cbn [pct_i]; intros H; try discriminate H; try (injection H as <-; constructor).
    now constructor.
  - intros H; destruct H; easy.
Qed.
Lemma counts_as_fun v z z' : counts_as v z -> counts_as v z' -> z = z'.
Proof. rewrite <- !pct_i_iff; congruence. Qed.
Lemma pad_z_nat w n : pad_z w (Z.of_N n) = dec_pad w n.
Proof. destruct n; easy. Qed.

Lemma app_dash_inj (a a' b b' : str) : ~ In 45%N a -> ~ In 45%N a' ->
  a ++ lit "-" ++ b = a' ++ lit "-" ++ b' -> a = a' /\ b = b'.
Proof.
  revert a'; induction a as [|x a IH]; intros [|y a'] H H' E.
  - now injection E.
  - exfalso. apply H'. injection E as E1 _. left; now rewrite <- E1.
  - exfalso. apply H. injection E as E1 _. left; now rewrite E1.
  - injection E as -> E. destruct (IH a') as [-> ->]; try easy; cbn in *; tauto.
Qed.
Lemma dec_pad_digits w n : Forall (fun c => 48 <= c <= 57)%N (dec_pad w n).
Proof.
  unfold dec_pad, pad0. apply Forall_app. split.
  - apply Forall_forall. intros x I. apply repeat_spec in I. subst. vm_compute. easy.
  - apply (proj1 (dec_plain n)).
Qed.
Lemma digits_no_dash (s : str) : Forall (fun c => 48 <= c <= 57)%N s -> ~ In 45%N s.
Proof. intros H I. rewrite Forall_forall in H. specialize (H _ I). lia. Qed.
Lemma dec_pad_len_ge w n : (w <= List.length (dec_pad w n))%nat.
Proof. unfold dec_pad, pad0. rewrite app_length, repeat_length. lia. Qed.
Lemma numeral_dec_pad w n : numeral (dec_pad w n) n.
Proof.
  apply numeral_iff. unfold dec_pad, pad0. apply zeros_val. apply dec_val.
Qed.
Lemma digit_not_dash s n : numeral s n -> ~ In 45%N s.
Proof.
  intros (ds & H & _) I. apply In_nth_error in I as (i & I).
  revert ds H i I. induction s as [|c s IH]; intros [|d ds] H [|i] I; try easy; inversion H as [|? ? ? ? Hd Hr]; subst.
  - injection I as ->. destruct Hd as (z & Hz & Hlt & E).
    assert (F : forallb (fun z => 48 <=? z)%N nd_zeros = true) by (vm_compute; reflexivity).
    rewrite forallb_forall in F. specialize (F _ Hz). apply N.leb_le in F. lia.
  - cbn in I. now apply (IH ds Hr i).
Qed.
Lemma pad_z_cases w z : (exists n, z = Z.of_N n /\ pad_z w z = dec_pad w n)
  \/ ((z < 0)%Z /\ exists s, pad_z w z = 45%N :: s).
Proof.
  destruct z as [|p|p].
  - left. exists 0%N. easy.
  - left. exists (Npos p). easy.
  - right. split; [lia|]. now exists (dec_pad (w - 1) (Npos p)).
Qed.
Definition composed (y m d : Z) : str := pad_z 4 y ++ lit "-" ++ pad_z 2 m ++ lit "-" ++ pad_z 2 d.
Definition date_char (c : N) : Prop := (48 <= c <= 57 \/ c = 45)%N.
Lemma pad_z_chars w z : Forall date_char (pad_z w z).
Proof.
  assert (D : forall w n, Forall date_char (dec_pad w n)).
  { intros w' n. eapply Forall_impl; [|apply dec_pad_digits]. intros c H; now left. }
  destruct z as [|p|p]; cbn [pad_z]; try apply D. constructor; [now right|apply D].
Qed.
Lemma composed_chars y m d : Forall date_char (composed y m d).
Proof.
  unfold composed. repeat (apply Forall_app; split); try apply pad_z_chars; repeat constructor; now right.
Qed.
Lemma date_char_space c : date_char c -> is_space c = false.
Proof.
  intros H. unfold date_char in H. unfold is_space. lia.
Qed.
Lemma date_chars_clean s : Forall date_char s -> outer_clean s.
Proof.
  intros H. split; intros c r ->.
  - inversion H; subst. now apply date_char_space.
  - apply Forall_app in H as [_ H]. inversion H; subst. now apply date_char_space.
Qed.
Lemma composed_looked b y m d s0 : looked_at b (composed y m d) s0 <-> s0 = composed y m d.
Proof.
  pose proof (composed_chars y m d) as C. pose proof (date_chars_clean _ C) as O.
  destruct b; unfold looked_at.
  - split.
    + intros H. apply (trimmed_fun (composed y m d)); [easy|].
      exists [], []. rewrite app_nil_r. repeat split; try constructor; apply O.
    + intros ->. exists [], []. rewrite app_nil_r. repeat split; try constructor; apply O.
  - split; [|now left]. intros [H|H]; [easy|]. exfalso. rewrite H in C.
    apply Forall_app in C as [_ C]. inversion C as [|? ? Hc _]; subst. destruct Hc; lia.
Qed.
Lemma composed_form y m d dd : date_form field (composed y m d) dd ->
  y = Z.of_N (d_y dd) /\ m = Z.of_N (d_m dd) /\ d = Z.of_N (d_d dd).
Proof.
  intros H. remember (composed y m d) as t eqn:Et. destruct H as [y' m' d' a b c [La Na] [Lb Nb] [Lc Nc]].
  cbn [d_y d_m d_d]. unfold composed in Et.
  pose proof (digit_not_dash _ _ Na) as Da. pose proof (digit_not_dash _ _ Nb) as Db. pose proof (digit_not_dash _ _ Nc) as Dc.
  destruct (pad_z_cases 4 y) as [(ny & -> & Py)|(_ & s & Py)]; rewrite Py in Et.
  2: { destruct a as [|x a]; [discriminate La|]. exfalso. injection Et as E _. apply Da. left. easy. }
  apply app_dash_inj in Et as [Ea Et]; [|easy|apply digits_no_dash, dec_pad_digits].
  destruct (pad_z_cases 2 m) as [(nm & -> & Pm)|(_ & s & Pm)]; rewrite Pm in Et.
  2: { destruct b as [|x b]; [discriminate Lb|]. exfalso. injection Et as E _. apply Db. left. easy. }
  apply app_dash_inj in Et as [Eb Et]; [|easy|apply digits_no_dash, dec_pad_digits].
  destruct (pad_z_cases 2 d) as [(nd & -> & Pd)|(_ & s & Pd)]; rewrite Pd in Et.
  2: { exfalso. apply Dc. rewrite Et. now left. }
  subst a b c. repeat split; f_equal; (eapply numeral_fun; [apply numeral_dec_pad|eassumption]).
Qed.
Lemma composed_real d : composed (Z.of_N (d_y d)) (Z.of_N (d_m d)) (Z.of_N (d_d d)) = date_text d.
Proof. unfold composed. now rewrite !pad_z_nat. Qed.
Lemma adapt_composed b y m d v : adapt (KTemporal TDate b) (VText (composed y m d)) = Ok v <->
  exists dd, v = VDate dd /\ real_date dd /\ y = Z.of_N (d_y dd) /\ m = Z.of_N (d_m dd) /\ d = Z.of_N (d_d dd).
Proof.
  rewrite adapt_temporal_text, looked_parse. split.
  - intros (s0 & L & H). apply composed_looked in L. subst s0.
    inversion H as [s dd F R| |]; subst. exists dd. split; [easy|]. split; [easy|]. now apply composed_form.
  - intros (dd & -> & R & -> & -> & ->). rewrite composed_real. exists (date_text dd).
    split; [rewrite <- composed_real; now apply composed_looked|].
    constructor; [|easy]. apply date_form_mono. now apply date_text_form.
Qed.
Lemma adapt_date_err b v e : adapt (KTemporal TDate b) v = Err e -> e = AdaptErr.
Proof.
  destruct v; try rewrite adapt_temporal_text; try apply parse_err; cbn; congruence.
Qed.

Lemma compose_unfold b p : date_compose b p =
  match pct_i (s_value (p_y p)), pct_i (s_value (p_m p)), pct_i (s_value (p_d p)) with
  | Ok y, Ok m, Ok d =>
      match adapt (KTemporal TDate b) (VText (composed y m d)) with
      | Ok v => Ok (composed y m d, v)
      | Err _ => Ok ([], VNone)
      end
  | Err e, _, _ | Ok _, Err e, _ | Ok _, Ok _, Err e =>
      match e with AdaptErr | TypeErr => Ok ([], VNone) | _ => Err e end
  end.
Proof.
  unfold date_compose.
  destruct (pct_i (s_value (p_y p))) as [y|e]; cbn [bind]; [|now destruct e].
  destruct (pct_i (s_value (p_m p))) as [m|e]; cbn [bind]; [|now destruct e].
  destruct (pct_i (s_value (p_d p))) as [d|e]; cbn [bind]; [|now destruct e].
  change (pad_z 4 y ++ lit "-" ++ pad_z 2 m ++ lit "-" ++ pad_z 2 d) with (composed y m d).
  destruct (adapt (KTemporal TDate b) (VText (composed y m d))) as [v|e] eqn:A; [easy|].
  apply adapt_date_err in A. now subst e.
Qed.
Lemma compose_date b p d : holds_date p d -> date_compose b p = Ok (date_text d, VDate d).
Proof.
  intros (R & Y & M & D). rewrite compose_unfold.
  apply pct_i_iff in Y, M, D. rewrite Y, M, D.
  assert (adapt (KTemporal TDate b) (VText (composed (Z.of_N (d_y d)) (Z.of_N (d_m d)) (Z.of_N (d_d d)))) = Ok (VDate d)) as ->
    by (apply adapt_composed; now exists d).
  now rewrite composed_real.
Qed.
Lemma pct_i_err v e : pct_i v = Err e -> (forall z, ~ counts_as v z) /\ (e = TypeErr \/ exists o, v = VObj o /\ o_int o = Err e).
Proof.
  intros H. split; [intros z C; apply pct_i_iff in C; congruence|].
  destruct v as [|[|]| | | | | |o]; cbn [pct_i] in H; try discriminate H; try (injection H as <-; now left).
  right. now exists o.
Qed.
Lemma calm_err v e : calm v -> pct_i v = Err e -> e = TypeErr.
Proof. intros C H. apply pct_i_err in H as (_ & [H|(o & -> & O)]); [easy|]. now apply (C o). Qed.
Lemma compose_nothing b p : calm_parts p -> (forall d, ~ holds_date p d) -> date_compose b p = Ok ([], VNone).
Proof.
  intros (Cy & Cm & Cd) H. rewrite compose_unfold.
  destruct (pct_i (s_value (p_y p))) as [y|e] eqn:Y; [|apply calm_err in Y; [now subst|easy]].
  destruct (pct_i (s_value (p_m p))) as [m|e] eqn:M; [|apply calm_err in M; [now subst|easy]].
  destruct (pct_i (s_value (p_d p))) as [d|e] eqn:D; [|apply calm_err in D; [now subst|easy]].
  destruct (adapt (KTemporal TDate b) (VText (composed y m d))) as [v|e] eqn:A; [|easy].
  exfalso. apply adapt_composed in A as (dd & -> & R & -> & -> & ->).
  apply (H dd). split; [easy|]. now rewrite <- !pct_i_iff.
Qed.
Lemma compose_raises b p e : date_compose b p = Err e ->
  exists st o, In st [p_y p; p_m p; p_d p] /\ s_value st = VObj o /\ o_int o = Err e /\ e <> TypeErr /\ e <> AdaptErr.
Proof.
  rewrite compose_unfold. intros H.
  assert (X : forall st e', In st [p_y p; p_m p; p_d p] -> pct_i (s_value st) = Err e' ->
    match e' with AdaptErr | TypeErr => @Ok (str * pyval) ([], VNone) | _ => Err e' end = Err e ->
    exists st o, In st [p_y p; p_m p; p_d p] /\ s_value st = VObj o /\ o_int o = Err e /\ e <> TypeErr /\ e <> AdaptErr).
  { intros st e' I Y E. apply pct_i_err in Y as (_ & [-> |(o & V & O)]); [discriminate E|].
    exists st, o. split; [easy|]. split; [easy|]. destruct e'; try discriminate E; injection E as <-; easy. }
  destruct (pct_i (s_value (p_y p))) as [y|e'] eqn:Y; [|apply (X (p_y p) e'); cbn; tauto].
  destruct (pct_i (s_value (p_m p))) as [m|e'] eqn:M; [|apply (X (p_m p) e'); cbn; tauto].
  destruct (pct_i (s_value (p_d p))) as [d|e'] eqn:D; [|apply (X (p_d p) e'); cbn; tauto].
  destruct (adapt (KTemporal TDate b) (VText (composed y m d))); discriminate H.
Qed.
Lemma value_iff b p d : date_value b p = Ok (VDate d) <-> holds_date p d.
Proof.
  unfold date_value. split.
  - rewrite compose_unfold. intros H.
    destruct (pct_i (s_value (p_y p))) as [y|e'] eqn:Y; [|destruct e'; discriminate H].
    destruct (pct_i (s_value (p_m p))) as [m|e'] eqn:M; [|destruct e'; discriminate H].
    destruct (pct_i (s_value (p_d p))) as [dd|e'] eqn:D; [|destruct e'; discriminate H].
    destruct (adapt (KTemporal TDate b) (VText (composed y m dd))) as [v|e] eqn:A; [|discriminate H].
    apply adapt_composed in A as (d' & -> & R & -> & -> & ->). cbn in H. injection H as ->.
    split; [easy|]. now rewrite <- !pct_i_iff.
  - intros H. now rewrite (compose_date b p d H).
Qed.
Lemma value_none b p : calm_parts p -> date_value b p = Ok VNone <-> forall d, ~ holds_date p d.
Proof.
  intros C. split.
  - intros H d D. apply (value_iff b) in D. congruence.
  - intros H. unfold date_value. now rewrite (compose_nothing b p C H).
Qed.
Lemma u_date b p d : holds_date p d -> exists u, date_u b p = Ok u /\ date_form ascii_field u d.
Proof.
  intros H. exists (date_text d). unfold date_u. rewrite (compose_date b p d H). split; [easy|].
  apply date_text_form. apply H.
Qed.
Lemma u_none b p : calm_parts p -> (forall d, ~ holds_date p d) -> date_u b p = Ok [].
Proof. intros C H. unfold date_u. now rewrite (compose_nothing b p C H). Qed.

(* ---- set ---- *)
Lemma adapt_means b v d : real_val v ->
  (exists w, adapt (KTemporal TDate b) v = Ok w /\ (w = VDate d \/ exists t, w = VDateTime d t)) <-> means_date b v d.
Proof.
  intros RV. split.
  - intros (w & A & W). destruct v; try discriminate A.
    + cbn in A. injection A as <-. destruct W as [W|(t & W)]; discriminate W.
    + rewrite adapt_temporal_text, looked_parse in A. destruct A as (s0 & L & T).
      inversion T as [s' dd F R| |]; subst. destruct W as [W|(t & W)]; [|discriminate W]. injection W as <-.
      now apply md_text with s0.
    + cbn in A. injection A as <-. destruct W as [W|(t & W)]; [|discriminate W]. injection W as <-. now constructor.
    + cbn in A. injection A as <-. destruct W as [W|(t' & W)]; [discriminate W|]. injection W as <- <-. constructor. apply RV.
  - intros H. destruct H as [d R|d t R|s s0 d L F R].
    + exists (VDate d). split; [easy|now left].
    + exists (VDateTime d t). split; [easy|right; now exists t].
    + exists (VDate d). split; [|now left]. rewrite adapt_temporal_text, looked_parse.
      exists s0. split; [easy|]. now constructor.
Qed.
Lemma adapt_date_ok b v w : adapt (KTemporal TDate b) v = Ok w ->
  w = VNone /\ v = VNone \/ exists d, w = VDate d \/ exists t, w = VDateTime d t.
Proof.
  destruct v; intros A; try discriminate A.
  - left. now injection A.
  - right. rewrite adapt_temporal_text, looked_parse in A. destruct A as (s0 & L & T).
    inversion T as [s' dd F R| |]; subst. exists dd. now left.
  - right. injection A as <-. exists d. now left.
  - right. injection A as <-. exists d. right. now exists t.
Qed.
Definition date_numbers (k : kinds) (p : parts) (d : date) : parts * res unit :=
  set_parts k p (VInt (Z.of_N (d_y d))) (VInt (Z.of_N (d_m d))) (VInt (Z.of_N (d_d d))).
Lemma explode_means b k p v d : real_val v -> means_date b v d ->
  date_explode b k p v =
  match date_numbers k p d with
  | (p', Err AdaptErr) | (p', Err TypeErr) => set_parts k p' VNone VNone VNone
  | r => r
  end.
Proof.
  intros RV H. apply adapt_means in H as (w & A & W); [|easy]. unfold date_explode. rewrite A.
  destruct W as [-> |(t & ->)]; fold (date_numbers k p d); destruct (date_numbers k p d) as [p' [[]|[]]]; easy.
Qed.
Lemma set_parts_ok k p y m d sy sm sd by_ bm bd :
  scalar_set (k_y k) (p_y p) y = (sy, Ok by_) -> scalar_set (k_m k) (p_m p) m = (sm, Ok bm) ->
  scalar_set (k_d k) (p_d p) d = (sd, Ok bd) -> set_parts k p y m d = (Parts sy sm sd, Ok tt).
Proof. intros Y M D. unfold set_parts. rewrite Y. cbn [p_m]. rewrite M. cbn [p_d]. now rewrite D. Qed.
Lemma set_date b k p v d : real_val v -> means_date b v d ->
  takes (k_y k) (Z.of_N (d_y d)) -> takes (k_m k) (Z.of_N (d_m d)) -> takes (k_d k) (Z.of_N (d_d d)) ->
  exists p', date_set b k p v = (p', Ok true) /\ holds_date p' d.
Proof.
  intros RV H Ty Tm Td.
  destruct (Ty (p_y p)) as (sy & Y & Vy). destruct (Tm (p_m p)) as (sm & M & Vm). destruct (Td (p_d p)) as (sd & D & Vd).
  exists (Parts sy sm sd). unfold date_set. rewrite (explode_means b k p v d RV H).
  unfold date_numbers. rewrite (set_parts_ok k p _ _ _ sy sm sd true true true Y M D).
  split; [easy|]. split; [|easy]. destruct H; easy.
Qed.
Lemma set_garbage b k p v : real_val v -> v <> VNone -> (forall d, ~ means_date b v d) ->
  clears (k_y k) -> clears (k_m k) -> clears (k_d k) ->
  exists p', date_set b k p v = (p', Ok true)
  /\ Forall (fun st => s_value st = VNone /\ s_u st = []) [p_y p'; p_m p'; p_d p'].
Proof.
  intros RV NN H Cy Cm Cd.
  destruct (Cy (p_y p)) as (sy & Y & Vy). destruct (Cm (p_m p)) as (sm & M & Vm). destruct (Cd (p_d p)) as (sd & D & Vd).
  exists (Parts sy sm sd). split; [|repeat constructor; apply Vy || apply Vm || apply Vd].
  unfold date_set, date_explode.
  destruct (adapt (KTemporal TDate b) v) as [w|e] eqn:A.
  - exfalso. destruct (adapt_date_ok _ _ _ A) as [(_ & ->)|(d & W)]; [easy|].
    apply (H d). apply adapt_means; [easy|]. now exists w.
  - apply adapt_date_err in A. subst e. now rewrite (set_parts_ok k p _ _ _ sy sm sd true true true Y M D).
Qed.
Lemma set_none b k p : date_set b k p VNone = (p, Ok false).
Proof. reflexivity. Qed.
Lemma explode_none b k p : date_explode b k p VNone = (p, Err AttributeErr).
Proof. reflexivity. Qed.
Lemma set_result b k p v : snd (date_set b k p v) = Ok true \/ snd (date_set b k p v) = Ok false
  \/ snd (date_set b k p v) = Err NotImplErr.
Proof.
  unfold date_set. destruct (date_explode b k p v) as [p' [[]|e]]; cbn; [now left|].
  destruct e; cbn; tauto.
Qed.
(* a child that raises *)
Lemma set_raises_y b k p v d st e : real_val v -> means_date b v d ->
  scalar_set (k_y k) (p_y p) (VInt (Z.of_N (d_y d))) = (st, Err e) -> e <> AdaptErr -> e <> TypeErr ->
  date_set b k p v = (Parts st (p_m p) (p_d p), if match e with NotImplErr => true | _ => false end then Err e else Ok false).
Proof.
  intros RV H E N1 N2. unfold date_set. rewrite (explode_means b k p v d RV H).
  unfold date_numbers, set_parts. rewrite E. destruct e; try easy; congruence.
Qed.
Lemma set_raises_m b k p v d sy by_ st e : real_val v -> means_date b v d ->
  scalar_set (k_y k) (p_y p) (VInt (Z.of_N (d_y d))) = (sy, Ok by_) ->
  scalar_set (k_m k) (p_m p) (VInt (Z.of_N (d_m d))) = (st, Err e) -> e <> AdaptErr -> e <> TypeErr ->
  date_set b k p v = (Parts sy st (p_d p), if match e with NotImplErr => true | _ => false end then Err e else Ok false).
Proof.
  intros RV H Y E N1 N2. unfold date_set. rewrite (explode_means b k p v d RV H).
  unfold date_numbers, set_parts. rewrite Y. cbn [p_m]. rewrite E. destruct e; try easy; congruence.
Qed.
Lemma set_raises_d b k p v d sy by_ sm bm st e : real_val v -> means_date b v d ->
  scalar_set (k_y k) (p_y p) (VInt (Z.of_N (d_y d))) = (sy, Ok by_) ->
  scalar_set (k_m k) (p_m p) (VInt (Z.of_N (d_m d))) = (sm, Ok bm) ->
  scalar_set (k_d k) (p_d p) (VInt (Z.of_N (d_d d))) = (st, Err e) -> e <> AdaptErr -> e <> TypeErr ->
  date_set b k p v = (Parts sy sm st, if match e with NotImplErr => true | _ => false end then Err e else Ok false).
Proof.
  intros RV H Y M E N1 N2. unfold date_set. rewrite (explode_means b k p v d RV H).
  unfold date_numbers, set_parts. rewrite Y. cbn [p_m]. rewrite M. cbn [p_d]. rewrite E. destruct e; try easy; congruence.
Qed.

(* ---- the default fields ---- *)
Lemma padded_set w st z : scalar_set (KNumber (padded_int w) true) st (VInt z) = (Scalar (Some (VInt z)) (VInt z) (pad_z w z), Ok true).
Proof. reflexivity. Qed.
Lemma padded_takes w z : takes (KNumber (padded_int w) true) z.
Proof. intros st. exists (Scalar (Some (VInt z)) (VInt z) (pad_z w z)). split; [easy|constructor]. Qed.
Lemma integer_takes z sg : (sg = true \/ 0 <= z)%Z -> takes (KInteger sg) z.
Proof.
  intros H st. exists (Scalar (Some (VInt z)) (VInt z) (dec_z z)). split; [|constructor].
  unfold scalar_set. destruct sg; [easy|]. cbn. destruct H as [H|H]; [easy|].
  assert ((z <? 0)%Z = false) as -> by lia. easy.
Qed.
Lemma number_clears nt sg : clears (KNumber nt sg).
Proof. intros st. exists emptied. easy. Qed.
Lemma dec_pad_nonempty w n : dec_pad w n <> [].
Proof.
  unfold dec_pad, pad0. destruct (dec n) eqn:E; [now apply dec_nonempty in E|]. now destruct (repeat _ _).
Qed.
Lemma pad_z_padded w z : (0 < w)%nat -> padded w (pad_z w z) z.
Proof.
  intros W. split; [|split; [apply pad_z_chars|]].
  - destruct z as [|p|p]; cbn [pad_z].
    + apply (it_plain _ 0%N); [apply dec_pad_nonempty|apply numeral_dec_pad].
    + apply (it_plain _ (Npos p)); [apply dec_pad_nonempty|apply numeral_dec_pad].
    + apply (it_minus _ (Npos p)); [apply dec_pad_nonempty|apply numeral_dec_pad].
  - assert (L : forall w n, List.length (dec_pad w n) = Nat.max w (List.length (dec n))).
    { intros w' n. unfold dec_pad, pad0. rewrite app_length, repeat_length. lia. }
    assert (F : forall w n, (w < List.length (dec n))%nat -> dec_pad w n = dec n).
    { intros w' n Hl. unfold dec_pad, pad0. now replace (w' - List.length (dec n))%nat with 0%nat by lia. }
    destruct z as [|p|p]; cbn [pad_z].
    + rewrite L. split; [lia|]. left. change (List.length (dec (Z.to_N 0))) with 1%nat. lia.
    + change (Z.to_N (Z.pos p)) with (Npos p). rewrite L. split; [lia|].
      destruct (Nat.le_gt_cases (List.length (dec (Npos p))) w) as [C|C]; [left; lia|right].
      rewrite F by easy. apply (dec_z_canonical (Z.pos p)).
    + cbn [List.length]. rewrite L. split; [lia|].
      destruct (Nat.le_gt_cases (List.length (dec (Npos p))) (w - 1)) as [C|C]; [left; lia|right].
      rewrite F by easy. apply (dec_z_canonical (Z.neg p)).
Qed.
Lemma init_completes given opt : (List.length given < 4)%nat ->
  exists fields, date_init given opt = Ok fields /\ completed given opt fields.
Proof.
  intros H. destruct given as [|a [|b [|c [|]]]]; [| | | |cbn in H; lia].
  all: eexists; split; [reflexivity|]; split; [reflexivity|]; split.
  1,3,5,7: eexists; split; [reflexivity|]; repeat constructor.
  all: intros [|[|[|[|i]]]] f E L; cbn in E, L; try lia; try discriminate E; injection E as <-; easy.
Qed.
Lemma init_refuses given opt : (4 <= List.length given)%nat -> date_init given opt = Err AssertErr.
Proof. intros H. unfold date_init. now apply Nat.leb_le in H as ->. Qed.

(* ---- emptiness ---- *)
Lemma is_empty_iff k p : (forall b, k_y k <> KString b) -> (forall b, k_m k <> KString b) -> (forall b, k_d k <> KString b) ->
  date_is_empty k p = true <-> Forall (fun st => s_value st = VNone /\ s_u st = []) [p_y p; p_m p; p_d p].
Proof.
  intros Ny Nm Nd. unfold date_is_empty. rewrite !andb_true_iff, !empty_iff by easy. split.
  - intros ((Y & M) & D). repeat constructor; apply Y || apply M || apply D.
  - intros H. inversion H as [|? ? Y H1]; subst. inversion H1 as [|? ? M H2]; subst. inversion H2 as [|? ? D _]; subst. easy.
Qed.
Lemma holds_not_empty k p d : (forall b, k_y k <> KString b) -> holds_date p d -> date_is_empty k p = false.
Proof.
  intros Ny (R & Y & _). unfold date_is_empty. destruct (scalar_is_empty (k_y k) (p_y p)) eqn:E; [|easy].
  apply empty_iff in E as (E & _); [|easy]. rewrite E in Y. inversion Y.
Qed.

(* ---- setting one child ---- *)
Definition calm_int (v : pyval) : Prop := exists z, counts_as v z.
Lemma counts_calm v z : counts_as v z -> calm v.
Proof. intros H o e -> O. inversion H; congruence. Qed.
Lemma of_N_neg z : (z < 0)%Z -> forall n, z <> Z.of_N n.
Proof. lia. Qed.
Lemma value_of_numbers b p y m d :
  counts_as (s_value (p_y p)) y -> counts_as (s_value (p_m p)) m -> counts_as (s_value (p_d p)) d ->
  (forall dd, real_date dd -> y = Z.of_N (d_y dd) -> m = Z.of_N (d_m dd) -> d = Z.of_N (d_d dd) -> date_value b p = Ok (VDate dd))
  /\ ((forall dd, real_date dd -> ~ (y = Z.of_N (d_y dd) /\ m = Z.of_N (d_m dd) /\ d = Z.of_N (d_d dd))) -> date_value b p = Ok VNone /\ date_u b p = Ok []).
Proof.
  intros Y M D. assert (C : calm_parts p) by (repeat split; eapply counts_calm; eassumption). split.
  - intros dd R -> -> ->. apply value_iff. now split.
  - intros H.
    assert (X : forall dd, ~ holds_date p dd).
    { intros dd (R & Y' & M' & D'). apply (H dd R). repeat split; eapply counts_as_fun; eassumption. }
    split; [now apply value_none|now apply u_none].
Qed.
