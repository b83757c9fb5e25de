(* Rounding is determined; nearest floats are the only rounded ones. *)
From Verif Require Import PyBase ModelScalar SpecScalar ModelNumber SpecNumber ProofNumber.
Local Open Scope Z_scope.

Lemma units_lower m e e' : is_float m e -> e < e' -> units m e < 2 ^ 52 * 2 ^ (e' + 1074).
Proof.
  intros ([M0 M1] & [E0 E1] & _) L. unfold units.
  assert (X : 2 * 2 ^ (e + 1074) <= 2 ^ (e' + 1074)) by (rewrite <- Z.pow_succ_r by lia; apply Z.pow_le_mono_r; lia).
  assert (0 < 2 ^ (e + 1074)) by (apply pow_pos; lia). set (A := 2 ^ (e + 1074)) in *. set (A' := 2 ^ (e' + 1074)) in *. clearbody A A'.
  change (2 ^ 53) with (2 * 2 ^ 52) in M1. set (c := 2 ^ 52) in *. assert (0 < c) by (unfold c; reflexivity). clearbody c. nia.
Qed.
Lemma units_upper m e : is_float m e -> e = -1074 \/ 2 ^ 52 * 2 ^ (e + 1074) <= units m e.
Proof.
  intros ([M0 M1] & [E0 E1] & [D|D]); [right|now left]. unfold units. apply Z.mul_le_mono_nonneg_r; [|easy]. pose proof (pow_pos (e + 1074)). lia.
Qed.
Lemma units_inj m e m' e' : is_float m e -> is_float m' e' -> units m e = units m' e' -> m = m' /\ e = e'.
Proof.
  intros F F' E. assert (Ee : e = e').
  { destruct (Z.lt_trichotomy e e') as [L|[|L]]; [exfalso|easy|exfalso].
    - pose proof (units_lower _ _ _ F L). destruct (units_upper _ _ F') as [->|]; [destruct F as (_ & ? & _)|]; lia.
    - pose proof (units_lower _ _ _ F' L). destruct (units_upper _ _ F) as [->|]; [destruct F' as (_ & ? & _)|]; lia. }
  subst e'. split; [|easy]. unfold units in E. apply Z.mul_cancel_r in E; [easy|]. destruct F as (_ & ? & _). pose proof (pow_pos (e + 1074)). lia.
Qed.
(* the next float *)
Lemma units_next m e m' e' : is_float m e -> is_float m' e' -> units m e < units m' e' ->
  exists ms es, is_float ms es /\ Z.even ms = negb (Z.even m) /\ units m e < units ms es <= units m' e'.
Proof.
  intros F F' L. pose proof F as ([M0 M1] & [E0 E1] & D). pose proof F' as ([M0' M1'] & [E0' E1'] & D').
  assert (Le : e <= e').
  { apply Z.nlt_ge. intros C. pose proof (units_lower _ _ _ F' C). destruct (units_upper _ _ F) as [->|]; lia. }
  assert (HA : 0 < 2 ^ (e + 1074)) by (apply pow_pos; lia).
  assert (U : units m' e' = m' * 2 ^ (e' - e) * 2 ^ (e + 1074)).
  { unfold units. rewrite <- Z.mul_assoc, <- Z.pow_add_r by lia. do 2 f_equal. lia. }
  assert (N : (m + 1) * 2 ^ (e + 1074) <= units m' e').
  { rewrite U in *. unfold units in L. apply Z.mul_lt_mono_pos_r in L; [|easy]. apply Z.mul_le_mono_nonneg_r; lia. }
  destruct (Z.eq_dec (m + 1) (2 ^ 53)) as [Em|NE].
  - assert (Lt : e < e').
    { destruct (Z.eq_dec e e') as [->|]; [exfalso|lia]. unfold units in N. apply Z.mul_le_mono_pos_r in N; [|easy]. rewrite Em in N. lia. }
    exists (2 ^ 52), (e + 1). assert (V : units (2 ^ 52) (e + 1) = (m + 1) * 2 ^ (e + 1074)).
    { unfold units. rewrite Em. replace (e + 1 + 1074) with (Z.succ (e + 1074)) by lia. rewrite Z.pow_succ_r by lia. change (2 ^ 53) with (2 ^ 52 * 2). ring. }
    split; [split; [split; [easy|reflexivity]|split; [lia|now left]]|]. split.
    + replace m with (2 ^ 53 - 1) by lia. reflexivity.
    + rewrite V. split; [|easy]. unfold units. apply Z.mul_lt_mono_pos_r; lia.
  - exists (m + 1), e. split; [|split].
    + split; [lia|]. split; [lia|]. destruct D as [D|D]; [left; lia|now right].
    + rewrite Z.even_add. now destruct (Z.even m).
    + unfold units at 2 3. split; [|easy]. unfold units. apply Z.mul_lt_mono_pos_r; lia.
Qed.
Lemma rounded_below p q m e m' e' : 0 < q -> is_float m e -> is_float m' e' -> units m e < units m' e' ->
  (forall m1 e1, is_float m1 e1 -> off p q (units m e) <= off p q (units m1 e1)) ->
  (forall m1 e1, is_float m1 e1 -> off p q (units m' e') <= off p q (units m1 e1)) ->
  (Z.even m = true /\ Z.even m' = true) -> False.
Proof.
  intros Hq F F' L A B [Ev Ev'].
  assert (EO : off p q (units m e) = off p q (units m' e')) by (apply Z.le_antisymm; auto).
  destruct (units_next _ _ _ _ F F' L) as (ms & es & Fs & Es & [L1 L2]).
  destruct (Z.eq_dec (units ms es) (units m' e')) as [E|NE].
  - destruct (units_inj _ _ _ _ Fs F' E) as [-> _]. rewrite Ev, Ev' in Es. discriminate.
  - specialize (A _ _ Fs). unfold off in *. set (P := p * 2 ^ 1074) in *. clearbody P.
    set (u := units m e) in *. set (v := units ms es) in *. set (w := units m' e') in *. clearbody u v w. clear - Hq L1 L2 NE EO A.
    assert (v < w) by lia. assert (u * q < v * q) by nia. assert (v * q < w * q) by nia. lia.
Qed.
Lemma rounded_unique neg p q f g : 0 < q -> rounded neg p q f -> rounded neg p q g -> f = g.
Proof.
  intros Hq [m e F P A T|P] [m' e' F' P' A' T'|P']; [|exfalso; lia|exfalso; lia|easy].
  assert (EO : off p q (units m e) = off p q (units m' e')) by (apply Z.le_antisymm; auto).
  destruct (Z.lt_trichotomy (units m e) (units m' e')) as [L|[E|L]].
  - exfalso. apply (rounded_below p q m e m' e'); auto. split; [apply (T m' e')|apply (T' m e)]; auto; lia.
  - destruct (units_inj _ _ _ _ F F' E) as [-> ->]. easy.
  - exfalso. apply (rounded_below p q m' e' m e); auto. split; [apply (T' m e)|apply (T m' e')]; auto; lia.
Qed.
Lemma nearest_iff neg p q f : 0 <= p -> 0 < q -> rounded neg p q f <-> nearest neg p q = f.
Proof.
  intros Hp Hq. split; [|intros <-; now apply nearest_rounded]. intros R. eapply rounded_unique; [exact Hq| |exact R]. now apply nearest_rounded.
Qed.
Lemma dec_to_float_iff d f : (match d with DNum _ c _ => 0 <= c | _ => True end) -> float_of d f <-> dec_to_float d = Ok f.
Proof.
  intros Hc. destruct d as [neg c x|neg|[|]]; cbn [dec_to_float] in *.
  - destruct (Z.leb_spec 0 x).
    + assert (0 <= c * 10 ^ x) by (pose proof (Z.pow_nonneg 10 x); nia).
      split; [intros R; inversion R; subst; [f_equal; apply nearest_iff; try easy|exfalso; lia]|].
      intros [= <-]. apply fo_whole; [easy|]. now apply nearest_rounded.
    + assert (0 < 10 ^ (- x)) by (apply Z.pow_pos_nonneg; lia).
      split; [intros R; inversion R; subst; [exfalso; lia|f_equal; apply nearest_iff; try easy]|].
      intros [= <-]. apply fo_part; [easy|]. now apply nearest_rounded.
  - split; [intros R; inversion R; now subst|intros [= <-]; apply fo_inf].
  - split; [intros R; inversion R|discriminate].
  - split; [intros R; inversion R; now subst|intros [= <-]; apply fo_nan].
Qed.
Lemma nearest_proper neg p q : 0 <= p -> 0 < q -> real_float (nearest neg p q).
Proof. intros Hp Hq. destruct (nearest_rounded neg p q Hp Hq); [easy|exact Logic.I]. Qed.
