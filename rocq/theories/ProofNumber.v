(* Rounding: nearest floats and texts of six places. *)
From Verif Require Import PyBase ModelScalar SpecScalar ModelNumber SpecNumber.
Local Open Scope Z_scope.

Lemma round_even_spec p q : 0 < q -> 2 * Z.abs (p - round_even p q * q) <= q
  /\ (2 * Z.abs (p - round_even p q * q) = q -> Z.even (round_even p q) = true).
Proof.
  intros Hq. unfold round_even. pose proof (Z.div_mod p q ltac:(lia)) as D. pose proof (Z.mod_pos_bound p q Hq) as R.
  set (d := p / q) in *. set (r := p mod q) in *. clearbody d r. 
  assert (E0 : p - d * q = r) by lia. assert (E1 : p - (d + 1) * q = r - q) by lia.
  destruct (Z.ltb_spec (2 * r) q); [rewrite E0; split; [|intros; exfalso]; lia|].
  destruct (Z.ltb_spec q (2 * r)); [rewrite E1; split; [|intros; exfalso]; lia|].
  destruct (Z.even d) eqn:Ev; [rewrite E0|rewrite E1]; (split; [lia|]); [easy|]. intros _. rewrite Z.even_add, Ev. reflexivity.
Qed.
Lemma near_le p q n : 0 < q -> 2 * Z.abs (p - n * q) <= q -> forall j, Z.abs (p - n * q) <= Z.abs (p - j * q).
Proof.
  intros Hq H j. destruct (Z.eq_dec j n) as [->|NE]; [lia|].
  assert (q <= Z.abs ((j - n) * q)) by (rewrite Z.abs_mul; nia). replace ((j - n) * q) with ((p - n * q) - (p - j * q)) in H0 by ring. lia.
Qed.
Lemma near_tie p q n j : 0 < q -> 2 * Z.abs (p - n * q) <= q -> j <> n -> Z.abs (p - n * q) = Z.abs (p - j * q) ->
  2 * Z.abs (p - n * q) = q.
Proof.
  intros Hq H NE E.
  assert (q <= Z.abs ((j - n) * q)) by (rewrite Z.abs_mul; nia). replace ((j - n) * q) with ((p - n * q) - (p - j * q)) in H0 by ring. lia.
Qed.
Lemma round_even_unique p q n : 0 < q -> 2 * Z.abs (p - n * q) <= q -> (2 * Z.abs (p - n * q) = q -> Z.even n = true) ->
  round_even p q = n.
Proof.
  intros Hq H T. destruct (round_even_spec p q Hq) as [H' T']. set (m := round_even p q) in *. clearbody m.
  destruct (Z.eq_dec m n) as [|NE]; [easy|]. exfalso.
  assert (E : Z.abs (p - n * q) = Z.abs (p - m * q)) by (apply Z.le_antisymm; now apply near_le).
  pose proof (near_tie _ _ _ _ Hq H NE E) as Tn.
  assert (Hm : 2 * Z.abs (p - m * q) = q) by lia. specialize (T Tn). specialize (T' Hm).
  assert (K : m = n + 1 \/ n = m + 1).
  { assert (Z.abs ((m - n) * q) <= q) by (replace ((m - n) * q) with ((p - n * q) - (p - m * q)) by ring; lia).
    rewrite Z.abs_mul, (Z.abs_eq q) in H0 by lia. assert (Z.abs (m - n) <= 1) by nia. lia. }
  destruct K as [-> | ->]; rewrite Z.even_add in *; [rewrite T in T'|rewrite T' in T]; discriminate.
Qed.
Lemma round_even_scale p q c : 0 < q -> 0 < c -> round_even (p * c) (q * c) = round_even p q.
Proof.
  intros Hq Hc. destruct (round_even_spec p q Hq) as [H T]. apply round_even_unique; [nia| |].
  - replace (p * c - round_even p q * (q * c)) with ((p - round_even p q * q) * c) by ring. rewrite Z.abs_mul, (Z.abs_eq c) by lia. nia.
  - replace (p * c - round_even p q * (q * c)) with ((p - round_even p q * q) * c) by ring. rewrite Z.abs_mul, (Z.abs_eq c) by lia. intros E. apply T. nia.
Qed.

Lemma ilog2_spec p q s : 0 < p -> 0 < q -> 0 <= s -> 0 <= ilog2 p q + s ->
  q * 2 ^ (ilog2 p q + s) <= p * 2 ^ s < q * 2 ^ (ilog2 p q + 1 + s).
Proof.
  intros Hp Hq Hs. unfold ilog2. destruct (Z.log2_spec p Hp) as [P1 P2]. destruct (Z.log2_spec q Hq) as [Q1 Q2].
  pose proof (Z.log2_nonneg p) as Lp. pose proof (Z.log2_nonneg q) as Lq.
  set (L := Z.log2 p) in *. set (M := Z.log2 q) in *. set (k := L - M) in *.
  set (b := if 0 <=? k then q * 2 ^ k <=? p else q <=? p * 2 ^ (- k)).
  assert (B : forall t, 0 <= t -> 0 <= k + t -> b = true <-> q * 2 ^ (k + t) <= p * 2 ^ t).
  { intros t Ht Hk. unfold b. destruct (Z.leb_spec 0 k).
    - rewrite Z.leb_le, Z.pow_add_r by lia. assert (0 < 2 ^ t) by (apply Z.pow_pos_nonneg; lia). rewrite Z.mul_assoc. split; intros; nia.
    - rewrite Z.leb_le. replace t with (- k + (k + t)) at 2 by lia. rewrite (Z.pow_add_r 2 (- k)) by lia.
      assert (0 < 2 ^ (k + t)) by (apply Z.pow_pos_nonneg; lia). rewrite Z.mul_assoc. split; intros; nia. }
  assert (Up : forall t, 0 <= t -> 0 <= k + 1 + t -> p * 2 ^ t < q * 2 ^ (k + 1 + t)).
  { intros t Ht Hk. apply Z.lt_le_trans with (2 ^ Z.succ L * 2 ^ t); [assert (0 < 2 ^ t) by (apply Z.pow_pos_nonneg; lia); nia|].
    rewrite <- Z.pow_add_r by lia. replace (Z.succ L + t) with (M + (k + 1 + t)) by (unfold k; lia). rewrite (Z.pow_add_r 2 M) by lia.
    assert (0 < 2 ^ (k + 1 + t)) by (apply Z.pow_pos_nonneg; lia). nia. }
  assert (Lo : forall t, 0 <= t -> 0 <= k - 1 + t -> q * 2 ^ (k - 1 + t) <= p * 2 ^ t).
  { intros t Ht Hk. apply Z.le_trans with (2 ^ L * 2 ^ t); [|assert (0 < 2 ^ t) by (apply Z.pow_pos_nonneg; lia); nia].
    rewrite <- Z.pow_add_r by lia. replace (L + t) with (Z.succ M + (k - 1 + t)) by (unfold k; lia). rewrite (Z.pow_add_r 2 (Z.succ M)) by lia.
    assert (0 < 2 ^ (k - 1 + t)) by (apply Z.pow_pos_nonneg; lia). nia. }
  destruct b eqn:Eb; intros Hk.
  - split; [apply B; easy || lia|apply Up; lia].
  - split; [apply Lo; lia|]. replace (k - 1 + 1 + s) with (k + s) by lia. apply Z.nle_gt. intros C. apply (B s) in C; [discriminate|lia|lia].
Qed.

Lemma pow_pos a : 0 <= a -> 0 < 2 ^ a.
Proof. intros. apply Z.pow_pos_nonneg; lia. Qed.
(* the position between floats *)
Lemma nearest_scaled p q : 0 < p -> 0 < q ->
  let e := Z.max (-1074) (ilog2 p q - 52) in
  let m := if 0 <=? e then round_even p (q * 2 ^ e) else round_even (p * 2 ^ (- e)) q in
  m = round_even (p * 2 ^ 1074) (q * 2 ^ (e + 1074))
  /\ p * 2 ^ 1074 < 2 ^ 53 * (q * 2 ^ (e + 1074))
  /\ (e = -1074 \/ 2 ^ 52 * (q * 2 ^ (e + 1074)) <= p * 2 ^ 1074).
Proof.
  intros Hp Hq e m. set (k := ilog2 p q) in *.
  assert (He : -1074 <= e) by (unfold e; lia).
  split; [|split].
  - unfold m. destruct (Z.leb_spec 0 e).
    + rewrite Z.pow_add_r, Z.mul_assoc by lia. symmetry. apply round_even_scale; [|apply pow_pos; lia]. pose proof (pow_pos e ltac:(lia)). nia.
    + replace 1074 with (- e + (e + 1074)) at 1 by lia. rewrite Z.pow_add_r, Z.mul_assoc by lia. symmetry. apply round_even_scale; [lia|apply pow_pos; lia].
  - assert (0 <= e + 1074) by lia. set (s := 1074 + Z.max 0 (- k)).
    destruct (ilog2_spec p q s Hp Hq ltac:(unfold s; lia) ltac:(fold k; unfold s; lia)) as [_ U]. fold k in U.
    assert (U' : p * 2 ^ s < q * 2 ^ (e + 53 + s)).
    { apply Z.lt_le_trans with (1 := U). apply Z.mul_le_mono_nonneg_l; [lia|]. apply Z.pow_le_mono_r; unfold e; lia. }
    assert (E : s = 1074 + (s - 1074)) by lia. rewrite E in U' at 1. rewrite Z.pow_add_r in U' by (unfold s; lia).
    replace (e + 53 + s) with (53 + (e + 1074) + (s - 1074)) in U' by lia. rewrite (Z.pow_add_r 2 (53 + (e + 1074))), (Z.pow_add_r 2 53) in U' by (unfold s; lia).
    assert (0 < 2 ^ (s - 1074)) by (apply pow_pos; unfold s; lia). 
    apply Z.mul_lt_mono_pos_r with (2 ^ (s - 1074)); [easy|].
    match goal with |- ?l < ?r => replace l with (p * (2 ^ 1074 * 2 ^ (s - 1074))) by ring; replace r with (q * (2 ^ 53 * 2 ^ (e + 1074) * 2 ^ (s - 1074))) by ring end. exact U'.
  - destruct (Z.eq_dec e (-1074)) as [|NE]; [now left|right].
    assert (Ek : e = k - 52) by (unfold e in *; lia).
    destruct (ilog2_spec p q 1074 Hp Hq ltac:(lia) ltac:(fold k; lia)) as [U _]. fold k in U.
    replace (k + 1074) with (52 + (e + 1074)) in U by lia. rewrite (Z.pow_add_r 2 52) in U by lia. 
    match goal with |- ?l <= _ => replace l with (q * (2 ^ 52 * 2 ^ (e + 1074))) by ring end. exact U.
Qed.

Lemma off_round p q m e : off p q (units m e) = Z.abs (p * 2 ^ 1074 - m * (q * 2 ^ (e + 1074))).
Proof. unfold off, units. rewrite <- Z.abs_opp. f_equal. ring. Qed.
Lemma off_floor p q e m' e' : 0 < q -> -1074 <= e -> (e = -1074 \/ 2 ^ 52 * (q * 2 ^ (e + 1074)) <= p * 2 ^ 1074) ->
  is_float m' e' ->
  (exists j, units m' e' = j * 2 ^ (e + 1074)) \/ Z.abs (p * 2 ^ 1074 - 2 ^ 52 * (q * 2 ^ (e + 1074))) < off p q (units m' e').
Proof.
  intros Hq He Lo ([M0 M1] & [E0 E1] & _). destruct (Z.le_gt_cases e e') as [L|G].
  - left. exists (m' * 2 ^ (e' - e)). unfold units. rewrite <- Z.mul_assoc, <- Z.pow_add_r by lia. do 2 f_equal. lia.
  - right. destruct Lo as [->|Lo]; [lia|]. unfold off, units.
    set (P := p * 2 ^ 1074) in *. clearbody P.
    assert (X : 2 * 2 ^ (e' + 1074) <= 2 ^ (e + 1074)).
    { rewrite <- Z.pow_succ_r by lia. apply Z.pow_le_mono_r; lia. }
    set (A := 2 ^ (e + 1074)) in *. set (A' := 2 ^ (e' + 1074)) in *. assert (0 < A') by (apply pow_pos; lia). clearbody A A'.
    assert (Y : m' * A' * q < 2 ^ 52 * (q * A)). 
    { change (2 ^ 53) with (2 * 2 ^ 52) in M1. set (c := 2 ^ 52) in *. assert (0 < c) by (unfold c; reflexivity). clearbody c.
      apply Z.lt_le_trans with (2 * c * A' * q); [apply Z.mul_lt_mono_pos_r; [easy|]; nia|].
      replace (2 * c * A' * q) with (c * q * (2 * A')) by ring. replace (c * (q * A)) with (c * q * A) by ring. apply Z.mul_le_mono_nonneg_l; [nia|easy]. }
    lia.
Qed.
Lemma nearest_rounded neg p q : 0 <= p -> 0 < q -> rounded neg p q (nearest neg p q).
Proof.
  intros Hp Hq. unfold nearest. destruct (Z.eqb_spec p 0) as [->|NZ].
  - apply ro_fin.
    + split; [split; [lia|reflexivity]|split; [lia|now right]].
    + assert (0 < (2 ^ 54 - 1) * 2 ^ 970) by reflexivity. nia.
    + intros m' e' _. unfold off, units. rewrite Z.mul_0_l. cbn [Z.mul Z.sub Z.abs Z.opp Z.add]. lia.
    + reflexivity.
  - assert (P : 0 < p) by lia. destruct (nearest_scaled p q P Hq) as (Em & Up & Lo). cbv zeta in *.
    set (e := Z.max (-1074) (ilog2 p q - 52)) in *.
    set (m := if 0 <=? e then round_even p (q * 2 ^ e) else round_even (p * 2 ^ (- e)) q) in *.
    assert (He : -1074 <= e) by (unfold e; lia). clearbody e m.
    assert (HA : 0 < 2 ^ (e + 1074)) by (apply pow_pos; lia).
    assert (HD : 0 < q * 2 ^ (e + 1074)) by nia.
    destruct (round_even_spec (p * 2 ^ 1074) (q * 2 ^ (e + 1074)) HD) as [H T]. rewrite <- Em in H, T.
    assert (Q0 : 0 < p * 2 ^ 1074) by (apply Z.mul_pos_pos; [easy|reflexivity]).
    assert (M : 0 <= m <= 2 ^ 53 /\ (e = -1074 \/ 2 ^ 52 <= m)).
    { clear Em T. set (D := q * 2 ^ (e + 1074)) in *. set (PP := p * 2 ^ 1074) in *. clearbody D PP.
      change (2 ^ 53) with (2 * 2 ^ 52) in *. set (c := 2 ^ 52) in *. assert (0 < c) by (unfold c; reflexivity). clearbody c.
      split; [split; nia|]. destruct Lo as [|Lo]; [now left|right]. nia. }
    destruct M as [[M0 M1] M2].
    assert (Th : 971 < (if m =? 2 ^ 53 then e + 1 else e) <-> q * ((2 ^ 54 - 1) * 2 ^ 970) <= p).
    { assert (S1 : q * ((2 ^ 54 - 1) * 2 ^ 970) <= p <-> (2 ^ 54 - 1) * (q * 2 ^ 2045) <= 2 * (p * 2 ^ 1074)).
      { change (2 ^ 2045) with (2 * 2 ^ 970 * 2 ^ 1074). set (c := 2 ^ 1074). assert (0 < c) by (unfold c; reflexivity). clearbody c.
        set (a := 2 ^ 970). clearbody a. set (b := 2 ^ 54 - 1). clearbody b.
        replace (b * (q * (2 * a * c))) with (q * (b * a) * (2 * c)) by ring. replace (2 * (p * c)) with (p * (2 * c)) by ring.
        split; intros; nia. }
      rewrite S1. clear S1.
      assert (Mono : forall a, 0 <= a -> q * 2 ^ (a + 1074) = q * 2 ^ (a + 1074)) by reflexivity.
      destruct (Z.eqb_spec m (2 ^ 53)) as [E|NE].
      - destruct (Z.le_gt_cases 971 e) as [L|G].
        + split; [intros _|lia]. rewrite E in H.
          apply Z.le_trans with ((2 ^ 54 - 1) * (q * 2 ^ (e + 1074))).
          * apply Z.mul_le_mono_nonneg_l; [easy|]. apply Z.mul_le_mono_nonneg_l; [lia|]. apply Z.pow_le_mono_r; lia.
          * change (2 ^ 54 - 1) with (2 * 2 ^ 53 - 1). set (c := 2 ^ 53) in *. clearbody c. set (D := q * 2 ^ (e + 1074)) in *. set (PP := p * 2 ^ 1074) in *. clearbody D PP. lia.
        + split; [lia|intros C; exfalso].
          assert (X : 2 * (q * 2 ^ (e + 1074)) <= q * 2 ^ 2045).
          { replace (2 * (q * 2 ^ (e + 1074))) with (q * (2 * 2 ^ (e + 1074))) by ring. apply Z.mul_le_mono_nonneg_l; [lia|].
            rewrite <- Z.pow_succ_r by lia. apply Z.pow_le_mono_r; lia. }
          set (D := q * 2 ^ (e + 1074)) in *. set (PP := p * 2 ^ 1074) in *. set (D' := q * 2 ^ 2045) in *. clearbody D PP D'.
          change (2 ^ 54 - 1) with (2 * 2 ^ 53 - 1) in C. assert (0 < 2 ^ 53) by reflexivity. set (c := 2 ^ 53) in *. clearbody c. nia.
      - destruct (Z.le_gt_cases 972 e) as [L|G]; [|destruct (Z.eq_dec e 971) as [->|N971]].
        + split; [intros _|lia]. destruct Lo as [|Lo]; [lia|].
          apply Z.le_trans with (2 * (2 ^ 52 * (q * 2 ^ (e + 1074)))); [|lia].
          apply Z.le_trans with (2 * (2 ^ 52 * (q * (2 * 2 ^ 2045)))).
          * change (2 ^ 54 - 1) with (4 * 2 ^ 52 - 1). assert (0 < 2 ^ 52) by reflexivity. set (c := 2 ^ 52) in *. clearbody c. assert (0 < 2 ^ 2045) by reflexivity. set (a := 2 ^ 2045) in *. clearbody a. nia.
          * assert (2 * 2 ^ 2045 <= 2 ^ (e + 1074)) by (rewrite <- Z.pow_succ_r by lia; apply Z.pow_le_mono_r; lia).
            assert (0 < 2 ^ 52) by reflexivity. set (c := 2 ^ 52) in *. clearbody c. 
            apply Z.mul_le_mono_nonneg_l; [lia|]. apply Z.mul_le_mono_nonneg_l; [lia|]. apply Z.mul_le_mono_nonneg_l; [lia|easy].
        + split; [lia|intros C; exfalso]. change (971 + 1074) with 2045 in *.
          set (D := q * 2 ^ 2045) in *. set (PP := p * 2 ^ 1074) in *. clearbody D PP. clear Em.
          assert (m <= 2 ^ 53 - 1) by lia. change (2 ^ 54 - 1) with (2 * 2 ^ 53 - 1) in C.
          assert (m = 2 ^ 53 - 1). { set (c := 2 ^ 53) in *. clearbody c. nia. }
          subst m. assert (2 * Z.abs (PP - (2 ^ 53 - 1) * D) = D) by (set (c := 2 ^ 53) in *; clearbody c; nia). specialize (T H1). discriminate.
        + split; [lia|intros C; exfalso].
          assert (X : 2 * (q * 2 ^ (e + 1074)) <= q * 2 ^ 2045).
          { replace (2 * (q * 2 ^ (e + 1074))) with (q * (2 * 2 ^ (e + 1074))) by ring. apply Z.mul_le_mono_nonneg_l; [lia|].
            rewrite <- Z.pow_succ_r by lia. apply Z.pow_le_mono_r; lia. }
          set (D := q * 2 ^ (e + 1074)) in *. set (PP := p * 2 ^ 1074) in *. set (D' := q * 2 ^ 2045) in *. clearbody D PP D'.
          change (2 ^ 54 - 1) with (2 * 2 ^ 53 - 1) in C. assert (0 < 2 ^ 53) by reflexivity. set (c := 2 ^ 53) in *. clearbody c. nia. }
    assert (Near : forall m' e', is_float m' e' -> off p q (units m e) <= off p q (units m' e')).
    { intros m' e' F. rewrite off_round. destruct (off_floor p q e m' e' Hq He Lo F) as [[j Ej]|S].
      - unfold off. rewrite Ej. replace (j * 2 ^ (e + 1074) * q - p * 2 ^ 1074) with (- (p * 2 ^ 1074 - j * (q * 2 ^ (e + 1074)))) by ring.
        rewrite Z.abs_opp. now apply near_le.
      - apply Z.lt_le_incl. apply Z.le_lt_trans with (2 := S). now apply near_le. }
    assert (Tie : forall m' e', is_float m' e' -> units m' e' <> units m e -> off p q (units m e) = off p q (units m' e') -> Z.even m = true).
    { intros m' e' F NE EO. rewrite off_round in EO. destruct (off_floor p q e m' e' Hq He Lo F) as [[j Ej]|S].
      - apply T. apply (near_tie _ _ _ j HD H).
        + intros ->. apply NE. exact Ej.
        + rewrite EO. unfold off. rewrite Ej, <- Z.abs_opp. f_equal. ring.
      - exfalso. pose proof (near_le _ _ _ HD H (2 ^ 52)) as K. rewrite EO in K. lia. }
    destruct (Z.eqb_spec m (2 ^ 53)) as [E|NE].
    + destruct (Z.ltb_spec 971 (e + 1)) as [L|G]; [apply ro_inf; now apply Th|].
      assert (U : units (2 ^ 52) (e + 1) = units m e).
      { unfold units. rewrite E. replace (e + 1 + 1074) with (Z.succ (e + 1074)) by lia. rewrite Z.pow_succ_r by lia. change (2 ^ 53) with (2 ^ 52 * 2). ring. }
      apply ro_fin.
      * split; [split; [easy|reflexivity]|split; [lia|left; reflexivity]].
      * apply Z.nle_gt. intros C. apply Th in C. lia.
      * now rewrite U.
      * reflexivity.
    + destruct (Z.ltb_spec 971 e) as [L|G]; [apply ro_inf; now apply Th|]. apply ro_fin; [| |easy|easy].
      * split; [lia|split; [lia|tauto]].
      * apply Z.nle_gt. intros C. apply Th in C. lia.
Qed.
