(* Texts of six places; the syntax of numbers. *)
From Verif Require Import PyBase ModelScalar SpecScalar ProofScalar ProofScalar2 PyBaseFacts ProofFlat3 ProofNetwork2 ProofCompound
  ModelNumber SpecNumber ProofNumber ProofNumber2.
Local Open Scope Z_scope.

Definition mill (m e : Z) : Z := round_even (units m e * 1000000) (2 ^ 1074).
Lemma millionths_iff m e n : millionths m e n <-> n = mill m e.
Proof.
  unfold millionths, mill. assert (H : 0 < 2 ^ 1074) by reflexivity. split.
  - intros [A B]. symmetry. now apply round_even_unique.
  - intros ->. now apply round_even_spec.
Qed.
Lemma mill_eq m e : -1074 <= e ->
  mill m e = if 0 <=? e then m * 2 ^ e * 1000000 else round_even (m * 1000000) (2 ^ (- e)).
Proof.
  intros He. unfold mill, units. destruct (Z.leb_spec 0 e).
  - apply round_even_unique; [reflexivity| |]; rewrite Z.pow_add_r by lia;
      replace (m * (2 ^ e * 2 ^ 1074) * 1000000 - m * 2 ^ e * 1000000 * 2 ^ 1074) with 0 by ring; [easy|discriminate].
  - replace (m * 2 ^ (e + 1074) * 1000000) with (m * 1000000 * 2 ^ (e + 1074)) by ring.
    replace (2 ^ 1074) with (2 ^ (- e) * 2 ^ (e + 1074)) by (rewrite <- Z.pow_add_r by lia; f_equal; lia).
    apply round_even_scale; apply pow_pos; lia.
Qed.
Lemma round_even_nonneg p q : 0 <= p -> 0 < q -> 0 <= round_even p q.
Proof. intros Hp Hq. destruct (round_even_spec p q Hq) as [H _]. nia. Qed.
Lemma mill_nonneg m e : 0 <= m -> -1074 <= e -> 0 <= mill m e.
Proof. intros. apply round_even_nonneg; [|reflexivity]. unfold units. pose proof (pow_pos (e + 1074)). nia. Qed.

Definition six (n : Z) : str := dec (Z.to_N (n / 1000000)) ++ lit "." ++ dec_pad 6 (Z.to_N (n mod 1000000)).
Lemma dec_pad_field n : (n < 1000000)%N -> ascii_field 6 (dec_pad 6 n) n.
Proof.
  intros H. split; [split|apply dec_pad_digits]; [|apply numeral_dec_pad].
  unfold dec_pad, pad0. rewrite app_length, repeat_length. pose proof (proj2 (dec_size n 5) H). lia.
Qed.
Lemma ascii_field_inj w s t n : ascii_field w s n -> ascii_field w t n -> s = t.
Proof.
  intros [[Ls [ds [Ds ->]]] As] [[Lt [dt [Dt E]]] At].
  enough (ds = dt).
  { subst dt. clear E Ls Lt. revert t Dt At. induction Ds as [|c d s ds D Ds IH]; intros t Dt At; inversion Dt as [|c' d' t' ds' D' Dt']; subst; [easy|].
    apply Forall_inv in As as A1; apply Forall_inv_tail in As. apply Forall_inv in At as A2; apply Forall_inv_tail in At. f_equal; [|auto].
    assert (G : forall c, (48 <= c <= 57)%N -> digit c d -> c = (48 + d)%N).
    { intros x X Dx. apply digit_val_iff in Dx. assert (Hv : digit_val x = Some (x - 48)%N); [|rewrite Hv in Dx; injection Dx as <-; lia].
      apply digit_val_iff. exists 48%N. split; [now left|]. lia. }
    rewrite (G c), (G c'); auto. }
  assert (L1 : List.length s = List.length ds) by (clear -Ds; induction Ds; cbn; congruence).
  assert (L2 : List.length t = List.length dt) by (clear -Dt; induction Dt; cbn; congruence).
  assert (B1 : Forall (fun d => d < 10)%N ds) by (clear -Ds; induction Ds as [|? ? ? ? (z & _ & ? & _)]; constructor; auto).
  assert (B2 : Forall (fun d => d < 10)%N dt) by (clear -Dt; induction Dt as [|? ? ? ? (z & _ & ? & _)]; constructor; auto).
  assert (L : List.length (rev ds) = List.length (rev dt)) by (rewrite !rev_length; congruence).
  apply Forall_rev in B1, B2. enough (R : rev ds = rev dt) by (apply (f_equal (@rev N)) in R; now rewrite !rev_involutive in R).
  clear -E B1 B2 L. revert E L B1 B2. generalize (rev ds) (rev dt). intros l. induction l as [|a l IH]; intros [|b k] E L B1 B2; try easy.
  cbn [positional] in E. apply Forall_inv in B1 as X1, B2 as X2; apply Forall_inv_tail in B1, B2. assert (a = b) by lia. subst b. f_equal. apply IH; auto. lia.
Qed.
Lemma six_places_iff s n : 0 <= n -> six_places s n <-> s = six n.
Proof.
  intros Hn. unfold six. pose proof (Z.mod_pos_bound n 1000000 ltac:(lia)). pose proof (Z.div_pos n 1000000 Hn ltac:(lia)).
  split.
  - intros S. inversion S as [a b w r C W F]; subst. clear S.
    assert (R : (r < 1000000)%N). { destruct F as [[L N0] _]. pose proof (numeral_lt _ _ N0) as X. rewrite L in X. exact X. }
    rewrite Z.div_add_l, (Z.div_small (Z.of_N r)) by lia. rewrite (Z.add_comm (w * 1000000)), Z.mod_add, Z.mod_small by lia.
    rewrite Z.add_0_r, N2Z.id. f_equal.
    + destruct C as (IT & [[_ P]|[? _]]); [|lia]. inversion IT as [? n' Ha Hd|t n' Ht Hd E|t n' Ht Hd E]; subst.
      * rewrite N2Z.id. apply (plain_inj _ _ n'); auto; [apply dec_plain|apply numeral_iff, dec_val].
      * destruct P as [P _]. apply Forall_inv in P. lia.
      * destruct P as [P _]. apply Forall_inv in P. lia.
    + f_equal. apply (ascii_field_inj 6 _ _ r); [easy|]. now apply dec_pad_field.
  - intros ->. rewrite (Z.div_mod n 1000000) at 3 by lia.
    replace (1000000 * (n / 1000000) + n mod 1000000) with (n / 1000000 * 1000000 + Z.of_N (Z.to_N (n mod 1000000))) by lia.
    apply sp; [|easy|apply dec_pad_field; lia]. split.
    + rewrite <- (Z2N.id (n / 1000000)) at 2 by easy. apply it_plain; [|apply numeral_iff, dec_val].
      pose proof (dec_pad_nonempty 0 (Z.to_N (n / 1000000))) as D. exact D.
    + left. split; [easy|apply dec_plain].
Qed.
Lemma fixed6_iff f s : real_float f -> float_text f s <-> s = fixed6 f.
Proof.
  intros P. destruct f as [neg m e|neg|].
  - destruct P as ([M0 M1] & [E0 E1] & _). cbn [fixed6]. rewrite <- mill_eq by easy. cbv zeta. fold (six (mill m e)). unfold sign_text.
    assert (0 <= mill m e) by now apply mill_nonneg. split.
    + intros T. inversion T as [? ? ? n ? sg A B C| | |]; subst. apply millionths_iff in A. subst n. apply six_places_iff in B; [|easy]. now subst.
    + intros ->. apply (ft_fin neg m e (mill m e)); [now apply millionths_iff|now apply six_places_iff|easy].
  - split; [intros T; inversion T; now subst|intros ->; destruct neg; constructor].
  - split; [intros T; inversion T; now subst|intros ->; constructor].
Qed.

(* ---------------- syntax ---------------- *)
Definition digits (s : str) : Prop := Forall (fun c => is_digit c = true) s.
Definition no_digit_first (s : str) : Prop := match s with [] => True | c :: _ => is_digit c = false end.
Lemma span_spec s a b : span_digits s = (a, b) -> s = a ++ b /\ digits a /\ no_digit_first b.
Proof.
  revert a b. induction s as [|c s IH]; intros a b; cbn [span_digits].
  - intros [= <- <-]. split; [easy|]. split; [constructor|exact Logic.I].
  - destruct (is_digit c) eqn:D.
    + destruct (span_digits s) as [a' b'] eqn:E. intros [= <- <-]. destruct (IH _ _ eq_refl) as (-> & A & B). split; [easy|]. split; [now constructor|easy].
    + intros [= <- <-]. split; [easy|]. split; [constructor|exact D].
Qed.
Lemma span_app a b : digits a -> no_digit_first b -> span_digits (a ++ b) = (a, b).
Proof.
  intros A B. induction A as [|c a C A IH]; cbn [app].
  - destruct b as [|c b]; [easy|]. cbn in *. now rewrite B.
  - cbn [span_digits]. now rewrite C, IH.
Qed.
Lemma number_numeral d : digits d -> exists n, numeral d n /\ number d = Z.of_N n.
Proof.
  intros D. destruct (digits_numeral d D) as [n Hn]. exists n. split; [easy|]. unfold number. apply numeral_iff in Hn. now rewrite Hn.
Qed.
Lemma lower_is k x : (97 <= x <= 122)%N -> lower k = x <-> k = x \/ (k + 32 = x)%N.
Proof. intros X. unfold lower. destruct ((65 <=? k) && (k <=? 90))%N eqn:E; [|]; split; intros; lia. Qed.
Lemma digits_of_numeral s n : numeral s n -> digits s.
Proof. apply numeral_chars. Qed.
Lemma exponent_iff t z : exponent t = Some z <-> integer_text t z.
Proof.
  assert (G : forall d z, match d with [] => None | _ => option_map Z.of_N (digits_val 0 d) end = Some z
                          <-> d <> [] /\ exists n, numeral d n /\ z = Z.of_N n).
  { intros d z'. destruct d as [|c d]; [split; [easy|intros [? _]; easy]|]. destruct (digits_val 0 (c :: d)) as [n|] eqn:E; cbn [option_map].
    - split; [intros [= <-]; split; [easy|]; exists n; split; [now apply numeral_iff|easy]|]. intros (_ & m & Hm & ->). apply numeral_iff in Hm. congruence.
    - split; [easy|]. intros (_ & m & Hm & ->). apply numeral_iff in Hm. congruence. }
  assert (C : exponent t = match t with
    | [] => None
    | c :: d => if (c =? 45)%N then option_map Z.opp (match d with [] => None | _ => option_map Z.of_N (digits_val 0 d) end)
                else if (c =? 43)%N then match d with [] => None | _ => option_map Z.of_N (digits_val 0 d) end
                else option_map Z.of_N (digits_val 0 t) end).
  { unfold exponent. destruct t as [|c d]; [easy|].
    destruct (N.eqb_spec c 45) as [->|H1]; [easy|]. destruct (N.eqb_spec c 43) as [->|H2]; [easy|].
    destruct c as [|p]; [easy|]. repeat (destruct p as [p|p|]; try easy). }
  rewrite C. clear C. split.
  - destruct t as [|c d]; [easy|]. destruct (N.eqb_spec c 45) as [->|H1]; [|destruct (N.eqb_spec c 43) as [->|H2]].
    + intros H. match type of H with option_map _ ?x = _ => destruct x as [w|] eqn:E end; [|easy]. injection H as <-. apply G in E as (? & n & ? & ->). now constructor.
    + intros H. apply G in H as (? & n & ? & ->). now constructor.
    + intros H. pose proof (proj1 (G (c :: d) z) H) as (? & n & ? & ->). now constructor.
  - intros [s n Hs Hn|s n Hs Hn|s n Hs Hn].
    + destruct s as [|c s]; [easy|]. destruct (numeral_head _ _ _ Hn) as [H1 H2]. apply N.eqb_neq in H1, H2. rewrite H1, H2. apply (G (c :: s)). eauto.
    + change (43 =? 45)%N with false. change (43 =? 43)%N with true. cbv iota. apply G. eauto.
    + change (45 =? 45)%N with true. cbv iota. rewrite (proj2 (G s (Z.of_N n))); [easy|]. eauto.
Qed.
Lemma point_no_digit : is_digit 46 = false. Proof. reflexivity. Qed.
Lemma parse_number_iff neg s d : parse_number neg s = Some d <-> exists c x, d = DNum neg c x /\ number_text s c x.
Proof.
  assert (Tail : forall r, no_digit_first r ->
     (match r with 46%N :: r' => span_digits r' | _ => ([], r) end) =
     (match r with [] => ([], []) | c :: r' => if (c =? 46)%N then span_digits r' else ([], r) end)).
  { intros [|c r] _; [easy|]. destruct (N.eqb_spec c 46) as [->|H1]; [easy|]. destruct c as [|p]; [easy|]. repeat (destruct p as [p|p|]; try easy). }
  split.
  - unfold parse_number. destruct (span_digits s) as [a r] eqn:Sa. apply span_spec in Sa as (-> & Da & Nr). rewrite (Tail r Nr).
    assert (M : forall (b r2 : str) w, (exists x, mantissa w (number (a ++ b)) x /\ x = - Z.of_nat (List.length b)) ->
       match a ++ b with [] => None | d0 => 
         match r2 with [] => Some (DNum neg (number d0) (- Z.of_nat (List.length b)))
         | k :: t => if (lower k =? 101)%N then option_map (fun z => DNum neg (number d0) (- Z.of_nat (List.length b) + z)) (exponent t) else None end end = Some d ->
       exists c x, d = DNum neg c x /\ number_text (w ++ r2) c x).
    { intros b r2 w (x & M & ->) H. set (cv := number (a ++ b)) in *.
      assert (H' : match r2 with [] => Some (DNum neg cv (- Z.of_nat (List.length b)))
         | k :: t => if (lower k =? 101)%N then option_map (fun z => DNum neg cv (- Z.of_nat (List.length b) + z)) (exponent t) else None end = Some d).
      { unfold cv. clear M. destruct (a ++ b); [easy|exact H]. } clear H.
      destruct r2 as [|k t].
      - injection H' as <-. do 2 eexists. split; [reflexivity|]. rewrite app_nil_r. now apply nt_plain.
      - destruct (N.eqb_spec (lower k) 101) as [K|]; [|easy]. destruct (exponent t) as [z|] eqn:X; [|easy]. injection H' as <-.
        do 2 eexists. split; [reflexivity|]. apply nt_exp; [exact M| |now apply exponent_iff].
        apply lower_is in K; [|lia]. unfold ch. cbn. lia. }
    assert (W : a = [] \/ a <> []) by (destruct a; [now left|now right]).
    destruct r as [|k r].
    + intros H. apply (M [] [] a) in H; [exact H|]. exists 0. split; [|easy]. rewrite app_nil_r in *.
      destruct (number_numeral a Da) as (n & Hn & ->). apply ma_whole; [|easy]. intros ->. discriminate.
    + destruct (N.eqb_spec k 46) as [->|Hk].
      * destruct (span_digits r) as [b r2] eqn:Sb. apply span_spec in Sb as (-> & Db & Nb). intros H.
        apply (M b r2 (a ++ lit "." ++ b)) in H; [rewrite <- !app_assoc in H; exact H|]. eexists. split; [|reflexivity].
        assert (Dab : digits (a ++ b)) by (apply Forall_app; now split). destruct (number_numeral _ Dab) as (n & Hn & ->).
        apply ma_point; [|easy]. intros E. rewrite E in H. discriminate.
      * intros H. apply (M [] (k :: r) a) in H; [exact H|]. exists 0. split; [|easy]. rewrite app_nil_r in *.
        destruct (number_numeral a Da) as (n & Hn & ->). apply ma_whole; [|easy]. intros ->. discriminate.
  - intros (c & x & -> & T).
    assert (M : forall w c x r2, mantissa w c x -> no_digit_first r2 -> (forall t, r2 <> 46%N :: t) ->
      parse_number neg (w ++ r2) = match r2 with [] => Some (DNum neg c x)
         | k :: t => if (lower k =? 101)%N then option_map (fun z => DNum neg c (x + z)) (exponent t) else None end).
    { clear. intros w c x r2 M Nr N46. destruct M as [a n A0 Hn|a b n A0 Hn].
      - unfold parse_number. rewrite span_app; [|now apply numeral_chars in Hn|easy].
        assert (E : (match r2 with 46%N :: r' => span_digits r' | _ => ([], r2) end) = ([], r2)).
        { destruct r2 as [|k t]; [easy|]. destruct (N.eqb_spec k 46) as [->|H1]; [now elim (N46 t)|]. destruct k as [|p]; [easy|]. repeat (destruct p as [p|p|]; try easy). }
        rewrite E, app_nil_r. cbn [List.length]. 
        assert (V : number a = Z.of_N n) by (unfold number; apply numeral_iff in Hn; now rewrite Hn). destruct a as [|k a]; [easy|]. rewrite V. easy.
      - unfold parse_number. rewrite <- app_assoc. assert (Dab := numeral_chars _ _ Hn). apply Forall_app in Dab as [Da Db].
        rewrite span_app; [|exact Da|reflexivity]. change ((lit "." ++ b) ++ r2) with (46%N :: b ++ r2). cbv iota.
        rewrite span_app; [|exact Db|easy]. 
        assert (V : number (a ++ b) = Z.of_N n) by (unfold number; apply numeral_iff in Hn; now rewrite Hn). destruct (a ++ b) as [|k ab]; [easy|]. rewrite V. easy. }
    destruct T as [w c x Mw|w c x k t z Mw K I].
    + rewrite <- (app_nil_r w). rewrite (M w c x []); easy.
    + assert (K' : lower k = 101%N /\ is_digit k = false /\ k <> 46%N) by (destruct K as [-> | ->]; now repeat split).
      destruct K' as (K1 & K2 & K3). rewrite (M w c x (k :: t)); [|easy|easy|intros t' [= -> _]; easy].
      rewrite K1. apply exponent_iff in I. rewrite I. reflexivity.
Qed.
Lemma is_word_iff w s : Forall (fun d => 97 <= d <= 122)%N (lit w) -> is_word w s = true <-> spells w s.
Proof.
  unfold is_word, spells. rewrite str_eqb_eq. generalize (lit w). intros l W. revert s. induction W as [|d l D W IH]; intros [|c s]; cbn [map].
  - split; [constructor|easy].
  - split; [easy|intros H; inversion H].
  - split; [easy|intros H; inversion H].
  - split.
    + intros [= H1 H2]. constructor; [|now apply IH]. apply lower_is in H1; [|easy]. unfold lower in *. lia.
    + intros H. inversion H as [|? ? ? ? H1 H2]; subst. f_equal; [|now apply IH]. apply lower_is; [easy|]. tauto.
Qed.
Ltac word := repeat constructor; vm_compute; discriminate.
Lemma word_inf s : is_word "inf" s = true <-> spells "inf" s. Proof. apply is_word_iff. word. Qed.
Lemma word_infinity s : is_word "infinity" s = true <-> spells "infinity" s. Proof. apply is_word_iff. word. Qed.
Lemma word_nan s : is_word "nan" s = true <-> spells "nan" s. Proof. apply is_word_iff. word. Qed.
Lemma word_snan s : is_word "snan" s = true <-> spells "snan" s. Proof. apply is_word_iff. word. Qed.
Lemma spells_length w s : spells w s -> List.length s = List.length (lit w).
Proof. unfold spells. induction 1; cbn; congruence. Qed.
Definition letter (d c : N) : Prop := c = d \/ (c + 32 = d)%N.
Lemma spells_head w d l s : lit w = d :: l -> spells w s -> exists c r, s = c :: r /\ letter d c.
Proof. intros E H. unfold spells in H. rewrite E in H. inversion H as [|c ? r ? H1 H2]; subst. exists c, r. split; [easy|]. unfold letter. tauto. Qed.
Inductive parse_nan_rel : str -> bool -> Prop :=
| pn_quiet s d : spells "nan" s -> digits d -> parse_nan_rel (s ++ d) false
| pn_sig s d : spells "snan" s -> digits d -> parse_nan_rel (s ++ d) true.
Lemma letter_not_digit d c : (97 <= d <= 122)%N -> letter d c -> (65 <= d - 32)%N -> is_digit c = false.
Proof.
  intros D [-> | L] _; unfold is_digit.
  - assert (In d (map N.of_nat (seq 97 26))) as H by (apply in_map_iff; exists (N.to_nat d); split; [lia|apply in_seq; lia]).
    assert (forallb (fun c => match digit_val c with Some _ => false | None => true end) (map N.of_nat (seq 97 26)) = true) as A by (vm_compute; reflexivity).
    rewrite forallb_forall in A. specialize (A _ H). now destruct (digit_val d).
  - assert (In c (map N.of_nat (seq 65 26))) as H by (apply in_map_iff; exists (N.to_nat c); split; [lia|apply in_seq; lia]).
    assert (forallb (fun c => match digit_val c with Some _ => false | None => true end) (map N.of_nat (seq 65 26)) = true) as A by (vm_compute; reflexivity).
    rewrite forallb_forall in A. specialize (A _ H). now destruct (digit_val c).
Qed.
Lemma forallb_digits d : forallb is_digit d = true <-> digits d.
Proof. unfold digits. now rewrite forallb_forall, Forall_forall. Qed.
Lemma split3 (s d : str) : List.length s = 3%nat -> firstn 3 (s ++ d) = s /\ skipn 3 (s ++ d) = d.
Proof. intros L. rewrite firstn_app, skipn_app, L, firstn_all2, skipn_all2 by lia. cbn. now rewrite app_nil_r. Qed.
Lemma nan_split r : is_word "nan" (firstn 3 r) && forallb is_digit (skipn 3 r) = true <->
  exists s d, r = s ++ d /\ spells "nan" s /\ digits d.
Proof.
  rewrite andb_true_iff, word_nan, forallb_digits. split.
  - intros [A B]. exists (firstn 3 r), (skipn 3 r). now rewrite firstn_skipn.
  - intros (s & d & -> & A & B). destruct (split3 s d) as [-> ->]; [apply (spells_length _ _ A)|easy].
Qed.
Lemma spells_snan s : spells "snan" s <-> exists c r, s = c :: r /\ letter 115 c /\ spells "nan" r.
Proof.
  unfold spells. change (lit "snan") with (115%N :: lit "nan"). split.
  - intros H. inversion H as [|c ? r ? H1 H2]; subst. exists c, r. split; [easy|]. unfold letter. split; [tauto|easy].
  - intros (c & r & -> & L & H). constructor; [|easy]. unfold letter in L. lia.
Qed.
Lemma parse_nan_true s d : parse_nan true s = Some d <-> exists sig, d = DNan sig /\ parse_nan_rel s sig.
Proof.
  unfold parse_nan. cbn [negb].
  assert (Q : forall r sig, (forall c r', r = c :: r' -> sig = false -> lower c <> 115%N) ->
    (if is_word "nan" (firstn 3 r) && forallb is_digit (skipn 3 r) then Some (DNan sig) else None) = Some d
    <-> exists s' ds, r = s' ++ ds /\ spells "nan" s' /\ digits ds /\ d = DNan sig).
  { intros r sig _. destruct (is_word "nan" (firstn 3 r) && forallb is_digit (skipn 3 r)) eqn:E.
    - apply nan_split in E as (s' & ds & -> & A & B). split; [intros [= <-]; eauto 7|]. intros (? & ? & _ & _ & _ & ->). easy.
    - split; [easy|]. intros (s' & ds & -> & A & B & _). rewrite (proj2 (nan_split _)) in E; [easy|eauto]. }
  assert (S1 : forall c r, letter 115 c -> parse_nan_rel (c :: r) false -> False).
  { intros c r L P. inversion P as [s0 d0 A B E|]; subst. destruct (spells_head "nan" _ _ _ eq_refl A) as (c' & r' & -> & L').
    injection E as -> _. unfold letter in *. cbn in L'. lia. }
  destruct s as [|c r].
  - rewrite Q by easy. split.
    + intros (s' & ds & E & A & B & ->). exists false. split; [easy|]. rewrite E. now apply pn_quiet.
    + intros (sig & -> & P). inversion P as [s0 d0 A B E|s0 d0 A B E].
      * exists s0, d0. split; [easy|]. split; [easy|]. split; easy.
      * apply app_eq_nil in E as [-> ->]. inversion A.
  - destruct (N.eqb_spec (lower c) 115) as [L|L].
    + apply lower_is in L; [|lia]. rewrite Q by (intros; discriminate). split.
      * intros (s' & ds & -> & A & B & ->). exists true. split; [easy|]. change (c :: s' ++ ds) with ((c :: s') ++ ds). apply pn_sig; [|easy].
        apply spells_snan. exists c, s'. easy.
      * intros (sig & -> & P). destruct sig; [|exfalso; now apply (S1 c r)]. inversion P as [|s0 d0 A B E].
        apply spells_snan in A as (c' & r' & -> & L' & A). injection E as -> <-. exists r', d0. easy.
    + assert (NL : ~ letter 115 c) by (intros X; apply L; apply lower_is; [lia|exact X]).
      rewrite Q by (intros ? ? [= <- <-] _; exact L). split.
      * intros (s' & ds & E & A & B & ->). exists false. split; [easy|]. rewrite E. now apply pn_quiet.
      * intros (sig & -> & P). inversion P as [s0 d0 A B E|s0 d0 A B E].
        -- exists s0, d0. easy.
        -- apply spells_snan in A as (c' & r' & -> & L' & A). injection E as -> _. easy.
Qed.
(* without sign *)
Inductive unsigned (decimals neg : bool) : str -> decimal -> Prop :=
| un_num s c x : number_text s c x -> unsigned decimals neg s (DNum neg c x)
| un_inf s : spells "inf" s \/ spells "infinity" s -> unsigned decimals neg s (DInf neg)
| un_nan s : spells "nan" s -> unsigned decimals neg s (DNan false)
| un_diag s d : decimals = true -> spells "nan" s -> digits d -> unsigned decimals neg (s ++ d) (DNan false)
| un_snan s d : decimals = true -> spells "snan" s -> digits d -> unsigned decimals neg (s ++ d) (DNan true).
Lemma number_head s c x : number_text s c x -> exists k r, s = k :: r /\ (is_digit k = true \/ k = 46%N).
Proof.
  assert (M : forall w c x, mantissa w c x -> exists k r, w = k :: r /\ (is_digit k = true \/ k = 46%N)).
  { intros w c' x' [a n A H|a b n A H].
    - destruct a as [|k a]; [easy|]. exists k, a. split; [easy|]. left. now apply numeral_chars, Forall_inv in H.
    - destruct a as [|k a].
      + exists 46%N, b. split; [easy|now right].
      + exists k, (a ++ lit "." ++ b). split; [easy|]. left. now apply numeral_chars, Forall_inv in H. }
  intros [w c' x' H|w c' x' k t z H _ _].
  - now apply (M w c' x').
  - destruct (M _ _ _ H) as (k' & r & -> & K). exists k', (r ++ k :: t). easy.
Qed.
Lemma nan_rel_head s sig : parse_nan_rel s sig -> exists k r, s = k :: r /\ (letter 110 k \/ letter 115 k).
Proof.
  intros [w d A _|w d A _].
  - destruct (spells_head "nan" _ _ _ eq_refl A) as (k & r & -> & L). exists k, (r ++ d). split; [easy|now left].
  - destruct (spells_head "snan" _ _ _ eq_refl A) as (k & r & -> & L). exists k, (r ++ d). split; [easy|now right].
Qed.
Lemma inf_head s : spells "inf" s \/ spells "infinity" s -> exists k r, s = k :: r /\ letter 105 k.
Proof. intros [A|A]; [apply (spells_head "inf" _ _ _ eq_refl A)|apply (spells_head "infinity" _ _ _ eq_refl A)]. Qed.
Lemma letter_number k d : (97 <= d <= 122)%N -> letter d k -> is_digit k = true \/ k = 46%N -> False.
Proof.
  intros D L [X | ->]; [|unfold letter in L; lia]. rewrite (letter_not_digit d k) in X; [easy|easy|easy|lia].
Qed.
Lemma parse_nan_iff dc s d : parse_nan dc s = Some d <->
  if dc then exists sig, d = DNan sig /\ parse_nan_rel s sig else d = DNan false /\ spells "nan" s.
Proof.
  destruct dc; [apply parse_nan_true|]. unfold parse_nan. destruct (is_word "nan" s) eqn:E.
  - apply word_nan in E. split; [intros [= <-]; easy|intros [-> _]; easy].
  - split; [easy|]. intros [_ H]. apply word_nan in H. congruence.
Qed.
Lemma nan_none dc k r : (forall d, letter d k -> (97 <= d <= 122)%N -> d <> 110%N /\ d <> 115%N) -> parse_nan dc (k :: r) = None.
Proof.
  intros H. destruct (parse_nan dc (k :: r)) as [d|] eqn:E; [exfalso|easy]. apply parse_nan_iff in E. destruct dc.
  - destruct E as (sig & _ & P). apply nan_rel_head in P as (k' & r' & [= <- <-] & [L|L]); apply H in L; lia.
  - destruct E as (_ & P). destruct (spells_head "nan" _ _ _ eq_refl P) as (k' & r' & [= <- <-] & L). apply H in L; cbn in *; lia.
Qed.
Lemma unsigned_cases dc neg s d : unsigned dc neg s d ->
  (exists c x, number_text s c x /\ d = DNum neg c x) \/ ((spells "inf" s \/ spells "infinity" s) /\ d = DInf neg)
  \/ (exists sig, parse_nan_rel s sig /\ d = DNan sig /\ (dc = true \/ sig = false /\ spells "nan" s)).
Proof.
  intros [w c x T|w T|w T|w ds D T Q|w ds D T Q].
  - left. eauto.
  - right. now left.
  - right. right. exists false. split; [rewrite <- (app_nil_r w); apply pn_quiet; [easy|constructor]|]. auto.
  - right. right. exists false. split; [now apply pn_quiet|]. auto.
  - right. right. exists true. split; [now apply pn_sig|]. auto.
Qed.
Lemma parse_unsigned_iff dc neg s d : parse_unsigned dc neg s = Some d <-> unsigned dc neg s d.
Proof.
  unfold parse_unsigned. destruct (is_word "inf" s || is_word "infinity" s) eqn:EI.
  - apply orb_true_iff in EI. rewrite word_inf, word_infinity in EI. split; [intros [= <-]; now apply un_inf|].
    destruct (inf_head _ EI) as (k & r & E & L). intros U. apply unsigned_cases in U as [(c & x & T & ->)|[[_ ->]|(sig & P & _)]].
    + exfalso. apply number_head in T as (k' & r' & E' & K). rewrite E in E'. injection E' as <- <-. now apply (letter_number k 105).
    + easy.
    + exfalso. apply nan_rel_head in P as (k' & r' & E' & L'). rewrite E in E'. injection E' as <- <-. unfold letter in *. lia.
  - apply orb_false_iff in EI as [I1 I2].
    assert (NI : ~ (spells "inf" s \/ spells "infinity" s)) by (rewrite <- word_inf, <- word_infinity; intros [X|X]; congruence).
    destruct (parse_nan dc s) as [d'|] eqn:EN.
    + pose proof EN as P. apply parse_nan_iff in P. split.
      * intros [= <-]. destruct dc.
        -- destruct P as (sig & -> & [w ds A B|w ds A B]); [now apply un_diag|now apply un_snan].
        -- destruct P as (-> & A). now apply un_nan.
      * intros U. rewrite <- EN. apply unsigned_cases in U as [(c & x & T & ->)|[[X ->]|(sig & Q & -> & Y)]].
        -- exfalso. apply number_head in T as (k' & r' & -> & K). rewrite nan_none in EN; [easy|]. intros x' Lx Rx. exfalso. now apply (letter_number k' x').
        -- easy.
        -- apply parse_nan_iff. destruct dc; [eauto|]. destruct Y as [|[-> Y]]; easy.
    + rewrite parse_number_iff. split.
      * intros (c & x & -> & T). now apply un_num.
      * intros U. apply unsigned_cases in U as [(c & x & T & ->)|[[X ->]|(sig & Q & -> & Y)]].
        -- eauto.
        -- easy.
        -- exfalso. rewrite (proj2 (parse_nan_iff dc s (DNan sig))) in EN; [easy|]. destruct dc; [eauto|]. destruct Y as [|[-> Y]]; easy.
Qed.
Lemma unsigned_head dc neg s d : unsigned dc neg s d -> exists k r, s = k :: r /\ k <> 45%N /\ k <> 43%N.
Proof.
  intros [w c x T|w T|w T|w ds D T Q|w ds D T Q].
  - apply number_head in T as (k & r & -> & K). exists k, r. split; [easy|]. destruct K as [K | ->]; [|easy]. apply is_digit_iff in K as [v V]. now apply digit_plain in V.
  - apply inf_head in T as (k & r & -> & L). exists k, r. split; [easy|]. unfold letter in L. lia.
  - destruct (spells_head "nan" _ _ _ eq_refl T) as (k & r & -> & L). exists k, r. split; [easy|]. unfold letter in L. cbn in L. lia.
  - destruct (spells_head "nan" _ _ _ eq_refl T) as (k & r & -> & L). exists k, (r ++ ds). split; [easy|]. unfold letter in L. cbn in L. lia.
  - destruct (spells_head "snan" _ _ _ eq_refl T) as (k & r & -> & L). exists k, (r ++ ds). split; [easy|]. unfold letter in L. cbn in L. lia.
Qed.
Lemma digits_spec d : digits d <-> Forall (fun c => exists v, digit c v) d.
Proof. unfold digits. rewrite !Forall_forall. split; intros H x I; apply is_digit_iff; auto. Qed.
Lemma literal_unsigned dc s d : literal dc s d <-> exists neg sg u, signed_by neg sg /\ s = sg ++ u /\ unsigned dc neg u d.
Proof.
  split.
  - intros [sg neg w c x G T|sg neg w G T|sg neg w G T|sg neg w ds D G T Q|sg neg w ds D G T Q].
    + exists neg, sg, w. split; [easy|]. split; [easy|]. now apply un_num.
    + exists neg, sg, w. split; [easy|]. split; [easy|]. now apply un_inf.
    + exists neg, sg, w. split; [easy|]. split; [easy|]. now apply un_nan.
    + exists neg, sg, (w ++ ds). split; [easy|]. split; [easy|]. apply un_diag; auto. now apply digits_spec.
    + exists neg, sg, (w ++ ds). split; [easy|]. split; [easy|]. apply un_snan; auto. now apply digits_spec.
  - intros (neg & sg & u & G & -> & [w c x T|w T|w T|w ds D T Q|w ds D T Q]).
    + now apply li_num.
    + now apply li_inf.
    + now apply li_nan with neg.
    + apply li_diag with neg; auto. now apply digits_spec.
    + apply li_snan with neg; auto. now apply digits_spec.
Qed.
Lemma parse_iff dc s d : parse dc s = Some d <-> literal dc s d.
Proof.
  assert (C : parse dc s = match s with
    | [] => parse_unsigned dc false s
    | c :: r => if (c =? 45)%N then parse_unsigned dc true r else if (c =? 43)%N then parse_unsigned dc false r else parse_unsigned dc false s end).
  { unfold parse. destruct s as [|c r]; [easy|]. destruct (N.eqb_spec c 45) as [->|H1]; [easy|]. destruct (N.eqb_spec c 43) as [->|H2]; [easy|].
    destruct c as [|p]; [easy|]. repeat (destruct p as [p|p|]; try easy). }
  rewrite C, literal_unsigned. clear C. split.
  - destruct s as [|c r].
    + intros H. apply parse_unsigned_iff in H. exists false, [], []. split; [constructor|easy].
    + destruct (N.eqb_spec c 45) as [->|H1]; [|destruct (N.eqb_spec c 43) as [->|H2]]; intros H; apply parse_unsigned_iff in H.
      * exists true, (lit "-"), r. split; [constructor|easy].
      * exists false, (lit "+"), r. split; [constructor|easy].
      * exists false, [], (c :: r). split; [constructor|easy].
  - intros (neg & sg & u & G & -> & U). destruct G.
    + cbn [app]. destruct (unsigned_head _ _ _ _ U) as (k & r & -> & K1 & K2). apply N.eqb_neq in K1, K2. rewrite K1, K2. now apply parse_unsigned_iff.
    + change (lit "+" ++ u) with (43%N :: u). change (43 =? 45)%N with false. change (43 =? 43)%N with true. cbv iota. now apply parse_unsigned_iff.
    + change (lit "-" ++ u) with (45%N :: u). change (45 =? 45)%N with true. cbv iota. now apply parse_unsigned_iff.
Qed.
Lemma literal_fun dc s d d' : literal dc s d -> literal dc s d' -> d = d'.
Proof. rewrite <- !parse_iff. congruence. Qed.
Lemma mantissa_nonneg s c x : mantissa s c x -> 0 <= c.
Proof. intros [a n _ _|a b n _ _]; lia. Qed.
Lemma literal_sound dc s d : literal dc s d -> match d with DNum _ c _ => 0 <= c | _ => True end.
Proof. intros [sg neg w c x G T| | | | ]; try exact Logic.I. destruct T as [? ? ? M|? ? ? ? ? ? M]; now apply mantissa_nonneg in M. Qed.
