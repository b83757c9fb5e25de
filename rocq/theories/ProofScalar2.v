From Verif Require Import PyBase PyBaseFacts ModelScalar SpecScalar ProofScalar.

(* ---------------- decimal output ---------------- *)
Lemma dec_aux_len f n w : (n < 10 ^ N.of_nat (S w))%N -> List.length (dec_aux f n) <= S w.
Proof.
  revert n w; induction f as [|f IH]; intros n w H; cbn [dec_aux]; [simpl; lia|].
  destruct (N.ltb_spec n 10); [simpl; lia|]. rewrite app_length. simpl.
  destruct w as [|w]; [simpl in H; lia|].
  enough (List.length (dec_aux f (n / 10)) <= S w) by lia. apply IH.
  rewrite Nat2N.inj_succ, N.pow_succ_r' in H. apply N.div_lt_upper_bound; lia.
Qed.
Lemma dec_len n w : (n < 10 ^ N.of_nat (S w))%N -> List.length (dec n) <= S w.
Proof. apply dec_aux_len. Qed.
Lemma ascii_Forall s : forallb is_adigit s = true <-> Forall (fun c => 48 <= c <= 57)%N s.
Proof.
  rewrite forallb_forall, Forall_forall. unfold is_adigit.
  split; intros H x Hx; specialize (H x Hx); lia.
Qed.
Lemma zeros_val k s acc : digits_val 0 s = Some acc -> digits_val 0 (repeat 48%N k ++ s) = Some acc.
Proof.
  intros H. induction k as [|k IH]; simpl; [easy|].
  change (digit_val 48) with (Some 0%N). exact IH.
Qed.
Lemma dec_pad_field w n : (n < 10 ^ N.of_nat (S w))%N -> ascii_field (S w) (dec_pad (S w) n) n.
Proof.
  intros H. apply dec_len in H. unfold dec_pad, pad0. split; [split|].
  - rewrite app_length, repeat_length. lia.
  - apply numeral_iff, zeros_val, dec_val.
  - apply Forall_app. split; [|apply ascii_Forall, dec_ascii].
    apply Forall_forall. intros x Hx. apply repeat_spec in Hx. lia.
Qed.
Lemma dec_aux_head f n : (0 < n < 2 ^ N.of_nat f)%N -> hd 48%N (dec_aux f n) <> 48%N.
Proof.
  revert n; induction f as [|f IH]; intros n H; [simpl in H; lia|]. cbn [dec_aux].
  destruct (N.ltb_spec n 10); [simpl; lia|].
  rewrite Nat2N.inj_succ, N.pow_succ_r' in H.
  assert (0 < n / 10 < 2 ^ N.of_nat f)%N as Hn.
  { split; [apply N.div_str_pos; lia|]. apply N.div_lt_upper_bound; lia. }
  specialize (IH _ Hn). destruct f as [|f]; [simpl in Hn; lia|].
  destruct (dec_aux (S f) (n / 10)) eqn:E; [now apply dec_aux_nonempty in E|exact IH].
Qed.
Lemma dec_plain n : plain_digits (dec n).
Proof.
  split; [apply ascii_Forall, dec_ascii|]. destruct (N.eq_dec n 0) as [->|H]; [now left|].
  right. apply dec_aux_head. rewrite Nat2N.inj_succ, N.pow_succ_r'.
  pose proof (size_nat_bound n). lia.
Qed.
Lemma dec_z_canonical z : canonical_int (dec_z z) z.
Proof.
  assert (forall n, integer_text (dec n) (Z.of_N n)) as G.
  { intros n. apply it_plain; [apply dec_nonempty|apply numeral_iff, dec_val]. }
  destruct z as [|p|p]; split; try (apply (G 0%N)); try (apply (G (Npos p))).
  - left. split; [lia|apply dec_plain].
  - left. split; [lia|apply dec_plain].
  - apply (it_minus (dec (Npos p)) (Npos p)); [apply dec_nonempty|apply numeral_iff, dec_val].
  - right. split; [lia|]. exists (dec (Npos p)). split; [easy|apply dec_plain].
Qed.

(* ---------------- the calendar ---------------- *)
Lemma mod_divide a b : a <> 0%N -> (b mod a =? 0)%N = true <-> N.divide a b.
Proof. intros Ha. rewrite N.eqb_eq. now apply N.mod_divide. Qed.
Lemma leap_iff y : leap y = true <-> leap_year y.
Proof.
  unfold leap, leap_year. rewrite andb_true_iff.
  rewrite orb_true_iff, negb_true_iff.
  rewrite !mod_divide by easy. rewrite <- not_true_iff_false, mod_divide by easy. easy.
Qed.
Lemma memb_N x l : memb N.eqb x l = true <-> In x l.
Proof.
  apply memb_In. intros. apply N.eqb_eq.
Qed.
Lemma days_month y m : (1 <= m <= 12)%N -> month_length y m (days_in_month y m).
Proof.
  intros H. unfold days_in_month. destruct (N.eqb_spec m 2) as [->|Hm].
  - destruct (leap y) eqn:E; [apply ml29, leap_iff, E|].
    apply ml28. rewrite <- leap_iff. congruence.
  - destruct (memb N.eqb m [4; 6; 9; 11]%N) eqn:E.
    + apply ml30. now apply memb_N.
    + apply ml31. assert (~ In m [4;6;9;11]%N) as Hn by (rewrite <- memb_N; congruence).
      simpl in Hn |- *. lia.
Qed.
Lemma month_length_range y m n : month_length y m n -> (1 <= m <= 12)%N.
Proof. intros H. destruct H; simpl in *; lia. Qed.
Lemma month_length_fun y m n1 n2 : month_length y m n1 -> month_length y m n2 -> n1 = n2.
Proof.
  intros H1 H2; destruct H1; inversion H2; subst; try reflexivity; try contradiction;
    exfalso; simpl in *; lia.
Qed.
Lemma date_ok_iff d : date_ok d = true <-> real_date d.
Proof.
  unfold date_ok, real_date. rewrite !andb_true_iff, !N.leb_le. split.
  - intros (((((H1 & H2) & H3) & H4) & H5) & H6). split; [lia|].
    eexists. split; [apply days_month; lia|]. lia.
  - intros (H1 & n & Hn & H2). pose proof (month_length_range _ _ _ Hn) as Hr.
    rewrite (month_length_fun _ _ _ _ Hn (days_month (d_y d) (d_m d) Hr)) in H2. lia.
Qed.
Lemma time_ok_iff t : time_ok t = true <-> real_time t.
Proof. unfold time_ok, real_time. rewrite !andb_true_iff, !N.ltb_lt. lia. Qed.

(* ---------------- matching ---------------- *)
Inductive pm : list pitem -> str -> list str -> Prop :=
| pm_end : pm [] [] []
| pm_nl : pm [] [10%N] []
| pm_d n p d r l : List.length d = n -> Forall (fun c => is_digit c = true) d -> pm p r l ->
    pm (PDigits n :: p) (d ++ r) (d :: l)
| pm_c c p r l : pm p r l -> pm (PChar c :: p) (c :: r) l.
Lemma take_digits_iff n s d r : take_digits n s = Some (d, r) <->
  s = d ++ r /\ List.length d = n /\ Forall (fun c => is_digit c = true) d.
Proof.
  revert s d; induction n as [|n IH]; intros s d; cbn [take_digits].
  - split; [intros [= <- <-]; repeat split; constructor|].
    intros (-> & H & _). now destruct d.
  - destruct s as [|c s]; [split; [easy|]; intros (H & Hl & _); destruct d; easy|].
    destruct (is_digit c) eqn:Ec.
    + destruct (take_digits n s) as [[d' r']|] eqn:E.
      * split.
        -- intros [= <- <-]. apply IH in E as (-> & Hl & Hf). simpl. repeat split; auto.
        -- intros (Hs & Hl & Hf). destruct d as [|c' d]; [easy|]. injection Hs as -> Hs.
           inversion Hf; subst. assert (Some (d', r') = Some (d, r)) as [= -> ->]; [|easy].
           rewrite <- E. apply IH. repeat split; auto.
      * split; [easy|]. intros (Hs & Hl & Hf). destruct d as [|c' d]; [easy|]. injection Hs as -> Hs.
        inversion Hf; subst. assert (take_digits n (d ++ r) = Some (d, r)); [|congruence]. apply IH. repeat split; auto.
    + split; [easy|]. intros (Hs & Hl & Hf). destruct d as [|c' d]; [easy|]. injection Hs as -> Hs.
      inversion Hf; subst. congruence.
Qed.
Lemma match_pat_iff p s l : match_pat p s = Some l <-> pm p s l.
Proof.
  revert s l; induction p as [|[n|c] p IH]; intros s l; cbn [match_pat].
  - split.
    + destruct s as [|c [|c' s]]; [intros [= <-]; constructor| |easy].
      destruct (N.eqb_spec c 10) as [->|]; [intros [= <-]; constructor|easy].
    + inversion 1; subst; easy.
  - split.
    + destruct (take_digits n s) as [[d r]|] eqn:E; [|easy].
      destruct (match_pat p r) as [l'|] eqn:E'; [|easy]. intros [= <-].
      apply take_digits_iff in E as (-> & H1 & H2). constructor; try easy. now apply IH.
    + inversion 1; subst. assert (take_digits (List.length d) (d ++ r) = Some (d, r)) as ->
        by now apply take_digits_iff. apply IH in H6. rewrite H6. easy.
  - split.
    + destruct s as [|x r]; [easy|]. destruct (N.eqb_spec x c) as [->|]; [|easy].
      intros H. constructor. now apply IH.
    + inversion 1; subst. rewrite N.eqb_refl. now apply IH.
Qed.

(* an optional final newline *)
Definition optnl (s : str) : Prop := s = [] \/ s = [10%N].
Lemma pm_date_app p s l : pm (date_pat ++ p) s l <->
  exists a b c r l', s = a ++ dash ++ b ++ dash ++ c ++ r /\ l = a :: b :: c :: l'
   /\ List.length a = 4 /\ List.length b = 2 /\ List.length c = 2
   /\ Forall (fun c => is_digit c = true) (a ++ b ++ c) /\ pm p r l'.
Proof.
  split.
  - intros H. unfold date_pat in H. simpl in H.
    inversion H as [| |? ? a ? ? ? Ha K1|]; subst. inversion K1 as [| | |? ? ? ? K2]; subst.
    inversion K2 as [| |? ? b ? ? ? Hb K3|]; subst. inversion K3 as [| | |? ? ? ? K4]; subst.
    inversion K4 as [| |? ? c ? ? ? Hc K5|]; subst.
    do 5 eexists. split; [reflexivity|]. split; [reflexivity|].
    repeat (split; [assumption|]). split; [|assumption].
    apply Forall_app; split; [easy|]. apply Forall_app; now split.
  - intros (a & b & c & r & l' & -> & -> & H1 & H2 & H3 & Hf & H).
    apply Forall_app in Hf as [Ha Hf]. apply Forall_app in Hf as [Hb Hc].
    unfold date_pat. simpl. apply pm_d; try easy. apply pm_c. apply pm_d; try easy. apply pm_c. now apply pm_d.
Qed.
Lemma pm_time s l : pm time_pat s l <->
  exists a b c r, s = a ++ colon ++ b ++ colon ++ c ++ r /\ l = [a; b; c]
   /\ List.length a = 2 /\ List.length b = 2 /\ List.length c = 2
   /\ Forall (fun c => is_digit c = true) (a ++ b ++ c) /\ optnl r.
Proof.
  split.
  - intros H. unfold time_pat in H.
    inversion H as [| |? ? a ? ? ? Ha K1|]; subst. inversion K1 as [| | |? ? ? ? K2]; subst.
    inversion K2 as [| |? ? b ? ? ? Hb K3|]; subst. inversion K3 as [| | |? ? ? ? K4]; subst.
    inversion K4 as [| |? ? c ? ? ? Hc K5|]; subst.
    exists a, b, c.
    assert (Forall (fun c => is_digit c = true) (a ++ b ++ c)) by
      (apply Forall_app; split; [easy|]; apply Forall_app; now split).
    inversion K5; subst.
    + exists []. repeat split; auto. now left.
    + exists [10%N]. repeat split; auto. now right.
  - intros (a & b & c & r & -> & -> & H1 & H2 & H3 & Hf & H).
    apply Forall_app in Hf as [Ha Hf]. apply Forall_app in Hf as [Hb Hc].
    unfold time_pat. apply pm_d; try easy. apply pm_c. apply pm_d; try easy. apply pm_c. apply pm_d; try easy.
    destruct H as [->| ->]; constructor.
Qed.
Lemma pm_nil s l : pm [] s l <-> optnl s /\ l = [].
Proof.
  split; [inversion 1; subst; split; try easy; [now left|now right]|].
  intros [[->| ->] ->]; constructor.
Qed.

Lemma ints_num l ns : Forall2 (fun s n => s <> [] /\ numeral s n) l ns -> ints l = Ok (map Z.of_N ns).
Proof.
  induction 1 as [|s n l ns [H1 H2] H IH]; [easy|]. cbn [ints].
  rewrite (py_int_digits s n H1 H2). cbn [bind]. rewrite IH. easy.
Qed.
Lemma to_of ns : map Z.to_N (map Z.of_N ns) = ns.
Proof. induction ns as [|n ns IH]; simpl; [easy|]. rewrite N2Z.id, IH. easy. Qed.
Lemma field_digits w s : List.length s = S w -> Forall (fun c => is_digit c = true) s ->
  exists n, field (S w) s n /\ s <> [].
Proof.
  intros Hl Hf. destruct (digits_numeral s Hf) as [n Hn]. exists n. repeat split; try easy.
  intros ->. easy.
Qed.
Lemma field_back w s n : field (S w) s n ->
  List.length s = S w /\ Forall (fun c => is_digit c = true) s /\ s <> [] /\ numeral s n.
Proof.
  intros [Hl Hn]. split; [easy|]. split; [now apply numeral_chars in Hn|]. split; [now intros ->|easy].
Qed.

(* what Temporal.adapt computes from unstripped text *)
Definition parse (t : tkind) (s : str) : res pyval :=
  match match_pat (regex t) s with
  | None => Err AdaptErr
  | Some groups => adaptation false (bind (ints groups) (construct t))
  end.
Lemma app3 (a b c r : str) x : (a ++ x ++ b ++ x ++ c) ++ r = a ++ x ++ b ++ x ++ c ++ r.
Proof. now rewrite <- !app_assoc. Qed.

Lemma parse_date_l s groups : match_pat date_pat s = Some groups ->
  exists y m d s0 r, s = s0 ++ r /\ optnl r /\ date_form field s0 (Date y m d)
    /\ ints groups = Ok (map Z.of_N [y; m; d]).
Proof.
  intros H. apply match_pat_iff in H. rewrite <- (app_nil_r date_pat) in H.
  apply pm_date_app in H as (a & b & c & r & l' & -> & -> & H1 & H2 & H3 & Hf & H).
  apply pm_nil in H as [Hr ->].
  apply Forall_app in Hf as [Ha Hf]. apply Forall_app in Hf as [Hb Hc].
  destruct (field_digits _ a H1 Ha) as (y & Hy & ?). destruct (field_digits _ b H2 Hb) as (m & Hm & ?).
  destruct (field_digits _ c H3 Hc) as (d & Hd & ?).
  exists y, m, d, (a ++ dash ++ b ++ dash ++ c), r. split; [now rewrite app3|]. split; [easy|].
  split; [now constructor|]. apply ints_num. unfold field in *. repeat constructor; tauto.
Qed.
Lemma parse_time_l s groups : match_pat time_pat s = Some groups ->
  exists y m d s0 r, s = s0 ++ r /\ optnl r /\ time_form field s0 (Time y m d 0)
    /\ ints groups = Ok (map Z.of_N [y; m; d]).
Proof.
  intros H. apply match_pat_iff in H.
  apply pm_time in H as (a & b & c & r & -> & -> & H1 & H2 & H3 & Hf & H).
  apply Forall_app in Hf as [Ha Hf]. apply Forall_app in Hf as [Hb Hc].
  destruct (field_digits _ a H1 Ha) as (y & Hy & ?). destruct (field_digits _ b H2 Hb) as (m & Hm & ?).
  destruct (field_digits _ c H3 Hc) as (d & Hd & ?).
  exists y, m, d, (a ++ colon ++ b ++ colon ++ c), r. split; [now rewrite app3|]. split; [easy|].
  split; [now constructor|]. apply ints_num. unfold field in *. repeat constructor; tauto.
Qed.
Lemma date_form_pm s d r p l : date_form field s d -> pm p r l ->
  exists a b c, pm (date_pat ++ p) (s ++ r) (a :: b :: c :: l)
    /\ Forall2 (fun s n => s <> [] /\ numeral s n) [a; b; c] [d_y d; d_m d; d_d d].
Proof.
  intros [y m dd a b c Ha Hb Hc] H. apply field_back in Ha, Hb, Hc.
  exists a, b, c. split.
  - apply pm_date_app. exists a, b, c, r, l. rewrite app3. split; [easy|]. split; [easy|].
    repeat (split; [tauto|]). split; [|easy]. apply Forall_app. split; [tauto|]. apply Forall_app. tauto.
  - simpl. repeat constructor; tauto.
Qed.
Lemma time_form_pm s t r : time_form field s t -> optnl r ->
  exists a b c, pm time_pat (s ++ r) [a; b; c] /\ t_us t = 0%N
    /\ Forall2 (fun s n => s <> [] /\ numeral s n) [a; b; c] [t_h t; t_m t; t_s t].
Proof.
  intros [h m dd a b c Ha Hb Hc] H. apply field_back in Ha, Hb, Hc.
  exists a, b, c. split; [|split; [easy|]].
  - apply pm_time. exists a, b, c, r. rewrite app3. split; [easy|]. split; [easy|].
    repeat (split; [tauto|]). split; [|easy]. apply Forall_app. split; [tauto|]. apply Forall_app. tauto.
  - simpl. repeat constructor; tauto.
Qed.

Lemma parse_ok t s v : parse t s = Ok v <->
  exists s0 r, s = s0 ++ r /\ optnl r /\ temporal_text field t s0 v.
Proof.
  unfold parse. split.
  - destruct (match_pat (regex t) s) as [groups|] eqn:E; [|easy]. intros H.
    destruct t; cbn [regex] in E.
    + apply parse_date_l in E as (y & m & d & s0 & r & Hs & Hr & Hf & Hi).
      rewrite Hi in H. cbn [bind construct] in H. unfold construct in H. rewrite to_of in H.
      unfold mk_date in H. destruct (date_ok _) eqn:Ed; [|easy]. injection H as <-.
      exists s0, r. repeat (split; [easy|]). constructor; [easy|]. now apply date_ok_iff.
    + apply parse_time_l in E as (y & m & d & s0 & r & Hs & Hr & Hf & Hi).
      rewrite Hi in H. cbn [bind construct] in H. unfold construct in H. rewrite to_of in H.
      unfold mk_time in H. destruct (time_ok _) eqn:Ed; [|easy]. injection H as <-.
      exists s0, r. repeat (split; [easy|]). constructor; [easy|]. now apply time_ok_iff.
    + apply match_pat_iff in E.
      apply pm_date_app in E as (a & b & c & r1 & l' & -> & -> & H1 & H2 & H3 & Hf & E).
      inversion E as [| | |? ? r2 ? Et]; subst. apply match_pat_iff in Et.
      apply parse_time_l in Et as (h & mi & se & s2 & r & -> & Hr & Ht & Hi).
      apply Forall_app in Hf as [Ha Hf]. apply Forall_app in Hf as [Hb Hc].
      destruct (field_digits _ a H1 Ha) as (y & Hy & ?). destruct (field_digits _ b H2 Hb) as (m & Hm & ?).
      destruct (field_digits _ c H3 Hc) as (d & Hd & ?).
      cbn [ints] in H. rewrite (py_int_digits a y), (py_int_digits b m), (py_int_digits c d) in H
        by (unfold field in *; tauto).
      rewrite Hi in H. cbn [bind rmap] in H. unfold construct in H.
      change (Z.of_N y :: Z.of_N m :: Z.of_N d :: map Z.of_N [h; mi; se]) with (map Z.of_N [y; m; d; h; mi; se]) in H.
      rewrite to_of in H. unfold mk_date in H. destruct (date_ok _) eqn:Ed; [|easy]. cbn [bind] in H.
      unfold mk_time in H. destruct (time_ok _) eqn:Ek; [|easy]. injection H as <-.
      exists ((a ++ dash ++ b ++ dash ++ c) ++ lit " " ++ s2), r. split; [|split; [easy|]].
      * now rewrite <- !app_assoc.
      * constructor; [now constructor|easy|now apply date_ok_iff|now apply time_ok_iff].
  - intros (s0 & r & -> & Hr & H). destruct H as [s0 d Hf Hd|s0 k Hf Hd|s1 s2 d k Hf Hg Hd Hk]; cbn [regex].
    + destruct (date_form_pm s0 d r [] [] Hf) as (a & b & c & Hm & H2); [now apply pm_nil|].
      rewrite app_nil_r in Hm. apply match_pat_iff in Hm. rewrite Hm, (ints_num _ _ H2).
      cbn [bind]. unfold construct. rewrite to_of. unfold mk_date. destruct d as [y m d]; cbn [d_y d_m d_d].
      apply date_ok_iff in Hd. rewrite Hd. easy.
    + destruct (time_form_pm s0 k r Hf Hr) as (a & b & c & Hm & Hu & H2).
      apply match_pat_iff in Hm. rewrite Hm, (ints_num _ _ H2).
      cbn [bind]. unfold construct. rewrite to_of. unfold mk_time. destruct k as [h m s u]; cbn [t_h t_m t_s t_us] in *.
      subst u. apply time_ok_iff in Hd. rewrite Hd. easy.
    + destruct (time_form_pm s2 k r Hg Hr) as (a & b & c & Hm & Hu & H2).
      destruct (date_form_pm s1 d (32%N :: s2 ++ r) (PChar (ch " ") :: time_pat) [a; b; c] Hf) as (a' & b' & c' & Hm' & H2').
      { now apply pm_c. }
      assert ((s1 ++ lit " " ++ s2) ++ r = s1 ++ 32%N :: s2 ++ r) as -> by now rewrite <- !app_assoc.
      apply match_pat_iff in Hm'. rewrite Hm'.
      pose proof (Forall2_app H2' H2) as H3. apply ints_num in H3.
      match goal with |- context [ints ?g] => replace (ints g) with (Ok (map Z.of_N ([d_y d; d_m d; d_d d] ++ [t_h k; t_m k; t_s k]))) by (symmetry; exact H3) end.
      cbn [bind]. unfold construct. rewrite to_of. unfold mk_date, mk_time.
      destruct d as [y m d]; destruct k as [h mi s u]; cbn [d_y d_m d_d t_h t_m t_s t_us] in *.
      subst u. apply date_ok_iff in Hd. apply time_ok_iff in Hk. cbn [app]. rewrite Hd. cbn [bind]. rewrite Hk. easy.
Qed.
Lemma parse_err t s e : parse t s = Err e -> e = AdaptErr.
Proof.
  unfold parse. destruct (match_pat (regex t) s) as [groups|] eqn:E; [|congruence].
  intros H.
  assert (forall g f, ints g = Err f -> f = ValueErr) as Gi.
  { induction g as [|x g IH]; intros f; [easy|]. cbn [ints]. destruct (py_int x) eqn:Ex; cbn [bind].
    - destruct (ints g); cbn [rmap]; [easy|]. intros [= <-]. now apply IH.
    - intros [= <-]. now apply py_int_err in Ex. }
  destruct (ints groups) as [zs|f] eqn:Ei; cbn [bind] in H.
  - assert (forall f, construct t zs = Err f -> f = ValueErr \/ f = TypeErr) as Gc.
    { intros f. unfold construct, mk_date, mk_time.
      destruct t; repeat (match goal with |- context [match ?l with [] => _ | _ => _ end] => destruct l end; try (intros [= <-]; auto; fail)).
      - destruct (date_ok _); cbn; [easy|]. intros [= <-]. now left.
      - destruct (time_ok _); cbn; [easy|]. intros [= <-]. now left.
      - destruct (date_ok _); cbn; [|intros [= <-]; now left].
        destruct (time_ok _); cbn; [easy|]. intros [= <-]. now left. }
    destruct (construct t zs) as [v|f]; [easy|]. destruct (Gc f eq_refl) as [->| ->]; cbn in H; congruence.
  - rewrite (Gi _ _ Ei) in H. cbn in H. congruence.
Qed.
