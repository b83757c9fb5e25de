From Verif Require Import PyBase PyBaseFacts ModelScalar SpecScalar.

(* ---------------- trimming ---------------- *)
Lemma forallb_space s : forallb is_space s = true <-> all_space s.
Proof. unfold all_space. rewrite forallb_forall, Forall_forall. easy. Qed.
Lemma headp_false s : headp is_space s = false <-> forall c r, s = c :: r -> is_space c = false.
Proof.
  destruct s as [|c s]; simpl; split; intros H; try easy.
  - intros c' r [= <- <-]. easy.
  - now apply (H c s).
Qed.
Lemma lastp_false s : lastp is_space s = false <-> forall c r, s = r ++ [c] -> is_space c = false.
Proof.
  unfold lastp. destruct (rev s) as [|c r] eqn:E; simpl; split; intros H; try easy.
  - intros c r ->. now rewrite rev_app_distr in E.
  - intros c' r' ->. rewrite rev_app_distr in E. simpl in E. injection E as -> _. easy.
  - apply (H c (rev r)). rewrite <- (rev_involutive s), E. easy.
Qed.
Lemma outer_clean_strip s : outer_clean (strip s).
Proof. destruct (strip_ends s) as [H1 H2]. split; [now apply headp_false|now apply lastp_false]. Qed.
Lemma trimmed_strip s : trimmed s (strip s).
Proof.
  destruct (strip_decomp s) as (a & b & E & Ha & Hb). exists a, b.
  split; [exact E|]. rewrite <- !forallb_space. repeat split; try easy; apply outer_clean_strip.
Qed.
Lemma trimmed_eq s t : trimmed s t <-> t = strip s.
Proof.
  split; [|intros ->; apply trimmed_strip].
  intros (a & b & -> & Ha & Hb & H1 & H2). symmetry. apply strip_unique.
  - now apply forallb_space.
  - now apply forallb_space.
  - now apply headp_false.
  - now apply lastp_false.
Qed.

(* ---------------- digits ---------------- *)
Inductive spacedP : list N -> Prop :=
| sp_nil : spacedP []
| sp_cons z zs : Forall (fun z' => z + 10 <= z')%N zs -> spacedP zs -> spacedP (z :: zs).
Fixpoint spacedb (zs : list N) : bool :=
  match zs with [] => true | z :: r => forallb (fun z' => z + 10 <=? z')%N r && spacedb r end.
Lemma spacedb_P zs : spacedb zs = true -> spacedP zs.
Proof.
  induction zs as [|z zs IH]; simpl; [constructor|]. intros H.
  apply andb_true_iff in H as [H1 H2]. constructor; [|auto].
  rewrite forallb_forall in H1. rewrite Forall_forall. intros x Hx. specialize (H1 x Hx). lia.
Qed.
Lemma digit_in_iff zs c d : spacedP zs ->
  (digit_in zs c = Some d <-> exists z, In z zs /\ (d < 10)%N /\ c = (z + d)%N).
Proof.
  induction 1 as [|z zs Hf Hs IH]; cbn [digit_in].
  - split; [easy|]. intros (z & [] & _).
  - rewrite Forall_forall in Hf.
    destruct ((z <=? c) && (c <? z + 10))%N eqn:E.
    + split.
      * intros [= <-]. exists z. split; [now left|]. lia.
      * intros (z' & [<-|Hin] & Hd & ->); [f_equal; lia|]. specialize (Hf z' Hin). lia.
    + rewrite IH. split; intros (z' & Hin & Hd & ->); exists z'; (split; [|easy]).
      * now right.
      * destruct Hin as [<-|Hin]; [lia|easy].
Qed.
Lemma digit_val_iff c d : digit_val c = Some d <-> digit c d.
Proof. apply digit_in_iff, spacedb_P. vm_compute. reflexivity. Qed.
Lemma is_digit_iff c : is_digit c = true <-> exists d, digit c d.
Proof.
  unfold is_digit. destruct (digit_val c) as [d|] eqn:E.
  - split; [|easy]. intros _. exists d. now apply digit_val_iff.
  - split; [easy|]. intros (d & H). apply digit_val_iff in H. congruence.
Qed.
Lemma digits_val_fold s acc n :
  digits_val acc s = Some n <->
  exists ds, Forall2 digit s ds /\ n = fold_left (fun a d => 10 * a + d)%N ds acc.
Proof.
  revert acc; induction s as [|c s IH]; intros acc; cbn [digits_val].
  - split.
    + intros [= <-]. exists []. now split.
    + intros (ds & H & ->). inversion H; subst. easy.
  - destruct (digit_val c) as [d|] eqn:E.
    + rewrite IH. split.
      * intros (ds & H & ->). exists (d :: ds). split; [|easy]. constructor; [now apply digit_val_iff|easy].
      * intros (ds & H & ->). inversion H as [|? d' ? ds' Hd Hs]; subst.
        apply digit_val_iff in Hd. rewrite E in Hd. injection Hd as ->. exists ds'. easy.
    + split; [easy|]. intros (ds & H & ->). inversion H as [|? d' ? ds' Hd Hs]; subst.
      apply digit_val_iff in Hd. congruence.
Qed.
Lemma fold_positional ds : fold_left (fun a d => 10 * a + d)%N ds 0%N = positional (rev ds).
Proof.
  rewrite <- (rev_involutive ds) at 1. rewrite fold_left_rev_right || idtac.
  rewrite <- fold_left_rev_right, rev_involutive.
  induction (rev ds) as [|d l IH]; cbn [fold_right positional]; [easy|]. rewrite IH. lia.
Qed.
Lemma numeral_iff s n : digits_val 0 s = Some n <-> numeral s n.
Proof.
  unfold numeral. rewrite digits_val_fold. split; intros (ds & H & ->); exists ds;
    (split; [easy|]); [|symmetry]; apply fold_positional.
Qed.
Lemma digit_space_check : forallb (fun z => forallb (fun d => negb (is_space (z + d)) && negb (z + d =? 45)%N && negb (z + d =? 43)%N)
   [0;1;2;3;4;5;6;7;8;9]%N) unicode_zeros = true.
Proof. vm_compute. reflexivity. Qed.
Lemma digit_plain c d : digit c d -> is_space c = false /\ c <> 45%N /\ c <> 43%N.
Proof.
  intros (z & Hz & Hd & ->). pose proof digit_space_check as H.
  rewrite forallb_forall in H. specialize (H z Hz). rewrite forallb_forall in H.
  assert (In d [0;1;2;3;4;5;6;7;8;9]%N) as Hin by (simpl; lia). specialize (H d Hin).
  apply andb_true_iff in H as [H H3]. apply andb_true_iff in H as [H1 H2].
  apply negb_true_iff in H1, H2, H3. apply N.eqb_neq in H2, H3. easy.
Qed.
Lemma numeral_chars s n : numeral s n -> Forall (fun c => is_digit c = true) s.
Proof.
  intros (ds & H & _). induction H as [|c d s ds Hd H IH]; constructor; [|easy].
  apply is_digit_iff. eauto.
Qed.
Lemma digits_numeral s : Forall (fun c => is_digit c = true) s -> exists n, numeral s n.
Proof.
  intros H. assert (exists ds, Forall2 digit s ds) as [ds Hd].
  { induction H as [|c s Hc H (ds & IH)]; [exists []; constructor|].
    apply is_digit_iff in Hc as [d Hd]. exists (d :: ds). now constructor. }
  exists (positional (rev ds)), ds. easy.
Qed.
Lemma numeral_fun s m n : numeral s m -> numeral s n -> m = n.
Proof. rewrite <- !numeral_iff. congruence. Qed.

Lemma py_int_cases s : py_int s =
  match strip s with
  | [] => Err ValueErr
  | c :: r => if (c =? 45)%N then rmap Z.opp (int_unsigned r)
              else if (c =? 43)%N then int_unsigned r else int_unsigned (c :: r)
  end.
Proof.
  unfold py_int. destruct (strip s) as [|c r]; [easy|].
  destruct (N.eqb_spec c 45) as [->|H1]; [easy|]. destruct (N.eqb_spec c 43) as [->|H2]; [easy|].
  destruct c as [|p]; [easy|]. repeat (destruct p as [p|p|]; try easy).
Qed.
Lemma int_unsigned_iff s z : int_unsigned s = Ok z <-> s <> [] /\ exists n, numeral s n /\ z = Z.of_N n.
Proof.
  unfold int_unsigned. destruct s as [|c s]; [split; [easy|intros [? _]; easy]|].
  destruct (digits_val 0 (c :: s)) as [n|] eqn:E.
  - split; [intros [= <-]; split; [easy|]; exists n; split; [now apply numeral_iff|easy]|].
    intros (_ & m & H & ->). apply numeral_iff in H. congruence.
  - split; [easy|]. intros (_ & m & H & ->). apply numeral_iff in H. congruence.
Qed.
Lemma numeral_head c s n : numeral (c :: s) n -> c <> 45%N /\ c <> 43%N.
Proof. intros (ds & H & _). inversion H; subst. eapply digit_plain; eauto. Qed.
Lemma py_int_iff s z : py_int s = Ok z <-> exists t, trimmed s t /\ integer_text t z.
Proof.
  rewrite py_int_cases. split.
  - intros H. exists (strip s). split; [apply trimmed_strip|].
    destruct (strip s) as [|c r]; [easy|].
    destruct (N.eqb_spec c 45) as [->|H1]; [|destruct (N.eqb_spec c 43) as [->|H2]].
    + destruct (int_unsigned r) as [w|] eqn:E; [|easy]. injection H as <-.
      apply int_unsigned_iff in E as (Hn & n & Hnum & ->). now constructor.
    + apply int_unsigned_iff in H as (Hn & n & Hnum & ->). now constructor.
    + apply int_unsigned_iff in H as (Hn & n & Hnum & ->). now constructor.
  - intros (t & Ht & H). apply trimmed_eq in Ht. rewrite <- Ht. clear Ht.
    destruct H as [r n Hn Hnum|r n Hn Hnum|r n Hn Hnum].
    + destruct r as [|c r]; [easy|]. destruct (numeral_head c r n Hnum) as [H1 H2].
      apply N.eqb_neq in H1, H2. rewrite H1, H2. apply int_unsigned_iff. eauto.
    + cbn [N.eqb Pos.eqb]. apply int_unsigned_iff. eauto.
    + cbn [N.eqb Pos.eqb]. assert (int_unsigned r = Ok (Z.of_N n)) as -> by (apply int_unsigned_iff; eauto).
      easy.
Qed.
Lemma py_int_err s e : py_int s = Err e -> e = ValueErr.
Proof.
  rewrite py_int_cases. destruct (strip s) as [|c r]; [congruence|].
  assert (forall x f, int_unsigned x = Err f -> f = ValueErr) as G.
  { intros x f. unfold int_unsigned. destruct x; [congruence|]. destruct (digits_val _ _); congruence. }
  destruct (c =? 45)%N.
  - destruct (int_unsigned r) eqn:E; [easy|]. intros [= <-]. eauto.
  - destruct (c =? 43)%N; apply G.
Qed.
Lemma py_int_digits s n : s <> [] -> numeral s n -> py_int s = Ok (Z.of_N n).
Proof.
  intros Hs Hn. apply py_int_iff. exists s. split; [|now constructor].
  exists [], []. rewrite app_nil_r. repeat split; try constructor.
  - intros c r ->. destruct Hn as (ds & H & _). inversion H; subst. eapply digit_plain; eauto.
  - intros c r ->. destruct Hn as (ds & H & _). apply Forall2_app_inv_l in H as (l1 & l2 & _ & H & _).
    inversion H; subst. eapply digit_plain; eauto.
Qed.

(* ---------------- integers ---------------- *)
Lemma py_int_strip s : py_int (strip s) = py_int s.
Proof. rewrite !py_int_cases, strip_idem. easy. Qed.
Lemma integer_text_set signed st s :
  let '(st', r) := scalar_set (KInteger signed) st (VText s) in
  exists b, r = Ok b
  /\ (b = true <-> exists t z, trimmed s t /\ integer_text t z /\ (signed = true \/ (0 <= z)%Z))
  /\ (forall t z, trimmed s t -> integer_text t z -> b = true -> s_value st' = VInt z /\ s_u st' = dec_z z)
  /\ (b = false -> s_value st' = VNone /\ s_u st' = s).
Proof.
  unfold scalar_set, KInteger. cbn [adapt nt_conv nt_neg int_type int_conv].
  rewrite py_int_strip. destruct (py_int s) as [z|e] eqn:E; cbn [rmap adaptation bind].
  - assert (exists t, trimmed s t /\ integer_text t z) as (t & Ht & Hz) by now apply py_int_iff.
    assert (forall t' z', trimmed s t' -> integer_text t' z' -> z' = z) as Hu.
    { intros t' z' H1 H2. assert (py_int s = Ok z') by (apply py_int_iff; eauto). congruence. }
    destruct signed; cbn [nt_neg bind].
    + exists true. split; [easy|]. split; [|split; [|easy]].
      * split; [intros _|easy]. exists t, z. auto.
      * intros t' z' H1 H2 _. rewrite (Hu t' z') by easy. easy.
    + destruct (z <? 0)%Z eqn:Ez; cbn [bind].
      * exists false. split; [easy|]. split; [|split; [easy|easy]].
        split; [easy|]. intros (t' & z' & H1 & H2 & [H|H]); [easy|]. rewrite (Hu t' z') in H by easy. lia.
      * exists true. split; [easy|]. split; [|split; [|easy]].
        -- split; [intros _|easy]. exists t, z. split; [easy|]. split; [easy|]. right. lia.
        -- intros t' z' H1 H2 _. rewrite (Hu t' z') by easy. easy.
  - apply py_int_err in E as H. subst e. exists false. cbn. split; [easy|]. split; [|split; [easy|easy]].
    split; [easy|]. intros (t & z & H1 & H2 & _). assert (py_int s = Ok z) by (apply py_int_iff; eauto). congruence.
Qed.
Lemma integer_values signed st v :
  (forall s, v <> VText s) -> (forall o, v <> VObj o) ->
  scalar_set (KInteger signed) st v =
  match vnum v with
  | Some z => if negb signed && (z <? 0)%Z
              then (Scalar (Some v) VNone (vtext v), Ok false)
              else (Scalar (Some v) (VInt z) (dec_z z), Ok true)
  | None => match v with
            | VNone => (Scalar (Some v) VNone [], Ok true)
            | _ => (Scalar (Some v) VNone (vtext v), Ok false)
            end
  end.
Proof.
  intros Ht Ho. destruct v as [|b|z|s|d|d t|t|o]; try easy.
  - destruct b, signed; reflexivity.
  - unfold scalar_set. cbn. destruct signed; cbn; [easy|]. destruct (z <? 0)%Z; easy.
  - now destruct (Ht s).
  - now destruct (Ho o).
Qed.
Lemma integer_history signed vs st :
  (forall z, s_value st = VInt z -> signed = true \/ (0 <= z)%Z) ->
  (exists z, s_value st = VInt z) \/ s_value st = VNone ->
  (forall z, s_value (scalar_sets (KInteger signed) st vs) = VInt z -> signed = true \/ (0 <= z)%Z)
  /\ ((exists z, s_value (scalar_sets (KInteger signed) st vs) = VInt z)
      \/ s_value (scalar_sets (KInteger signed) st vs) = VNone).
Proof.
  revert st; induction vs as [|v vs IH]; intros st H1 H2; [easy|]. cbn [scalar_sets].
  assert (forall n, adapt (KInteger signed) v = Ok n ->
    n = VNone \/ exists z, n = VInt z /\ (signed = true \/ (0 <= z)%Z)) as Ha.
  { intros n. unfold KInteger. cbn [adapt nt_conv nt_neg int_type].
    assert (forall w, bind (adaptation true (int_conv w)) (fun native =>
       if signed then Ok native else bind (match native with VInt z => Ok (z <? 0)%Z | _ => Err TypeErr end)
         (fun neg => if neg then Err AdaptErr else Ok native)) = Ok n ->
       n = VNone \/ exists z, n = VInt z /\ (signed = true \/ (0 <= z)%Z)) as G.
    { intros w Hw. assert (forall x, int_conv w = Ok x -> exists z, x = VInt z) as Hi.
      { intros x. destruct w as [|b|z|s|d|d t|t|o]; simpl; try easy; try (intros [= <-]; eauto).
        - destruct (py_int s); [intros [= <-]; eauto|easy].
        - destruct (o_int o); [intros [= <-]; eauto|easy]. }
      destruct (int_conv w) as [x|e]; [|destruct e; easy].
      destruct (Hi x eq_refl) as [z ->]. cbn [adaptation bind] in Hw. right. exists z.
      destruct signed; [injection Hw as <-; auto|]. destruct (z <? 0)%Z eqn:Ez; [easy|].
      injection Hw as <-. split; [easy|]. right. lia. }
    destruct v; try apply G. intros [= <-]. now left. }
  apply IH; unfold scalar_set; destruct (adapt (KInteger signed) v) as [n|[]] eqn:E; cbn; try easy; auto.
  - intros z ->. destruct (Ha _ eq_refl) as [?|(w & [= <-] & ?)]; easy.
  - destruct (Ha _ eq_refl) as [->|(w & -> & ?)]; eauto.
Qed.
