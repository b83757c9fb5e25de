(* Formats of ids, missing settings. *)
From Verif Require Import PyBase PyBaseFacts ModelMarkup SpecMarkup SpecMarkup2 ProofMarkup ProofMarkup2 ProofMarkup3.

Lemma format1_go_pieces arg ps : forall used, Forall plain_piece ps ->
  format1_go (written ps) arg used
  = if Nat.leb (holes ps + (if used then 1 else 0)) 1
    then Ok (used || negb (Nat.eqb (holes ps) 0), filled_with arg ps) else Err TypeErr.
Proof.
  induction ps as [|p ps IH]; intros used F.
  - cbn. destruct used; reflexivity.
  - inversion F as [|? ? P F']; subst. destruct p as [c| |].
    + change (written (FChar c :: ps)) with (c :: written ps).
      change (filled_with arg (FChar c :: ps)) with (c :: filled_with arg ps).
      cbn [format1_go holes]. cbn in P. destruct (N.eqb_spec c (ch "%")) as [E|_]; [easy|].
      rewrite (IH used F'). destruct (Nat.leb _ 1); reflexivity.
    + change (written (FPercent :: ps)) with (ch "%" :: ch "%" :: written ps).
      change (filled_with arg (FPercent :: ps)) with (ch "%" :: filled_with arg ps).
      cbn [format1_go holes]. change (N.eqb (ch "%") (ch "%")) with true. change (N.eqb (ch "%") (ch "s")) with false. cbv iota.
      rewrite (IH used F'). destruct (Nat.leb _ 1); reflexivity.
    + change (written (FHole :: ps)) with (ch "%" :: ch "s" :: written ps).
      change (filled_with arg (FHole :: ps)) with (arg ++ filled_with arg ps).
      cbn [format1_go holes]. change (N.eqb (ch "%") (ch "%")) with true. change (N.eqb (ch "s") (ch "s")) with true. cbv iota.
      destruct used.
      * cbn [plus]. rewrite Nat.add_1_r. reflexivity.
      * rewrite (IH true F'). destruct (holes ps) as [|[|n]]; reflexivity.
Qed.
Lemma format1_pieces arg ps : Forall plain_piece ps ->
  format1 (written ps) arg = if Nat.eqb (holes ps) 1 then Ok (filled_with arg ps) else Err TypeErr.
Proof.
  intros F. unfold format1. rewrite format1_go_pieces by easy. destruct (holes ps) as [|[|n]]; reflexivity.
Qed.
Lemma format_setting ctx raw v : value_is v raw -> formatted raw (get "domid_format" ctx)
  (bind (setting "domid_format" ctx) (fun fmt => format_mv fmt v)).
Proof.
  intros Hv. assert (Ev : text_of v = raw) by (now destruct Hv as [->| ->]). unfold setting.
  destruct (get "domid_format" ctx) as [f|]; [|reflexivity]. cbn [bind formatted].
  assert (Hp : forall t, value_is f t -> exists t0, value_is f t0 /\ forall ps, Forall plain_piece ps -> t0 = written ps ->
    format_mv f v = (if Nat.eqb (holes ps) 1 then Ok (filled_with raw ps) else Err TypeErr)).
  { intros t H. exists t. split; [easy|]. intros ps F ->. destruct H as [->| ->]; cbn [format_mv]; rewrite Ev; now apply format1_pieces. }
  destruct f; first [right; apply (Hp s); first [now left|now right] | left; split; [intros t [H|H]; discriminate|reflexivity] ].
Qed.
Lemma named_raw tag a b nm : named_id tag a b nm -> raw_domid tag a b = Ok (MText nm).
Proof.
  intros ((el & -> & <-) & Ne & Nt). unfold raw_domid. cbn [truth bind].
  destruct (b_name el) as [|x n] eqn:En; [easy|]. cbn [truth bind negb].
  destruct (tag_is tag "input" && _) eqn:Et; [|reflexivity]. apply andb_true_iff in Et as [E1 E2]. exfalso. apply Nt. split.
  - now apply tag_is_eq in E1.
  - now apply type_two in E2.
Qed.
Lemma put_named key tags tag a c ctx b nm : named_id tag a b nm ->
  exists out, formatted nm (get "domid_format" ctx) out
  /\ put_domid key tags true tag a c ctx b = rmap (fun s => (set key (MText s) a, c)) out.
Proof.
  intros H. exists (bind (setting "domid_format" ctx) (fun fmt => format_mv fmt (MText nm))). split; [apply format_setting; now left|].
  unfold put_domid. cbn [orb]. rewrite (named_raw _ _ _ _ H). cbn [bind truth].
  destruct H as (_ & Ne & _). destruct nm as [|x nm]; [easy|]. cbn [negb truth bind].
  destruct (setting "domid_format" ctx); reflexivity.
Qed.
Lemma pop_forced key a ctx v : get key a = Some v -> says_yes v -> pop_toggle key a ctx = Ok (true, true, del key a).
Proof.
  intros G Y. unfold pop_toggle, get_or. rewrite G. apply parse_trool_spec in Y. now rewrite Y.
Qed.
Lemma named_del key tag a b nm : lit "type" <> lit key -> named_id tag a b nm -> named_id tag (del key a) b nm.
Proof.
  intros Nk (A & B & C). split; [easy|]. split; [easy|]. intros (T & Y). apply C. split; [easy|].
  unfold type_is in *. rewrite get_del in Y. destruct (str_eqb (lit "type") (lit key)) eqn:E; [|easy]. apply str_eqb_eq in E. now exfalso.
Qed.
Lemma id_formats tag a c ctx b nm v : named_id tag a b nm ->
  (get "auto_domid" a = Some v -> says_yes v -> exists out, formatted nm (get "domid_format" ctx) out
     /\ transform_domid tag a c ctx b = rmap (fun s => (set "id" (MText s) (del "auto_domid" a), c)) out)
  /\ (get "auto_for" a = Some v -> says_yes v -> exists out, formatted nm (get "domid_format" ctx) out
     /\ transform_for tag a c ctx b = rmap (fun s => (set "for" (MText s) (del "auto_for" a), c)) out).
Proof.
  intros H. split; intros G Y.
  - unfold transform_domid. rewrite (pop_forced _ _ _ _ G Y). cbn [bind negb]. apply put_named. apply named_del; [discriminate|easy].
  - unfold transform_for. rewrite (pop_forced _ _ _ _ G Y). cbn [bind]. pose proof H as ((el & Eb & _) & _).
    destruct b as [e|]; [|easy]. apply put_named. apply named_del; [discriminate|easy].
Qed.
Lemma formatted_one nm f o1 o2 : formatted nm f o1 -> formatted nm f o2 ->
  (forall t, (exists v, f = Some v /\ value_is v t) -> exists ps, Forall plain_piece ps /\ t = written ps) -> o1 = o2.
Proof.
  destruct f as [v|]; cbn [formatted]; [|congruence]. intros H1 H2 W.
  destruct H1 as [[N1 E1]|(t1 & V1 & P1)], H2 as [[N2 E2]|(t2 & V2 & P2)]; [congruence|now destruct (N1 t2)|now destruct (N2 t1)|].
  assert (t1 = t2) as <-. { destruct V1 as [V1|V1], V2 as [V2|V2]; congruence. }
  destruct (W t1) as (ps & F & E); [now exists v|]. now rewrite (P1 ps F E), (P2 ps F E).
Qed.
Lemma pop_missing key a ctx : undecided key a -> get key ctx = None -> pop_toggle key a ctx = Err KeyErr.
Proof.
  intros U G. unfold pop_toggle, get_or. destruct (get key a) as [v|] eqn:E.
  - destruct (parse_trool v) eqn:P.
    + exfalso. apply U. exists v. split; [easy|]. left. now apply parse_trool_spec.
    + exfalso. apply U. exists v. split; [easy|]. right. now apply parse_trool_spec.
    + unfold setting. now rewrite G.
  - change (parse_trool MMaybe) with TMaybe. unfold setting. now rewrite G.
Qed.
Lemma missing_switch env tag a c ctx b :
  (undecided "auto_name" a -> get "auto_name" ctx = None -> transform_name tag a c ctx b = Err KeyErr)
  /\ (undecided "auto_value" a -> get "auto_value" ctx = None -> transform_value tag a c ctx b = Err KeyErr)
  /\ (undecided "auto_domid" a -> get "auto_domid" ctx = None -> transform_domid tag a c ctx b = Err KeyErr)
  /\ (undecided "auto_for" a -> get "auto_for" ctx = None -> transform_for tag a c ctx b = Err KeyErr)
  /\ (undecided "auto_tabindex" a -> get "auto_tabindex" ctx = None -> transform_tabindex tag a c ctx = (ctx, Err KeyErr))
  /\ (undecided "auto_filter" a -> get "auto_filter" ctx = None -> transform_filters env tag a c ctx b = (ctx, Err KeyErr)).
Proof.
  repeat match goal with |- _ /\ _ => split end; intros U G.
  - unfold transform_name. now rewrite pop_missing.
  - unfold transform_value. now rewrite pop_missing.
  - unfold transform_domid. now rewrite pop_missing.
  - unfold transform_for. now rewrite pop_missing.
  - unfold transform_tabindex. now rewrite pop_missing.
  - unfold transform_filters. now rewrite pop_missing.
Qed.
Lemma missing_counter tag a c ctx v : get "auto_tabindex" a = Some v -> says_yes v -> get "tabindex" ctx = None ->
  transform_tabindex tag a c ctx = (ctx, Err KeyErr).
Proof. intros G Y M. unfold transform_tabindex. rewrite (pop_forced _ _ _ _ G Y). cbn [negb]. unfold setting. now rewrite M. Qed.
Lemma missing_filters env tag a c ctx b on forced : effective "auto_filter" a ctx on forced -> get "filters" ctx = None ->
  transform_filters env tag a c ctx b = (ctx, Err KeyErr).
Proof.
  intros E M. unfold transform_filters. assert (exists f, pop_toggle "auto_filter" a ctx = Ok (on, f, del "auto_filter" a)) as (f & P).
  { destruct (get "auto_filter" ctx) as [cv|] eqn:G.
    - destruct (pop_toggle_spec "auto_filter" a ctx cv ltac:(cbn; tauto) G) as (o & f & P & E'). exists f.
      now destruct (effective_unique _ _ _ _ _ _ _ E E') as (-> & _).
    - unfold pop_toggle, get_or. destruct E as [w Gw Y|w Gw Y|w Gw|w Gw|w Gw].
      1,2: rewrite Gw; apply parse_trool_spec in Y; rewrite Y; eexists; reflexivity.
      all: congruence. }
  rewrite P. unfold setting. now rewrite M.
Qed.
