(* Proofs about URLs and card numbers. *)
From Verif Require ProofFlat3.
From Verif Require Import PyBase PyBaseFacts ModelUtil SpecUtil ProofUtil ModelScalar SpecScalar ProofScalar ProofScalar2 ProofScalar3
  ModelMessage SpecMessage ProofMessage ModelValidators SpecValidators ProofValidators ProofValidators2 ModelNetwork SpecNetwork ProofNetwork.

(* ---- URLValidator ---- *)
Lemma memb_str_iff s l : memb str_eqb s l = true <-> In s l.
Proof. apply memb_str_in. Qed.
Lemma url_accepts parse schemes parts s r : parse (strip s) = Ok r ->
  (good_scheme schemes r -> allowed_parts parts r -> url_valid parse schemes parts (VText s) = Ok Pass)
  /\ (~ good_scheme schemes r -> url_valid parse schemes parts (VText s) = Ok (Fail (lit "blocked_scheme") []))
  /\ (good_scheme schemes r -> ~ allowed_parts parts r ->
      url_valid parse schemes parts (VText s) = Ok (Fail (lit "blocked_part") [])).
Proof.
  intros E. unfold url_valid. rewrite E.
  assert (G : good_scheme schemes r <-> str_eqb (r_scheme r) [] = false
    /\ match schemes with Some l => negb (memb str_eqb (r_scheme r) l) | None => false end = false).
  { unfold good_scheme. split.
    - intros (A & B). split; [now destruct (r_scheme r)|]. destruct schemes as [l|]; [|easy].
      replace (memb str_eqb (r_scheme r) l) with true; [easy|]. symmetry. apply memb_str_iff. now apply B.
    - intros (A & B). split; [intros X; now rewrite X in A|]. intros l ->. apply memb_str_iff.
      now destruct (memb str_eqb (r_scheme r) l). }
  assert (H : allowed_parts parts r <-> existsb (fun p => negb (memb str_eqb (fst p) parts) && negb (str_eqb (snd p) []))
                          (combine (map lit url_parts) (url_list r)) = false).
  { change (combine (map lit url_parts) (url_list r)) with (parts_of r). unfold allowed_parts. split.
    - intros K. destruct (existsb _ _) eqn:X; [|easy]. apply existsb_exists in X as ((k & v) & I & X). cbn [fst snd] in X.
      apply andb_prop in X as (X & Y). destruct (K k v I) as [J| ->]; [|easy]. apply memb_str_iff in J. now rewrite J in X.
    - intros K k v I. destruct (memb str_eqb k parts) eqn:X; [left; now apply memb_str_iff|]. right.
      destruct v as [|c v]; [easy|]. exfalso.
      assert (existsb (fun p => negb (memb str_eqb (fst p) parts) && negb (str_eqb (snd p) [])) (parts_of r) = true) as Y; [|congruence].
      apply existsb_exists. exists (k, c :: v). split; [easy|]. cbn [fst snd]. now rewrite X. }
  split; [|split].
  - intros A B. apply G in A as (A1 & A2). apply H in B. now rewrite A1, A2, B.
  - intros A. destruct (str_eqb (r_scheme r) []) eqn:A1; [easy|].
    match goal with |- context [if ?b then fails "blocked_scheme" else _] => destruct b eqn:A2 end; [easy|]. elim A. now apply G.
  - intros A B. apply G in A as (A1 & A2). rewrite A1, A2.
    match goal with |- context [if ?b then fails "blocked_part" else _] => destruct b eqn:B1 end; [easy|]. elim B. now apply H.
Qed.
Lemma url_bad parse schemes parts :
  (forall s e, parse (strip s) = Err e -> url_valid parse schemes parts (VText s) = Ok (Fail (lit "bad_format") []))
  /\ (forall v, (forall s, v <> VText s) -> url_valid parse schemes parts v = Ok (Fail (lit "bad_format") [])).
Proof.
  split.
  - intros s e E. unfold url_valid. now rewrite E.
  - intros v H. destruct v; try easy. now elim (H s).
Qed.
Lemma url_message x label errors key r : plain x label -> In key [lit "bad_format"; lit "blocked_scheme"; lit "blocked_part"] ->
  r = Ok (Fail key []) -> exists errors', report url_cls x errors r = (errors', Ok false)
  /\ records errors (label ++ lit " is not a valid URL.") errors'.
Proof.
  intros P I ->. assert (getattr url_cls key = Ok (Plain (VText (lit "%(label)s is not a valid URL.")))) as G
    by (destruct I as [<-|[<-|[<-|[]]]]; reflexivity).
  apply (judged_intro url_cls x label errors false False key (lit "%(label)s is not a valid URL.") _ []); try easy.
  known [(lit "label", VText label)] P.
Qed.

(* ---- HTTPURLValidator ---- *)
Lemma get_demand_in l k d : NoDup (map fst l) -> get_demand l k = Some d <-> In (k, d) l.
Proof.
  unfold get_demand. induction l as [|(k', d') l IH]; cbn [map fst find]; intros N0; [easy|]. inversion N0 as [|? ? N1 N2]; subst.
  destruct (str_eqb k k') eqn:E.
  - apply str_eqb_eq in E as ->. cbn. split.
    + intros [= ->]. now left.
    + intros [X|X]; [now injection X as ->|]. elim N1. apply in_map_iff. now exists (k', d).
  - rewrite IH by easy. split; [now right|]. intros [X|X]; [|easy]. injection X as -> ->. rewrite str_eqb_refl in E. discriminate.
Qed.
Definition unmet (required : list (str * demand)) (part : str) (value : name) : bool :=
  match get_demand required part with
  | Some Always => match value with None => true | Some _ => false end
  | Some (OneOf []) | None => false
  | Some (OneOf l) => negb (in_names value l)
  end.
Definition breached (forbidden : list (str * demand)) (part : str) (value : name) : bool :=
  match get_demand forbidden part with
  | Some Always => name_truth value
  | Some (OneOf []) | None => false
  | Some (OneOf l) => in_names value l
  end.
Lemma in_names_iff v l : in_names v l = true <-> exists s, v = Some s /\ In s l.
Proof.
  destruct v as [s|]; cbn [in_names].
  - rewrite memb_str_iff. split; [now exists s|]. intros (t & E & I). now injection E as ->.
  - split; [easy|]. now intros (t & E & _).
Qed.
Lemma unmet_iff required p v : NoDup (map fst required) -> unmet required p v = false <-> required_met required p v.
Proof.
  intros N0. unfold unmet, required_met. split.
  - intros H d I. apply get_demand_in in I; [|easy]. rewrite I in H. destruct d as [|l]; cbn [meets].
    + now destruct v.
    + destruct l as [|a l]; [now left|]. right. apply in_names_iff. now destruct (in_names v (a :: l)).
  - intros H. destruct (get_demand required p) as [d|] eqn:E; [|easy]. apply get_demand_in in E; [|easy]. apply H in E.
    destruct d as [|l]; cbn [meets] in E.
    + now destruct v.
    + destruct l as [|a l]; [easy|]. destruct E as [E|E]; [easy|]. apply in_names_iff in E. now rewrite E.
Qed.
Lemma breached_iff forbidden p v : NoDup (map fst forbidden) -> breached forbidden p v = false <-> forbidden_met forbidden p v.
Proof.
  intros N0. unfold breached, forbidden_met. split.
  - intros H d I. apply get_demand_in in I; [|easy]. rewrite I in H. destruct d as [|l]; cbn [avoids].
    + destruct v as [[|c s]|]; [now right|easy|now left].
    + intros s -> K. destruct l as [|a l]; [easy|]. assert (in_names (Some s) (a :: l) = true) by (apply in_names_iff; eauto).
      rewrite H0 in H. discriminate.
  - intros H. destruct (get_demand forbidden p) as [d|] eqn:E; [|easy]. apply get_demand_in in E; [|easy]. apply H in E.
    destruct d as [|l]; cbn [avoids] in E.
    + now destruct E as [-> | ->].
    + destruct l as [|a l]; [easy|]. destruct (in_names v (a :: l)) eqn:K; [|easy]. apply in_names_iff in K as (s & X & K). now elim (E s X).
Qed.
Section Http.
  Context (required forbidden : list (str * demand)) (get : str -> res name).
  Hypothesis NR : NoDup (map fst required).
  Hypothesis NF : NoDup (map fst forbidden).
  Lemma http_step part rest : http_loop required forbidden get (part :: rest) =
    match get part with
    | Err ValueErr => fails "bad_format"
    | Err e => Err e
    | Ok value => if unmet required part value then fails "required_part"
                  else if breached forbidden part value then fails "forbidden_part"
                  else http_loop required forbidden get rest
    end.
  Proof. reflexivity. Qed.
  Lemma http_prefix a rest : Forall (satisfied required forbidden get) a ->
    http_loop required forbidden get (a ++ rest) = http_loop required forbidden get rest.
  Proof.
    induction 1 as [|p a (v & E & R & F) H IH]; [easy|]. cbn [app]. rewrite http_step, E.
    apply unmet_iff in R; [|easy]. apply breached_iff in F; [|easy]. now rewrite R, F.
  Qed.
  Lemma http_pass parts : Forall (satisfied required forbidden get) parts -> http_loop required forbidden get parts = Ok Pass.
  Proof. intros H. rewrite <- (app_nil_r parts), http_prefix by easy. reflexivity. Qed.
  Lemma http_first a p rest : Forall (satisfied required forbidden get) a ->
    (get p = Err ValueErr -> http_loop required forbidden get (a ++ p :: rest) = Ok (Fail (lit "bad_format") []))
    /\ (forall e, get p = Err e -> e <> ValueErr -> http_loop required forbidden get (a ++ p :: rest) = Err e)
    /\ (forall v, get p = Ok v -> ~ required_met required p v ->
        http_loop required forbidden get (a ++ p :: rest) = Ok (Fail (lit "required_part") []))
    /\ (forall v, get p = Ok v -> required_met required p v -> ~ forbidden_met forbidden p v ->
        http_loop required forbidden get (a ++ p :: rest) = Ok (Fail (lit "forbidden_part") [])).
  Proof.
    intros H. rewrite http_prefix, http_step by easy. split; [|split; [|split]].
    - now intros ->.
    - intros e -> D. now destruct e.
    - intros v -> K. destruct (unmet required p v) eqn:U; [easy|]. elim K. now apply unmet_iff.
    - intros v -> R K. apply unmet_iff in R; [|easy]. rewrite R.
      destruct (breached forbidden p v) eqn:U; [easy|]. elim K. now apply breached_iff.
  Qed.
  Lemma http_iff parts : (forall p, In p parts -> exists v, get p = Ok v) ->
    (http_loop required forbidden get parts = Ok Pass <-> Forall (satisfied required forbidden get) parts).
  Proof.
    intros T. split; [|apply http_pass]. induction parts as [|p parts IH]; [easy|].
    rewrite http_step. destruct (T p) as (v & E); [now left|]. rewrite E.
    destruct (unmet required p v) eqn:U; [easy|]. destruct (breached forbidden p v) eqn:B; [easy|]. intros H. constructor.
    - exists v. split; [easy|]. split; [now apply unmet_iff|now apply breached_iff].
    - apply IH; [|easy]. intros q I. apply T. now right.
  Qed.
End Http.
Lemma http_entry parse parts required forbidden :
  http_valid parse parts required forbidden VNone = Ok Pass
  /\ (forall v get, v <> VNone -> parse v = Ok get -> http_valid parse parts required forbidden v = http_loop required forbidden get parts)
  /\ (forall v e, v <> VNone -> parse v = Err e -> http_valid parse parts required forbidden v = Err e).
Proof. split; [easy|]. split; intros v q H E; unfold http_valid; destruct v; try easy; now rewrite E. Qed.
(* the default: a host, no user name and no password; the scheme is not looked at *)
Lemma http_default parse v get vals : v <> VNone -> parse v = Ok get ->
  Forall2 (fun p x => get p = Ok x) http_parts vals ->
  exists scheme user pass host rest, vals = scheme :: user :: pass :: host :: rest
  /\ (http_valid parse http_parts http_required http_forbidden v = Ok Pass
      <-> (user = None \/ user = Some []) /\ (pass = None \/ pass = Some []) /\ host <> None).
Proof.
  intros D E F. destruct (http_entry parse http_parts http_required http_forbidden) as (_ & G & _).
  rewrite (G v get D E). clear G D E.
  assert (NR : NoDup (map fst http_required)) by (repeat constructor; cbn; intuition discriminate).
  assert (NF : NoDup (map fst http_forbidden)) by (repeat constructor; cbn; intuition discriminate).
  assert (T : forall p, In p http_parts -> exists v, get p = Ok v).
  { intros p I. clear -F I. induction F as [|a b l l' E F IH]; [easy|]. destruct I as [<-|I]; [eauto|auto]. }
  pose proof (http_iff http_required http_forbidden get NR NF http_parts T) as HI.
  unfold http_parts in *. cbn [map] in *.
  inversion F as [|? sc ? l1 E1 F1]; subst. inversion F1 as [|? us ? l2 E2 F2]; subst. inversion F2 as [|? pa ? l3 E3 F3]; subst.
  inversion F3 as [|? ho ? l4 E4 F4]; subst. exists sc, us, pa, ho, l4. split; [easy|]. rewrite HI. clear HI. split.
  - intros H. inversion H as [|? ? _ H1]; subst. inversion H1 as [|? ? (v1 & A1 & _ & B1) H2]; subst.
    inversion H2 as [|? ? (v2 & A2 & _ & B2) H3]; subst. inversion H3 as [|? ? (v3 & A3 & B3 & _) H4]; subst.
    rewrite E2 in A1. injection A1 as <-. rewrite E3 in A2. injection A2 as <-. rewrite E4 in A3. injection A3 as <-.
    split; [|split].
    + apply (B1 Always). now left.
    + apply (B2 Always). right. now left.
    + apply (B3 Always). right. now left.
  - intros (A & B & C). apply Forall_forall. intros p I. destruct (T p I) as (w & W). exists w. split; [easy|].
    split; intros d J.
    + destruct J as [J|[J|[]]]; injection J as <- <-.
      * exfalso. clear -I. cbn in I. intuition discriminate.
      * rewrite E4 in W. now injection W as <-.
    + destruct J as [J|[J|[]]]; injection J as <- <-.
      * rewrite E2 in W. now injection W as <-.
      * rewrite E3 in W. now injection W as <-.
Qed.
(* the demand on the scheme is kept under another name *)
Lemma http_schema get v : get (lit "schema") = Ok v ->
  (http_loop http_required http_forbidden get [lit "schema"] = Ok Pass <-> v = Some (lit "http") \/ v = Some (lit "https")).
Proof.
  intros E. cbn [http_loop]. rewrite E.
  change (get_demand http_required (lit "schema")) with (Some (OneOf [lit "http"; lit "https"])).
  change (get_demand http_forbidden (lit "schema")) with (@None demand). cbv beta iota.
  destruct v as [s|]; cbn [in_names]; [|split; [easy|now intros [K|K]]].
  unfold memb. cbn [existsb].
  destruct (str_eqb s (lit "http")) eqn:A; [apply str_eqb_eq in A as ->; cbn; intuition|].
  destruct (str_eqb s (lit "https")) eqn:B; [apply str_eqb_eq in B as ->; cbn; intuition|].
  cbn [orb negb]. split; [easy|].
  intros [K|K]; injection K as ->; [change (str_eqb (lit "http") (lit "http")) with true in A|change (str_eqb (lit "https") (lit "https")) with true in B]; discriminate.
Qed.
Lemma http_message x label errors key r : plain x label -> In key [lit "bad_format"; lit "required_part"; lit "forbidden_part"] ->
  r = Ok (Fail key []) -> exists errors', report http_cls x errors r = (errors', Ok false)
  /\ records errors (label ++ lit " is not a valid URL.") errors'.
Proof.
  intros P I ->. assert (getattr http_cls key = Ok (Plain (VText (lit "%(label)s is not a valid URL.")))) as G
    by (destruct I as [<-|[<-|[<-|[]]]]; reflexivity).
  apply (judged_intro http_cls x label errors false False key (lit "%(label)s is not a valid URL.") _ []); try easy.
  known [(lit "label", VText label)] P.
Qed.

(* ---- URLCanonicalizer ---- *)
Lemma part_index_iff p i : part_index p = Ok i <-> exists q, nth_error url_parts i = Some q /\ p = lit q.
Proof.
  split.
  - unfold part_index, url_parts. intros H.
    repeat match type of H with context [str_eqb p ?q] => destruct (str_eqb p q) eqn:? end;
      try discriminate; injection H as <-;
      match goal with K : str_eqb p _ = true |- _ => apply str_eqb_eq in K end; eexists; (split; [reflexivity|assumption]).
  - intros (q & E & ->). do 6 (destruct i as [|i]; [injection E as <-; reflexivity|]). destruct i; discriminate.
Qed.
Lemma part_index_err p : ~ In p (map lit url_parts) -> part_index p = Err ValueErr.
Proof.
  intros H. assert (forall i, part_index p <> Ok i).
  { intros i K. apply part_index_iff in K as (q & E & ->). apply H. apply in_map. now apply nth_error_In in E. }
  unfold part_index, url_parts in *.
  repeat match goal with K : context [str_eqb p ?q] |- _ => destruct (str_eqb p q); [now elim (H0 _ eq_refl)|] end. easy.
Qed.
Lemma clear_at_spec i : forall l, (i < List.length l)%nat ->
  List.length (clear_at i l) = List.length l
  /\ nth_error (clear_at i l) i = Some [] /\ forall j, j <> i -> nth_error (clear_at i l) j = nth_error l j.
Proof.
  induction i as [|i IH]; intros [|x l] H; cbn in H; try lia; cbn [clear_at List.length nth_error].
  - split; [easy|]. split; [easy|]. now intros [|j].
  - destruct (IH l ltac:(lia)) as (A & B & C). split; [lia|]. split; [easy|]. intros [|j] D; [easy|]. cbn. apply C. lia.
Qed.
Lemma discard_spec ps : forall l, List.length l = 6%nat -> Forall (fun p => In p (map lit url_parts)) ps ->
  exists l', discard ps l = Ok l' /\ List.length l' = 6%nat
  /\ forall i q v, nth_error url_parts i = Some q -> nth_error l i = Some v ->
       (In (lit q) ps -> nth_error l' i = Some []) /\ (~ In (lit q) ps -> nth_error l' i = Some v).
Proof.
  induction ps as [|p ps IH]; intros l L F; cbn [discard].
  - exists l. split; [easy|]. split; [easy|]. intros i q v A B. split; [easy|now intros].
  - inversion F as [|? ? F1 F2]; subst. apply in_map_iff in F1 as (q0 & <- & F1). apply In_nth_error in F1 as (i0 & E0).
    assert (part_index (lit q0) = Ok i0) as -> by (apply part_index_iff; eauto). cbn [bind].
    assert (i0 < List.length l)%nat as Li by (rewrite L; change 6%nat with (List.length url_parts); apply nth_error_Some; congruence).
    destruct (clear_at_spec i0 l Li) as (A & B & C).
    destruct (IH (clear_at i0 l) ltac:(lia) F2) as (l' & E & L' & G). exists l'. split; [easy|]. split; [easy|].
    intros i q v Q V. destruct (Nat.eq_dec i i0) as [->|D].
    + assert (q = q0) by congruence. subst q0. destruct (G i0 q [] Q B) as (X & Y).
      split; [|intros Z; elim Z; now left]. intros _. destruct (in_dec (list_eq_dec N.eq_dec) (lit q) ps); auto.
    + assert (nth_error (clear_at i0 l) i = Some v) as V' by (rewrite C; easy).
      destruct (G i q v Q V') as (X & Y).
      assert (lit q0 <> lit q) as D'.
      { intros K. apply D. clear -K Q E0. do 6 (destruct i as [|i]; [injection Q as <-; do 6 (destruct i0 as [|i0]; [injection E0 as <-; now try discriminate K|]); now destruct i0|]). now destruct i. }
      split; [intros [Z|Z]; [now elim D'|auto]|]. intros Z. apply Y. intros K. apply Z. now right.
Qed.
Lemma canonicalize_spec parse unparse parts st :
  (parts = [] -> canonicalize parse unparse parts st = (st, Ok Pass))
  /\ (forall e, parts <> [] -> parse (s_value st) = Err e -> canonicalize parse unparse parts st = (st, Ok (Fail (lit "bad_format") [])))
  /\ (forall r, parts <> [] -> parse (s_value st) = Ok r -> Forall (fun p => In p (map lit url_parts)) parts ->
      exists l, emptied parts r l /\ canonicalize parse unparse parts st = (Scalar (s_raw st) (unparse l) (s_u st), Ok Pass))
  /\ (forall r, parse (s_value st) = Ok r -> ~ Forall (fun p => In p (map lit url_parts)) parts ->
      canonicalize parse unparse parts st = (st, Err ValueErr)).
Proof.
  split; [now intros ->|]. split; [|split].
  - intros e N0 E. unfold canonicalize. rewrite E. now destruct parts.
  - intros r N0 E F. destruct (discard_spec parts (url_list r) eq_refl F) as (l & D & L & G). exists l. split.
    + split; [easy|]. intros i k v K.
      assert (exists q, nth_error url_parts i = Some q /\ k = lit q /\ nth_error (url_list r) i = Some v) as (q & A & -> & B).
      { clear -K. do 6 (destruct i as [|i]; [injection K as <- <-; eexists; repeat split|]). now destruct i. }
      now apply G.
    + unfold canonicalize. rewrite E. destruct parts; [easy|]. now rewrite D.
  - intros r E F. unfold canonicalize. rewrite E. destruct parts as [|p parts]; [now elim F|].
    assert (D : forall ps l, List.length l = 6%nat -> ~ Forall (fun p => In p (map lit url_parts)) ps -> discard ps l = Err ValueErr).
    { induction ps as [|q ps IH]; intros l L X; [now elim X|]. cbn [discard].
      destruct (in_dec (list_eq_dec N.eq_dec) q (map lit url_parts)) as [Y|Y].
      - apply in_map_iff in Y as (q0 & <- & Y). apply In_nth_error in Y as (i0 & E0).
        assert (part_index (lit q0) = Ok i0) as -> by (apply part_index_iff; eauto). cbn [bind].
        assert (i0 < List.length l)%nat as Li by (rewrite L; change 6%nat with (List.length url_parts); apply nth_error_Some; congruence).
        apply IH; [now rewrite (proj1 (clear_at_spec i0 l Li))|]. intros Z. apply X. constructor; [|easy].
        apply in_map. now apply nth_error_In in E0.
      - now rewrite part_index_err. }
    now rewrite D.
Qed.
Lemma canon_message x label errors : plain x label -> exists errors',
  report canon_cls x errors (Ok (Fail (lit "bad_format") [])) = (errors', Ok false)
  /\ records errors (label ++ lit " is not a valid URL.") errors'.
Proof.
  intros P. apply (judged_intro canon_cls x label errors false False (lit "bad_format") (lit "%(label)s is not a valid URL.") _ []); try easy.
  known [(lit "label", VText label)] P.
Qed.

(* ---- card numbers ---- *)
Lemma positional_app a b : positional (a ++ b) = (positional a + 10 ^ N.of_nat (List.length a) * positional b)%N.
Proof.
  induction a as [|d a IH]; cbn [app positional List.length]; [rewrite N.mul_1_l; easy|].
  rewrite IH, Nat2N.inj_succ, N.pow_succ_r'. lia.
Qed.
Lemma positional_lt l : Forall (fun d => d < 10)%N l -> (positional l < 10 ^ N.of_nat (List.length l))%N.
Proof.
  induction 1 as [|d l H F IH]; cbn [positional List.length]; [easy|]. rewrite Nat2N.inj_succ, N.pow_succ_r'. lia.
Qed.
Lemma numeral_app s t m k : numeral s m -> numeral t k -> numeral (s ++ t) (m * 10 ^ N.of_nat (List.length t) + k)%N.
Proof.
  intros (ds & F & ->) (es & G & ->). exists (ds ++ es). split; [now apply Forall2_app|].
  rewrite rev_app_distr, positional_app, rev_length. apply Forall2_len in G. rewrite <- G. lia.
Qed.
Lemma numeral_lt s n : numeral s n -> (n < 10 ^ N.of_nat (List.length s))%N.
Proof.
  intros (ds & F & ->). rewrite (Forall2_len _ _ _ F), <- rev_length. apply positional_lt, Forall_rev.
  induction F; constructor; [eapply digit_lt; eauto|easy].
Qed.
Lemma ascii_numeral s : forallb ascii_digit s = true -> exists n, numeral s n.
Proof.
  intros H. apply digits_numeral. rewrite ascii_all in H. revert H. apply Forall_impl. intros c L.
  apply is_digit_iff. exists (c - 48)%N. apply digit_val_iff. replace c with (48 + (c - 48))%N at 1 by lia. apply digit_val_ascii. lia.
Qed.
(* numbers that start with the digits of p, followed by w digits *)
Lemma prefix_range p w n : (0 < p)%N ->
  (exists b, dec n = dec p ++ b /\ List.length b = S w) <-> (p * 10 ^ N.of_nat (S w) <= n < (p + 1) * 10 ^ N.of_nat (S w))%N.
Proof.
  intros Hp. split.
  - intros (b & E & L).
    assert (A : forallb ascii_digit b = true).
    { apply ascii_all. pose proof (dec_ascii n) as D. apply ascii_Forall in D. rewrite E in D. now apply Forall_app in D. }
    destruct (ascii_numeral b A) as (k & K).
    assert (X : numeral (dec n) (p * 10 ^ N.of_nat (S w) + k)%N).
    { rewrite E, <- L. apply numeral_app; [apply numeral_iff, dec_val|easy]. }
    assert (n = p * 10 ^ N.of_nat (S w) + k)%N as -> by (apply (numeral_fun (dec n)); [apply numeral_iff, dec_val|easy]).
    apply numeral_lt in K. rewrite L in K. lia.
  - intros H. set (k := (n - p * 10 ^ N.of_nat (S w))%N). assert (Hk : (k < 10 ^ N.of_nat (S w))%N) by (subst k; lia).
    exists (dec_pad (S w) k). apply dec_pad_field in Hk as ((L & K) & A). split; [|easy].
    apply (ProofFlat3.plain_inj _ _ n).
    + apply dec_plain.
    + split.
      * apply Forall_app. split; [|easy]. apply ascii_Forall, dec_ascii.
      * right. destruct (dec_plain p) as (_ & [Q|Q]).
        -- exfalso. pose proof (dec_val p) as V. rewrite Q in V. cbn in V. injection V as V. lia.
        -- pose proof (dec_nonempty p). destruct (dec p) as [|c r]; [easy|]. exact Q.
    + apply numeral_iff, dec_val.
    + replace n with (p * 10 ^ N.of_nat (List.length (dec_pad (S w) k)) + k)%N by (rewrite L; subst k; lia).
      apply numeral_app; [apply numeral_iff, dec_val|easy].
Qed.
Lemma dec_digits n : forallb ascii_digit (dec n) = true.
Proof. apply ascii_all, ascii_Forall, dec_ascii. Qed.
Lemma digits_only_tail n a b w : dec n = a ++ b -> digits_only w b = (List.length b =? w)%nat.
Proof.
  intros E. unfold digits_only. replace (forallb ascii_digit b) with true; [apply andb_true_r|].
  pose proof (dec_digits n) as D. rewrite E, forallb_app in D. now destruct (forallb ascii_digit b), (forallb ascii_digit a).
Qed.
Lemma re_visa_iff n : re_visa (dec n) = true <-> (4 * 10 ^ 15 <= n < 5 * 10 ^ 15)%N.
Proof.
  rewrite <- (prefix_range 4 14 n) by lia. change (dec 4) with (lit "4"). unfold re_visa. split.
  - destruct (dec n) as [|c r] eqn:E; [easy|]. intros H. apply andb_prop in H as (H & D). apply N.eqb_eq in H as ->.
    exists r. split; [easy|]. unfold digits_only in D. lia.
  - intros (b & E & L). rewrite E. change (digits_only 15 b = true).
    rewrite (digits_only_tail n (lit "4") b) by easy. rewrite L. easy.
Qed.
Lemma two_digits_iff n w d e : (d < 10)%N -> (e < 10)%N -> (0 < d)%N ->
  (exists b, dec n = (48 + d :: 48 + e :: b)%N /\ List.length b = S w)
  <-> ((10 * d + e) * 10 ^ N.of_nat (S w) <= n < (10 * d + e + 1) * 10 ^ N.of_nat (S w))%N.
Proof.
  intros A B C. rewrite <- (prefix_range (10 * d + e) w n) by lia.
  assert (dec (10 * d + e) = [48 + d; 48 + e]%N) as ->.
  { assert (10 * d + e = positional (rev [d; e]))%N as -> by (cbn [rev app positional]; lia).
    rewrite dec_chars; [easy| |right; exists d, [e]; split; [easy|lia]]. repeat constructor; easy. }
  easy.
Qed.
Lemma re_mc_iff n : re_mc (dec n) = true <-> (51 * 10 ^ 14 <= n < 56 * 10 ^ 14)%N.
Proof.
  assert (G : forall e, (e < 10)%N -> (exists b, dec n = (48 + 5 :: 48 + e :: b)%N /\ List.length b = 14%nat) <->
     ((10 * 5 + e) * 10 ^ 14 <= n < (10 * 5 + e + 1) * 10 ^ 14)%N) by (intros e H; now apply (two_digits_iff n 13 5 e)).
  unfold re_mc. split.
  - destruct (dec n) as [|c [|d r]] eqn:E; try easy. intros H. apply andb_prop in H as (H & D). apply andb_prop in H as (H & K).
    apply N.eqb_eq in H as ->. change (ch "1") with 49%N in K. change (ch "5") with 53%N in K. unfold digits_only in D.
    assert (d = 48 + (d - 48))%N as Ed by lia. assert ((10 * 5 + (d - 48)) * 10 ^ 14 <= n < (10 * 5 + (d - 48) + 1) * 10 ^ 14)%N; [|lia].
    apply G; [lia|]. exists r. split; [|lia]. change (ch "5") with 53%N. rewrite <- Ed. easy.
  - intros H. assert (exists e, (1 <= e <= 5)%N /\ ((10 * 5 + e) * 10 ^ 14 <= n < (10 * 5 + e + 1) * 10 ^ 14)%N) as (e & He & K).
    { exists (n / 10 ^ 14 - 50)%N. pose proof (N.div_mod n (10 ^ 14) ltac:(easy)). pose proof (N.mod_lt n (10 ^ 14) ltac:(easy)).
      set (q := (n / 10 ^ 14)%N) in *. set (r := (n mod 10 ^ 14)%N) in *. lia. }
    apply G in K as (b & E & L); [|lia]. rewrite E. replace ((48 + 5 =? ch "5")%N) with true by reflexivity.
    change (ch "1") with 49%N. change (ch "5") with 53%N. replace ((49 <=? 48 + e) && (48 + e <=? 53))%N with true by lia. cbn [andb].
    rewrite (digits_only_tail n [48 + 5; 48 + e]%N b) by easy. lia.
Qed.
Lemma re_amex_iff n : re_amex (dec n) = true <->
  (34 * 10 ^ 13 <= n < 35 * 10 ^ 13 \/ 37 * 10 ^ 13 <= n < 38 * 10 ^ 13)%N.
Proof.
  assert (G : forall e, (e < 10)%N -> (exists b, dec n = (48 + 3 :: 48 + e :: b)%N /\ List.length b = 13%nat) <->
     ((10 * 3 + e) * 10 ^ 13 <= n < (10 * 3 + e + 1) * 10 ^ 13)%N) by (intros e H; now apply (two_digits_iff n 12 3 e)).
  unfold re_amex. split.
  - destruct (dec n) as [|c [|d r]] eqn:E; try easy. intros H. apply andb_prop in H as (H & D). apply andb_prop in H as (H & K).
    apply N.eqb_eq in H as ->. change (ch "4") with 52%N in K. change (ch "7") with 55%N in K. unfold digits_only in D.
    change (ch "3") with (48 + 3)%N in E.
    apply orb_prop in K as [K|K]; apply N.eqb_eq in K as ->; [left|right].
    + apply (G 4%N ltac:(easy)). exists r. split; [easy|lia].
    + apply (G 7%N ltac:(easy)). exists r. split; [easy|lia].
  - intros [H|H]; [apply (G 4%N ltac:(easy)) in H as (b & E & L)|apply (G 7%N ltac:(easy)) in H as (b & E & L)]; rewrite E.
    + change ((48 + 3 =? ch "3")%N) with true. change ((48 + 4 =? ch "4")%N) with true. cbn [andb orb].
      rewrite (digits_only_tail n [48 + 3; 48 + 4]%N b) by easy. lia.
    + change ((48 + 3 =? ch "3")%N) with true. change ((48 + 7 =? ch "4")%N) with false. change ((48 + 7 =? ch "7")%N) with true. cbn [andb orb].
      rewrite (digits_only_tail n [48 + 3; 48 + 7]%N b) by easy. lia.
Qed.
Lemma re_disc_iff n : re_disc (dec n) = true <-> (6011 * 10 ^ 12 <= n < 6012 * 10 ^ 12)%N.
Proof.
  rewrite <- (prefix_range 6011 11 n) by lia. change (dec 6011) with (lit "6011"). unfold re_disc. split.
  - intros H. apply andb_prop in H as (H & D). apply starts_with_iff in H as (r & E). exists r. split; [easy|].
    rewrite E in D. change (digits_only 12 r = true) in D. unfold digits_only in D. lia.
  - intros (b & E & L). apply andb_true_intro. split; [apply starts_with_iff; now exists b|].
    rewrite E. change (skipn 4 (lit "6011" ++ b)) with b. rewrite (digits_only_tail n (lit "6011") b) by easy. lia.
Qed.
Lemma negative_issued s : re_visa (45%N :: s) = false /\ re_mc (45%N :: s) = false /\ re_amex (45%N :: s) = false /\ re_disc (45%N :: s) = false.
Proof. repeat split; try easy; destruct s; easy. Qed.
Lemma card_type_iff z : exists o, card_type (VInt z) = Ok o /\ (forall c, o = Some c <-> issued z c).
Proof.
  unfold card_type. cbn [vnum vtext]. eexists. split; [reflexivity|].
  destruct (Z.lt_ge_cases z 0) as [Neg|Pos].
  - assert (exists s, dec_z z = 45%N :: s) as (s & ->) by (destruct z; try lia; eexists; reflexivity).
    destruct (negative_issued s) as (-> & -> & -> & ->). intros c. split; [easy|]. intros H. exfalso. destruct H; lia.
  - assert (exists n, z = Z.of_N n) as (n & ->) by (exists (Z.to_N z); lia).
    assert (dec_z (Z.of_N n) = dec n) as -> by (now destruct n).
    assert (V := re_visa_iff n). assert (M := re_mc_iff n). assert (A := re_amex_iff n). assert (D := re_disc_iff n).
    intros c.
    destruct (re_visa (dec n)).
    { assert (H := proj1 V eq_refl). clear V M A D. split; [intros [= <-]; constructor; lia|]. intros K. inversion K; subst; try easy; lia. }
    destruct (re_mc (dec n)).
    { assert (H := proj1 M eq_refl). clear V M A D. split; [intros [= <-]; constructor; lia|]. intros K. inversion K; subst; try easy; lia. }
    destruct (re_amex (dec n)).
    { assert (H := proj1 A eq_refl). clear V M A D. split; [intros [= <-]; constructor; lia|]. intros K. inversion K; subst; try easy; lia. }
    destruct (re_disc (dec n)).
    { assert (H := proj1 D eq_refl). clear V M A D. split; [intros [= <-]; constructor; lia|]. intros K. inversion K; subst; try easy; lia. }
    split; [easy|]. intros K. exfalso. assert (forall X Y : Prop, (false = true <-> Y) -> Y -> X) as F by (intros X Y (_ & Q) R; now apply Q in R).
    inversion K as [z H|z H|z H|z H]; subst; [eapply F; [exact V|lia]|eapply F; [exact M|lia]|eapply F; [exact A|lia]|eapply F; [exact D|lia]].
Qed.
(* groups of digits *)
Fixpoint cut_groups (l : list nat) (s : str) : list str :=
  match l with [] => [] | n :: l' => firstn n s :: cut_groups l' (skipn n s) end.
Lemma concat_cut l : forall s, fold_right Nat.add 0%nat l = List.length s -> List.concat (cut_groups l s) = s.
Proof.
  induction l as [|n l IH]; intros s H; cbn [cut_groups List.concat fold_right] in *; [now destruct s|].
  rewrite IH by (rewrite skipn_length; lia). apply firstn_skipn.
Qed.
Lemma cut_sizes l : forall s, fold_right Nat.add 0%nat l = List.length s -> Forall2 (fun g n => List.length g = n) (cut_groups l s) l.
Proof.
  induction l as [|n l IH]; intros s H; cbn [cut_groups fold_right] in *; constructor.
  - rewrite firstn_length. lia.
  - apply IH. rewrite skipn_length. lia.
Qed.
Definition group_sizes (n : nat) : list nat :=
  match n with 16 => [4; 4; 4; 4] | 15 => [4; 6; 5] | 13 => [4; 3; 3; 3] | _ => [n] end%nat.
Lemma skip_skip {A} a b (l : list A) : skipn a (skipn b l) = skipn (b + a) l.
Proof. revert l; induction b as [|b IH]; intros l; [easy|]. destruct l as [|x l]; cbn [skipn plus]; [now rewrite skipn_nil|apply IH]. Qed.
Lemma group_sizes_iff n l : grouping n l <-> l = group_sizes n.
Proof.
  split.
  - destruct 1 as [| | |n H]; try easy. unfold group_sizes.
    do 17 (destruct n as [|n]; [try easy; elim H; cbn; tauto|]). easy.
  - intros ->. destruct (in_dec Nat.eq_dec n [13; 15; 16]%nat) as [[<-|[<-|[<-|[]]]]|H]; try constructor.
    unfold group_sizes. do 17 (destruct n as [|n]; [try (elim H; cbn; tauto); now constructor|]). now constructor.
Qed.
Lemma pretty_groups v : pretty v = join (lit "-") (cut_groups (group_sizes (List.length (vtext v))) (vtext v)).
Proof.
  unfold pretty. set (s := vtext v). cbv zeta.
  assert (A : forall n, List.length s = n -> s = join (lit "-") (cut_groups [n] s)).
  { intros n <-. cbn [cut_groups join]. now rewrite firstn_all. }
  destruct (List.length s) as [|n] eqn:E; [now apply A|].
  do 12 (destruct n as [|n]; [now apply A|]).
  destruct n as [|n].
  { unfold group_sizes. cbn [cut_groups]. rewrite !skip_skip. cbn [plus join].
    rewrite (firstn_all2 (n:=3) (skipn 10 s)) by (rewrite skipn_length; lia).
    reflexivity. }
  do 1 (destruct n as [|n]; [now apply A|]).
  destruct n as [|n].
  { unfold group_sizes. cbn [cut_groups]. rewrite !skip_skip. cbn [plus join]. reflexivity. }
  destruct n as [|n].
  { unfold group_sizes. cbn [cut_groups]. rewrite !skip_skip. cbn [plus join]. reflexivity. }
  now apply A.
Qed.
(* the text of a number: its characters in groups joined by hyphens *)
Lemma pretty_spec v : exists groups sizes, grouping (List.length (vtext v)) sizes
  /\ Forall2 (fun g n => List.length g = n) groups sizes /\ List.concat groups = vtext v /\ pretty v = join (lit "-") groups.
Proof.
  exists (cut_groups (group_sizes (List.length (vtext v))) (vtext v)), (group_sizes (List.length (vtext v))).
  assert (S0 : fold_right Nat.add 0%nat (group_sizes (List.length (vtext v))) = List.length (vtext v)).
  { generalize (List.length (vtext v)). intros n. unfold group_sizes. do 17 (destruct n as [|n]; [reflexivity|]). cbn. lia. }
  split; [now apply group_sizes_iff|]. split; [now apply cut_sizes|]. split; [now apply concat_cut|apply pretty_groups].
Qed.
Lemma card_digits_iff s t : filter ascii_digit s = t <-> card_digits s t.
Proof.
  split.
  - intros <-. induction s as [|c s IH]; cbn [filter]; [constructor|]. destruct (ascii_digit c) eqn:E; unfold ascii_digit in E.
    + apply cd_digit; [|easy]. change (ch "0") with 48%N. change (ch "9") with 57%N. lia.
    + apply cd_other; [|easy]. change (ch "0") with 48%N. change (ch "9") with 57%N. lia.
  - induction 1 as [|c s t H K IH|c s t H K IH]; cbn [filter]; [easy| |];
      change (ch "0") with 48%N in H; change (ch "9") with 57%N in H; unfold ascii_digit at 1.
    + replace ((48 <=? c) && (c <=? 57))%N with true by lia. now f_equal.
    + replace ((48 <=? c) && (c <=? 57))%N with false by lia. easy.
Qed.
Lemma filler_iff s : forallb filler_char s = true <-> Forall card_char s.
Proof.
  rewrite forallb_forall, Forall_forall. unfold filler_char, card_char, ascii_digit.
  change (ch "0") with 48%N. change (ch "9") with 57%N.
  split; intros H x I; specialize (H x I).
  - apply orb_prop in H as [H|H]; [apply orb_prop in H as [H|H]; [left; lia|tauto]|right; right; now apply N.eqb_eq].
  - destruct H as [H|[H|H]]; [|rewrite H; now rewrite orb_true_r|subst; rewrite N.eqb_refl; now rewrite orb_true_r].
    replace ((48 <=? x) && (x <=? 57))%N with true by lia. easy.
Qed.
Lemma from_string_spec s :
  ((15 <= List.length s)%nat /\ Forall card_char s ->
     (forall t n, card_digits s t -> t <> [] -> numeral t n -> from_string s = Some (Ok (Z.of_N n)))
     /\ (card_digits s [] -> from_string s = Some (Err ValueErr)))
  /\ (~ ((15 <= List.length s)%nat /\ Forall card_char s) -> from_string s = None).
Proof.
  unfold from_string. split.
  - intros (L & F). apply filler_iff in F. rewrite F. replace (15 <=? List.length s)%nat with true by lia. cbn [andb]. split.
    + intros t n C N0 K. apply card_digits_iff in C as ->. f_equal. now apply py_int_digits.
    + intros C. apply card_digits_iff in C as ->. easy.
  - intros H. destruct (15 <=? List.length s)%nat eqn:L; cbn [andb]; [|easy]. destruct (forallb filler_char s) eqn:F; [|easy].
    elim H. split; [lia|now apply filler_iff].
Qed.
Lemma card_digits_total s : exists t n, card_digits s t /\ numeral t n.
Proof.
  exists (filter ascii_digit s). destruct (ascii_numeral (filter ascii_digit s)) as (n & K).
  { apply forallb_forall. intros x I. now apply filter_In in I. }
  exists n. split; [now apply card_digits_iff|easy].
Qed.
(* set *)
Lemma card_set_text st s :
  (forall t n, (15 <= List.length s)%nat -> Forall card_char s -> card_digits s t -> t <> [] -> numeral t n ->
     card_set st (VText s) = (Scalar (Some (VText s)) (VInt (Z.of_N n)) (pretty (VInt (Z.of_N n))), Ok true))
  /\ ((15 <= List.length s)%nat -> Forall card_char s -> card_digits s [] ->
     card_set st (VText s) = (Scalar (Some (VText s)) (s_value st) (s_u st), Err ValueErr))
  /\ (~ ((15 <= List.length s)%nat /\ Forall card_char s) ->
     card_set st (VText s) = (Scalar (Some (VText s)) VNone s, Ok false)).
Proof.
  destruct (from_string_spec s) as (A & B). unfold card_set. cbn [card_adapt]. split; [|split].
  - intros t n L F C N0 K. rewrite (proj1 (A (conj L F)) t n C N0 K). reflexivity.
  - intros L F C. rewrite (proj2 (A (conj L F)) C). reflexivity.
  - intros H. rewrite (B H). reflexivity.
Qed.
Lemma card_set_other st :
  card_set st VNone = (Scalar (Some VNone) VNone [], Ok true)
  /\ (forall v z, number v z -> card_set st v = (Scalar (Some v) v (pretty v), Ok true))
  /\ (forall v, v <> VNone -> (forall z, ~ number v z) -> (forall s, v <> VText s) ->
      card_set st v = (Scalar (Some v) VNone (vtext v), Ok false)).
Proof.
  split; [easy|]. split.
  - intros v z [|  | ]; easy.
  - intros v A B C. unfold card_set, card_adapt. destruct v; try easy.
    + destruct b; [now elim (B 1%Z); constructor|now elim (B 0%Z); constructor].
    + now elim (B z); constructor.
    + now elim (C s).
Qed.
(* the text of a number is read back as that number *)
Lemma filter_join l : Forall (fun g => forallb ascii_digit g = true) l -> filter ascii_digit (join (lit "-") l) = List.concat l.
Proof.
  induction 1 as [|g l H F IH]; [easy|]. assert (Hg : filter ascii_digit g = g).
  { clear -H. induction g as [|c g IH]; [easy|]. cbn [forallb filter] in *. destruct (ascii_digit c); [|easy]. f_equal. auto. }
  destruct l as [|x l].
  - cbn [join List.concat]. now rewrite app_nil_r.
  - rewrite join_cons by easy. rewrite !filter_app, Hg. cbn [List.concat]. f_equal. change (filter ascii_digit (lit "-")) with (@nil N).
    exact IH.
Qed.
Lemma join_filler l : Forall (fun g => forallb ascii_digit g = true) l -> forallb filler_char (join (lit "-") l) = true.
Proof.
  induction 1 as [|g l H F IH]; [easy|]. assert (Hg : forallb filler_char g = true).
  { rewrite forallb_forall in *. intros x I. unfold filler_char. now rewrite H. }
  destruct l as [|x l]; [easy|]. rewrite join_cons, !forallb_app, Hg by easy. cbn [andb].
  change (forallb filler_char (lit "-")) with true. exact IH.
Qed.
Lemma join_size l : l <> [] -> (List.length (join (lit "-") l) + 1 = List.length (List.concat l) + List.length l)%nat.
Proof.
  induction l as [|g l IH]; [easy|]. intros _. destruct l as [|x l]; [cbn [join List.concat List.length]; rewrite app_length; cbn; lia|].
  specialize (IH ltac:(easy)). rewrite join_cons by easy. rewrite !app_length. change (List.length (lit "-")) with 1%nat.
  set (j := List.length (join (lit "-") (x :: l))) in *. change (List.concat (g :: x :: l)) with (g ++ List.concat (x :: l)).
  rewrite app_length. set (k := List.length (List.concat (x :: l))) in *. cbn [List.length] in *. lia.
Qed.
Lemma cut_digits l : forall s, forallb ascii_digit s = true -> Forall (fun g => forallb ascii_digit g = true) (cut_groups l s).
Proof.
  induction l as [|n l IH]; intros s H; cbn [cut_groups]; constructor.
  - rewrite <- (firstn_skipn n s), forallb_app in H. now apply andb_prop in H.
  - apply IH. rewrite <- (firstn_skipn n s), forallb_app in H. now apply andb_prop in H.
Qed.
Lemma dec_size n w : (List.length (dec n) <= S w)%nat <-> (n < 10 ^ N.of_nat (S w))%N.
Proof.
  split; [|apply dec_len]. intros H. pose proof (numeral_lt (dec n) n) as K.
  assert (numeral (dec n) n) as X by (apply numeral_iff, dec_val). specialize (K X).
  assert (10 ^ N.of_nat (List.length (dec n)) <= 10 ^ N.of_nat (S w))%N by (apply N.pow_le_mono_r; lia). lia.
Qed.
Lemma pretty_back n :
  (~ (10 ^ 12 <= n < 10 ^ 13)%N -> (n < 10 ^ 14)%N -> from_string (pretty (VInt (Z.of_N n))) = None)
  /\ ((10 ^ 12 <= n < 10 ^ 13 \/ 10 ^ 14 <= n)%N -> from_string (pretty (VInt (Z.of_N n))) = Some (Ok (Z.of_N n))).
Proof.
  assert (T : vtext (VInt (Z.of_N n)) = dec n) by (cbn [vtext]; now destruct n).
  pose proof (dec_size n 11) as D12. pose proof (dec_size n 12) as D13. pose proof (dec_size n 13) as D14.
  change (10 ^ N.of_nat 12)%N with (10 ^ 12)%N in D12. change (10 ^ N.of_nat 13)%N with (10 ^ 13)%N in D13. change (10 ^ N.of_nat 14)%N with (10 ^ 14)%N in D14.
  rewrite pretty_groups, T. set (l := group_sizes (List.length (dec n))).
  assert (S0 : fold_right Nat.add 0%nat l = List.length (dec n)).
  { subst l. generalize (List.length (dec n)). intros m. unfold group_sizes. do 17 (destruct m as [|m]; [reflexivity|]). cbn. lia. }
  assert (C : List.concat (cut_groups l (dec n)) = dec n) by now apply concat_cut.
  assert (F : Forall (fun g => forallb ascii_digit g = true) (cut_groups l (dec n))) by (apply cut_digits, dec_digits).
  assert (N0 : cut_groups l (dec n) <> []).
  { intros X. rewrite X in C. apply (dec_nonempty n). now rewrite <- C. }
  pose proof (join_size _ N0) as J. rewrite C in J.
  assert (Lg : List.length (cut_groups l (dec n)) = List.length l).
  { pose proof (cut_sizes l (dec n) S0) as X. now apply Forall2_len in X. }
  assert (G3 : (1 <= List.length l)%nat) by (rewrite <- Lg; destruct (cut_groups l (dec n)); [easy|cbn [List.length]; lia]).
  rewrite Lg in J. set (t := join (lit "-") (cut_groups l (dec n))) in *.
  assert (G1 : forall m, m = List.length (dec n) -> (m <= 12)%nat \/ m = 14%nat -> List.length l = 1%nat).
  { intros m -> H. subst l. destruct (List.length (dec n)) as [|m]; [easy|]. do 14 (destruct m as [|m]; [try easy; lia|]). lia. }
  assert (G2 : List.length (dec n) = 13%nat -> List.length l = 4%nat) by (intros X; subst l; now rewrite X).
  split.
  - intros A B. apply from_string_spec. intros (L & _).
    assert (List.length (dec n) <= 12 \/ List.length (dec n) = 14)%nat as H.
    { destruct (Nat.le_gt_cases (List.length (dec n)) 12); [now left|]. right. assert (~ (List.length (dec n) <= 13)%nat); [|lia].
      intros X. apply A. split; [|now apply D13]. destruct (N.lt_ge_cases n (10 ^ 12)) as [Y|Y]; [|easy]. apply D12 in Y. lia. }
    rewrite (G1 _ eq_refl H) in J. lia.
  - intros A. apply (proj1 (proj1 (from_string_spec t) ltac:(split;
      [destruct A as [(A & B)|A];
        [assert (List.length (dec n) = 13%nat) as X by (apply D13 in B; destruct (Nat.le_gt_cases (List.length (dec n)) 12) as [Z|Z]; [apply D12 in Z; lia|lia]);
         rewrite (G2 X) in J; lia
        |assert (15 <= List.length (dec n))%nat by (destruct (Nat.le_gt_cases (List.length (dec n)) 14) as [Z|Z]; [apply D14 in Z; lia|lia]);
         lia]
      |apply filler_iff; now apply join_filler])) (dec n) n).
    + apply card_digits_iff. unfold t. now rewrite filter_join.
    + apply dec_nonempty.
    + apply numeral_iff, dec_val.
Qed.
Lemma card_round_trip st n :
  (10 ^ 12 <= n < 10 ^ 13 \/ 10 ^ 14 <= n)%N <->
  s_value (fst (card_set st (VText (pretty (VInt (Z.of_N n)))))) = VInt (Z.of_N n)
  /\ snd (card_set st (VText (pretty (VInt (Z.of_N n))))) = Ok true.
Proof.
  destruct (pretty_back n) as (A & B). unfold card_set. cbn [card_adapt]. split.
  - intros H. rewrite (B H). easy.
  - intros (H & K).
    destruct (N.lt_ge_cases n (10 ^ 14)) as [L|L]; [|now right]. left.
    destruct (N.lt_ge_cases n (10 ^ 13)) as [L2|L2], (N.lt_ge_cases n (10 ^ 12)) as [L1|L1]; try lia; rewrite A in K; try easy; lia.
Qed.
Lemma card_text_repeats st n : (10 ^ 12 <= n < 10 ^ 13 \/ 10 ^ 14 <= n)%N ->
  s_u (fst (card_set st (VText (pretty (VInt (Z.of_N n)))))) = pretty (VInt (Z.of_N n)).
Proof. intros H. destruct (pretty_back n) as (_ & B). unfold card_set. cbn [card_adapt]. now rewrite (B H). Qed.
(* AcceptedType *)
Lemma card_eqb_iff a b : card_eqb a b = true <-> a = b.
Proof. destruct a, b; cbn; split; easy. Qed.
Lemma accepted_spec accepted z :
  ((exists c, issued z c /\ In c accepted) -> accepted_type accepted (VInt z) = Ok Pass)
  /\ (~ (exists c, issued z c /\ In c accepted) -> accepted_type accepted (VInt z) = Ok (Fail (lit "not_accepted") [])).
Proof.
  destruct (card_type_iff z) as (o & E & I). unfold accepted_type. rewrite E. cbn [rmap].
  assert (M : forall c, memb card_eqb c accepted = true <-> In c accepted).
  { intros c. unfold memb. rewrite existsb_exists. split.
    - intros (y & J & K). apply card_eqb_iff in K. now subst.
    - intros J. exists c. split; [easy|]. now apply card_eqb_iff. }
  split.
  - intros (c & C & J). apply I in C. subst o. apply M in J. now rewrite J.
  - intros H. destruct o as [c|]; [|easy]. destruct (memb card_eqb c accepted) eqn:K; [|easy].
    elim H. exists c. split; [now apply I|now apply M].
Qed.
Lemma accepted_not_number accepted v : (forall z, ~ number v z) -> accepted_type accepted v = Err AssertErr.
Proof.
  intros H. unfold accepted_type, card_type. destruct (vnum v) as [z|] eqn:E; [|easy]. apply number_iff in E. now elim (H z).
Qed.
Lemma refused_raises x label errors : plain x label ->
  report accepted_cls x errors (Ok (Fail (lit "not_accepted") [])) = (errors, Err TypeErr).
Proof.
  intros P. cbn [report]. eapply note_raises; [apply co_key; [easy|reflexivity]|easy|].
  destruct (plain_untranslated x label P) as (T & U). now apply expand_call.
Qed.
(* the validators of a card number *)
Lemma judged_step r errors ok m : judged r errors ok m -> ok -> r = (errors, Ok true).
Proof. intros (A & _). exact A. Qed.
Lemma chain_pass x errors cls r rest : report cls x errors r = (errors, Ok true) -> chain x errors ((cls, r) :: rest) = chain x errors rest.
Proof. intros E. cbn [chain]. now rewrite E. Qed.
Lemma chain_stop x errors cls r rest errors' : report cls x errors r = (errors', Ok false) -> chain x errors ((cls, r) :: rest) = (errors', Ok false).
Proof. intros E. cbn [chain]. now rewrite E. Qed.
Lemma card_invalid x label errors accepted st fuel : plain x label ->
  (s_u st = [] -> exists errors', card_validate fuel accepted x errors st = (errors', Ok false)
     /\ records errors (label ++ lit " may not be blank.") errors')
  /\ (s_u st <> [] -> s_value st = VNone -> exists errors', card_validate fuel accepted x errors st = (errors', Ok false)
     /\ records errors (label ++ lit " is not correct.") errors').
Proof.
  intros P. unfold card_validate. pose proof (present_judged x label (s_u st) errors P) as (Pa & Pb).
  pose proof (converted_judged x label (s_value st) errors P) as (Ca & Cb). split.
  - intros E. destruct (Pb ltac:(now intros X)) as (e' & R & Q). exists e'. split; [|easy]. now apply chain_stop.
  - intros E V. rewrite chain_pass by now apply Pa. destruct (Cb ltac:(now intros X)) as (e' & R & Q). exists e'. split; [|easy]. now apply chain_stop.
Qed.
Lemma card_judged x label errors accepted st z ds : plain x label -> s_u st <> [] -> s_value st = VInt z ->
  digit_list ds -> z = decimal_value ds -> exists f0, forall fuel, (f0 <= fuel)%nat ->
  (luhn_valid ds -> (exists c, issued z c /\ In c accepted) -> card_validate fuel accepted x errors st = (errors, Ok true))
  /\ (~ luhn_valid ds -> exists errors', card_validate fuel accepted x errors st = (errors', Ok false)
      /\ records errors (lit "The " ++ label ++ lit " was not entered correctly.") errors')
  /\ (luhn_valid ds -> ~ (exists c, issued z c /\ In c accepted) -> card_validate fuel accepted x errors st = (errors, Err TypeErr)).
Proof.
  intros P U V D Z0. destruct (luhn_judged x label errors (s_value st) ds P D) as (f0 & L).
  { rewrite V, Z0. constructor. }
  exists f0. intros fuel Hf. destruct (L fuel Hf) as (La & Lb). clear L. unfold card_validate.
  pose proof (present_judged x label (s_u st) errors P) as (Pa & _).
  pose proof (converted_judged x label (s_value st) errors P) as (Ca & _).
  rewrite chain_pass by now apply Pa. rewrite chain_pass by (apply Ca; now rewrite V).
  split; [|split].
  - intros A B. rewrite chain_pass by now apply La. rewrite V, (proj1 (accepted_spec accepted z) B). reflexivity.
  - intros A. destruct (Lb A) as (e' & R & Q). exists e'. split; [|easy]. now apply chain_stop.
  - intros A B. rewrite chain_pass by now apply La. rewrite V, (proj2 (accepted_spec accepted z) B). cbn [chain].
    now rewrite (refused_raises x label errors P).
Qed.
