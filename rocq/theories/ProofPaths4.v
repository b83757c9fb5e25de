(* The operations of a path that was written step by step. *)
From Verif Require Import PyBase PyBaseFacts PyList ProofPyList ModelUtil ModelSeq ModelProps ModelDsl SpecScalar ProofScalar ModelPaths SpecPaths ProofPaths ProofPaths3.

Definition op_of (s : step) : op :=
  match s with
  | Dot => HERE
  | DotDot => UP
  | Key x => NAME (Some x)
  | Idx i => NAME (Some (dec_nat i))
  | FromEnd k => SLICE (if Pos.eqb k 1 then Slice (Some (Zneg k)) None None
                        else Slice (Some (Zneg k)) (Some (Zneg k + 1)%Z) None)
  | Cut2 a b => SLICE (match a, b with
                       | None, None => Slice None None None
                       | _, _ => Slice (Some (match a with Some z => z | None => 0%Z end)) b None
                       end)
  | Cut3 a b c => SLICE (match a, b, c with
                         | None, None, None => Slice None None None
                         | _, _, _ => Slice a b (Some (match c with Some z => z | None => 1%Z end))
                         end)
  end.
Definition step_ok (s : step) : Prop :=
  match s with
  | Key x => x <> []
  | Dot | DotDot | Idx _ | FromEnd _ => True
  | Cut2 a b => nonzero b
  | Cut3 a b c => nonzero b /\ nonzero c
  end.
Lemma writable_ok l : writable l -> Forall step_ok l.
Proof.
  induction l as [|s l IH]; [constructor|]. intros [H1 H2]. constructor; [|auto]. destruct s; cbn in *; tauto.
Qed.
Lemma numtext_nil o : numtext o = [] <-> o = None.
Proof.
  destruct o as [z|]; cbn [numtext]; split; try easy. destruct z; cbn [dec_z]; intros H; try easy; now apply dec_nonempty in H.
Qed.
Lemma seg_numtext o : seg (numtext o) = Ok o.
Proof.
  unfold seg. destruct (numtext o) eqn:E.
  - apply numtext_nil in E. now subst.
  - rewrite <- E. destruct o as [z|]; [|easy]. cbn [numtext]. now rewrite py_int_dec_z.
Qed.
Lemma no_colon o : ~ In (ch ":") (numtext o).
Proof. intros H. apply numtext_chars in H as [H|H]; discriminate H. Qed.
Lemma memb_colon a r : memb N.eqb (ch ":") (numtext a ++ ch ":" :: r) = true.
Proof. apply (memb_In N.eqb N.eqb_eq). apply in_app_iff. right. now left. Qed.
Lemma memb_no_colon s : (forall c, In c s -> is_adigit c = true \/ c = ch "-") -> memb N.eqb (ch ":") s = false.
Proof.
  intros H. apply false_of. intros K. apply (memb_In N.eqb N.eqb_eq) in K. apply H in K as [K|K]; discriminate K.
Qed.
Lemma lit_colon : lit ":" = [ch ":"]. Proof. reflexivity. Qed.
Lemma lit_colons : lit "::" = [ch ":"; ch ":"]. Proof. reflexivity. Qed.
Lemma numtext_app_colon o r a : ~ In (ch ":") a -> numtext o ++ ch ":" :: r = a ++ ch ":" :: r -> numtext o = a.
Proof. intros _ H. now apply app_inv_tail in H. Qed.
Lemma head_colon o r r' : numtext o ++ ch ":" :: r = ch ":" :: r' -> o = None /\ r = r'.
Proof.
  destruct (numtext o) as [|c s] eqn:E; cbn; intros H.
  - apply numtext_nil in E. split; [easy|]. congruence.
  - injection H as -> _. exfalso. apply (no_colon o). rewrite E. now left.
Qed.
Lemma or_none_nz o : nonzero o -> or_none o = o.
Proof. unfold nonzero, or_none. destruct o as [z|]; [|easy]. intros H. destruct (Z.eqb_spec z 0); [congruence|easy]. Qed.
Lemma or_z_nz o d : nonzero o -> or_z o d = match o with Some z => z | None => d end.
Proof. unfold nonzero, or_z. destruct o as [z|]; [|easy]. intros H. destruct (Z.eqb_spec z 0); [congruence|easy]. Qed.
Lemma or_z_0 o : or_z o 0 = match o with Some z => z | None => 0%Z end.
Proof. unfold or_z. destruct o as [z|]; [|easy]. destruct (Z.eqb_spec z 0); easy. Qed.
Lemma parse_cut2 a b : nonzero b -> parse_slice (numtext a ++ ch ":" :: numtext b) = Ok (op_of (Cut2 a b)).
Proof.
  intros Nb. unfold parse_slice. rewrite lit_colon, lit_colons.
  destruct (str_eqb_spec (numtext a ++ ch ":" :: numtext b) [ch ":"]) as [E|E].
  { apply head_colon in E as [-> E]. apply numtext_nil in E. now subst. }
  destruct (str_eqb_spec (numtext a ++ ch ":" :: numtext b) [ch ":"; ch ":"]) as [E'|_].
  { exfalso. apply head_colon in E' as [-> E']. apply (no_colon b). rewrite E'. now left. }
  cbn [orb]. rewrite memb_colon. cbn [negb].
  assert (split [ch ":"] (numtext a ++ ch ":" :: numtext b) = [numtext a; numtext b]) as ->.
  { apply (split_join1 (ch ":") [numtext a; numtext b]); [easy|]. repeat constructor; apply no_colon. }
  rewrite !seg_numtext. cbn [bind]. rewrite or_none_nz, or_z_0 by easy. cbn [op_of].
  destruct a, b; try reflexivity. exfalso. apply E. reflexivity.
Qed.
Lemma parse_cut3 a b c : nonzero b -> nonzero c ->
  parse_slice (numtext a ++ ch ":" :: numtext b ++ ch ":" :: numtext c) = Ok (op_of (Cut3 a b c)).
Proof.
  intros Nb Nc. unfold parse_slice. rewrite lit_colon, lit_colons.
  destruct (str_eqb_spec (numtext a ++ ch ":" :: numtext b ++ ch ":" :: numtext c) [ch ":"]) as [E|_].
  { exfalso. apply head_colon in E as [_ E]. now apply app_colon_nil in E. }
  destruct (str_eqb_spec (numtext a ++ ch ":" :: numtext b ++ ch ":" :: numtext c) [ch ":"; ch ":"]) as [E|E].
  { apply head_colon in E as [-> E]. apply head_colon in E as [-> E]. apply numtext_nil in E. now subst. }
  cbn [orb]. rewrite memb_colon. cbn [negb].
  assert (split [ch ":"] (numtext a ++ ch ":" :: numtext b ++ ch ":" :: numtext c) = [numtext a; numtext b; numtext c]) as ->.
  { apply (split_join1 (ch ":") [numtext a; numtext b; numtext c]); [easy|]. repeat constructor; apply no_colon. }
  rewrite !seg_numtext. cbn [bind]. rewrite or_none_nz, or_z_0, (or_z_nz c) by easy. cbn [op_of].
  assert (match numtext a with [] => None | _ => Some match a with Some z => z | None => 0%Z end end = a) as ->.
  { destruct (numtext a) eqn:Ea; [apply numtext_nil in Ea; now subst|]. destruct a; [easy|discriminate Ea]. }
  destruct a, b, c; try reflexivity. exfalso. apply E. reflexivity.
Qed.
Lemma not_colons s : memb N.eqb (ch ":") s = false -> str_eqb s (lit ":") || str_eqb s (lit "::") = false.
Proof.
  intros H. destruct (str_eqb_spec s (lit ":")) as [->|_]; [discriminate H|].
  destruct (str_eqb_spec s (lit "::")) as [->|_]; [discriminate H|]. reflexivity.
Qed.
Lemma parse_idx i : parse_slice (dec_nat i) = Ok (op_of (Idx i)).
Proof.
  unfold parse_slice. assert (memb N.eqb (ch ":") (dec_nat i) = false) as M.
  { apply memb_no_colon. rewrite dec_nat_z. apply dec_z_chars. }
  rewrite not_colons, M by easy. cbn [negb].
  assert (starts_with (lit "-") (dec_nat i) = false) as ->.
  { unfold dec_nat. pose proof (numeric_dec (N.of_nat i)) as H. destruct (dec (N.of_nat i)) as [|c r]; [easy|].
    inversion H as [|? ? Hc Hr]; subst. change (lit "-") with [ch "-"]. rewrite starts_with_single.
    apply N.eqb_neq. intros <-. discriminate Hc. }
  reflexivity.
Qed.
Lemma parse_from_end k : parse_slice (dec_z (Zneg k)) = Ok (op_of (FromEnd k)).
Proof.
  unfold parse_slice. assert (memb N.eqb (ch ":") (dec_z (Zneg k)) = false) as M.
  { apply memb_no_colon. apply dec_z_chars. }
  rewrite not_colons, M by easy. cbn [negb].
  change (starts_with (lit "-") (dec_z (Zneg k))) with true. cbn [negb].
  rewrite py_int_dec_z. cbn [bind op_of]. destruct (Pos.eqb_spec k 1) as [->|H]; [reflexivity|].
  destruct (Z.eqb_spec (Z.neg k) (-1)); [congruence|easy].
Qed.
Lemma parse_step s : step_ok s -> is_key s = false -> parse_slice (spec_text s) = Ok (op_of s).
Proof.
  destruct s as [| |x|i|k|a b|a b c]; intros H K; try discriminate K; cbn [spec_text].
  - apply parse_idx. - apply parse_from_end. - now apply parse_cut2. - destruct H. now apply parse_cut3.
Qed.

(* ---------------- from tokens to operations ---------------- *)
Definition done_st (st : tok_state) (tok : str) (o : op) : tok_state :=
  TokState (o :: ts_tokens st) (Some tok) (is_name o) (match o with HERE | UP => false | _ => ts_canonical st end).
Lemma escape_not_lit x t : x <> [] -> (exists c r, t = c :: r /\ special c = true) -> str_eqb (escape x) t = false.
Proof.
  intros N (c & r & -> & S). destruct (str_eqb_spec (escape x) (c :: r)) as [E|]; [|easy].
  apply escape_head in E. congruence.
Qed.
Lemma token_key st x : x <> [] -> token_step st (escape x, []) = Ok (done_st st (escape x) (NAME (Some x))).
Proof.
  intros N. unfold token_step.
  rewrite (escape_not_lit x (lit "/")), (escape_not_lit x (lit ".")), (escape_not_lit x (lit "..")) by (easy || (eexists _, _; split; reflexivity)).
  assert (starts_with (lit "[") (escape x) = false) as ->.
  { change (lit "[") with [ch "["]. rewrite starts_with_single. destruct (escape x) as [|c r] eqn:E; [easy|].
    apply escape_head in E. apply N.eqb_neq. intros <-. discriminate E. }
  cbn [andb]. rewrite unescape_escape. reflexivity.
Qed.
Lemma token_bracket st s : step_ok s -> is_key s = false ->
  token_step st (bracket (spec_text s), spec_text s) = Ok (done_st st (bracket (spec_text s)) (op_of s)).
Proof.
  intros H K. unfold token_step.
  assert (forall t c r, t = c :: r -> c <> ch "[" -> str_eqb (bracket (spec_text s)) t = false) as D.
  { intros t c r -> N. destruct (str_eqb_spec (bracket (spec_text s)) (c :: r)) as [E|]; [|easy]. unfold bracket in E. congruence. }
  rewrite (D (lit "/") (ch "/") [] eq_refl), (D (lit ".") (ch ".") [] eq_refl), (D (lit "..") (ch ".") [ch "."] eq_refl) by easy.
  pose proof (spec_text_nonempty s) as NE. destruct (spec_text s) as [|c r] eqn:E.
  { exfalso. now apply NE. }
  rewrite <- E. rewrite parse_step by easy. cbn [bind]. unfold done_st.
  assert (match op_of s with HERE | UP => false | _ => ts_canonical st end = ts_canonical st) as -> by (destruct s; easy). reflexivity.
Qed.
Lemma token_step_of st s : step_ok s -> token_step st (token_of s) = Ok (done_st st (fst (token_of s)) (op_of s)).
Proof.
  intros H. destruct (is_key s) eqn:K.
  - destruct s; try discriminate K; [reflexivity|reflexivity|]. now apply token_key.
  - assert (token_of s = (bracket (spec_text s), spec_text s)) as -> by (destruct s; easy). now apply token_bracket.
Qed.
Lemma token_not_slash s : step_ok s -> fst (token_of s) <> lit "/".
Proof.
  intros H E. destruct s; cbn in E; try discriminate E.
  pose proof (escape_not_lit s (lit "/") H) as K. rewrite E in K. rewrite str_eqb_refl in K.
  discriminate K. eexists _, _; split; reflexivity.
Qed.
Lemma token_steps_of l : Forall step_ok l -> forall first st,
  (first = false -> exists x, ts_last st = Some x /\ x <> lit "/" /\ ts_tokens st <> []) ->
  exists la nm ca, token_steps st (tokens_of first l) = Ok (TokState (rev (map op_of l) ++ ts_tokens st) la nm ca).
Proof.
  induction 1 as [|s l Hs Hl IH]; intros first st H; cbn [tokens_of token_steps map rev app].
  - destruct st. cbn. eauto.
  - assert (forall st', ts_tokens st' = ts_tokens st ->
      exists la nm ca, token_steps st' (token_of s :: tokens_of false l) =
        Ok (TokState ((rev (map op_of l) ++ [op_of s]) ++ ts_tokens st) la nm ca)) as G.
    { intros st' T. cbn [token_steps]. rewrite token_step_of by easy. cbn [bind].
      destruct (IH false (done_st st' (fst (token_of s)) (op_of s))) as (la & nm & ca & E).
      - intros _. exists (fst (token_of s)). split; [easy|]. split; [now apply token_not_slash|easy].
      - exists la, nm, ca. rewrite E. unfold done_st. cbn [ts_tokens]. rewrite T, <- app_assoc. reflexivity. }
    destruct (is_key s && negb first) eqn:K; cbn [app]; [|apply G; easy].
    apply andb_true_iff in K as [K1 K2]. destruct first; [easy|]. destruct (H eq_refl) as (x & L & Nx & Nt).
    cbn [token_steps]. assert (token_step st ([slash], []) = Ok (TokState (ts_tokens st) (Some [slash]) (last_is_name (ts_tokens st)) (ts_canonical st))) as ->.
    { unfold token_step. rewrite str_eqb_refl, L. destruct (str_eqb_spec x (lit "/")); [easy|].
      destruct (ts_tokens st); easy. }
    cbn [bind]. apply G; easy.
Qed.
Definition ops_of (absolute : bool) (l : list step) : list op := (if absolute then [TOP] else []) ++ map op_of l.
(* the tokens of a path before they are canonicalised *)
Definition raw_tokens (path : str) : res (list op) :=
  rmap (fun st => rev (ts_tokens st)) (token_steps (TokState [] None false true) (findall path)).

Lemma raw_tokens_path absolute l : writable l -> raw_tokens (path_text absolute l) = Ok (ops_of absolute l).
Proof.
  intros W. unfold raw_tokens. rewrite findall_path by easy. apply writable_ok in W. unfold ops_of. destruct absolute; cbn [app].
  - cbn [token_steps].
    assert (token_step (TokState [] None false true) ([slash], []) = Ok (TokState [TOP] (Some [slash]) false true)) as -> by reflexivity.
    cbn [bind]. destruct (token_steps_of l W true (TokState [TOP] (Some [slash]) false true)) as (la & nm & ca & E); [easy|].
    rewrite E. cbn [rmap ts_tokens]. rewrite rev_app_distr, rev_involutive. reflexivity.
  - destruct (token_steps_of l W true (TokState [] None false true)) as (la & nm & ca & E); [easy|].
    rewrite E. cbn [rmap ts_tokens]. rewrite app_nil_r, rev_involutive. reflexivity.
Qed.
Definition only_first_top (l : list op) : Prop := ~ In TOP (tl l).

(* ---------------- tokens ---------------- *)
Definition plain_op (o : op) : Prop := o <> UP /\ o <> HERE.
Definition tokens_inv (st : tok_state) : Prop :=
  (ts_last st = None -> ts_tokens st = []) /\ only_first_top (rev (ts_tokens st)) /\
  (ts_canonical st = true -> Forall plain_op (ts_tokens st)).
Lemma oft_cons o l : only_first_top (rev l) -> (o = TOP -> l = []) -> only_first_top (rev (o :: l)).
Proof.
  unfold only_first_top. cbn [rev]. intros H T. destruct (rev l) as [|y ys] eqn:E; [easy|]. cbn [app tl] in *.
  rewrite in_app_iff. intros [K|[K|[]]]; [easy|]. rewrite (T K) in E. discriminate E.
Qed.
Lemma oft_tl o l : only_first_top (rev (o :: l)) -> only_first_top (rev l).
Proof.
  unfold only_first_top. cbn [rev]. intros H K. apply H. destruct (rev l); [easy|]. cbn in *. apply in_app_iff. now left.
Qed.
Lemma parse_slice_plain s o : parse_slice s = Ok o -> o <> TOP /\ plain_op o.
Proof.
  unfold parse_slice, plain_op. destruct (_ || _); [now intros [= <-]|]. destruct (negb _).
  - destruct (negb _); [now intros [= <-]|]. destruct (py_int s); [|easy]. now intros [= <-].
  - destruct (split _ s) as [|s0 [|s1 m]]; try easy. destruct (seg s0); [|easy]. cbn [bind]. destruct (seg s1); [|easy]. cbn [bind].
    destruct m as [|s2 m]; [now intros [= <-]|]. destruct (seg s2); [|easy]. now intros [= <-].
Qed.
Lemma token_step_inv st x st' : tokens_inv st -> token_step st x = Ok st' -> tokens_inv st' /\ ts_last st' <> None.
Proof.
  intros (I1 & I2 & I3). destruct x as [tok spec]. unfold token_step.
  assert (forall o c, (o = TOP -> ts_tokens st = []) -> (c = true -> ts_canonical st = true /\ plain_op o) ->
          tokens_inv (TokState (o :: ts_tokens st) (Some tok) (last_is_name (o :: ts_tokens st)) c)
          /\ ts_last (TokState (o :: ts_tokens st) (Some tok) (last_is_name (o :: ts_tokens st)) c) <> None) as G.
  { intros o c H1 H2. split; [|easy]. split; [easy|]. split; [now apply oft_cons|]. cbn. intros H3. apply H2 in H3 as [H3 H4].
    constructor; auto. }
  destruct (str_eqb tok (lit "/")).
  - destruct (ts_last st) as [l|] eqn:L.
    + destruct (str_eqb l (lit "/")).
      * intros [= <-]. apply G; easy.
      * destruct (ts_tokens st) eqn:E; [easy|]. rewrite <- E in *. intros [= <-]. split; [|easy]. split; [easy|]. split; [easy|easy].
    + intros [= <-]. apply G; [auto|]. easy.
  - destruct (str_eqb tok (lit ".")); [intros [= <-]; apply G; easy|].
    destruct (str_eqb tok (lit "..")); [intros [= <-]; apply G; easy|].
    destruct spec as [|c spec].
    + destruct (_ && _).
      * destruct (ts_tokens st) as [|o rest] eqn:E; [easy|]. destruct (ts_last st) as [l|]; [|easy]. intros [= <-].
        split; [|easy]. split; [easy|]. cbn [ts_tokens ts_canonical]. split.
        -- apply oft_cons; [|easy]. now apply oft_tl in I2.
        -- intros H. apply I3 in H. inversion H; subst. constructor; easy.
      * intros [= <-]. apply G; easy.
    + destruct (parse_slice (c :: spec)) as [o|] eqn:E; [|easy]. apply parse_slice_plain in E as [E1 E2]. cbn [bind].
      intros [= <-]. apply G; easy.
Qed.
Lemma token_steps_inv l : forall st st', tokens_inv st -> token_steps st l = Ok st' -> tokens_inv st'.
Proof.
  induction l as [|x l IH]; intros st st' H; cbn [token_steps]; [now intros [= <-]|].
  destruct (token_step st x) as [s|] eqn:E; [|easy]. cbn [bind]. apply token_step_inv in E; [|easy]. now apply IH.
Qed.
Lemma canonicalize_plain l : Forall plain_op l -> canonicalize l = l.
Proof.
  intros H. unfold canonicalize. generalize (List.length l) as n. intros n.
  assert (forall c, fold_left (canon_step n) l c = rev l ++ c) as G.
  { induction H as [|o l [H1 H2] _ IH]; intros c; [easy|]. cbn [fold_left rev]. rewrite IH, <- app_assoc. f_equal.
    destruct o; try easy. }
  rewrite G, app_nil_r. apply rev_involutive.
Qed.
Lemma tokenize_raw path ops : raw_tokens path = Ok ops -> only_first_top ops /\ tokenize path = Ok (canonicalize ops).
Proof.
  unfold raw_tokens, tokenize. destruct (token_steps _ (findall path)) as [st|] eqn:E; [|easy]. cbn [rmap bind]. intros [= <-].
  apply token_steps_inv in E; [|repeat (split; [easy|]); constructor]. destruct E as (I1 & I2 & I3).
  split; [easy|]. destruct (ts_canonical st); [|easy]. rewrite canonicalize_plain; [easy|]. apply Forall_rev. auto.
Qed.
Lemma raw_err path x : raw_tokens path = Err x <-> tokenize path = Err x.
Proof.
  unfold raw_tokens, tokenize. destruct (token_steps _ (findall path)); cbn [rmap bind]; [|easy]. split; easy.
Qed.
Lemma tokenize_path absolute l : writable l -> tokenize (path_text absolute l) = Ok (canonicalize (ops_of absolute l)).
Proof. intros W. apply (tokenize_raw _ _ (raw_tokens_path absolute l W)). Qed.
Lemma tokenize_dotless absolute l : writable l -> dotless l -> tokenize (path_text absolute l) = Ok (ops_of absolute l).
Proof.
  intros W [D1 D2]. rewrite tokenize_path by easy. rewrite canonicalize_plain; [easy|]. unfold ops_of. apply Forall_app. split.
  - destruct absolute; repeat constructor; discriminate.
  - apply Forall_forall. intros o H. apply in_map_iff in H as (s & <- & H). destruct s; split; (discriminate || congruence).
Qed.

(* ---------------- slices ---------------- *)
Lemma slice_zero n b : slice_positions n (Slice (Some 0%Z) b None) = slice_positions n (Slice None b None).
Proof.
  unfold slice_positions. f_equal. unfold slice_indices. cbn -[Z.of_nat]. unfold clampZ.
  replace (Z.max 0 (Z.min (Z.of_nat n) 0)) with 0%Z by lia. reflexivity.
Qed.
Lemma slice_one n a b : slice_positions n (Slice a b (Some 1%Z)) = slice_positions n (Slice a b None).
Proof. reflexivity. Qed.
Lemma op_slice2 a b n : exists s, op_of (Cut2 a b) = SLICE s /\ slice_positions n s = slice_positions n (Slice a b None).
Proof.
  cbn [op_of]. eexists. split; [reflexivity|]. destruct a, b; try reflexivity. apply slice_zero.
Qed.
Lemma op_slice3 a b c n : exists s, op_of (Cut3 a b c) = SLICE s /\ slice_positions n s = slice_positions n (Slice a b c).
Proof. cbn [op_of]. eexists. split; [reflexivity|]. destruct a, b, c; reflexivity. Qed.
Lemma op_from_end k n : exists s, op_of (FromEnd k) = SLICE s /\
  slice_positions n s = Ok (if (Pos.to_nat k <=? n)%nat then [(n - Pos.to_nat k)%nat] else []).
Proof.
  cbn [op_of]. eexists. split; [reflexivity|].
  destruct (Pos.eqb_spec k 1) as [->|K].
  - unfold slice_positions, slice_indices. cbn -[range Z.of_nat]. unfold clampZ, range, range_len. cbn -[Z.of_nat seq Z.div Z.add Z.sub].
    rewrite Z.div_1_r. destruct n as [|n]; [reflexivity|]. cbn [Pos.to_nat Pos.iter_op Nat.leb].
    match goal with |- context [seq 0 ?k] => replace k with 1%nat by lia end.
    change (Pos.to_nat 1) with 1%nat. cbn -[Z.of_nat]. f_equal. f_equal. lia.
  - unfold slice_positions, slice_indices. cbn -[range Z.of_nat Z.add]. unfold clampZ, range, range_len. cbn -[Z.of_nat seq Z.div Z.add Z.sub].
    assert ((Z.neg k + 1 <? 0)%Z = true) as -> by (apply Z.ltb_lt; lia).
    rewrite Z.div_1_r. assert (Z.neg k = - Z.of_nat (Pos.to_nat k))%Z as -> by lia.
    assert (1 < Pos.to_nat k)%nat by lia. set (m := Pos.to_nat k) in *. clearbody m.
    destruct (Nat.leb_spec m n).
    + match goal with |- context [seq 0 ?k] => replace k with 1%nat by lia end. cbn -[Z.of_nat Z.add]. f_equal. f_equal. lia.
    + match goal with |- context [seq 0 ?k] => replace k with 0%nat by lia end. reflexivity.
Qed.
Lemma chosen_pick {A} (l : list A) ps r : chosen l ps r -> pick l ps = r.
Proof. induction 1 as [|p x ps r H _ IH]; [easy|]. cbn. rewrite H. cbn. now f_equal. Qed.
