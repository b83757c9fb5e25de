(* The tokens of a path that was written step by step. *)
From Verif Require Import PyBase PyBaseFacts PyList ProofPyList ModelUtil ModelSeq ModelProps ModelDsl SpecScalar ProofScalar ModelPaths SpecPaths ProofPaths.

Notation slash := (ch "/").
Lemma is_ch_eq a c : is_ch a c = true <-> c = ch a.
Proof. unfold is_ch. apply N.eqb_eq. Qed.
Lemma special_false c : special c = false -> c <> slash /\ c <> ch "[" /\ c <> ch "]" /\ c <> ch ".".
Proof.
  unfold special. rewrite !orb_false_iff, !N.eqb_neq. tauto.
Qed.
Lemma special_true c : special c = true -> c = slash \/ c = ch "[" \/ c = ch "]" \/ c = ch ".".
Proof. unfold special. rewrite !orb_true_iff, !N.eqb_eq. tauto. Qed.
Lemma stop_iff c : stop c = true <-> c = slash \/ c = ch "[".
Proof. unfold stop. now rewrite orb_true_iff, !is_ch_eq. Qed.
Lemma pair_iff c d : pair c d = true <-> c = backslash /\ (d = slash \/ d = ch "." \/ d = ch "[").
Proof. unfold pair. rewrite andb_true_iff, !orb_true_iff, !is_ch_eq, N.eqb_eq. tauto. Qed.
Lemma false_of b : (b = true -> False) -> b = false.
Proof. destruct b; intuition. Qed.

Lemma munch_plain c r : stop c = false -> (forall d r', r = d :: r' -> pair c d = false) ->
  munch (c :: r) = (c :: fst (munch r), snd (munch r)).
Proof.
  intros H1 H2. cbn [munch]. destruct r as [|d r']; [now rewrite H1|].
  rewrite (H2 d r' eq_refl), H1. destruct (munch (d :: r')). reflexivity.
Qed.
Lemma munch_pair c d r : pair c d = true -> munch (c :: d :: r) = (c :: d :: fst (munch r), snd (munch r)).
Proof. intros H. cbn [munch]. rewrite H. destruct (munch r). reflexivity. Qed.
Lemma munch_stop c r : stop c = true -> munch (c :: r) = ([], c :: r).
Proof.
  intros H. cbn [munch]. destruct r as [|d r']; rewrite H; [easy|].
  assert (pair c d = false) as ->; [|easy]. apply false_of. intros K. apply pair_iff in K as [-> _]. discriminate H.
Qed.
Lemma escape_cons c s : escape (c :: s) = (if special c then [backslash; c] else [c]) ++ escape s.
Proof. reflexivity. Qed.
(* what an escaped text can begin with *)
Lemma escape_head s d r : escape s = d :: r -> special d = false.
Proof.
  destruct s as [|c s]; [easy|]. rewrite escape_cons. destruct (special c) eqn:E; cbn; intros [= <- _]; easy.
Qed.
Lemma ends_cons c s : s <> [] -> ends_in_backslash (c :: s) = ends_in_backslash s.
Proof.
  intros H. unfold ends_in_backslash. cbn [rev].
  destruct (rev s) as [|x r] eqn:E; [|reflexivity]. apply (f_equal (@rev _)) in E. rewrite rev_involutive in E. easy.
Qed.
Lemma munch_escape s rest :
  rest = [] \/ (exists c r, rest = c :: r /\ stop c = true /\ ends_in_backslash s = false) ->
  munch (escape s ++ rest) = (escape s, rest).
Proof.
  induction s as [|c s IH]; intros H.
  - cbn [escape flat_map app]. destruct H as [-> | (c & r & -> & H & _)]; [easy|]. now apply munch_stop.
  - assert (munch (escape s ++ rest) = (escape s, rest)) as E.
    { apply IH. destruct H as [H|(d & r & H1 & H2 & H3)]; auto. right. exists d, r. split; [easy|]. split; [easy|].
      destruct s as [|x s]; [easy|]. now rewrite <- (ends_cons c). }
    rewrite escape_cons, <- app_assoc. destruct (special c) eqn:S; cbn [app].
    + destruct (special_true c S) as [-> | [-> | [-> | ->]]]; try (rewrite munch_pair by easy; now rewrite E).
      rewrite munch_plain; [|easy|intros d r' [= <- _]; easy].
      rewrite munch_plain; [now rewrite E|easy|]. intros d r' _. reflexivity.
    + apply special_false in S as S'. rewrite munch_plain; [now rewrite E| |].
      * apply false_of. intros K. apply stop_iff in K. tauto.
      * intros d r' T. apply false_of. intros K. apply pair_iff in K as [-> K].
        destruct s as [|x s].
        -- cbn in T. destruct H as [H|(d' & r & H1 & H2 & H3)]; [congruence|]. discriminate H3.
        -- assert (exists r'', escape (x :: s) = d :: r'') as [r'' T'].
           { destruct (escape (x :: s)) as [|y ys] eqn:Y.
             - rewrite escape_cons in Y. destruct (special x); discriminate Y.
             - cbn in T. injection T as -> _. eauto. }
           apply escape_head in T'. apply special_false in T'. tauto.
Qed.
Lemma unescape_two c d r : unescape (c :: d :: r) =
  if N.eqb c backslash && (is_ch "/" d || is_ch "[" d || is_ch "]" d || is_ch "." d)
  then d :: unescape r else c :: unescape (d :: r).
Proof. reflexivity. Qed.
Lemma unescape_escape s : unescape (escape s) = s.
Proof.
  induction s as [|c s IH]; [easy|]. rewrite escape_cons. destruct (special c) eqn:S; cbn [app].
  - cbn [unescape]. destruct (special_true c S) as [-> | [-> | [-> | ->]]]; cbn -[unescape escape]; now rewrite IH.
  - destruct (escape s) as [|d r] eqn:E.
    + cbn. cbn in IH. congruence.
    + rewrite unescape_two. apply escape_head in E as Hd. apply special_false in Hd as (h1 & h2 & h3 & h4).
      assert (is_ch "/" d || is_ch "[" d || is_ch "]" d || is_ch "." d = false) as ->.
      { apply false_of. rewrite !orb_true_iff, !is_ch_eq. tauto. }
      rewrite andb_false_r. now rewrite IH.
Qed.
Lemma escape_nil s : escape s = [] -> s = [].
Proof. destruct s as [|c s]; [easy|]. rewrite escape_cons. now destruct (special c). Qed.
Lemma last_char_app d s c : last_char d (s ++ [c]) = Some c.
Proof. unfold last_char. rewrite map_app. cbn. apply last_last. Qed.
Lemma last_char_escape d s : s <> [] -> ends_in_backslash s = false -> not_escaped (last_char d (escape s)) = true.
Proof.
  intros N H. destruct (exists_last N) as (a & c & ->). unfold ends_in_backslash in H. rewrite rev_app_distr in H. cbn in H.
  unfold escape. rewrite flat_map_app. cbn [flat_map app]. destruct (special c) eqn:S; cbn [app].
  - change [backslash; c] with ([backslash] ++ [c]). rewrite app_assoc, last_char_app. cbn. now rewrite H.
  - rewrite last_char_app. cbn. now rewrite H.
Qed.

(* ---------------- numbers ---------------- *)
Definition numeric (s : str) : Prop := Forall (fun c => is_adigit c = true) s.
Lemma numeric_dec n : numeric (dec n).
Proof. apply Forall_forall. intros c H. pose proof (dec_ascii n) as A. rewrite forallb_forall in A. auto. Qed.
Definition stops (s : str) : Prop := match s with [] => True | c :: _ => c = ch ":" end.
Lemma skip_numeric s rest : numeric s -> stops rest -> skip_digits (s ++ rest) = rest.
Proof.
  induction 1 as [|c s Hc H IH]; intros R; cbn.
  - destruct rest as [|c r]; [easy|]. cbn in R. subst c. reflexivity.
  - rewrite adigit_digit by easy. auto.
Qed.
Lemma digit_not c x : is_adigit c = true -> is_adigit x = false -> c <> x.
Proof. congruence. Qed.
Lemma opt_numeric s rest : numeric s -> stops rest -> opt "-" (s ++ rest) = s ++ rest.
Proof.
  intros H R. unfold opt. destruct s as [|c s]; cbn [app].
  - destruct rest as [|c r]; [easy|]. cbn in R. now subst c.
  - inversion H as [|? ? Hc ?]; subst. assert (is_ch "-" c = false) as ->; [|easy]. apply false_of. intros K.
    apply is_ch_eq in K. subst c. discriminate Hc.
Qed.
Lemma number_dec_z z rest : stops rest -> number (dec_z z ++ rest) = rest.
Proof.
  intros R. unfold number. destruct z as [|p|p]; cbn [dec_z].
  - rewrite opt_numeric, skip_numeric; auto using numeric_dec.
  - rewrite opt_numeric, skip_numeric; auto using numeric_dec.
  - cbn [app opt]. change (is_ch "-" 45) with true. cbn iota. apply skip_numeric; auto using numeric_dec.
Qed.
Lemma number_numtext o rest : stops rest -> number (numtext o ++ rest) = rest.
Proof.
  intros R. destruct o as [z|]; cbn [numtext app]; [now apply number_dec_z|].
  unfold number. pose proof (opt_numeric [] rest (Forall_nil _) R) as E. cbn [app] in E. rewrite E.
  exact (skip_numeric [] rest (Forall_nil _) R).
Qed.
Lemma opt_colon r : opt ":" (ch ":" :: r) = r.
Proof. reflexivity. Qed.
Lemma spec_z z : is_slice_spec (dec_z z) = true.
Proof.
  unfold is_slice_spec. rewrite <- (app_nil_r (dec_z z)). rewrite number_dec_z by exact I. reflexivity.
Qed.
Lemma spec_nat n : is_slice_spec (dec_nat n) = true.
Proof.
  unfold dec_nat. pose proof (spec_z (Z.of_nat n)) as H. unfold dec_z in H. destruct n; cbn in *; exact H.
Qed.
Lemma spec_cut2 a b : is_slice_spec (numtext a ++ ch ":" :: numtext b) = true.
Proof.
  unfold is_slice_spec. rewrite number_numtext by reflexivity. rewrite opt_colon.
  rewrite <- (app_nil_r (numtext b)). rewrite number_numtext by exact I. reflexivity.
Qed.
Lemma spec_cut3 a b c : is_slice_spec (numtext a ++ ch ":" :: numtext b ++ ch ":" :: numtext c) = true.
Proof.
  unfold is_slice_spec. rewrite number_numtext by reflexivity. rewrite opt_colon.
  rewrite number_numtext by reflexivity. rewrite opt_colon.
  rewrite <- (app_nil_r (numtext c)). rewrite number_numtext by exact I. reflexivity.
Qed.
Lemma dec_z_chars z c : In c (dec_z z) -> is_adigit c = true \/ c = ch "-".
Proof.
  assert (forall n, In c (dec n) -> is_adigit c = true) as D.
  { intros n. exact (proj1 (Forall_forall _ _) (numeric_dec n) c). }
  destruct z as [|p|p]; cbn [dec_z]; [left; eauto|left; eauto|]. intros [<-|H]; [now right|left; eauto].
Qed.
Lemma numtext_chars o c : In c (numtext o) -> is_adigit c = true \/ c = ch "-".
Proof. destruct o; cbn [numtext]; [apply dec_z_chars|easy]. Qed.
Lemma dec_nat_z n : dec_nat n = dec_z (Z.of_nat n).
Proof. unfold dec_nat. destruct n; reflexivity. Qed.
Definition is_key (s : step) : bool := match s with Key _ | Dot | DotDot => true | _ => false end.
Definition spec_text (s : step) : str :=
  match s with
  | Key _ | Dot | DotDot => []
  | Idx i => dec_nat i
  | FromEnd k => dec_z (Zneg k)
  | Cut2 a b => numtext a ++ ch ":" :: numtext b
  | Cut3 a b c => numtext a ++ ch ":" :: numtext b ++ ch ":" :: numtext c
  end.
Lemma spec_text_chars s c : In c (spec_text s) -> is_adigit c = true \/ c = ch "-" \/ c = ch ":".
Proof.
  destruct s as [| |x|i|k|a b|a b d]; cbn [spec_text].
  - easy.
  - easy.
  - easy.
  - rewrite dec_nat_z. intros H. apply dec_z_chars in H. tauto.
  - intros H. apply dec_z_chars in H. tauto.
  - rewrite in_app_iff. cbn. intros [H|[<-|H]]; try apply numtext_chars in H; tauto.
  - rewrite in_app_iff. cbn [In]. rewrite in_app_iff. cbn [In].
    intros [H|[<-|[H|[<-|H]]]]; try apply numtext_chars in H; tauto.
Qed.
Lemma spec_text_ok s : is_slice_spec (spec_text s) = true.
Proof. destruct s; cbn [spec_text]; auto using spec_nat, spec_z, spec_cut2, spec_cut3. Qed.
Lemma app_colon_nil a r : numtext a ++ ch ":" :: r <> [].
Proof. now destruct (numtext a). Qed.
Lemma spec_text_nonempty s : is_key s = false -> spec_text s <> [].
Proof.
  destruct s as [| |x|i|k|a b|a b d]; cbn [spec_text]; intros H; auto using app_colon_nil; try discriminate H.
  - apply dec_nonempty.
  - easy.
Qed.
Lemma to_bracket_app s rest : ~ In (ch "]") s -> to_bracket (s ++ ch "]" :: rest) = Some (s, rest).
Proof.
  induction s as [|c s IH]; intros H; cbn [app to_bracket]; [easy|].
  assert (is_ch "]" c = false) as ->. { apply false_of. intros K. apply is_ch_eq in K. apply H. now left. }
  rewrite IH; [easy|]. intros K. apply H. now right.
Qed.
Lemma spec_no_bracket s : ~ In (ch "]") (spec_text s).
Proof. intros H. apply spec_text_chars in H as [H|[H|H]]; discriminate H. Qed.

(* ---------------- the lexer ---------------- *)
Definition token_of (s : step) : str * str :=
  match s with Dot => ([ch "."], []) | DotDot => ([ch "."; ch "."], []) | Key x => (escape x, []) | _ => (bracket (spec_text s), spec_text s) end.
Fixpoint tokens_of (first : bool) (l : list step) : list (str * str) :=
  match l with
  | [] => []
  | s :: r => (if is_key s && negb first then [([slash], [])] else []) ++ token_of s :: tokens_of false r
  end.
Lemma step_text_eq s : step_text s = fst (token_of s).
Proof. destruct s; reflexivity. Qed.
Lemma next_slash prev r : not_escaped prev = true -> next_token prev (slash :: r) = Some ([slash], [], r).
Proof. intros H. unfold next_token. rewrite munch_stop by easy. now rewrite H. Qed.
Lemma next_key prev x rest : x <> [] ->
  rest = [] \/ (exists c r, rest = c :: r /\ stop c = true /\ ends_in_backslash x = false) ->
  next_token prev (escape x ++ rest) = Some (escape x, [], rest).
Proof.
  intros N H. unfold next_token. rewrite munch_escape by easy.
  destruct (escape x) eqn:E; [now apply escape_nil in E|easy].
Qed.
Lemma next_dots prev d rest : d = [ch "."] \/ d = [ch "."; ch "."] ->
  rest = [] \/ (exists c r, rest = c :: r /\ stop c = true) -> next_token prev (d ++ rest) = Some (d, [], rest).
Proof.
  intros D H. unfold next_token.
  assert (munch rest = ([], rest)) as M. { destruct H as [-> | (c & r & -> & H)]; [easy|]. now apply munch_stop. }
  assert (munch (d ++ rest) = (d, rest)) as ->; [|destruct D as [-> | ->]; easy].
  destruct D as [-> | ->]; cbn [app]; repeat (rewrite munch_plain; [|easy|intros ? ? _; reflexivity]); now rewrite M.
Qed.
Lemma next_bracket prev s rest : is_key s = false -> not_escaped prev = true -> ahead rest = true ->
  next_token prev (bracket (spec_text s) ++ rest) = Some (bracket (spec_text s), spec_text s, rest).
Proof.
  intros K H A. unfold next_token, bracket. cbn [app]. rewrite munch_stop by easy. cbn [is_ch].
  change (is_ch "/" (ch "[")) with false. change (is_ch "[" (ch "[")) with true. rewrite H. cbn [andb].
  rewrite <- app_assoc. cbn [app]. rewrite to_bracket_app by apply spec_no_bracket.
  rewrite spec_text_ok, A. reflexivity.
Qed.
Lemma ahead_body l : ahead (body_text false l) = true.
Proof. destruct l as [|[| |x|i|k|a b|a b c] r]; reflexivity. Qed.
Lemma body_head l : l <> [] -> exists c r, body_text false l = c :: r /\ stop c = true.
Proof. destruct l as [|[| |x|i|k|a b|a b c] r]; [easy|..]; intros _; eexists _, _; split; reflexivity. Qed.
Lemma last_bracket d s : last_char d (bracket s) = Some (ch "]").
Proof. unfold bracket. change (ch "[" :: s ++ [ch "]"]) with ((ch "[" :: s) ++ [ch "]"]). apply last_char_app. Qed.
Lemma lex_step fuel prev s tok spec rest : s <> [] -> next_token prev s = Some (tok, spec, rest) ->
  lex (S fuel) prev s = (tok, spec) :: lex fuel (last_char prev tok) rest.
Proof. intros N H. cbn [lex]. destruct s; [easy|]. now rewrite H. Qed.
Lemma lex_body l : writable l -> forall first prev fuel, not_escaped prev = true \/ l = [] \/ (first = true /\ exists x r, l = x :: r /\ is_key x = true) ->
  (List.length (body_text first l) <= fuel)%nat -> lex fuel prev (body_text first l) = tokens_of first l.
Proof.
  induction l as [|s l IH]; intros W first prev fuel E F; [destruct fuel; reflexivity|].
  destruct W as [Ws Wl]. cbn [body_text tokens_of]. cbn [body_text] in F.
  assert (forall prev' fuel', (List.length (step_text s ++ body_text false l) <= fuel')%nat ->
          (not_escaped prev' = true \/ is_key s = true) ->
          lex fuel' prev' (step_text s ++ body_text false l) = token_of s :: tokens_of false l) as G.
  { intros prev' fuel' F' E'.
    assert (next_token prev' (step_text s ++ body_text false l) =
            Some (fst (token_of s), snd (token_of s), body_text false l)) as T.
    { rewrite step_text_eq.
      assert (body_text false l = [] \/ (exists c r, body_text false l = c :: r /\ stop c = true)) as B.
      { destruct l as [|s' l']; [now left|]. right. now apply body_head. }
      destruct s as [| |x|i|k|a b|a b c] eqn:Es; cbn [token_of fst snd].
      - apply next_dots; auto.
      - apply next_dots; auto.
      - destruct Ws as [W1 W2]. apply next_key; [easy|]. destruct l as [|s' l']; [now left|]. right.
        destruct (body_head (s' :: l')) as (c & r & H1 & H2); [easy|]. exists c, r. split; [easy|]. split; [easy|].
        apply W2. easy.
      - destruct E' as [E'|E']; [|easy]. apply (next_bracket _ (Idx i)); [easy|easy|apply ahead_body].
      - destruct E' as [E'|E']; [|easy]. apply (next_bracket _ (FromEnd k)); [easy|easy|apply ahead_body].
      - destruct E' as [E'|E']; [|easy]. apply (next_bracket _ (Cut2 a b)); [easy|easy|apply ahead_body].
      - destruct E' as [E'|E']; [|easy]. apply (next_bracket _ (Cut3 a b c)); [easy|easy|apply ahead_body]. }
    assert (step_text s <> []) as NE.
    { rewrite step_text_eq. destruct s; cbn; try easy. intros K. apply escape_nil in K. now destruct Ws. }
    rewrite app_length in F'. destruct fuel' as [|fuel']; [destruct (step_text s); [easy|cbn in F'; lia]|].
    rewrite (lex_step _ _ _ _ _ _ (fun K => NE (proj1 (app_eq_nil _ _ K))) T). destruct (token_of s) as [tk sp] eqn:Et. cbn [fst snd] in *. f_equal.
    apply IH; [easy| |].
    - destruct l as [|s' l']; [auto|]. left. destruct s as [| |x|i|k|a b|a b c]; cbn in Et; injection Et as <- <-;
        try (rewrite last_bracket; reflexivity); try reflexivity.
      destruct Ws as [W1 W2]. apply last_char_escape; [easy|]. apply W2. easy.
    - destruct (step_text s) as [|? ?]; [easy|]. cbn in F'. lia. }
  destruct (is_key s) eqn:K; cbn [andb].
  2:{ assert (slash_before first s = []) as SB by (destruct s; easy). rewrite SB in *. cbn [app] in *. apply G; [exact F|]. left.
      destruct E as [E|[E|(_ & x & r & E & E')]]; try easy. injection E as -> ->. congruence. }
  assert (slash_before first s = if first then [] else [slash]) as SB by (destruct s; easy). rewrite SB in *.
  destruct first; cbn [negb app] in *.
  - apply G; [exact F|]. now right.
  - destruct fuel as [|fuel]; [cbn in F; lia|]. erewrite lex_step; [|easy|apply next_slash].
    2:{ destruct E as [E|[E|(E & _)]]; easy. }
    f_equal. apply G; [cbn [List.length app] in F; lia|]. now right.
Qed.
Lemma findall_path absolute l : writable l ->
  findall (path_text absolute l) = (if absolute then [([slash], [])] else []) ++ tokens_of true l.
Proof.
  intros W. unfold findall, path_text. destruct absolute; cbn [app List.length].
  - erewrite lex_step; [|easy|now apply next_slash]. f_equal. apply lex_body; auto.
  - apply lex_body; auto.
Qed.
