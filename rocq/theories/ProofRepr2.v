(* What a strict find() says. *)
From Verif Require Import PyBase PyBaseFacts PyList ProofPyList ModelUtil ModelPaths SpecPaths ProofScalar ProofPaths ProofPaths5 ProofPaths6 ModelNest SpecNest SpecText ProofText ModelRepr SpecRepr ProofRepr.
From Coq Require Import Lia.

Lemma index_no_lookup t e x : index t e x <> Err LookupErr.
Proof. intros H. apply index_err in H. inversion H. Qed.
Lemma slice_no_lookup {A} (l : list A) s : get_slice l s <> Err LookupErr.
Proof. unfold get_slice. destruct (slice_positions _ s) eqn:E; [easy|]. apply slice_positions_err in E as [_ ->]. easy. Qed.
Lemma blame_iff t ops : forall e, run_ops t true ops e = Err LookupErr <-> exists b, blame t ops e = Some b.
Proof.
  induction ops as [|o ops IH]; intros e; cbn [run_ops blame].
  - split; [easy|]. now intros [b H].
  - destruct o as [| | |s|x]; try apply IH.
    + pose proof (slice_no_lookup (children t e) s) as N. destruct (get_slice (children t e) s) as [l|err]; cbn [rmap]; split; try easy; try (now intros [b H]). intros [= ->]. easy.
    + pose proof (index_no_lookup t e x) as N. destruct (index t e x) as [u|err]; [apply IH|]. destruct (is_lookup err || _); split; try easy; [eauto|intros [= ->]; easy|now intros [b H]].
Qed.
Lemma blame_reaches t ops : forall e e' x, blame t ops e = Some (e', x) ->
  exists r err, reaches t ops e (NAME x :: r) e' /\ refuses t e' x err /\ err <> NotImplErr.
Proof.
  induction ops as [|o ops IH]; intros e e' x H; cbn [blame] in H; [easy|]. destruct o as [| | |s|y].
  - destruct (IH _ _ _ H) as (r & err & R & K). exists r, err. split; [now constructor|easy].
  - destruct (IH _ _ _ H) as (r & err & R & K). exists r, err. split; [|easy]. eapply reaches_up; [apply up_of_spec|exact R].
  - destruct (IH _ _ _ H) as (r & err & R & K). exists r, err. split; [now constructor|easy].
  - easy.
  - destruct (index t e y) as [u|err] eqn:I.
    + destruct (IH _ _ _ H) as (r & err & R & K). exists r, err. split; [|easy]. eapply reaches_name; [eapply index_ok; eassumption|exact R].
    + destruct (is_lookup err || _) eqn:L; [|easy]. injection H as <- <-. exists ops, err. split; [constructor|]. apply index_err in I. split; [easy|]. intros ->. easy.
Qed.
Lemma more_reaches t ops : forall e l r c, run_ops t true ops e = Ok (More l) -> In (r, c) l ->
  forall r' e', reaches t r c r' e' -> reaches t ops e r' e'.
Proof.
  induction ops as [|o ops IH]; intros e l r c H I r' e' R; cbn [run_ops] in H; [easy|]. destruct o as [| | |s|y].
  - constructor. eapply IH; eauto.
  - eapply reaches_up; [apply up_of_spec|]. eapply IH; eauto.
  - constructor. eapply IH; eauto.
  - unfold get_slice in H. rewrite children_kids in H. destruct (slice_positions (List.length (kids t e)) s) as [ps|x] eqn:S; [|easy]. cbn [rmap] in H. injection H as <-.
    apply in_map_iff in I as (u & E & I). injection E as -> ->. eapply reaches_slice; [exact S|eapply chosen_exists; exact S|exact I|exact R].
  - destruct (index t e y) as [u|err] eqn:J; [|destruct (is_lookup err || _); easy]. eapply reaches_name; [eapply index_ok; eassumption|]. eapply IH; eauto.
Qed.
Lemma complaint_reaches t fuel : forall cs e' x, complaint fuel t cs = Some (e', x) ->
  exists ops e r err, In (ops, e) cs /\ reaches t ops e (NAME x :: r) e' /\ refuses t e' x err /\ err <> NotImplErr.
Proof.
  induction fuel as [|fuel IH]; intros [|[ops e] cs] e' x H; cbn [complaint] in H; try easy.
  destruct (blame t ops e) as [b|] eqn:B.
  - injection H as ->. destruct (blame_reaches _ _ _ _ _ B) as (r & err & K). exists ops, e, r, err. split; [now left|easy].
  - destruct (run_ops t true ops e) as [[u| |l]|] eqn:R; [| | |easy].
    + destruct (IH _ _ _ H) as (o & a & r & err & I & K). exists o, a, r, err. split; [now right|easy].
    + destruct (IH _ _ _ H) as (o & a & r & err & I & K). exists o, a, r, err. split; [now right|easy].
    + destruct (IH _ _ _ H) as (o & a & r & err & I & K & K'). apply in_app_iff in I as [I|I].
      * exists o, a, r, err. split; [now right|easy].
      * exists ops, e, r, err. split; [now left|]. split; [|easy]. eapply more_reaches; eauto.
Qed.
Lemma complaint_iff t fuel : forall cs found, run_contexts fuel t true cs found = Err LookupErr <-> exists b, complaint fuel t cs = Some b.
Proof.
  induction fuel as [|fuel IH]; intros [|[ops e] cs] found; cbn [complaint run_contexts]; try (split; [easy|now intros [b H]]).
  pose proof (blame_iff t ops e) as B. destruct (blame t ops e) as [b|].
  - assert (run_ops t true ops e = Err LookupErr) as -> by (apply B; eauto). split; [eauto|easy].
  - destruct (run_ops t true ops e) as [[u| |l]|x]; cbn [bind]; try apply IH. split; [|now intros [b H]]. intros [= ->]. apply B. easy.
Qed.
Definition tame {A} (r : res A) : Prop := forall x, r = Err x -> x = ValueErr \/ x = IndexErr.
Lemma tame_ok {A} (a : A) : tame (Ok a).
Proof. easy. Qed.
Lemma tame_bind {A B} (r : res A) (f : A -> res B) : tame r -> (forall a, tame (f a)) -> tame (bind r f).
Proof. intros H K. destruct r as [a|x]; cbn [bind]; [apply K|]. intros y [= <-]. now apply H. Qed.
Lemma tame_int s : tame (py_int s).
Proof. intros x H. left. eapply py_int_err; eauto. Qed.
Lemma tame_seg s : tame (seg s).
Proof. destruct s as [|c s]; [apply tame_ok|]. unfold seg. pose proof (tame_int (c :: s)) as H. destruct (py_int (c :: s)); [apply tame_ok|]. intros y [= <-]. now apply H. Qed.
Lemma tame_slice p : tame (parse_slice p).
Proof.
  unfold parse_slice. destruct (_ || _); [apply tame_ok|]. destruct (negb (memb _ _ _)).
  - destruct (negb _); [apply tame_ok|]. apply tame_bind; [apply tame_int|]. intros z. apply tame_ok.
  - destruct (split _ p) as [|s0 [|s1 more]]; try (intros x [= <-]; now right).
    apply tame_bind; [apply tame_seg|]. intros a. apply tame_bind; [apply tame_seg|]. intros b. destruct more; [apply tame_ok|]. apply tame_bind; [apply tame_seg|]. intros c. apply tame_ok.
Qed.
Lemma tame_step st x : tame (token_step st x).
Proof.
  destruct x as [token spec]. unfold token_step. destruct (str_eqb token (lit "/")).
  - destruct (ts_last st) as [l|]; [|apply tame_ok]. destruct (str_eqb l _); [apply tame_ok|]. destruct (ts_tokens st); [|apply tame_ok]. intros x [= <-]. now right.
  - destruct (str_eqb token (lit ".")); [apply tame_ok|]. destruct (str_eqb token (lit "..")); [apply tame_ok|]. destruct spec as [|c spec].
    + destruct (_ && _); [|apply tame_ok]. destruct (ts_tokens st); [intros x [= <-]; now right|]. destruct (ts_last st); [apply tame_ok|intros x [= <-]; now right].
    + apply tame_bind; [apply tame_slice|]. intros o. apply tame_ok.
Qed.
Lemma tame_tokenize path : tame (tokenize path).
Proof.
  unfold tokenize. apply tame_bind; [|intros; apply tame_ok]. generalize (TokState [] None false true). induction (findall path) as [|x l IH]; intros st; cbn [token_steps]; [apply tame_ok|].
  apply tame_bind; [apply tame_step|]. intros st'. apply IH.
Qed.

(* ---------------- the names in a path ---------------- *)
Lemma unicode_munch n : forall s, (List.length s <= n)%nat -> unicode s -> unicode (fst (munch s)) /\ unicode (snd (munch s)).
Proof.
  unfold unicode. induction n as [|n IH]; intros [|c s] L U; [now split|cbn in L; lia|now split|].
  cbn [List.length] in L. inversion U as [|? ? Uc Us]; subst. destruct s as [|d s].
  - cbn [munch]. destruct (stop c); cbn; auto.
  - inversion Us as [|? ? Ud Uss]; subst. change (munch (c :: d :: s)) with
      (if pair c d then let '(a, b) := munch s in (c :: d :: a, b) else if stop c then ([], c :: d :: s) else let '(a, b) := munch (d :: s) in (c :: a, b)).
    destruct (pair c d).
    + specialize (IH s). destruct (munch s) as [a b]. cbn [fst snd] in *. destruct IH as [A B]; [cbn in L; lia|easy|]. auto.
    + destruct (stop c); [cbn; auto|]. specialize (IH (d :: s)). destruct (munch (d :: s)) as [a b]. cbn [fst snd] in *. destruct IH as [A B]; [lia|easy|]. auto.
Qed.
Lemma unicode_bracket s : forall a b, to_bracket s = Some (a, b) -> unicode s -> unicode a /\ unicode b.
Proof.
  unfold unicode. induction s as [|c s IH]; intros a b H U; cbn [to_bracket] in H; [easy|]. inversion U as [|? ? Uc Us]; subst.
  destruct (is_ch "]" c); [injection H as <- <-; auto|]. destruct (to_bracket s) as [[a' b']|]; [|easy]. injection H as <- <-. destruct (IH a' b' eq_refl Us). auto.
Qed.
Lemma unicode_next prev s tok spec rest : next_token prev s = Some (tok, spec, rest) -> unicode s -> unicode tok /\ unicode spec /\ unicode rest.
Proof.
  intros H U. unfold next_token in H. pose proof (unicode_munch (List.length s) s (le_n _) U) as [M1 M2]. destruct (munch s) as [[|x a] b]; cbn [fst snd] in *.
  - destruct s as [|c r]; [easy|]. unfold unicode in *. inversion U as [|? ? Uc Ur]; subst.
    assert (forall tok spec rest, (if is_ch "[" c then Some ([c], [], r) else None) = Some (tok, spec, rest) -> unicode tok /\ unicode spec /\ unicode rest) as G.
    { intros t0 s0 r0. destruct (is_ch "[" c); [|easy]. intros [= <- <- <-]. unfold unicode. auto. }
    destruct (_ && _); [injection H as <- <- <-; auto|]. destruct (if _ && _ then to_bracket r else None) as [[a b']|] eqn:B; [|now apply G in H].
    assert (to_bracket r = Some (a, b')) as B' by (destruct (_ && _); easy). apply unicode_bracket in B' as [A B']; [|easy]. unfold unicode in *.
    assert (Forall (fun c0 => (c0 < 1114112)%N) (c :: a ++ [ch "]"])) as T.
    { constructor; [easy|]. apply Forall_app. split; [easy|]. constructor; [cbn; lia|constructor]. }
    destruct (is_slice_spec a && ahead b'); [injection H as <- <- <-; auto|]. destruct (not_escaped (last_char (Some c) a) && ahead b'); [injection H as <- <- <-; auto|]. now apply G in H.
  - injection H as <- <- <-. repeat split; try easy. constructor.
Qed.
Lemma unicode_lex fuel : forall prev s, unicode s -> Forall (fun x => unicode (fst x) /\ unicode (snd x)) (lex fuel prev s).
Proof.
  induction fuel as [|fuel IH]; intros prev s U; cbn [lex]; [constructor|]. destruct s as [|c r]; [constructor|].
  destruct (next_token prev (c :: r)) as [[[tok spec] rest]|] eqn:N.
  - apply unicode_next in N as (A & B & C); [|easy]. constructor; [easy|auto].
  - apply IH. now inversion U.
Qed.
Lemma unicode_unescape n : forall s, (List.length s <= n)%nat -> unicode s -> unicode (unescape s).
Proof.
  unfold unicode. induction n as [|n IH]; intros [|c s] L U; [easy|cbn in L; lia|easy|]. cbn [List.length] in L. inversion U as [|? ? Uc Us]; subst. destruct s as [|d s]; [easy|].
  inversion Us as [|? ? Ud Uss]; subst. change (unescape (c :: d :: s)) with
    (if N.eqb c backslash && (is_ch "/" d || is_ch "[" d || is_ch "]" d || is_ch "." d) then d :: unescape s else c :: unescape (d :: s)).
  destruct (_ && _); constructor; auto. apply IH; [cbn in L; lia|easy]. apply IH; [lia|easy].
Qed.
Definition clean_op (o : op) : Prop := match o with NAME x => clean_name x | _ => True end.
Lemma clean_slice p o : parse_slice p = Ok o -> unicode p -> clean_op o.
Proof.
  unfold parse_slice. intros H U. destruct (_ || _); [now injection H as <-|]. destruct (negb (memb _ _ _)).
  - destruct (negb _); [now injection H as <-|]. destruct (py_int p); [|easy]. now injection H as <-.
  - destruct (split _ p) as [|s0 [|s1 more]]; try easy. destruct (seg s0); [|easy]. cbn [bind] in H. destruct (seg s1); [|easy]. cbn [bind] in H. destruct more as [|s2 ?]; [now injection H as <-|].
    destruct (seg s2); [|easy]. now injection H as <-.
Qed.
Definition clean_state (st : tok_state) : Prop := Forall clean_op (ts_tokens st) /\ forall l, ts_last st = Some l -> unicode l.
Lemma clean_step st x st' : token_step st x = Ok st' -> clean_state st -> unicode (fst x) -> unicode (snd x) -> clean_state st'.
Proof.
  destruct x as [token spec]. cbn [fst snd]. intros H [C1 C2] Ut Us. unfold token_step in H.
  assert (forall l, Some token = Some l -> unicode l) as G by (intros l [= <-]; easy).
  assert (unicode (unescape token)) as Uu by (eapply unicode_unescape; [apply le_n|easy]).
  destruct (str_eqb token (lit "/")).
  - destruct (ts_last st) as [l|]; [|injection H as <-; split; cbn; [now constructor|easy]]. destruct (str_eqb l _); [injection H as <-; split; cbn; [now constructor|easy]|].
    destruct (ts_tokens st); [easy|]. injection H as <-. now split.
  - destruct (str_eqb token (lit ".")); [injection H as <-; split; cbn; [now constructor|easy]|]. destruct (str_eqb token (lit "..")); [injection H as <-; split; cbn; [now constructor|easy]|].
    destruct spec as [|c spec].
    + destruct (_ && _).
      * destruct (ts_tokens st) as [|o rest]; [easy|]. destruct (ts_last st) as [l|]; [|easy]. injection H as <-.
        assert (unicode (l ++ unescape token)) as A by (apply Forall_app; split; [now apply C2|easy]). split; cbn.
        -- inversion C1; subst. now constructor.
        -- now intros ? [= <-].
      * injection H as <-. split; cbn; [now constructor|easy].
    + destruct (parse_slice (c :: spec)) as [o|] eqn:P; [|easy]. cbn [bind] in H. injection H as <-. split; cbn; [|easy]. constructor; [|easy]. eapply clean_slice; eauto.
Qed.
Lemma clean_tokens path ops : tokenize path = Ok ops -> unicode path -> Forall clean_op ops.
Proof.
  unfold tokenize. intros H U. destruct (token_steps (TokState [] None false true) (findall path)) as [st|] eqn:T; [|easy]. cbn [bind] in H. injection H as <-.
  assert (clean_state st) as [C _].
  { assert (clean_state (TokState [] None false true)) as C0 by (split; [constructor|easy]). pose proof (unicode_lex (List.length path) None path U) as F. fold (findall path) in F.
    revert C0 T. generalize (TokState [] None false true). induction F as [|x l [U1 U2] F IH]; intros st0 C0 T; cbn [token_steps] in T; [now injection T as <-|].
    destruct (token_step st0 x) as [st1|] eqn:S; [|easy]. cbn [bind] in T. eapply IH; [|exact T]. eapply clean_step; eauto. }
  assert (Forall clean_op (rev (ts_tokens st))) as R by now apply Forall_rev.
  destruct (ts_canonical st); [easy|]. unfold canonicalize. apply Forall_rev. generalize (List.length (rev (ts_tokens st))). intros n.
  assert (Forall clean_op []) as A by constructor. revert A. generalize (@nil op). induction R as [|o l Co R IH]; intros acc A; cbn [fold_left]; [easy|]. apply IH.
  destruct o as [| | |s|x]; cbn [canon_step]; try (now constructor).
  - destruct acc as [|[| | |s|x] acc]; try easy; try (now constructor); now inversion A.
  - destruct (Nat.ltb 1 n); [easy|now constructor].
Qed.
Lemma reaches_clean t ops e r e' : reaches t ops e r e' -> Forall clean_op ops -> Forall clean_op r.
Proof. induction 1; intros F; auto; inversion F; auto. Qed.

Section Says.
Variable printable : N -> bool.
Lemma says_iff cls fuel t e path single :
  snd (find fuel [] t e path single true) = Err LookupErr <-> exists m, find_says printable cls fuel t e path single = Some m.
Proof.
  rewrite find_empty. unfold find_says. pose proof (tame_tokenize path) as T. destruct (tokenize path) as [ops|x]; cbn [bind].
  - pose proof (complaint_iff t fuel [(ops, e)] []) as C. unfold evaluate. destruct (complaint fuel t [(ops, e)]) as [[e' x]|].
    + assert (run_contexts fuel t true [(ops, e)] [] = Err LookupErr) as -> by (apply C; eauto). cbn [bind]. split; [eauto|easy].
    + destruct (run_contexts fuel t true [(ops, e)] []) as [l|x]; cbn [bind].
      * unfold pick_single. destruct single; cbn [negb]; destruct l as [|u [|v l]]; cbn; split; try easy; try (now intros [m H]). eauto.
      * split; [|now intros [m H]]. intros [= ->]. apply proj1 in C. destruct (C eq_refl) as [b H]. easy.
  - split; [|now intros [m H]]. intros [= ->]. destruct (T _ eq_refl); discriminate.
Qed.
Lemma says_what cls fuel t e path single m : (forall e, clean_name (elem_name t e)) -> unicode path ->
  find_says printable cls fuel t e path single = Some m ->
  exists ops, tokenize path = Ok ops /\
  ((exists e' x r err, reaches t ops e (NAME x :: r) e' /\ refuses t e' x err /\ err <> NotImplErr
      /\ complains (cls e') (elem_name t e') x path m)
   \/ (single = true /\ (exists l, snd (find fuel [] t e path false true) = Ok (Many l) /\ (1 < List.length l)%nat) /\ several path m)).
Proof.
  intros N U. rewrite find_empty. unfold find_says. pose proof (clean_tokens path) as W. destruct (tokenize path) as [ops|]; [|easy]. specialize (W ops eq_refl U). exists ops. split; [easy|]. cbn [bind].
  destruct (complaint fuel t [(ops, e)]) as [[e' x]|] eqn:C.
  - left. injection H as <-. apply complaint_reaches in C as (o & a & r & err & [I|[]] & K). injection I as <- <-. exists e', x, r, err. repeat split; try easy.
    apply message_ok; auto. destruct K as [K _]. apply reaches_clean in K; [|easy]. now inversion K.
  - right. destruct (evaluate fuel t true ops e) as [[|u [|v l]]|]; try easy. destruct single; [|easy]. injection H as <-. split; [easy|]. split.
    + exists (u :: v :: l). cbn. split; [easy|]. lia.
    + exists (py_repr printable path). split; [now apply repr_literal|easy].
Qed.
End Says.
