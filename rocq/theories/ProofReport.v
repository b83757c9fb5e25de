(* What a validated form reports. *)
From Verif Require Import PyBase PyBaseFacts ModelValidate ModelRaise ModelMessage ModelValidators ModelReport SpecValidate SpecReport ProofValidate ProofValidate2.
From Coq Require Import Lia.

(* ---- messages ---- *)
Definition added (l ms : list str) : list str := fold_left add_message ms l.
Lemma memb_in (m : str) l : memb str_eqb m l = true <-> In m l.
Proof. unfold memb. rewrite existsb_exists. split; [intros (x & I & E); apply str_eqb_eq in E; now subst|]. intros I. exists m. split; [exact I|apply str_eqb_refl]. Qed.
Lemma noted_added l ms : noted l ms (added l ms).
Proof.
  revert l. induction ms as [|m ms IH]; intros l; [constructor|]. cbn [added fold_left]. unfold add_message at 2. destruct (memb str_eqb m l) eqn:E.
  - apply no_old; [now apply memb_in|apply IH].
  - apply no_new; [|apply IH]. intros I. apply memb_in in I. congruence.
Qed.
Lemma noted_fun l ms l1 : noted l ms l1 -> l1 = added l ms.
Proof.
  induction 1; [reflexivity| |]; cbn [added fold_left]; unfold add_message at 2.
  - apply memb_in in H. now rewrite H.
  - destruct (memb str_eqb m l) eqn:E; [apply memb_in in E; contradiction|]. exact IHnoted.
Qed.
Lemma added_app l a b : added l (a ++ b) = added (added l a) b.
Proof. apply fold_left_app. Qed.
Lemma added_keeps l ms m : In m l -> In m (added l ms).
Proof.
  revert l. induction ms as [|x ms IH]; intros l I; [exact I|]. apply IH. unfold add_message. destruct (memb _ _ _); [exact I|]. apply in_or_app. now left.
Qed.
Lemma added_all l ms m : In m ms -> In m (added l ms).
Proof.
  revert l. induction ms as [|x ms IH]; intros l []; [|now apply IH]. subst. apply (added_keeps (add_message l m) ms). unfold add_message. destruct (memb str_eqb m l) eqn:E; [now apply memb_in|].
  apply in_or_app. right. now left.
Qed.
Lemma added_old l ms : incl ms l -> added l ms = l.
Proof.
  revert l. induction ms as [|x ms IH]; intros l I; [reflexivity|]. cbn [added fold_left]. unfold add_message at 2.
  assert (memb str_eqb x l = true) as -> by (apply memb_in, I; now left). apply IH. intros y Y. apply I. now right.
Qed.
Lemma added_again l ms : added (added l ms) ms = added l ms.
Proof. apply added_old. intros m. apply added_all. Qed.

(* ---- one validator ---- *)
Definition says_of (r : rule) (el : id) : res (bool * list str) :=
  bind (ru_verdict r el) (fun v => match v with
  | Pass => Ok (true, [])
  | Quiet => Ok (false, [])
  | Fail key info => bind (getattr (ru_self r) key) (fun a =>
      if attr_truth a then rmap (fun m => (false, [m])) (expand_message (ru_self r) (ru_context r el) a info) else Ok (false, []))
  end).
Lemma says_iff r el b ms : says r el b ms <-> says_of r el = Ok (b, ms).
Proof.
  unfold says_of. split.
  - destruct 1 as [E|E|key info a E G T|key info a m E G T X]; rewrite E; cbn [bind]; try reflexivity; rewrite G; cbn [bind]; rewrite T; [reflexivity|]. now rewrite X.
  - destruct (ru_verdict r el) as [[|key info|]|] eqn:E; cbn [bind]; [| | |discriminate].
    + intros [= <- <-]. now constructor.
    + destruct (getattr (ru_self r) key) as [a|] eqn:G; cbn [bind]; [|discriminate]. destruct (attr_truth a) eqn:T.
      * destruct (expand_message _ _ _ _) as [m|] eqn:X; cbn; [|discriminate]. intros [= <- <-]. now apply (sy_fail r el key info a m).
      * intros [= <- <-]. now apply (sy_blank r el key info a).
    + intros [= <- <-]. now apply sy_quiet.
Qed.
Lemma call_says r s el : exists s', call r s el = (s', rmap fst (says_of r el))
  /\ forall x, s' x = if Nat.eqb x el then match says_of r el with Ok (_, ms) => added (s el) ms | Err _ => s el end else s x.
Proof.
  unfold call, report, note, says_of. destruct (ru_verdict r el) as [[|key info|]|e]; cbn [bind]; [eexists; split; [reflexivity|]; intros x; reflexivity| |eexists; split; [reflexivity|]; intros x; reflexivity..].
  destruct (getattr (ru_self r) key) as [a|e]; cbn [bind]; [|eexists; split; [reflexivity|]; intros x; reflexivity].
  destruct (attr_truth a); [|eexists; split; [reflexivity|]; intros x; reflexivity].
  destruct (expand_message _ _ _ _) as [m|e]; eexists; (split; [reflexivity|]; intros x; reflexivity).
Qed.

(* ---- one element ---- *)
Fixpoint chain_of (rs : list rule) (el : id) : res (bool * list str) :=
  match rs with
  | [] => Ok (true, [])
  | r :: rs => bind (says_of r el) (fun x => if fst x then chain_of rs el else Ok x)
  end.
Lemma says_true r el ms : says_of r el = Ok (true, ms) -> ms = [].
Proof. intros H. apply says_iff in H. now inversion H. Qed.
Lemma chain_iff rs el b ms : chain el rs b ms <-> chain_of rs el = Ok (b, ms).
Proof.
  split.
  - induction 1 as [|r rs ms S|r rs b ms S C IH]; [reflexivity| |]; apply says_iff in S; cbn [chain_of]; rewrite S; cbn [bind fst]; easy.
  - revert b ms. induction rs as [|r rs IH]; intros b ms; cbn [chain_of]; [intros [= <- <-]; constructor|].
    destruct (says_of r el) as [[c l]|] eqn:E; cbn [bind fst]; [|discriminate]. destruct c.
    + intros H. rewrite (says_true r el l E) in E. apply ch_next; [now apply says_iff|auto].
    + intros [= <- <-]. apply ch_stop. now apply says_iff.
Qed.
Definition passes_of (f : form) (down : bool) (el : id) : res (option bool * list str) :=
  match (if down then f_down f el else f_up f el) with
  | None => Ok (None, [])
  | Some rs =>
      if down && f_container f el && match rs with [] => true | _ => false end then Ok (None, [])
      else if f_is_empty f el && f_optional f el then Ok (Some true, [])
      else match rs with
           | [] => Ok (Some (negb (f_is_empty f el)), [])
           | _ => rmap (fun x => (Some (fst x), snd x)) (chain_of rs el)
           end
  end.
Lemma passes_iff f down el o ms : passes f down el o ms <-> passes_of f down el = Ok (o, ms).
Proof.
  unfold passes_of. split.
  - destruct 1 as [E|E K N|rs E K M O|E K M|rs b ms E N M C].
    + now rewrite E.
    + subst down. rewrite N, K. reflexivity.
    + rewrite E, M, O. destruct rs as [|r rs]; [|now rewrite andb_false_r]. destruct (down && f_container f el); [destruct (K eq_refl eq_refl)|reflexivity].
    + rewrite E, K. cbn [andb]. destruct (f_is_empty f el); cbn [andb]; [now rewrite M|reflexivity].
    + rewrite E. destruct rs as [|r rs]; [easy|]. rewrite andb_false_r. apply chain_iff in C. rewrite C.
      destruct (f_is_empty f el); cbn [andb]; [now rewrite M|reflexivity].
  - destruct (if down then f_down f el else f_up f el) as [rs|] eqn:E; [|intros [= <- <-]; now apply pa_off].
    destruct (down && f_container f el) eqn:K; cbn [andb].
    + destruct rs as [|r rs].
      * intros [= <- <-]. apply andb_true_iff in K as [-> K]. now apply pa_bare_container.
      * destruct (f_is_empty f el && f_optional f el) eqn:M.
        -- intros [= <- <-]. apply andb_true_iff in M as [M O]. now apply (pa_optional _ _ _ (r :: rs)).
        -- destruct (chain_of (r :: rs) el) as [[b l]|] eqn:C; [|discriminate]. intros [= <- <-]. apply (pa_chain _ _ _ (r :: rs)); try easy; [|now apply chain_iff].
           intros I. now rewrite I in M.
    + destruct (f_is_empty f el && f_optional f el) eqn:M.
      * intros [= <- <-]. apply andb_true_iff in M as [M O]. apply (pa_optional _ _ _ rs); try easy. intros X. congruence.
      * destruct rs as [|r rs].
        -- intros [= <- <-]. apply pa_bare; try easy. intros I. now rewrite I in M.
        -- destruct (chain_of (r :: rs) el) as [[b l]|] eqn:C; [|discriminate]. intros [= <- <-]. apply (pa_chain _ _ _ (r :: rs)); try easy; [|now apply chain_iff].
           intros I. now rewrite I in M.
Qed.
Definition out (o : option bool) : outcome := match o with None => OUneval | Some true => OTrue | Some false => OFalse end.
(* the errors s after messages ms for el *)
Definition told (s : messages) (el : id) (ms : list str) (s' : messages) : Prop := forall x, s' x = if Nat.eqb x el then added (s el) ms else s x.
Lemma told_nil s el : told s el [] s.
Proof. intros x. destruct (Nat.eqb_spec x el); [now subst|reflexivity]. Qed.
Lemma chain_runs f V el : forall rs s, exists s' ev, run_chain_r (form_rworld f) rs s V el = (s', rmap (fun x => out (Some (fst x))) (chain_of rs el), ev)
  /\ match chain_of rs el with Ok (_, ms) => told s el ms s' | Err _ => told s el [] s' end.
Proof.
  induction rs as [|r rs IH]; intros s; [exists s, []; split; [reflexivity|apply told_nil]|]. cbn [run_chain_r chain_of form_rworld r_raise r_world form_world w_run].
  destruct (call_says r s el) as (s1 & C & T). rewrite C. destruct (says_of r el) as [[c ms]|e] eqn:Sy; cbn [rmap bind fst].
  - change (send (form_world f) (Some r) s1 el ?z) with (s1, @nil (event rule)). destruct c.
    + destruct (IH s1) as (s2 & ev & R & N). rewrite R. eexists s2, _. split; [reflexivity|]. rewrite (says_true _ _ _ Sy) in T. cbn [added fold_left] in T.
      assert (forall x, s1 x = s x) as E by (intros x; rewrite T; destruct (Nat.eqb_spec x el); [now subst|reflexivity]).
      destruct (chain_of rs el) as [[b l]|]; intros x; rewrite N, !E; reflexivity.
    + eexists s1, _. split; [reflexivity|]. exact T.
  - eexists s1, _. split; [reflexivity|]. exact T.
Qed.
Lemma pass_runs f down V s el : exists s' ev, validate_pass_r (form_rworld f) down s V el = (s', rmap (fun x => out (fst x)) (passes_of f down el), ev)
  /\ match passes_of f down el with Ok (_, ms) => told s el ms s' | Err _ => told s el [] s' end.
Proof.
  assert (forall rs, exists s' ev, validate_element_r (form_rworld f) rs s V el =
    (s', rmap (fun x => out (fst x)) (if f_is_empty f el && f_optional f el then Ok (Some true, []) else match rs with [] => Ok (Some (negb (f_is_empty f el)), []) | _ => rmap (fun x => (Some (fst x), snd x)) (chain_of rs el) end), ev)
    /\ match (if f_is_empty f el && f_optional f el then Ok (Some true, []) else match rs with [] => Ok (Some (negb (f_is_empty f el)), []) | _ => rmap (fun x => (Some (fst x), snd x)) (chain_of rs el) end)
       with Ok (_, ms) => told s el ms s' | Err _ => told s el [] s' end) as El.
  { intros rs. unfold validate_element_r. cbn [form_rworld r_world form_world w_is_empty w_optional]. destruct (f_is_empty f el && f_optional f el).
    - exists s, []. split; [reflexivity|apply told_nil].
    - destruct rs as [|r rs].
      + eexists s, _. split; [cbn; now destruct (f_is_empty f el)|apply told_nil].
      + destruct (chain_runs f V el (r :: rs) s) as (s' & ev & R & T). exists s', ev. change (RWorld (form_world f) ?z) with (form_rworld f). rewrite R.
        destruct (chain_of (r :: rs) el) as [[b l]|]; split; try reflexivity; exact T. }
  unfold validate_pass_r, passes_of. cbn [form_rworld r_world form_world w_down w_up w_container]. destruct down.
  - destruct (f_down f el) as [rs|]; [|exists s, []; split; [reflexivity|apply told_nil]]. cbn [andb]. destruct (f_container f el); cbn [andb]; [|apply El].
    destruct rs as [|r rs]; [exists s, []; split; [reflexivity|apply told_nil]|apply El].
  - destruct (f_up f el) as [rs|]; [|exists s, []; split; [reflexivity|apply told_nil]]. cbn [andb]. apply El.
Qed.

(* ---- the descent ---- *)
Definition mark (o : option bool) : vstat := match o with None => Uneval | Some b => if b then Valid else Invalid end.
Definition good (o : option bool) : bool := match o with Some false => false | _ => true end.
Lemma good_fine o : good o = true <-> fine o.
Proof. unfold fine. destruct o as [[]|]; cbn; split; congruence. Qed.
Definition look (f : form) (down : bool) (x : id) : option bool := match passes_of f down x with Ok (o, _) => o | Err _ => None end.
Definition words (f : form) (down : bool) (x : id) : list str := match passes_of f down x with Ok (_, ms) => ms | Err _ => [] end.
Definition sound (f : form) (down : bool) (x : id) : Prop := exists o ms, passes_of f down x = Ok (o, ms).
Lemma memb_id x l : memb Nat.eqb x l = true <-> In x l.
Proof. unfold memb. rewrite existsb_exists. split; [intros (y & I & E); apply Nat.eqb_eq in E; now subst|]. intros I. exists x. split; [exact I|apply Nat.eqb_refl]. Qed.
Lemma reach_step (kids : id -> list id) x y z : In y (kids x) -> reachable kids y z -> reachable kids x z.
Proof.
  intros I [n W]. exists (S n). induction W as [y|n y w z W IH J]; [apply (walk_S kids 0 x x y); [constructor|exact I]|]. apply (walk_S kids (S n) x w z); auto.
Qed.
Lemma reach_back (kids : id -> list id) x y z : reachable kids x y -> In z (kids y) -> reachable kids x z.
Proof. intros [n W] I. exists (S n). now apply (walk_S kids n x y z). Qed.
Lemma step_descends f fuel el q st (st' : vstate messages rule) :
  memb Nat.eqb el (vs_seen st) = false -> descend_r (form_rworld f) (S fuel) (el :: q) st = (st', None) ->
  exists o ms st1, passes_of f true el = Ok (o, ms) /\ descend_r (form_rworld f) fuel (q ++ f_children f el) st1 = (st', None)
    /\ told (vs_s st) el ms (vs_s st1) /\ (forall x, vs_V st1 x = if Nat.eqb x el then mark o else vs_V st x)
    /\ vs_valid st1 = vs_valid st && good o /\ vs_elements st1 = vs_elements st ++ [el] /\ vs_seen st1 = el :: vs_seen st.
Proof.
  intros M H. cbn [descend_r] in H. rewrite M in H. destruct (pass_runs f true (vs_V st) (vs_s st) el) as (s1 & ev & R & T). rewrite R in H. clear R.
  destruct (passes_of f true el) as [[o ms]|e]; cbn [rmap fst] in H; [|discriminate]. exists o, ms.
  destruct o as [[]|]; cbn [out] in H; unfold and_valid in H; destruct (vs_valid st); cbn [o_bool of_bool] in H;
    (eexists; split; [reflexivity|]; split; [exact H|]; split; [exact T|]; cbn [vs_V vs_valid vs_elements vs_seen]; repeat split; intros x; reflexivity).
Qed.
Record descended (f : form) (q : list id) (st st' : vstate messages rule) (new : list id) : Prop := {
  de_elements : vs_elements st' = vs_elements st ++ new;
  de_nodup : NoDup new;
  de_fresh : forall x, In x new -> ~ In x (vs_seen st);
  de_seen : forall x, In x (vs_seen st') <-> In x new \/ In x (vs_seen st);
  de_queue : incl q (vs_seen st');
  de_closed : forall x, In x new -> incl (f_children f x) (vs_seen st');
  de_reach : forall x, In x new -> exists y, In y q /\ reachable (f_children f) y x;
  de_sound : forall x, In x new -> sound f true x;
  de_new : forall x, In x new -> vs_s st' x = added (vs_s st x) (words f true x) /\ vs_V st' x = mark (look f true x);
  de_old : forall x, ~ In x new -> vs_s st' x = vs_s st x /\ vs_V st' x = vs_V st x;
  de_valid : vs_valid st' = vs_valid st && forallb (fun x => good (look f true x)) new }.
Lemma descends f : forall fuel q st st', descend_r (form_rworld f) fuel q st = (st', None) -> exists new, descended f q st st' new.
Proof.
  assert (nil_case : forall st st' : vstate messages rule, (st, @None exn) = (st', None) -> exists new, descended f [] st st' new).
  { intros st st' [= <-]. exists []. constructor; try easy; [now rewrite app_nil_r|constructor|firstorder|now rewrite andb_true_r]. }
  induction fuel as [|fuel IH]; intros q st st' H; (destruct q as [|el q]; [now apply nil_case|]); [discriminate|].
  destruct (memb Nat.eqb el (vs_seen st)) eqn:M.
  - cbn [descend_r] in H. rewrite M in H. apply IH in H as [new D]. exists new. apply memb_id in M. destruct D. constructor; try easy.
    + intros x [<-|I]; [apply de_seen0; now right|now apply de_queue0].
    + intros x I. destruct (de_reach0 x I) as (y & J & R). exists y. split; [now right|exact R].
  - apply step_descends in H as (o & ms & st1 & P & H & T & V & G & E & Sn); [|exact M]. apply IH in H as [new D]. destruct D. exists (el :: new).
    assert (~ In el (vs_seen st)) as Fr by (intros I; apply memb_id in I; congruence).
    rewrite Sn in *. assert (~ In el new) as N by (intros I; apply (de_fresh0 el I); now left). constructor.
    + rewrite de_elements0, E, <- app_assoc. reflexivity.
    + now constructor.
    + intros x [<-|I]; [exact Fr|]. intros J. apply (de_fresh0 x I). now right.
    + intros x. rewrite de_seen0. cbn [In]. tauto.
    + intros x [<-|I]; [apply de_seen0; right; now left|]. apply de_queue0, in_or_app. now left.
    + intros x [<-|I]; [|now apply de_closed0]. intros y Y. apply de_queue0, in_or_app. now right.
    + intros x [<-|I]; [exists el; split; [now left|exists 0; constructor]|]. destruct (de_reach0 x I) as (y & J & R). apply in_app_or in J as [J|J]; [exists y; split; [now right|exact R]|].
      exists el. split; [now left|]. now apply (reach_step _ _ y).
    + intros x [<-|I]; [now exists o, ms|auto].
    + intros x [<-|I].
      * destruct (de_old0 el N) as [-> ->]. rewrite T, V, Nat.eqb_refl. unfold look, words. now rewrite P.
      * assert (x <> el) as X by (intros ->; contradiction). apply Nat.eqb_neq in X. destruct (de_new0 x I) as [-> ->]. now rewrite T, X.
    + intros x I. cbn [In] in I. assert (Nat.eqb x el = false) as X by (apply Nat.eqb_neq; intros ->; apply I; now left). destruct (de_old0 x) as [-> ->]; [tauto|]. now rewrite T, V, X.
    + rewrite de_valid0, G. cbn [forallb]. unfold look at 2. rewrite P. now rewrite andb_assoc.
Qed.

(* ---- the ascent ---- *)
Definition lift (v : vstat) (u : option bool) : vstat := match v, u with Invalid, _ => Invalid | v, None => v | _, Some b => if b then Valid else Invalid end.
Definition final (v : vstat) (u : option bool) : bool := match v with Invalid => true | _ => good u end.
Record ascended (f : form) (els : list id) (st st' : vstate messages rule) : Prop := {
  as_sound : forall x, In x els -> sound f false x;
  as_new : forall x, In x els -> vs_s st' x = added (vs_s st x) (words f false x) /\ vs_V st' x = lift (vs_V st x) (look f false x);
  as_old : forall x, ~ In x els -> vs_s st' x = vs_s st x /\ vs_V st' x = vs_V st x;
  as_valid : vs_valid st' = vs_valid st && forallb (fun x => final (vs_V st x) (look f false x)) els }.
Lemma forallb_same {A} (p q : A -> bool) l : (forall x, In x l -> p x = q x) -> forallb p l = forallb q l.
Proof. induction l as [|a l IH]; intros H; [reflexivity|]. cbn [forallb]. rewrite (H a (or_introl eq_refl)), IH; [reflexivity|]. intros x I. apply H. now right. Qed.
Lemma ascends f : forall els st st', NoDup els -> ascend_r (form_rworld f) els st = (st', None) -> ascended f els st st'.
Proof.
  induction els as [|el els IH]; intros st st' N H.
  - injection H as <-. constructor; try easy. now rewrite andb_true_r.
  - inversion N as [|? ? Ni N']; subst. cbn [ascend_r] in H. destruct (pass_runs f false (vs_V st) (vs_s st) el) as (s1 & ev & R & T). rewrite R in H. clear R.
    destruct (passes_of f false el) as [[o ms]|e] eqn:P; cbn [rmap fst] in H; [|discriminate].
    assert (exists st1, ascend_r (form_rworld f) els st1 = (st', None) /\ vs_s st1 = s1 /\ (forall x, vs_V st1 x = if Nat.eqb x el then lift (vs_V st el) o else vs_V st x)
      /\ vs_valid st1 = vs_valid st && final (vs_V st el) o) as (st1 & A & S1 & V1 & G1).
    { cbv zeta in H. destruct o as [b|]; cbn [out] in H.
      - destruct b; cbv iota in H;
        (destruct (vs_V st el) eqn:Ve; cbn [v_bool] in H; unfold and_valid in H; destruct (vs_valid st); cbn [o_bool of_bool] in H; (eexists; split; [exact H|]; split; [reflexivity|]; split; [|reflexivity]);
          intros x; cbn [vs_V upd lift]; unfold upd; destruct (Nat.eqb_spec x el); subst; try reflexivity; exact Ve).
      - eexists. split; [exact H|]. split; [reflexivity|]. split.
        + intros x. cbn [vs_V]. destruct (Nat.eqb_spec x el); [subst; now destruct (vs_V st el)|reflexivity].
        + cbn [vs_valid]. unfold final. now destruct (vs_V st el), (vs_valid st). }
    destruct (IH st1 st' N' A) as [So Ne Ol Va]. constructor.
    + intros x [<-|I]; [now exists o, ms|auto].
    + intros x [<-|I].
      * destruct (Ol el Ni) as [-> ->]. rewrite S1, T, V1, Nat.eqb_refl. unfold words, look. now rewrite P.
      * assert (Nat.eqb x el = false) as X by (apply Nat.eqb_neq; intros ->; contradiction). destruct (Ne x I) as [-> ->]. now rewrite S1, T, V1, X.
    + intros x I. cbn [In] in I. assert (Nat.eqb x el = false) as X by (apply Nat.eqb_neq; intros ->; apply I; now left). destruct (Ol x) as [-> ->]; [tauto|]. now rewrite S1, T, V1, X.
    + rewrite Va, G1. cbn [forallb]. unfold look at 2. rewrite P, <- andb_assoc. f_equal. f_equal. apply forallb_same. intros x I. rewrite V1.
      assert (Nat.eqb x el = false) as -> by (apply Nat.eqb_neq; intros ->; contradiction). reflexivity.
Qed.

(* ---- both ---- *)
Lemma settles_mark d u : settles d u (lift (mark d) u).
Proof. destruct d as [[]|], u as [[]|]; cbn; constructor. Qed.
Lemma settles_fun d u v : settles d u v -> v = lift (mark d) u.
Proof. destruct 1; try (now destruct b); reflexivity. Qed.
Lemma sound_passes f down x : sound f down x -> passes f down x (look f down x) (words f down x).
Proof. intros (o & ms & P). apply passes_iff. unfold look, words. now rewrite P. Qed.
Record reported (f : form) (errors : messages) (V : id -> vstat) (root : id) (s' : messages) (V' : id -> vstat) (b : bool) : Prop := {
  re_sound : forall x, reachable (f_children f) root x -> sound f true x /\ sound f false x;
  re_in : forall x, reachable (f_children f) root x -> s' x = added (errors x) (words f true x ++ words f false x) /\ V' x = lift (mark (look f true x)) (look f false x);
  re_out : forall x, ~ reachable (f_children f) root x -> s' x = errors x /\ V' x = V x;
  re_verdict : b = true <-> forall x, reachable (f_children f) root x -> good (look f true x) = true /\ good (look f false x) = true;
  re_decides : forall x, reachable (f_children f) root x \/ ~ reachable (f_children f) root x;
  re_bad : b = false -> exists x, reachable (f_children f) root x /\ (look f true x = Some false \/ look f false x = Some false) }.
Lemma reports f fuel errors V root s' V' b : validate_form f fuel errors V root = (s', V', Ok b) -> reported f errors V root s' V' b.
Proof.
  unfold validate_form, validate_r. destruct (descend_r (form_rworld f) fuel [root] _) as [st1 [e|]] eqn:D; [discriminate|].
  destruct (ascend_r (form_rworld f) (rev (vs_elements st1)) st1) as [st2 [e|]] eqn:A; [discriminate|]. intros [= <- <- <-].
  apply descends in D as [new D]. destruct D. cbn [vs_elements vs_seen vs_s vs_V vs_valid app In andb] in *. rewrite de_elements0 in A. apply ascends in A; [|now apply NoDup_rev]. destruct A.
  assert (forall x, reachable (f_children f) root x <-> In x new) as R.
  { intros x. split.
    - intros [n W]. revert x W. induction n as [|n IH]; intros x W; inversion W; subst.
      + destruct (proj1 (de_seen0 x) (de_queue0 x (or_introl eq_refl))) as [Y|[]]. exact Y.
      + match goal with K : walk _ n root ?y, I : In x (f_children f ?y) |- _ => destruct (proj1 (de_seen0 x) (de_closed0 y (IH y K) x I)) as [Y|[]]; exact Y end.
    - intros I. destruct (de_reach0 x I) as (y & [<-|[]] & W). exact W. }
  assert (forall x, In x (rev new) <-> In x new) as Rv by (intros x; symmetry; apply in_rev).
  assert (Lf : forall d u, final (mark d) u = negb (good d) || good u) by now intros [[]|] u.
  assert (Vd : vs_valid st2 = true <-> forall x, In x new -> good (look f true x) = true /\ good (look f false x) = true).
  { rewrite as_valid0, de_valid0, andb_true_iff, !forallb_forall. split.
    - intros [G F] x I. split; [now apply G|]. specialize (F x (proj2 (Rv x) I)). destruct (de_new0 x I) as [_ E]. rewrite E, Lf, (G x I) in F. exact F.
    - intros G. split; [intros x I; now apply G|]. intros x I. apply Rv in I. destruct (de_new0 x I) as [_ ->]. rewrite Lf. destruct (G x I) as [_ ->]. apply orb_true_r. }
  assert (Dec : forall x, In x new \/ ~ In x new) by (intros x; destruct (in_dec Nat.eq_dec x new); auto).
  constructor.
  - intros x X. apply R in X. split; [auto|]. apply as_sound0. now apply Rv.
  - intros x X. apply R in X. destruct (as_new0 x (proj2 (Rv x) X)) as [-> ->]. destruct (de_new0 x X) as [-> ->]. now rewrite added_app.
  - intros x X. assert (~ In x new) as Y by (intros I; apply X; now apply R). destruct (as_old0 x) as [-> ->]; [intros I; now apply Rv in I|]. now apply de_old0.
  - rewrite Vd. split; intros H x X; apply H; now apply R.
  - intros x. destruct (Dec x) as [I|I]; [left|right]; [now apply R|intros X; apply I; now apply R].
  - intros Bf. rewrite Bf in Vd. destruct (existsb (fun x => negb (good (look f true x) && good (look f false x))) new) eqn:Ex.
    + apply existsb_exists in Ex as (x & I & E). exists x. split; [now apply R|]. destruct (look f true x) as [[]|], (look f false x) as [[]|]; cbn in E; try discriminate; auto.
    + exfalso. enough (false = true) by discriminate. apply Vd. intros x I. destruct (good (look f true x) && good (look f false x)) eqn:E; [now apply andb_true_iff in E|].
      enough (existsb (fun x => negb (good (look f true x) && good (look f false x))) new = true) by congruence. apply existsb_exists. exists x. now rewrite E.
Qed.

Theorem report_form f fuel errors V root s' V' b : validate_form f fuel errors V root = (s', V', Ok b) ->
  (forall x, reachable (f_children f) root x -> exists d md u mu, passes f true x d md /\ passes f false x u mu /\ noted (errors x) (md ++ mu) (s' x) /\ settles d u (V' x))
  /\ (forall x, ~ reachable (f_children f) root x -> s' x = errors x /\ V' x = V x)
  /\ (b = true <-> forall x d md u mu, reachable (f_children f) root x -> passes f true x d md -> passes f false x u mu -> fine d /\ fine u).
Proof.
  intros H. destruct (reports _ _ _ _ _ _ _ _ H). split; [|split; [exact re_out0|]].
  - intros x X. destruct (re_sound0 x X) as [S1 S2]. apply sound_passes in S1, S2. exists (look f true x), (words f true x), (look f false x), (words f false x).
    split; [exact S1|]. split; [exact S2|]. destruct (re_in0 x X) as [-> ->]. split; [apply noted_added|apply settles_mark].
  - rewrite re_verdict0. split.
    + intros G x d md u mu X D U. apply passes_iff in D, U. specialize (G x X). unfold look in G. rewrite D, U in G. now rewrite <- !good_fine.
    + intros G x X. destruct (re_sound0 x X) as [S1 S2]. apply sound_passes in S1, S2. rewrite !good_fine. exact (G x _ _ _ _ X S1 S2).
Qed.
Lemma passes_fun f down x o ms o' ms' : passes f down x o ms -> passes f down x o' ms' -> o = o' /\ ms = ms'.
Proof. intros A B. apply passes_iff in A, B. rewrite A in B. injection B as <- <-. easy. Qed.
(* a failure, seen from outside *)
Theorem report_bad f fuel errors V root s' V' : validate_form f fuel errors V root = (s', V', Ok false) ->
  exists x down ms, reachable (f_children f) root x /\ passes f down x (Some false) ms /\ V' x = Invalid /\ incl ms (s' x).
Proof.
  intros H. destruct (reports _ _ _ _ _ _ _ _ H). destruct (re_bad0 eq_refl) as (x & X & B). exists x. destruct (re_sound0 x X) as [S1 S2]. destruct (re_in0 x X) as [-> ->].
  destruct B as [B|B].
  - exists true, (words f true x). apply sound_passes in S1. rewrite B in *. repeat split; try easy. intros m M. apply added_all, in_or_app. now left.
  - exists false, (words f false x). apply sound_passes in S2. rewrite B in *. split; [exact X|]. split; [exact S2|]. split; [now destruct (look f true x) as [[]|]|]. intros m M. apply added_all, in_or_app. now right.
Qed.
Lemma chain_true el rs b ms : chain el rs b ms -> b = true -> ms = [].
Proof. induction 1; easy. Qed.
Lemma words_good f down x : sound f down x -> good (look f down x) = true -> words f down x = [].
Proof.
  intros S G. apply sound_passes in S. revert S G. generalize (look f down x) (words f down x). intros o ms P G. destruct P as [| | | |rs b ms E N M C]; try reflexivity.
  destruct b; [|discriminate]. now apply (chain_true x rs true).
Qed.
(* a form that passes says nothing *)
Theorem report_good f fuel errors V root s' V' : validate_form f fuel errors V root = (s', V', Ok true) ->
  (forall x, s' x = errors x) /\ forall x, reachable (f_children f) root x -> V' x <> Invalid.
Proof.
  intros H. destruct (reports _ _ _ _ _ _ _ _ H). pose proof (proj1 re_verdict0 eq_refl) as G. split.
  - intros x. destruct (re_decides0 x) as [X|X]; [|now apply re_out0]. destruct (re_in0 x X) as [-> _], (re_sound0 x X) as [S1 S2], (G x X) as [G1 G2].
    now rewrite (words_good f true x S1 G1), (words_good f false x S2 G2).
  - intros x X. destruct (re_in0 x X) as [_ ->], (G x X) as [G1 G2]. now destruct (look f true x) as [[]|], (look f false x) as [[]|].
Qed.
(* ---- the messages and markings there were before do not matter ---- *)
Lemma descend_blind f : forall fuel q (st1 st2 : vstate messages rule), vs_seen st1 = vs_seen st2 -> vs_elements st1 = vs_elements st2 ->
  snd (descend_r (form_rworld f) fuel q st1) = snd (descend_r (form_rworld f) fuel q st2)
  /\ vs_elements (fst (descend_r (form_rworld f) fuel q st1)) = vs_elements (fst (descend_r (form_rworld f) fuel q st2)).
Proof.
  induction fuel as [|fuel IH]; intros q st1 st2 E1 E2; (destruct q as [|el q]; [easy|]); [easy|]. cbn [descend_r]. rewrite <- E1, <- E2.
  destruct (memb Nat.eqb el (vs_seen st1)); [now apply IH|]. destruct (pass_runs f true (vs_V st1) (vs_s st1) el) as (a & ea & -> & _), (pass_runs f true (vs_V st2) (vs_s st2) el) as (c & ec & -> & _).
  destruct (passes_of f true el) as [[o ms]|e]; cbn [rmap fst]; [|easy].
  assert (forall v o, exists v', (match out o with OUneval => Ok v | _ => and_valid v (out o) end) = Ok v') as K by (intros [] [[]|]; eexists; reflexivity).
  destruct (K (vs_valid st1) o) as [v1 ->], (K (vs_valid st2) o) as [v2 ->]. destruct o as [[]|]; cbn [out]; now apply IH.
Qed.
Lemma ascend_blind f : forall els (st1 st2 : vstate messages rule), snd (ascend_r (form_rworld f) els st1) = snd (ascend_r (form_rworld f) els st2).
Proof.
  induction els as [|el els IH]; intros st1 st2; [reflexivity|]. cbn [ascend_r]. destruct (pass_runs f false (vs_V st1) (vs_s st1) el) as (a & ea & -> & _), (pass_runs f false (vs_V st2) (vs_s st2) el) as (c & ec & -> & _).
  destruct (passes_of f false el) as [[o ms]|e]; cbn [rmap fst]; [|easy]. cbv zeta. unfold and_valid.
  destruct o as [[]|]; cbn [out o_bool]; try apply IH; destruct (v_bool (vs_V st1 el)), (v_bool (vs_V st2 el)), (vs_valid st1), (vs_valid st2); apply IH.
Qed.
Theorem report_blind f fuel errors V errors2 V2 root : snd (validate_form f fuel errors V root) = snd (validate_form f fuel errors2 V2 root).
Proof.
  assert (forall e, snd (validate_form f fuel errors V root) = Err e <-> snd (validate_form f fuel errors2 V2 root) = Err e) as A.
  { unfold validate_form, validate_r.
    destruct (descend_blind f fuel [root] (VState errors V true [] [] []) (VState errors2 V2 true [] [] []) eq_refl eq_refl) as [E F].
    destruct (descend_r (form_rworld f) fuel [root] (VState errors V true [] [] [])) as [st1 o1], (descend_r (form_rworld f) fuel [root] (VState errors2 V2 true [] [] [])) as [st2 o2].
    cbn [fst snd] in *. subst o2. destruct o1 as [x|]; [easy|]. rewrite F. pose proof (ascend_blind f (rev (vs_elements st2)) st1 st2) as G.
    destruct (ascend_r _ _ st1) as [u1 p1], (ascend_r _ _ st2) as [u2 p2]. cbn [snd] in G. subst p2. destruct p1; easy. }
  destruct (validate_form f fuel errors V root) as [[s1 V1] [b1|e1]] eqn:E1, (validate_form f fuel errors2 V2 root) as [[s2 V2'] [b2|e2]] eqn:E2; cbn [snd] in *.
  - apply reports in E1, E2. destruct E1, E2. f_equal. destruct b1, b2; try reflexivity; [symmetry; apply re_verdict1, re_verdict0|apply re_verdict0, re_verdict1]; reflexivity.
  - now destruct (proj2 (A e2) eq_refl).
  - now destruct (proj1 (A e1) eq_refl).
  - now apply A.
Qed.
Theorem report_again f fuel errors V root s' V' b : validate_form f fuel errors V root = (s', V', Ok b) ->
  exists s2 V2, validate_form f fuel s' V' root = (s2, V2, Ok b) /\ forall x, s2 x = s' x /\ V2 x = V' x.
Proof.
  intros H. pose proof (report_blind f fuel errors V s' V' root) as B. rewrite H in B. destruct (validate_form f fuel s' V' root) as [[s2 V2] r] eqn:H2. cbn [snd] in B. subst r.
  exists s2, V2. split; [reflexivity|]. intros x. apply reports in H, H2. destruct H, H2. destruct (re_decides0 x) as [X|X]; [|now apply re_out1].
  destruct (re_in1 x X) as [-> ->], (re_in0 x X) as [-> ->]. split; [apply added_again|reflexivity].
Qed.
(* ---- exceptions ---- *)
Lemma says_err r el e : says_of r el = Err e -> trips r el e.
Proof.
  unfold says_of. destruct (ru_verdict r el) as [[|key info|]|e1] eqn:E; cbn [bind]; try discriminate; [|intros [= <-]; now apply tr_verdict].
  destruct (getattr (ru_self r) key) as [a|e1] eqn:G; cbn [bind]; [|intros [= <-]; now apply (tr_missing r el e1 key info)]. destruct (attr_truth a) eqn:T; [|discriminate].
  destruct (expand_message _ _ _ _) as [m|e1] eqn:X; cbn; [discriminate|]. intros [= <-]. now apply (tr_message r el e1 key info a).
Qed.
Lemma chain_err el e : forall rs, chain_of rs el = Err e -> exists before r after, rs = before ++ r :: after /\ Forall (fun r => says r el true []) before /\ trips r el e.
Proof.
  induction rs as [|r rs IH]; cbn [chain_of]; [discriminate|]. destruct (says_of r el) as [[b l]|e1] eqn:S; cbn [bind fst].
  - destruct b; [|discriminate]. intros H. destruct (IH H) as (p & q & a & -> & F & T). exists (r :: p), q, a. split; [reflexivity|]. split; [|exact T].
    constructor; [|exact F]. rewrite (says_true r el l S) in S. now apply says_iff.
  - intros [= ->]. exists [], r, rs. split; [reflexivity|]. split; [constructor|now apply says_err].
Qed.
Lemma passes_err f down el e : passes_of f down el = Err e -> exists rs before r after, (if down then f_down f el else f_up f el) = Some rs /\ rs = before ++ r :: after
  /\ Forall (fun r => says r el true []) before /\ trips r el e.
Proof.
  unfold passes_of. destruct (if down then f_down f el else f_up f el) as [rs|]; [|discriminate]. destruct (down && f_container f el && _); [discriminate|].
  destruct (f_is_empty f el && f_optional f el); [discriminate|]. destruct rs as [|r rs]; [discriminate|]. destruct (chain_of (r :: rs) el) as [x|e1] eqn:C; [discriminate|]. intros [= ->].
  destruct (chain_err el e _ C) as (p & q & a & E & F). now exists (r :: rs), p, q, a.
Qed.
Lemma descend_err f e root : forall fuel q st st', (forall x, In x q -> reachable (f_children f) root x) -> descend_r (form_rworld f) fuel q st = (st', Some e) ->
  e = OutOfFuel \/ exists x, reachable (f_children f) root x /\ passes_of f true x = Err e.
Proof.
  induction fuel as [|fuel IH]; intros q st st' Q H; (destruct q as [|el q]; [discriminate|]); [left; now injection H|].
  cbn [descend_r] in H. assert (forall x, In x q -> reachable (f_children f) root x) as Q' by (intros x X; apply Q; now right). destruct (memb Nat.eqb el (vs_seen st)); [now apply IH in H|].
  destruct (pass_runs f true (vs_V st) (vs_s st) el) as (a & ea & R & _). rewrite R in H. clear R.
  destruct (passes_of f true el) as [[o ms]|e1] eqn:P; cbn [rmap fst] in H.
  - assert (forall v, exists v', (match out o with OUneval => Ok v | _ => and_valid v (out o) end) = Ok v') as K by (intros []; destruct o as [[]|]; eexists; reflexivity).
    destruct (K (vs_valid st)) as [v1 E]. rewrite E in H. assert (forall x, In x (q ++ f_children f el) -> reachable (f_children f) root x) as Q2.
    { intros x X. apply in_app_or in X as [X|X]; [auto|]. apply (reach_back _ _ el); [apply Q; now left|exact X]. }
    destruct o as [[]|]; cbn [out] in H; apply IH in H; assumption.
  - injection H as _ ->. right. exists el. split; [apply Q; now left|exact P].
Qed.
Lemma ascend_err f e : forall els st st', ascend_r (form_rworld f) els st = (st', Some e) -> exists x, In x els /\ passes_of f false x = Err e.
Proof.
  induction els as [|el els IH]; intros st st' H; [discriminate|]. cbn [ascend_r] in H. destruct (pass_runs f false (vs_V st) (vs_s st) el) as (a & ea & R & _). rewrite R in H. clear R.
  destruct (passes_of f false el) as [[o ms]|e1] eqn:P; cbn [rmap fst] in H.
  - enough (exists x, In x els /\ passes_of f false x = Err e) as (x & I & E) by (exists x; split; [now right|exact E]). cbv zeta in H. unfold and_valid in H.
    destruct o as [[]|]; cbn [out o_bool] in H; try (now apply IH in H); destruct (v_bool (vs_V st el)), (vs_valid st); now apply IH in H.
  - injection H as _ ->. exists el. split; [now left|exact P].
Qed.
Theorem report_raises f fuel errors V root s' V' e : validate_form f fuel errors V root = (s', V', Err e) ->
  e = OutOfFuel \/ exists x (down : bool) rs before r after, reachable (f_children f) root x /\ (if down then f_down f x else f_up f x) = Some rs /\ rs = before ++ r :: after
    /\ Forall (fun r => says r x true []) before /\ trips r x e.
Proof.
  unfold validate_form, validate_r. destruct (descend_r (form_rworld f) fuel [root] _) as [st1 [e1|]] eqn:D.
  - intros [= _ _ ->]. apply (descend_err f e root) in D as [|(x & X & P)]; [now left| |intros x [<-|[]]; exists 0; constructor]. right. exists x, true.
    destruct (passes_err _ _ _ _ P) as (rs & p & r & a & E). now exists rs, p, r, a.
  - destruct (ascend_r (form_rworld f) (rev (vs_elements st1)) st1) as [st2 [e2|]] eqn:A; [|discriminate]. intros [= _ _ ->]. right. apply ascend_err in A as (x & X & P). exists x, false.
    destruct (passes_err _ _ _ _ P) as (rs & p & r & a & E). exists rs, p, r, a. split; [|exact E]. apply descends in D as [new D]. destruct D. rewrite de_elements0 in X. cbn [vs_elements app] in X.
    apply in_rev in X. destruct (de_reach0 x X) as (y & [<-|[]] & W). exact W.
Qed.
(* ---- recurse=False ---- *)
Theorem report_alone f errors V el s' V' v : validate_alone f errors V el = (s', V', Ok v) ->
  exists d md u mu, passes f true el d md /\ passes f false el u mu /\ noted (errors el) (md ++ mu) (s' el) /\ last_word d u v /\ V' el = v
    /\ forall x, x <> el -> s' x = errors x /\ V' x = V x.
Proof.
  unfold validate_alone, validate_flat_r. destruct (pass_runs f true V errors el) as (s1 & e1 & -> & T1). destruct (passes_of f true el) as [[d md]|e] eqn:P1; cbn [rmap fst]; [|discriminate].
  match goal with |- context [validate_pass_r _ false s1 ?W el] => destruct (pass_runs f false W s1 el) as (s2 & e2 & -> & T2) end.
  destruct (passes_of f false el) as [[u mu]|e] eqn:P2; cbn [rmap fst]; [|discriminate]. intros [= <- <- <-]. exists d, md, u, mu. apply passes_iff in P1, P2.
  split; [exact P1|]. split; [exact P2|]. split; [rewrite T2, Nat.eqb_refl, T1, Nat.eqb_refl, <- added_app; apply noted_added|]. split; [|split; [reflexivity|]].
  - destruct u as [[]|], d as [[]|]; cbn [out]; unfold upd; rewrite !Nat.eqb_refl; constructor.
  - intros x X. apply Nat.eqb_neq in X. rewrite T2, X, T1, X. split; [reflexivity|]. destruct u as [[]|]; cbn [out]; unfold upd; now rewrite X.
Qed.
(* ---- the end ---- *)
Lemma descend_ends f U : (forall x, In x U -> incl (f_children f x) U) -> forall n q (st : vstate messages rule), unseen U (vs_seen st) <= n -> incl q U ->
  exists F st' o, (forall fuel, F <= fuel -> descend_r (form_rworld f) fuel q st = (st', o))
    /\ (forall e, o = Some e -> exists x, In x U /\ passes_of f true x = Err e) /\ (incl (vs_elements st) U -> incl (vs_elements st') U).
Proof.
  intros Cl. induction n as [n IHn] using lt_wf_ind. induction q as [|el q IHq]; intros st Hn Hq.
  - exists 0, st, None. repeat split; try easy. now intros [].
  - assert (In el U) as Hel by (apply Hq; now left). assert (incl q U) as Hq' by (intros x Hx; apply Hq; now right). destruct (memb Nat.eqb el (vs_seen st)) eqn:M.
    + destruct (IHq st Hn Hq') as (F & st' & o & E & O). exists (S F), st', o. split; [|exact O]. intros [|fuel] L; [lia|]. cbn [descend_r]. rewrite M. apply E. lia.
    + assert (~ In el (vs_seen st)) as Fr by (intros I; apply memb_id in I; congruence). pose proof (unseen_cons U _ _ Fr Hel) as Lt.
      destruct (pass_runs f true (vs_V st) (vs_s st) el) as (s1 & ev & R & _). destruct (passes_of f true el) as [[o ms]|e] eqn:P.
      * assert (exists v', (match out o with OUneval => Ok (vs_valid st) | _ => and_valid (vs_valid st) (out o) end) = Ok v') as [v1 K] by (destruct (vs_valid st), o as [[]|]; eexists; reflexivity).
        destruct (IHn _ (Nat.lt_le_trans _ _ _ Lt Hn) (q ++ f_children f el)
          (VState s1 (upd (vs_V st) el (match out o with OUneval => Uneval | _ => of_bool (o_bool (out o)) end)) v1 (vs_elements st ++ [el]) (el :: vs_seen st)
             ((vs_trace st ++ ev ++ [EEval el true (out o)]) ++ [EKids el (f_children f el)])) (le_n _)) as (F & st' & o' & E & O & I).
        { intros x X. apply in_app_or in X as [X|X]; [auto|]. exact (Cl el Hel x X). }
        exists (S F), st', o'. split; [|split; [exact O|]].
        -- intros [|fuel] L; [lia|]. cbn [descend_r]. rewrite M, R. cbn [rmap fst]. rewrite K. rewrite <- (E fuel) by lia. destruct o as [[]|]; reflexivity.
        -- intros J. apply I. cbn [vs_elements]. intros x X. apply in_app_or in X as [X|[<-|[]]]; auto.
      * eexists 1, _, (Some e). split; [|split].
        -- intros [|fuel] L; [lia|]. cbn [descend_r]. rewrite M, R. cbn [rmap]. reflexivity.
        -- intros e1 [= <-]. now exists el.
        -- cbn [vs_elements]. intros J x X. apply in_app_or in X as [X|[<-|[]]]; auto.
Qed.
Lemma report_stops f (U : list id) errors V root : In root U -> (forall x, In x U -> incl (f_children f x) U) ->
  exists F s' V' r, (forall fuel, F <= fuel -> validate_form f fuel errors V root = (s', V', r))
    /\ forall e, r = Err e -> exists x (down : bool), In x U /\ passes_of f down x = Err e.
Proof.
  intros R Cl. destruct (descend_ends f U Cl _ [root] (VState errors V true [] [] []) (le_n _)) as (F & st1 & o & E & O & I); [intros x [<-|[]]; exact R|].
  exists F. destruct o as [e|].
  - exists (vs_s st1), (vs_V st1), (Err e). split; [intros fuel L; unfold validate_form, validate_r; now rewrite E|]. intros e1 [= <-]. destruct (O e eq_refl) as (x & X & P). now exists x, true.
  - destruct (ascend_r (form_rworld f) (rev (vs_elements st1)) st1) as [st2 o] eqn:A. exists (vs_s st2), (vs_V st2), (match o with Some e => Err e | None => Ok (vs_valid st2) end).
    split; [intros fuel L; unfold validate_form, validate_r; rewrite E, A by exact L; now destruct o|]. destruct o as [e|]; [|discriminate]. intros e1 [= <-].
    apply ascend_err in A as (x & X & P). apply in_rev in X. exists x, false. split; [|exact P]. apply I; [easy|exact X].
Qed.
Theorem report_ends f (U : list id) errors V root : In root U -> (forall x, In x U -> incl (f_children f x) U) ->
  exists F s' V' r, (forall fuel, F <= fuel -> validate_form f fuel errors V root = (s', V', r))
    /\ forall e, r = Err e -> exists x (down : bool) before q after, In x U /\ (if down then f_down f x else f_up f x) = Some (before ++ q :: after)
         /\ Forall (fun r => says r x true []) before /\ trips q x e.
Proof.
  intros R Cl. destruct (report_stops f U errors V root R Cl) as (F & s' & V' & r & H & O). exists F, s', V', r. split; [exact H|]. intros e Q. destruct (O e Q) as (x & down & X & P).
  destruct (passes_err _ _ _ _ P) as (rs & p & q & a & S & -> & B & T). now exists x, down, p, q, a.
Qed.
