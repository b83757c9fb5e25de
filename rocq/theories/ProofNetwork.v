(* Proofs about addresses, URLs and card numbers. *)
From Verif Require ProofFlat3.
From Verif Require Import PyBase PyBaseFacts ModelUtil SpecUtil ProofUtil ModelScalar SpecScalar ProofScalar ProofScalar2 ProofScalar3
  ModelMessage SpecMessage ProofMessage ModelValidators SpecValidators ProofValidators ProofValidators2 ModelNetwork SpecNetwork.

(* ---- email addresses ---- *)
Lemma cut_iff c s l : split [c] s = l <-> cut c s l.
Proof.
  split.
  - intros <-. split; [apply split_nonempty|]. split; [apply split_pieces_nosep|]. symmetry. now apply join_split.
  - intros (N0 & F & ->). now apply split_join1.
Qed.
Lemma cut_fun c s l l' : cut c s l -> cut c s l' -> l = l'.
Proof. rewrite <- !cut_iff. congruence. Qed.
Lemma is_ascii_iff s : is_ascii s = true <-> ascii s.
Proof. unfold is_ascii, ascii. rewrite forallb_forall, Forall_forall. split; intros H x I; specialize (H x I); lia. Qed.
Lemma last_pieces {A} (l : list A) d : l <> [] -> l = removelast l ++ [last l d].
Proof. apply app_removelast_last. Qed.
Lemma idna_iff to_ascii d : (forall s e, to_ascii s = Err e -> e = ValueErr) ->
  (exists h, idna to_ascii d = Ok h /\ ascii_name to_ascii d h) \/ (idna to_ascii d = Err ValueErr /\ forall h, ~ ascii_name to_ascii d h).
Proof.
  intros T. assert (E : idna to_ascii d =
    if is_ascii d then
      let labels := split (lit ".") d in
      if forallb (fun l => (0 <? List.length l) && (List.length l <? 64))%nat (removelast labels)
           && (List.length (last labels []) <? 64)%nat
        then Ok d else Err ValueErr
    else bind (to_ascii d) (fun t => if is_ascii t then Ok t else Err ValueErr)) by (destruct d; reflexivity).
  rewrite E. clear E. destruct (is_ascii d) eqn:A; cbn zeta.
  - apply is_ascii_iff in A. assert (C : cut (ch ".") d (split (lit ".") d)) by now apply cut_iff.
    pose proof (last_pieces (split (lit ".") d) [] ltac:(apply split_nonempty)) as L.
    match goal with |- context [if ?b then Ok d else _] => destruct b eqn:F end.
    + left. exists d. split; [easy|]. apply andb_prop in F as (F & G). rewrite L in C. apply (an_ascii _ _ _ _ A C).
      * rewrite forallb_forall in F. apply Forall_forall. intros x I. specialize (F x I). lia.
      * lia.
    + right. split; [easy|]. intros h [ls l _ C2 F1 F2|h' NA _ _]; [|easy].
      assert (split (lit ".") d = ls ++ [l]) as X by now apply cut_iff.
      rewrite X, removelast_last, last_last in F. apply andb_false_iff in F as [F|F]; [|lia].
      assert (forallb (fun l => (0 <? List.length l) && (List.length l <? 64))%nat ls = true) as Y; [|congruence].
      apply forallb_forall. intros x I. rewrite Forall_forall in F1. specialize (F1 x I). lia.
  - assert (NA : ~ ascii d) by (intros X; apply is_ascii_iff in X; congruence).
    destruct (to_ascii d) as [h|e] eqn:E; cbn [bind].
    + destruct (is_ascii h) eqn:B.
      * left. exists h. split; [easy|]. apply an_other; [easy|easy|now apply is_ascii_iff].
      * right. split; [easy|]. intros h' [ls l X|h'' _ E' X]; [easy|]. rewrite E in E'. injection E' as <-.
        apply is_ascii_iff in X. congruence.
    + right. rewrite (T _ _ E). split; [easy|]. intros h' [ls l X|h'' _ E' X]; [easy|]. congruence.
Qed.
Lemma ascii_name_fun to_ascii d h h' : ascii_name to_ascii d h -> ascii_name to_ascii d h' -> h = h'.
Proof. intros [ls l A _ _ _|x A E _] [ls' l' B _ _ _|x' B E' _]; try easy. congruence. Qed.
Lemma space_iff s : str_eqb s [] || is_space_str s = false <-> exists c, In c s /\ is_space c = false.
Proof.
  unfold is_space_str. destruct s as [|a s]; cbn [str_eqb orb negb andb]; [split; [easy|now intros (c & [] & _)]|].
  split.
  - intros H. assert (G : forall l, forallb is_space l = false -> exists c, In c l /\ is_space c = false).
    { induction l as [|x l IH]; [easy|]. cbn [forallb]. intros K. destruct (is_space x) eqn:E; [|exists x; split; [now left|easy]].
      destruct (IH K) as (c & I & J). exists c. split; [now right|easy]. }
    now apply G.
  - intros (c & I & E). destruct (forallb is_space (a :: s)) eqn:F; [|easy]. rewrite forallb_forall in F. rewrite (F c I) in E. discriminate.
Qed.
Lemma at_split u : (exists l d, split (lit "@") u = [l; d] /\ u = l ++ ch "@" :: d /\ ~ In (ch "@") l /\ ~ In (ch "@") d)
  \/ ((forall l d, split (lit "@") u <> [l; d]) /\ forall l d, u = l ++ ch "@" :: d -> In (ch "@") l \/ In (ch "@") d).
Proof.
  assert (C : cut (ch "@") u (split (lit "@") u)) by now apply cut_iff.
  assert (G : forall l d, split (lit "@") u = [l; d] <-> u = l ++ ch "@" :: d /\ ~ In (ch "@") l /\ ~ In (ch "@") d).
  { intros l d. change (lit "@") with [ch "@"]. rewrite cut_iff. unfold cut. split.
    - intros (_ & F & ->). inversion F as [|? ? F1 F2]; subst. inversion F2; subst. easy.
    - intros (-> & A & B). split; [easy|]. split; [repeat constructor; easy|easy]. }
  destruct (split (lit "@") u) as [|l [|d [|x r]]] eqn:E.
  - right. split; [easy|]. intros l d X. destruct (in_dec N.eq_dec (ch "@") l); [now left|].
    destruct (in_dec N.eq_dec (ch "@") d); [now right|]. assert ([] = [l; d]) by now apply G. discriminate.
  - right. split; [easy|]. intros l' d X. destruct (in_dec N.eq_dec (ch "@") l'); [now left|].
    destruct (in_dec N.eq_dec (ch "@") d); [now right|]. assert ([l] = [l'; d]) by now apply G. discriminate.
  - left. exists l, d. split; [easy|]. now apply G.
  - right. split; [easy|]. intros l' d' X. destruct (in_dec N.eq_dec (ch "@") l'); [now left|].
    destruct (in_dec N.eq_dec (ch "@") d'); [now right|]. assert (l :: d :: x :: r = [l'; d']) by now apply G. discriminate.
Qed.
Lemma single_piece s : (List.length (split (lit ".") s) =? 1)%nat = true <-> ~ In (ch ".") s.
Proof.
  destruct (split (lit ".") s) as [|a [|b l]] eqn:E.
  - now apply split_nonempty in E.
  - split; [|easy]. intros _. change (lit ".") with [ch "."] in E. apply cut_iff in E as (_ & F & ->). now inversion F.
  - split; [easy|]. intros H. change (lit ".") with [ch "."] in E. apply cut_iff in E as (_ & F & ->). elim H. rewrite join_cons by easy. apply in_or_app. right. now left.
Qed.
Lemma email_iff to_ascii local_ok dom_ok self nl u (local domain : str -> Prop) :
  (forall s e, to_ascii s = Err e -> e = ValueErr) ->
  (forall s, local s <-> (forall f, local_ok = Some f -> f s = true)) -> (forall s, domain s <-> dom_ok s = true) ->
  getattr self (lit "non_local") = Ok nl ->
  exists b : bool, email to_ascii local_ok dom_ok self u = Ok (if b then Pass else Fail (lit "invalid") [])
  /\ (b = true <-> address to_ascii local domain (attr_truth nl) u).
Proof.
  intros T HL HD G. unfold email.
  destruct (at_split u) as [(l & d & E & U & Al & Ad)|(E & U)].
  2:{ exists false. split.
      - destruct (split (lit "@") u) as [|a [|b [|c r]]]; try easy. now elim (E a b).
      - split; [easy|]. intros (l & d & h & X & A & B & _). now destruct (U l d X). }
  rewrite E.
  assert (Uq : forall l' d', u = l' ++ ch "@" :: d' -> ~ In (ch "@") l' -> ~ In (ch "@") d' -> l' = l /\ d' = d).
  { intros l' d' X A B. assert (split (lit "@") u = [l'; d']) as Y.
    { apply cut_iff. split; [easy|]. split; [repeat constructor; easy|exact X]. }
    rewrite E in Y. now injection Y as <- <-. }
  assert (No : forall P : Prop, (address to_ascii local domain (attr_truth nl) u -> P) -> ~ P ->
             exists b : bool, fails "invalid" = Ok (if b then Pass else Fail (lit "invalid") [])
             /\ (b = true <-> address to_ascii local domain (attr_truth nl) u)).
  { intros P X Y. exists false. split; [reflexivity|]. split; [easy|]. intros Z. now elim Y; apply X. }
  destruct (str_eqb l [] || is_space_str l) eqn:S.
  { apply (No (exists c, In c l /\ is_space c = false)).
    - intros (l' & d' & h & X & A & B & K & _). destruct (Uq _ _ X A B) as (-> & ->). exact K.
    - intros K. apply space_iff in K. congruence. }
  apply space_iff in S.
  destruct (match local_ok with Some f => negb (f l) | None => false end) eqn:Lk.
  { apply (No (local l)).
    - intros (l' & d' & h & X & A & B & _ & K & _). destruct (Uq _ _ X A B) as (-> & ->). exact K.
    - intros K. destruct local_ok as [f|]; [|easy]. rewrite HL in K. rewrite (K f eq_refl) in Lk. discriminate. }
  assert (Lo : local l).
  { apply HL. intros f ->. now destruct (f l). }
  destruct (idna_iff to_ascii d T) as [(h & I & A)|(I & A)]; rewrite I.
  2:{ apply (No (exists h, ascii_name to_ascii d h)).
      - intros (l' & d' & h & X & B & C & _ & _ & K & _). destruct (Uq _ _ X B C) as (-> & ->). now exists h.
      - intros (h & K). now elim (A h). }
  assert (Hh : forall P : str -> Prop, (address to_ascii local domain (attr_truth nl) u ->
      exists h', ascii_name to_ascii d h' /\ P h') -> ~ P h -> exists b : bool, fails "invalid" = Ok (if b then Pass else Fail (lit "invalid") [])
             /\ (b = true <-> address to_ascii local domain (attr_truth nl) u)).
  { intros P X Y. apply (No (P h)); [|easy]. intros Z. destruct (X Z) as (h' & B & C). now rewrite (ascii_name_fun _ _ _ _ A B). }
  destruct (253 <? List.length h)%nat eqn:L.
  { apply (Hh (fun h => List.length h <= 253)%nat); [|lia].
    intros (l' & d' & h' & X & B & C & _ & _ & K & Q & _). destruct (Uq _ _ X B C) as (-> & ->). now exists h'. }
  destruct (dom_ok h) eqn:D; cbn [negb].
  2:{ apply (Hh domain); [|rewrite HD; congruence].
      intros (l' & d' & h' & X & B & C & _ & _ & K & _ & Q & _). destruct (Uq _ _ X B C) as (-> & ->). now exists h'. }
  rewrite G. cbn [bind]. destruct ((List.length (split (lit ".") h) =? 1)%nat && attr_truth nl) eqn:W.
  { apply andb_prop in W as (W1 & W2). apply single_piece in W1. apply (Hh (fun h => In (ch ".") h)); [|easy].
    intros (l' & d' & h' & X & B & C & _ & _ & K & _ & _ & Q & _). destruct (Uq _ _ X B C) as (-> & ->). exists h'. split; [easy|now apply Q]. }
  destruct (forallb (fun l => List.length l <? 64)%nat (split (lit ".") h)) eqn:V; cbn [negb].
  - exists true. split; [easy|]. split; [|easy]. intros _. exists l, d, h. repeat (split; [easy|]). split; [lia|].
    split; [now apply HD|]. split.
    + intros Y. rewrite Y, andb_true_r in W. destruct (in_dec N.eq_dec (ch ".") h) as [Z|Z]; [easy|]. apply single_piece in Z. congruence.
    + intros ls C. apply cut_iff in C. change (split (lit ".") h = ls) in C. rewrite C in V. rewrite forallb_forall in V.
      apply Forall_forall. intros x Ix. specialize (V x Ix). lia.
  - apply (Hh (fun h => forall ls, cut (ch ".") h ls -> Forall (fun p => List.length p < 64)%nat ls)).
    + intros (l' & d' & h' & X & B & C & _ & _ & K & _ & _ & _ & Q). destruct (Uq _ _ X B C) as (-> & ->). now exists h'.
    + intros Z. specialize (Z (split (lit ".") h)). assert (cut (ch ".") h (split (lit ".") h)) as C by now apply cut_iff.
      specialize (Z C). assert (forallb (fun l => List.length l <? 64)%nat (split (lit ".") h) = true) as Y; [|congruence].
      apply forallb_forall. intros x Ix. rewrite Forall_forall in Z. specialize (Z x Ix). lia.
Qed.
Lemma name_char_iff c : domain_char c = true <-> name_char c.
Proof.
  unfold domain_char, name_char, ascii_digit.
  change (ch "a") with 97%N. change (ch "z") with 122%N. change (ch "A") with 65%N. change (ch "Z") with 90%N.
  change (ch "0") with 48%N. change (ch "9") with 57%N. lia.
Qed.
Lemma name_part_iff s : negb (str_eqb s []) && forallb domain_char s = true <-> name_part s.
Proof.
  unfold name_part. rewrite andb_true_iff, forallb_forall, Forall_forall. split.
  - intros (A & B). split; [now destruct s|]. intros x I. apply name_char_iff. auto.
  - intros (A & B). split; [now destruct s|]. intros x I. apply name_char_iff. auto.
Qed.
Lemma drop_newline_spec d : (exists s, d = s ++ [10%N] /\ drop_newline d = s) \/ ((forall s, d <> s ++ [10%N]) /\ drop_newline d = d).
Proof.
  unfold drop_newline. destruct (rev d) as [|c r] eqn:E.
  - right. split; [|easy]. intros s ->. now rewrite rev_app_distr in E.
  - assert (d = rev r ++ [c]) as -> by (rewrite <- (rev_involutive d), E; reflexivity).
    destruct (N.eqb_spec c 10) as [->|D].
    + left. now exists (rev r).
    + right. split; [|easy]. intros s X. apply app_inj_tail in X. now destruct X.
Qed.
Lemma name_no_dot s : name_part s -> ~ In (ch ".") s /\ ~ In 10%N s.
Proof.
  intros (_ & F). rewrite Forall_forall in F. split; intros I; specialize (F _ I); apply name_char_iff in F; discriminate.
Qed.
Lemma join_last_newline ls s : ls <> [] -> Forall name_part ls -> join (lit ".") ls <> s ++ [10%N].
Proof.
  intros N0 F E. assert (In 10%N (join (lit ".") ls)) as I by (rewrite E; apply in_or_app; right; now left).
  clear E N0. induction F as [|x l X F IH]; [easy|]. destruct l as [|y l].
  - cbn [join] in I. now apply name_no_dot in X as (_ & X).
  - rewrite join_cons in I by easy. apply in_app_or in I as [I|I]; [now apply name_no_dot in X as (_ & X)|].
    apply in_app_or in I as [[I|[]]|I]; [discriminate|]. now apply IH.
Qed.
Lemma domain_match_iff d : domain_match d = true <-> domain_form d.
Proof.
  unfold domain_match, domain_form. split.
  - intros H. assert (F : Forall name_part (split (lit ".") (drop_newline d))).
    { rewrite forallb_forall in H. apply Forall_forall. intros x I. apply name_part_iff. now apply H. }
    destruct (drop_newline_spec d) as [(s & -> & E)|(_ & E)]; rewrite E in *.
    + exists (split (lit ".") s), [10%N]. rewrite join_split by easy. repeat split; try easy; [apply split_nonempty|now right].
    + exists (split (lit ".") d), []. rewrite join_split, app_nil_r by easy. repeat split; try easy; [apply split_nonempty|now left].
  - intros (ls & nl & -> & N0 & F & Q).
    assert (E : drop_newline (join (lit ".") ls ++ nl) = join (lit ".") ls).
    { destruct Q as [-> | ->].
      - rewrite app_nil_r. destruct (drop_newline_spec (join (lit ".") ls)) as [(s & X & _)|(_ & X)]; [|easy].
        now apply join_last_newline in X.
      - destruct (drop_newline_spec (join (lit ".") ls ++ [10%N])) as [(s & X & Y)|(X & _)]; [|now elim (X (join (lit ".") ls))].
        apply app_inj_tail in X as (X & _). now rewrite Y. }
    rewrite E. change (lit ".") with [ch "."]. rewrite split_join1; [|easy|].
    + apply forallb_forall. intros x I. apply name_part_iff. rewrite Forall_forall in F. now apply F.
    + revert F. apply Forall_impl. intros s K. now apply name_no_dot.
Qed.
Lemma email_default to_ascii x label errors u : (forall s e, to_ascii s = Err e -> e = ValueErr) -> plain x label ->
  exists self, new_validator email_cls [] = Ok self
  /\ judged (report self x errors (email to_ascii None domain_match self u)) errors
       (address to_ascii (fun _ => True) domain_form true u) (label ++ lit " is not a valid email address.").
Proof.
  intros T P. eexists. split; [reflexivity|].
  destruct (email_iff to_ascii None domain_match email_cls (Plain (VBool true)) u (fun _ => True) domain_form T) as (b & E & I);
    [easy|intros s; symmetry; apply domain_match_iff|reflexivity|].
  apply (judged_intro _ x label errors b _ (lit "invalid") (lit "%(label)s is not a valid email address.") _ []);
    [exact E|exact I|exact P|reflexivity|easy|]. known [(lit "label", VText label)] P.
Qed.
