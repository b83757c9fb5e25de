(* The two front ends: transforms on settings that are alike, and the mapping of a
   template tag as that of a call. *)
From Verif Require Import PyBase PyBaseFacts ModelMarkup SpecMarkup ProofMarkup ProofMarkup2 ProofMarkup3 ProofMarkup4 ProofMarkup5.
From Verif Require Import ModelGenshi SpecGenshi SpecAgree ProofGenshi3 ProofGenshi4 ProofGenshi5 ProofGenshi6.
From Verif Require SpecForm ProofForm.
From Coq Require Import Permutation Sorted.
Import ProofForm(In_aset, In_adel).

(* ---------------- attributes stay texts ---------------- *)
Definition textual (p : str * mv) : Prop := wf_name (fst p) = true /\ exists t, snd p = MText t.
Definition texts (a : attrs) : Prop := NoDup (keys a) /\ Forall textual a.
Lemma texts_set k t a : wf_name (lit k) = true -> texts a -> texts (set k (MText t) a).
Proof.
  intros W [N F]. split; [now apply (NoDup_keys_aset _ str_eqb_eq)|]. rewrite Forall_forall in *.
  intros p [->|H]%In_aset; [|now apply F]. split; [exact W|now exists t].
Qed.
Lemma texts_del k a : texts a -> texts (del k a).
Proof.
  intros [N F]. split; [now apply (NoDup_keys_adel _ str_eqb_eq)|]. rewrite Forall_forall in *. intros p H%In_adel. now apply F.
Qed.
Lemma pop_texts key a ctx p f a1 : pop_toggle key a ctx = Ok (p, f, a1) -> texts a -> texts a1.
Proof.
  intros H T. assert (a1 = del key a) as ->; [|now apply texts_del].
  unfold pop_toggle in H. destruct (parse_trool (get_or key a MMaybe)); [now injection H as <- <- <-..|].
  destruct (setting key ctx); [|easy]. cbn [bind] in H. destruct (parse_trool a0); now injection H as <- <- <-.
Qed.
Ltac case_if H := match type of H with (if ?c then _ else _) = _ => destruct c end.
Ltac texting := repeat first [assumption | apply texts_set; [reflexivity|] | apply texts_del].
Lemma toggle_texts k b a : wf_name (lit k) = true -> texts a -> texts (toggle_attr k b a).
Proof. intros W T. destruct b; [now apply texts_set|now apply texts_del]. Qed.
Lemma name_texts tag a c ctx b a' c' : transform_name tag a c ctx b = Ok (a', c') -> texts a -> texts a'.
Proof.
  unfold transform_name. intros H T. destruct (pop_toggle _ _ _) as [[[p f] a1]|] eqn:E; [|easy]. apply pop_texts in E; [|exact T].
  cbn [bind] in H. destruct p; [destruct b as [el|]|]; [destruct (b_name el); [|destruct (_ || _)]|..]; injection H as <- <-; texting.
Qed.
Lemma value_texts tag a c ctx b a' c' : transform_value tag a c ctx b = Ok (a', c') -> texts a -> texts a'.
Proof.
  unfold transform_value. intros H T. destruct (pop_toggle _ _ _) as [[[p f] a1]|] eqn:E; [|easy]. apply pop_texts in E; [|exact T].
  cbn [bind] in H. destruct p; [destruct b as [el|]|]; [|injection H as <- <-; texting..].
  destruct (negb f && _); [injection H as <- <-; texting|].
  destruct (tag_is tag "input").
  { destruct (_ || _) eqn:R.
    - destruct (mv_is _ (lit "checkbox")).
      + destruct (get_or "value" a1 MNone); try (injection H as <- <-; apply toggle_texts; [reflexivity|texting]).
        destruct (b_kind el); injection H as <- <-; (apply toggle_texts; [reflexivity|texting]).
      + injection H as <- <-; apply toggle_texts; [reflexivity|texting].
    - clear R. case_if H; case_if H; injection H as <- <-; texting. }
  destruct (tag_is tag "option"); [injection H as <- <-; apply toggle_texts; [reflexivity|texting]|].
  destruct (tag_is tag "textarea").
  { destruct (_ || f); [|injection H as <- <-; texting]. destruct (markup_escape _); [|easy]. injection H as <- <-. texting. }
  destruct (_ || _); injection H as <- <-; texting.
Qed.
Lemma put_texts key tags f tag a c ctx b a' c' : wf_name (lit key) = true ->
  put_domid key tags f tag a c ctx b = Ok (a', c') -> texts a -> texts a'.
Proof.
  unfold put_domid. intros W H T. destruct (_ || _); [|injection H as <- <-; texting].
  destruct (raw_domid _ _ _); [|easy]. cbn [bind] in H. destruct (truth _) as [[]|]; [|injection H as <- <-; texting|easy].
  cbn [bind negb] in H. destruct (setting _ _); [|easy]. cbn [bind] in H. destruct (format_mv _ _); [|easy].
  injection H as <- <-. now apply texts_set.
Qed.
Lemma domid_texts tag a c ctx b a' c' : transform_domid tag a c ctx b = Ok (a', c') -> texts a -> texts a'.
Proof.
  unfold transform_domid. intros H T. destruct (pop_toggle _ _ _) as [[[p f] a1]|] eqn:E; [|easy]. apply pop_texts in E; [|exact T].
  cbn [bind] in H. destruct p; cbn [negb] in H; [now apply put_texts in H|injection H as <- <-; texting].
Qed.
Lemma for_texts tag a c ctx b a' c' : transform_for tag a c ctx b = Ok (a', c') -> texts a -> texts a'.
Proof.
  unfold transform_for. intros H T. destruct (pop_toggle _ _ _) as [[[p f] a1]|] eqn:E; [|easy]. apply pop_texts in E; [|exact T].
  cbn [bind] in H. destruct p; [destruct b|]; [now apply put_texts in H|injection H as <- <-; texting..].
Qed.
Lemma tabindex_texts tag a c ctx ctx' a' c' : transform_tabindex tag a c ctx = (ctx', Ok (a', c')) -> texts a -> texts a'.
Proof.
  unfold transform_tabindex. intros H T. destruct (pop_toggle _ _ _) as [[[p f] a1]|] eqn:E; [|easy]. apply pop_texts in E; [|exact T].
  destruct p; cbn [negb] in H; [|injection H as <- <- <-; texting]. destruct (setting _ _) as [tv|]; [|easy].
  destruct (int_of tv) as [[|z|z]|]; [injection H as <- <- <-; texting|..];
    (destruct (_ || _); [|injection H as <- <- <-; texting]); try easy; try (destruct (_ <? _)%Z); injection H as <- <- <-; texting.
Qed.


(* ---------------- contents ---------------- *)
Definition filled (b : option belement) (c c' : mv) : Prop :=
  c' = c \/ exists el s, b = Some el /\ c' = MHtml s /\ markup_escape (MText (b_u el)) = Ok s.
Lemma name_filled tag a c ctx b a' c' : transform_name tag a c ctx b = Ok (a', c') -> c' = c.
Proof.
  unfold transform_name. intros H. destruct (pop_toggle _ _ _) as [[[p f] a1]|] eqn:E; [|easy].
  cbn [bind] in H. destruct p; [destruct b as [el|]|]; [destruct (b_name el); [|destruct (_ || _)]|..]; now injection H as <- <-.
Qed.
Lemma value_filled tag a c ctx b a' c' : transform_value tag a c ctx b = Ok (a', c') -> filled b c c'.
Proof.
  unfold transform_value. intros H. destruct (pop_toggle _ _ _) as [[[p f] a1]|] eqn:E; [|easy].
  cbn [bind] in H. destruct p; [destruct b as [el|]|]; [|left; now injection H as <- <-..].
  destruct (negb f && _); [left; now injection H as <- <-|].
  destruct (tag_is tag "input").
  { destruct (_ || _).
    { destruct (mv_is _ (lit "checkbox")); [destruct (get_or "value" a1 MNone); destruct (b_kind el)|]; left; now injection H as <- <-. }
    destruct (_ || _); [destruct f|destruct (_ || _)]; left; now injection H as <- <-. }
  destruct (tag_is tag "option"); [left; now injection H as <- <-|].
  destruct (tag_is tag "textarea").
  { destruct (_ || f); [|left; now injection H as <- <-]. destruct (markup_escape _) as [s|] eqn:Es; [|easy]. right. exists el, s. now injection H as <- <-. }
  destruct (_ || _); left; now injection H as <- <-.
Qed.
Lemma put_filled key tags f tag a c ctx b a' c' : put_domid key tags f tag a c ctx b = Ok (a', c') -> c' = c.
Proof.
  unfold put_domid. intros H. destruct (_ || _); [|now injection H as <- <-].
  destruct (raw_domid _ _ _); [|easy]. cbn [bind] in H. destruct (truth _) as [[]|]; [|now injection H as <- <-|easy].
  cbn [bind negb] in H. destruct (setting _ _); [|easy]. cbn [bind] in H. destruct (format_mv _ _); [|easy].
  now injection H as <- <-.
Qed.
Lemma domid_filled tag a c ctx b a' c' : transform_domid tag a c ctx b = Ok (a', c') -> c' = c.
Proof.
  unfold transform_domid. intros H. destruct (pop_toggle _ _ _) as [[[p f] a1]|]; [|easy].
  cbn [bind] in H. destruct p; cbn [negb] in H; [now apply put_filled in H|now injection H as <- <-].
Qed.
Lemma for_filled tag a c ctx b a' c' : transform_for tag a c ctx b = Ok (a', c') -> c' = c.
Proof.
  unfold transform_for. intros H. destruct (pop_toggle _ _ _) as [[[p f] a1]|]; [|easy].
  cbn [bind] in H. destruct p; [destruct b|]; [now apply put_filled in H|now injection H as <- <-..].
Qed.
Lemma tabindex_filled tag a c ctx ctx' a' c' : transform_tabindex tag a c ctx = (ctx', Ok (a', c')) -> c' = c.
Proof.
  unfold transform_tabindex. intros H. destruct (pop_toggle _ _ _) as [[[p f] a1]|]; [|easy].
  destruct p; cbn [negb] in H; [|now injection H as <- <- <-]. destruct (setting _ _) as [tv|]; [|easy].
  destruct (int_of tv) as [[|z|z]|]; [now injection H as <- <- <-|..];
    (destruct (_ || _); [|now injection H as <- <- <-]); try easy; try (destruct (_ <? _)%Z); now injection H as <- <- <-.
Qed.

(* ---------------- settings that are alike ---------------- *)
Lemma same_word_trool v w : same_word v w <-> parse_trool v = parse_trool w.
Proof.
  unfold same_word. pose proof (parse_trool_spec v) as [V1 V2]. pose proof (parse_trool_spec w) as [W1 W2]. rewrite <- V1, <- V2, <- W1, <- W2.
  destruct (parse_trool v), (parse_trool w); split; intros H; try reflexivity; try discriminate; try (split; easy).
  all: exfalso; destruct H as [[A B] [C D]]; first [discriminate (A eq_refl)|discriminate (B eq_refl)|discriminate (C eq_refl)|discriminate (D eq_refl)].
Qed.
Lemma trool_again v : parse_trool (tr_mv (parse_trool v)) = parse_trool v.
Proof. now destruct (parse_trool v). Qed.
Lemma pop_alike key a t g : alike t g -> starts_with (lit "auto_") (lit key) = true -> pop_toggle key a t = pop_toggle key a g.
Proof.
  intros A S. unfold pop_toggle. destruct (parse_trool (get_or key a MMaybe)); [reflexivity..|].
  assert (lit key <> lit "ordered_attributes") as N by (intros E; rewrite E in S; discriminate).
  pose proof (al_get _ _ A (lit key) N) as G. unfold setting, get. unfold same_setting in G.
  destruct (aget str_eqb (lit key) t) as [v|], (aget str_eqb (lit key) g) as [w|]; try easy.
  rewrite S in G. apply same_word_trool in G. cbn [bind]. now rewrite G.
Qed.
Lemma setting_alike key t g : alike t g -> lit key <> lit "ordered_attributes" -> starts_with (lit "auto_") (lit key) = false -> setting key t = setting key g.
Proof.
  intros A N S. pose proof (al_get _ _ A (lit key) N) as G. unfold setting, get. unfold same_setting in G.
  destruct (aget str_eqb (lit key) t) as [v|], (aget str_eqb (lit key) g) as [w|]; try easy. rewrite S in G. now subst.
Qed.
Lemma alike_set k v w t g : alike t g -> k <> lit "ordered_attributes" -> k <> lit "filters" -> same_setting k (Some v) (Some w) ->
  alike (aset str_eqb k v t) (aset str_eqb k w g).
Proof.
  intros A N N2 E. split.
  - intros k' N'. rewrite !sget_set. destruct (str_eqb_spec k' k) as [->|D]; [exact E|]. now apply (al_get _ _ A).
  - unfold get. rewrite sget_set. destruct (str_eqb_spec (lit "filters") k) as [E0|D]; [now elim N2|]. apply (al_filters _ _ A).
  - unfold get. rewrite sget_set. destruct (str_eqb_spec (lit "ordered_attributes") k) as [E0|D]; [now elim N|]. apply (al_only _ _ A).
  - destruct (al_ordered _ _ A) as (x & o & G & T). exists x, o. split; [|exact T]. unfold get. rewrite sget_set. destruct (str_eqb_spec (lit "ordered_attributes") k) as [E0|D]; [now elim N|exact G].
  - apply (NoDup_keys_aset _ str_eqb_eq). apply (al_dict _ _ A).
Qed.
Lemma name_alike tag a c t g b : alike t g -> transform_name tag a c t b = transform_name tag a c g b.
Proof. intros A. unfold transform_name. now rewrite (pop_alike _ a t g A). Qed.
Lemma value_alike tag a c t g b : alike t g -> transform_value tag a c t b = transform_value tag a c g b.
Proof. intros A. unfold transform_value. now rewrite (pop_alike _ a t g A). Qed.
Lemma put_alike key tags f tag a c t g b : alike t g -> put_domid key tags f tag a c t b = put_domid key tags f tag a c g b.
Proof. intros A. unfold put_domid. now rewrite (setting_alike "domid_format" t g A ltac:(discriminate) eq_refl). Qed.
Lemma domid_alike tag a c t g b : alike t g -> transform_domid tag a c t b = transform_domid tag a c g b.
Proof.
  intros A. unfold transform_domid. rewrite (pop_alike _ a t g A) by reflexivity. destruct (pop_toggle _ _ _) as [[[p f] a1]|]; [|reflexivity].
  cbn [bind]. destruct p; [|reflexivity]. cbn [negb]. now apply put_alike.
Qed.
Lemma for_alike tag a c t g b : alike t g -> transform_for tag a c t b = transform_for tag a c g b.
Proof.
  intros A. unfold transform_for. rewrite (pop_alike _ a t g A) by reflexivity. destruct (pop_toggle _ _ _) as [[[p f] a1]|]; [|reflexivity].
  cbn [bind]. destruct p, b; try reflexivity. now apply put_alike.
Qed.
Lemma tabindex_alike tag a c t g : alike t g ->
  snd (transform_tabindex tag a c t) = snd (transform_tabindex tag a c g) /\ alike (fst (transform_tabindex tag a c t)) (fst (transform_tabindex tag a c g)).
Proof.
  intros A. unfold transform_tabindex. rewrite (pop_alike _ a t g A) by reflexivity. destruct (pop_toggle _ _ _) as [[[p f] a1]|]; [|easy].
  destruct p; [|easy]. cbn [negb]. rewrite (setting_alike "tabindex" t g A ltac:(discriminate) eq_refl). destruct (setting "tabindex" g) as [tv|]; [|easy].
  destruct (int_of tv) as [[|z|z]|]; [easy|..]; (destruct (_ || _); [|easy]); try easy.
  cbn [Z.ltb Z.compare]. cbv iota. cbn [fst snd]. split; [reflexivity|]. apply alike_set; [exact A|discriminate|discriminate|reflexivity].
Qed.
Lemma transform_alike env tag a c t g b : alike t g ->
  snd (transform env tag a c t b) = snd (transform env tag a c g b) /\ alike (fst (transform env tag a c t b)) (fst (transform env tag a c g b)).
Proof.
  intros A. unfold transform. rewrite (name_alike tag a c t g b A). destruct (transform_name tag a c g b) as [[a1 c1]|]; [|easy]. cbn [bind].
  rewrite (value_alike tag a1 c1 t g b A). destruct (transform_value tag a1 c1 g b) as [[a2 c2]|]; [|easy]. cbn [bind].
  rewrite (domid_alike tag a2 c2 t g b A). destruct (transform_domid tag a2 c2 g b) as [[a3 c3]|]; [|easy]. cbn [bind].
  rewrite (for_alike tag a3 c3 t g b A). destruct (transform_for tag a3 c3 g b) as [[a4 c4]|]; [|easy].
  destruct (tabindex_alike tag a4 c4 t g A) as [E A'].
  destruct (transform_tabindex tag a4 c4 t) as [t' [[a5 c5]|]], (transform_tabindex tag a4 c4 g) as [g' [[a6 c6]|]]; cbn [fst snd] in *; try discriminate; [|easy].
  injection E as <- <-. unfold transform_filters. rewrite (pop_alike "auto_filter" a5 t' g' A') by reflexivity.
  destruct (pop_toggle _ _ _) as [[[p f] a7]|]; [|easy]. rewrite <- (setting_alike "filters" t' g' A' ltac:(discriminate) eq_refl).
  unfold setting. rewrite (al_filters _ _ A'). destruct p; cbn [negb run_filters]; easy.
Qed.
Lemma transform_texts env tag a c t b t' a' c' : get "filters" t = Some (MFilters []) -> texts a ->
  transform env tag a c t b = (t', Ok (a', c')) -> texts a' /\ filled b c c'.
Proof.
  intros F T. unfold transform. destruct (transform_name tag a c t b) as [[a1 c1]|] eqn:E1; [|easy]. cbn [bind].
  pose proof (name_filled _ _ _ _ _ _ _ E1) as ->. apply name_texts in E1; [|exact T].
  destruct (transform_value tag a1 c t b) as [[a2 c2]|] eqn:E2; [|easy]. cbn [bind]. pose proof (value_filled _ _ _ _ _ _ _ E2) as Fc. apply value_texts in E2; [|exact E1].
  destruct (transform_domid tag a2 c2 t b) as [[a3 c3]|] eqn:E3; [|easy]. cbn [bind]. pose proof (domid_filled _ _ _ _ _ _ _ E3) as ->. apply domid_texts in E3; [|exact E2].
  destruct (transform_for tag a3 c2 t b) as [[a4 c4]|] eqn:E4; [|easy]. pose proof (for_filled _ _ _ _ _ _ _ E4) as ->. apply for_texts in E4; [|exact E3].
  destruct (transform_tabindex tag a4 c2 t) as [t1 [[a5 c5]|]] eqn:E5; [|easy]. pose proof (tabindex_filled _ _ _ _ _ _ _ E5) as ->.
  assert (get "filters" t1 = Some (MFilters [])) as F1.
  { clear -E5 F. unfold transform_tabindex in E5. destruct (pop_toggle _ _ _) as [[[p f] a1]|]; [|easy].
    destruct p; cbn [negb] in E5; [|now injection E5 as <- _]. destruct (setting _ _) as [tv|]; [|easy].
    destruct (int_of tv) as [[|z|z]|]; [now injection E5 as <- _|..];
      (destruct (_ || _); [|now injection E5 as <- _]); try easy; try (destruct (_ <? _)%Z); injection E5 as <- _; try exact F.
    all: unfold get, set; rewrite sget_set; exact F. }
  apply tabindex_texts in E5; [|exact E4]. unfold transform_filters. destruct (pop_toggle "auto_filter" a5 t1) as [[[p f] a6]|] eqn:E6; [|easy].
  apply pop_texts in E6; [|exact E5]. unfold setting. rewrite F1. destruct p; cbn [negb run_filters]; intros [= <- <- <-]; split; assumption.
Qed.

(* ---------------- updates ---------------- *)
Lemma update_alike s : forall t g, alike t g -> ~ In (lit "filters") (keys s) -> ~ In (lit "ordered_attributes") (keys s) ->
  match ctx_update t s, ctx_update g s with
  | (t', None), (g', None) => alike t' g'
  | (_, Some _), (_, Some _) => True
  | _, _ => False
  end.
Proof.
  induction s as [|[k v] s IH]; intros t g A N1 N2; [exact A|]. cbn [ctx_update]. unfold ctx_set, ahas.
  assert (k <> lit "ordered_attributes") as K by (intros ->; apply N2; now left).
  pose proof (al_get _ _ A k K) as G. unfold same_setting in G.
  destruct (aget str_eqb k t) as [x|], (aget str_eqb k g) as [y|]; try easy.
  apply IH; [|intros I; apply N1; now right|intros I; apply N2; now right].
  apply alike_set; [exact A|exact K|intros ->; apply N1; now left|]. unfold same_setting. destruct (starts_with _ k); [now apply same_word_trool|reflexivity].
Qed.
Lemma set_alike s : forall t g, alike t g -> ~ In (lit "filters") (keys s) -> ~ In (lit "ordered_attributes") (keys s) ->
  match ctx_update t s, gen_set_loop g s with
  | (t', None), (g', None) => alike t' g'
  | (_, Some _), (_, Some _) => True
  | _, _ => False
  end.
Proof.
  induction s as [|[k v] s IH]; intros t g A N1 N2; [exact A|]. cbn [ctx_update gen_set_loop]. unfold ctx_set, ahas.
  assert (k <> lit "ordered_attributes") as K by (intros ->; apply N2; now left).
  pose proof (al_get _ _ A k K) as G. unfold same_setting in G.
  destruct (aget str_eqb k t) as [x|], (aget str_eqb k g) as [y|]; try easy.
  apply IH; [|intros I; apply N1; now right|intros I; apply N2; now right].
  apply alike_set; [exact A|exact K|intros ->; apply N1; now left|]. unfold same_setting. destruct (starts_with _ k); [|reflexivity].
  apply same_word_trool. symmetry. apply trool_again.
Qed.
