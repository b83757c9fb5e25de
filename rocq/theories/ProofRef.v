From Verif Require Import PyBase ModelUtil ModelScalar ModelRef SpecRef.

Lemma set_nth_same {A} n (x : A) l : n < List.length l -> nth_error (set_nth n x l) n = Some x.
Proof. revert l; induction n; destruct l; cbn; intros; try lia; [reflexivity | apply IHn; lia]. Qed.
Lemma set_nth_other {A} n m (x : A) l : n <> m -> nth_error (set_nth n x l) m = nth_error l m.
Proof. revert m l; induction n; destruct l, m; cbn; intros; try congruence; apply IHn; congruence. Qed.
Lemma nth_lt {A} (l : list A) n x : nth_error l n = Some x -> n < List.length l.
Proof. intros H. apply nth_error_Some. congruence. Qed.
Lemma set_nth_id {A} n (x : A) l : nth_error l n = Some x -> set_nth n x l = l.
Proof. revert l; induction n; destruct l; cbn; intros; try congruence; f_equal; now apply IHn. Qed.
Lemma set_nth_twice {A} n (x y : A) l : set_nth n y (set_nth n x l) = set_nth n y l.
Proof. revert l; induction n; destruct l; cbn; congruence. Qed.
Lemma set_nth_swap {A} n m (x y : A) l : n <> m -> set_nth n y (set_nth m x l) = set_nth m x (set_nth n y l).
Proof. revert m l; induction n; destruct m, l; cbn; intros; try congruence; f_equal; apply IHn; congruence. Qed.
Lemma Forall2_nth {A B} (R : A -> B -> Prop) l m : Forall2 R l m ->
  forall i x, nth_error l i = Some x -> exists y, nth_error m i = Some y /\ R x y.
Proof. induction 1; intros [| i] z; cbn; intros Hz; try discriminate; [injection Hz as <-; eauto | eauto]. Qed.
Lemma Forall2_nth' {A B} (R : A -> B -> Prop) l m : Forall2 R l m ->
  forall i y, nth_error m i = Some y -> exists x, nth_error l i = Some x /\ R x y.
Proof. induction 1; intros [| i] z; cbn; intros Hz; try discriminate; [injection Hz as <-; eauto | eauto]. Qed.
Lemma Forall2_set_nth {A} (R : A -> A -> Prop) l i x y : (forall a, R a a) -> nth_error l i = Some x -> R x y ->
  Forall2 R l (set_nth i y l).
Proof.
  intros Rr. revert l. induction i; destruct l; cbn; intros H Hr; try discriminate.
  - injection H as ->. constructor; [exact Hr |]. clear Hr. induction l; constructor; auto.
  - constructor; [apply Rr | now apply IHi].
Qed.

Lemma leads_nil f h i t : leads f h i [] t -> i = t /\ exists n, nth_error h t = Some n /\ not_ref n.
Proof. intros L. inversion L; subst; eauto. Qed.
Lemma leads_cons f h i w ws t : leads f h i (w :: ws) t -> exists c raw j, nth_error h i = Some (OfRef w c raw) /\
  match c with Some j' => j' = j | None => f i = Ok j end /\ leads f h j ws t.
Proof. intros L. inversion L; subst; eauto 10. Qed.
Section Find.
Variable find : nat -> res nat.
Notation settles := (settles find).
Lemma settles_refl h : settles h h.
Proof. split; [induction h; constructor; auto | congruence]. Qed.
Lemma settles_trans h1 h2 h3 : settles h1 h2 -> settles h2 h3 -> settles h1 h3.
Proof.
  intros [F1 G1] [F2 G2]. split.
  - clear G1 G2. revert h3 F2. induction F1 as [| x y l m H F1 IH]; intros h3 F2; inversion F2; subst; constructor; auto.
    destruct H as [-> | (w & raw & j & -> & ->)]; [assumption |].
    match goal with H : _ = _ \/ _ |- _ => destruct H as [<- | (? & ? & ? & E & _)]; [eauto 10 | discriminate E] end.
  - intros i w raw j H1 H3. destruct (Forall2_nth _ _ _ F1 i _ H1) as [y [Hy [<- | (w' & raw' & j' & E & ->)]]].
    + now apply (G2 i w raw j).
    + injection E as <- <-. destruct (Forall2_nth _ _ _ F2 i _ Hy) as [z [Hz [<- | (? & ? & ? & E & _)]]]; [| discriminate E].
      rewrite H3 in Hz. injection Hz as <-. now apply (G1 i w raw j).
Qed.
Lemma settles_ref h h' i w c raw : settles h h' -> nth_error h i = Some (OfRef w c raw) ->
  exists c', nth_error h' i = Some (OfRef w c' raw) /\ (c' = c \/ exists j, c = None /\ c' = Some j /\ find i = Ok j).
Proof.
  intros [F G] H. destruct (Forall2_nth _ _ _ F i _ H) as [y [Hy [<- | (w' & raw' & j' & E & ->)]]].
  - eauto.
  - injection E as <- -> <-. exists (Some j'). split; [exact Hy | right; exists j'; repeat split]. now apply (G i w raw j').
Qed.
Lemma settles_other h h' i n : settles h h' -> nth_error h i = Some n -> not_ref n -> nth_error h' i = Some n.
Proof.
  intros [F G] H NR. destruct (Forall2_nth _ _ _ F i _ H) as [y [Hy [<- | (w' & raw' & j' & -> & _)]]]; [exact Hy | destruct NR].
Qed.
Lemma target_ok h i w c raw j : nth_error h i = Some (OfRef w c raw) ->
  match c with Some j' => j' = j | None => find i = Ok j end ->
  exists h', target find h i = (h', Ok j) /\ settles h h' /\ nth_error h' i = Some (OfRef w (Some j) raw).
Proof.
  intros H C. unfold target. rewrite H. destruct c as [j' |].
  - subst j'. exists h. split; [reflexivity | split; [apply settles_refl | exact H]].
  - rewrite C. eexists. split; [reflexivity |]. pose proof (nth_lt _ _ _ H) as L. split.
    + split.
      * apply Forall2_set_nth with (x := OfRef w None raw); [auto | exact H | right; eauto 6].
      * intros k w' raw' j' H1 H2. destruct (Nat.eq_dec i k) as [<- | NE].
        -- rewrite set_nth_same in H2 by exact L. injection H2 as _ <- _. exact C.
        -- rewrite set_nth_other in H2 by exact NE. congruence.
    + now apply set_nth_same.
Qed.
Lemma leads_settles h h' : settles h h' -> forall ws i t, leads find h i ws t -> leads find h' i ws t.
Proof.
  intros S ws i t L. induction L as [t n H NR | i w c raw j ws t H C L IH].
  - apply leads_end with (n := n); [now apply (settles_other h) | exact NR].
  - destruct (settles_ref _ _ _ _ _ _ S H) as [c' [H' D]]. apply leads_on with (c := c') (raw := raw) (j := j); [exact H' | | exact IH].
    destruct D as [-> | (j' & -> & -> & E)]; [exact C | congruence].
Qed.
Lemma pinned_settles h h' : settles h h' -> forall ws i t, pinned h i ws t -> pinned h' i ws t.
Proof.
  intros S. induction ws as [| w ws IH]; intros i t L f; pose proof (L (fun _ => Err KeyErr)) as L0; inversion L0; subst.
  - apply leads_end with (n := n); [now apply (settles_other h) | assumption].
  - destruct c as [j' |]; [subst j' | discriminate].
    match goal with H : nth_error h i = _ |- _ => destruct (settles_ref _ _ _ _ _ _ S H) as [c' [H' D]] end.
    destruct D as [-> | (j' & D & _)]; [| discriminate D].
    apply leads_on with (c := Some j) (raw := raw) (j := j); [exact H' | reflexivity |].
    apply IH. intros g. pose proof (L g) as Lg. inversion Lg; subst.
    repeat match goal with A : nth_error h i = Some _, B : nth_error h i = Some _ |- _ => rewrite A in B; injection B as ? ?; clear A end.
    subst. assumption.
Qed.
Lemma follow_leads ws : forall fuel h i t, leads find h i ws t -> List.length ws <= fuel ->
  exists h' n, follow find fuel h i = (h', Ok n) /\ settles h h' /\ nth_error h t = Some n /\ not_ref n /\ pinned h' i ws t.
Proof.
  induction ws as [| w ws IH]; intros fuel h i t L F.
  - apply leads_nil in L. destruct L as [-> [n [H H0]]]. exists h, n. split; [| split; [apply settles_refl | split; [assumption | split; [assumption | intros f; now apply leads_end with n]]]].
    destruct fuel; cbn [follow]; rewrite H; destruct n; try destruct H0; reflexivity.
  - apply leads_cons in L. destruct L as (c & raw & j & H3 & H4 & H5). cbn [List.length] in F. destruct fuel as [| fuel]; [lia |]. cbn [follow]. rewrite H3.
    destruct (target_ok _ _ _ _ _ _ H3 H4) as [h1 [-> [S1 P1]]].
    destruct (IH fuel h1 j t (leads_settles _ _ S1 _ _ _ H5)) as [h2 [n [-> [S2 [Hn [NR Pn]]]]]]; [lia |].
    exists h2, n. split; [reflexivity |]. split; [now apply (settles_trans _ h1) |].
    assert (Ht : nth_error h t = Some n).
    { clear - H5 Hn NR S1. assert (exists m, nth_error h t = Some m /\ not_ref m) as [m [Hm NM]] by (induction H5; eauto).
      pose proof (settles_other _ _ _ _ S1 Hm NM). congruence. }
    split; [exact Ht | split; [exact NR |]].
    intros f. destruct (settles_ref _ _ _ _ _ _ S2 P1) as [c' [H' D]].
    destruct D as [-> | (j' & D & _)]; [| discriminate D].
    apply leads_on with (c := Some j) (raw := raw) (j := j); [exact H' | reflexivity | apply Pn].
Qed.
Lemma read_through ws fuel h i t n : leads find h i ws t -> List.length ws <= fuel -> nth_error h t = Some n ->
  exists h', settles h h' /\ pinned h' i ws t /\
    get_value find fuel h i = (h', Ok (node_value n)) /\ get_u find fuel h i = (h', Ok (node_u n)).
Proof.
  intros L F Hn. destruct (follow_leads ws fuel h i t L F) as [h' [m [E [S [Hm [NR P]]]]]].
  rewrite Hn in Hm. injection Hm as <-. exists h'. split; [exact S | split; [exact P |]].
  unfold get_value, get_u. rewrite E. destruct n; try destruct NR; split; reflexivity.
Qed.
Lemma follow_fails n : forall fuel h i x, fails find h i x n -> n < fuel ->
  exists h', follow find fuel h i = (h', Err x) /\ settles h h'.
Proof.
  assert (K : forall h h', settles h h' -> forall i x n, fails find h i x n -> fails find h' i x n).
  { intros h h' S i x n' L. induction L as [i w raw x H E | i w c raw j x n' H C L IH].
    - destruct (settles_ref _ _ _ _ _ _ S H) as [c' [H' D]]. destruct D as [-> | (j' & _ & _ & E')]; [| congruence].
      now apply fails_here with w raw.
    - destruct (settles_ref _ _ _ _ _ _ S H) as [c' [H' D]]. apply fails_on with (w := w) (c := c') (raw := raw) (j := j); [exact H' | | exact IH].
      destruct D as [-> | (j' & -> & -> & E)]; [exact C | congruence]. }
  induction n as [| n IH]; intros fuel h i x L F; (destruct fuel as [| fuel]; [lia |]); inversion L; subst; cbn [follow].
  - match goal with A : nth_error h i = _, B : find i = _ |- _ => rewrite A; unfold target; rewrite A, B end.
    exists h. split; [reflexivity | apply settles_refl].
  - match goal with A : nth_error h i = _, B : match c with _ => _ end, C : fails find h j x n |- _ =>
      rewrite A; destruct (target_ok _ _ _ _ _ _ A B) as [h1 [-> [S1 P1]]]; rename C into H3 end.
    destruct (IH fuel h1 j x (K _ _ S1 _ _ _ H3)) as [h2 [-> S2]]; [lia |]. exists h2. split; [reflexivity |]. now apply (settles_trans _ h1).
Qed.
Lemma read_fails n fuel h i x v : fails find h i x n -> n < fuel ->
  exists h', settles h h' /\ get_value find fuel h i = (h', Err x) /\ get_u find fuel h i = (h', Err x) /\
    ref_adapt find fuel h i v = (h', Err x) /\ ref_serialize find fuel h i v = (h', Err x).
Proof.
  intros L F. destruct (follow_fails n fuel h i x L F) as [h' [E S]]. exists h'. split; [exact S |].
  unfold get_value, get_u, ref_adapt, ref_serialize. rewrite E. auto.
Qed.
Lemma circular_settles P h h' : settles h h' -> circular find h P -> circular find h' P.
Proof.
  intros S C i Hi. destruct (C i Hi) as (w & c & raw & j & H & Cj & Hj). destruct (settles_ref _ _ _ _ _ _ S H) as [c' [H' D]].
  exists w, c', raw, j. split; [exact H' | split; [| exact Hj]]. destruct D as [-> | (j' & -> & -> & E)]; [exact Cj | congruence].
Qed.
Lemma follow_circular P fuel : forall h i, circular find h P -> P i -> exists h', follow find fuel h i = (h', Err RuntimeErr).
Proof.
  induction fuel as [| fuel IH]; intros h i C Hi; destruct (C i Hi) as (w & c & raw & j & H & Cj & Hj); cbn [follow]; rewrite H.
  - eexists; reflexivity.
  - destruct (target_ok _ _ _ _ _ _ H Cj) as [h1 [-> [S1 P1]]]. apply IH; [now apply (circular_settles _ h) | exact Hj].
Qed.
Lemma read_circular P fuel h i v : circular find h P -> P i ->
  snd (get_value find fuel h i) = Err RuntimeErr /\ snd (get_u find fuel h i) = Err RuntimeErr /\
  snd (ref_adapt find fuel h i v) = Err RuntimeErr /\ snd (ref_serialize find fuel h i v) = Err RuntimeErr.
Proof.
  intros C Hi. destruct (follow_circular P fuel h i C Hi) as [h' E]. unfold get_value, get_u, ref_adapt, ref_serialize. rewrite E. auto.
Qed.
Lemma assign_circular P put fuel : forall h i, circular find h P -> (forall j w c raw, P j -> nth_error h j = Some (OfRef w c raw) -> w = WYes) -> P i ->
  snd (assign_through find put fuel h i) = Err RuntimeErr.
Proof.
  induction fuel as [| fuel IH]; intros h i C W Hi; destruct (C i Hi) as (w & c & raw & j & H & Cj & Hj); pose proof (W _ _ _ _ Hi H); subst w;
    cbn [assign_through]; rewrite H; [reflexivity|].
  destruct (target_ok _ _ _ _ _ _ H Cj) as [h1 [-> [S1 P1]]]. apply IH; [now apply (circular_settles _ h) | | exact Hj].
  intros j' w c' raw' Hj' H'. destruct (C j' Hj') as (w0 & c0 & raw0 & j0 & H0 & _). destruct (settles_ref _ _ _ _ _ _ S1 H0) as [c1 [H1 _]].
  rewrite H' in H1. injection H1 as -> _ _. now apply (W j' w0 c0 raw0).
Qed.
Lemma adapt_through ws fuel h i t n v : leads find h i ws t -> List.length ws <= fuel -> nth_error h t = Some n ->
  exists h', settles h h' /\ pinned h' i ws t /\
    ref_adapt find fuel h i v = (h', match n with OfScalar k _ => adapt k v | _ => Err AttributeErr end) /\
    ref_serialize find fuel h i v = (h', match n with OfScalar k _ => Ok (serialize k v) | _ => Err AttributeErr end).
Proof.
  intros L F Hn. destruct (follow_leads ws fuel h i t L F) as [h' [m [E [S [Hm [NR P]]]]]].
  rewrite Hn in Hm. injection Hm as <-. exists h'. split; [exact S | split; [exact P |]].
  unfold ref_adapt, ref_serialize. rewrite E. destruct n; try destruct NR; split; reflexivity.
Qed.
Lemma assign_leads put ws : forall fuel h i t n, leads find h i ws t -> List.length ws <= fuel -> nth_error h t = Some n ->
  exists h', settles h h' /\
  assign_through find put fuel h i =
  match decision ws with
  | WIgnore => (h', Ok tt)
  | WNo => (h', Err TypeErr)
  | WYes => match n with
            | OfScalar k st => (set_nth t (OfScalar k (put st)) h', Ok tt)
            | _ => (h', Err AttributeErr)
            end
  end.
Proof.
  induction ws as [| w ws IH]; intros fuel h i t n L F Hn.
  - apply leads_nil in L. destruct L as [-> [n' [H H0]]]. exists h. split; [apply settles_refl |]. rewrite Hn in H. injection H as <-. cbn [decision].
    destruct fuel; cbn [assign_through]; rewrite Hn; destruct n; try destruct H0; reflexivity.
  - apply leads_cons in L. destruct L as (c & raw & j & H3 & H4 & H5). cbn [List.length] in F. destruct fuel as [| fuel]; [lia |]. cbn [assign_through decision]. rewrite H3.
    destruct w; [exists h; split; [apply settles_refl | reflexivity] | | exists h; split; [apply settles_refl | reflexivity]].
    destruct (target_ok _ _ _ _ _ _ H3 H4) as [h1 [-> [S1 P1]]].
    assert (NR : not_ref n). { clear - H5 Hn. induction H5; [congruence | auto]. }
    destruct (IH fuel h1 j t n (leads_settles _ _ S1 _ _ _ H5)) as [h2 [S2 E]]; [lia | now apply (settles_other h) |].
    exists h2. split; [now apply (settles_trans _ h1) | exact E].
Qed.
Lemma leads_not_ref h i ws t n : leads find h i ws t -> nth_error h t = Some n -> not_ref n.
Proof. intros L. induction L; intros; [congruence | auto]. Qed.
(* set_raw on a Ref *)
Lemma set_raw_ref h i w c raw v : nth_error h i = Some (OfRef w c raw) -> set_raw h i v = set_nth i (OfRef w c (Some v)) h.
Proof. intros H. unfold set_raw. rewrite H. reflexivity. Qed.
Lemma set_raw_leads h j v ws : (exists w c raw, nth_error h j = Some (OfRef w c raw)) -> forall i t,
  leads find h i ws t -> leads find (set_raw h j v) i ws t.
Proof.
  intros (w & c & raw & Hj) i t L. rewrite (set_raw_ref _ _ _ _ _ v Hj). pose proof (nth_lt _ _ _ Hj) as Lt.
  induction L as [t n H NR | i w' c' raw' k ws t H C L IH].
  - apply leads_end with n; [| exact NR]. rewrite set_nth_other; [exact H | intros ->; rewrite H in Hj; injection Hj as ->; destruct NR].
  - destruct (Nat.eq_dec j i) as [<- | NE].
    + rewrite Hj in H. injection H as <- <- <-. apply leads_on with (c := c) (raw := Some v) (j := k); [now apply set_nth_same | exact C | exact IH].
    + apply leads_on with (c := c') (raw := raw') (j := k); [rewrite set_nth_other; assumption | exact C | exact IH].
Qed.
Lemma leads_first h i w ws t : leads find h i (w :: ws) t -> exists c raw, nth_error h i = Some (OfRef w c raw).
Proof. intros L. inversion L; subst. eauto. Qed.
Lemma scalar_eta st : Scalar (s_raw st) (s_value st) (s_u st) = st.
Proof. destruct st; reflexivity. Qed.
Lemma settles_set h h' t n n' : settles h h' -> nth_error h t = Some n -> not_ref n -> not_ref n' -> settles (set_nth t n' h) (set_nth t n' h').
Proof.
  intros [F G] H NR NR'. pose proof (nth_lt _ _ _ H) as L. split.
  - clear G. revert h h' F n H NR L. induction t; intros h h' F; inversion F; subst; cbn; intros; try lia; constructor; auto.
    apply (IHt _ _ H0 n); auto. lia.
  - intros i w raw j H1 H2. destruct (Nat.eq_dec t i) as [<- | NE].
    + rewrite set_nth_same in H1 by exact L. injection H1 as ->. destruct NR'.
    + rewrite set_nth_other in H1, H2 by exact NE. now apply (G i w raw j).
Qed.
Lemma set_through w ws fuel h i t k st v : leads find h i (w :: ws) t -> List.length (w :: ws) <= fuel ->
  nth_error h t = Some (OfScalar k st) ->
  exists h', settles (set_raw h i v) h' /\
  ref_set find fuel h i v =
  let '(st', r) := scalar_set k st v in
  match decision (w :: ws) with
  | WYes => (set_nth t (OfScalar k (Scalar (s_raw st) (s_value st') (s_u st'))) h', r)
  | WIgnore => (h', r)
  | WNo => (h', match r with Ok _ => Err TypeErr | Err x => Err x end)
  end.
Proof.
  intros L F Ht. destruct (leads_first _ _ _ _ _ L) as (c & raw & Hi).
  assert (NE : i <> t) by (intros ->; congruence).
  pose proof (set_raw_leads h i v _ (ex_intro _ w (ex_intro _ c (ex_intro _ raw Hi))) _ _ L) as L1.
  assert (Ht1 : nth_error (set_raw h i v) t = Some (OfScalar k st)) by (rewrite (set_raw_ref _ _ _ _ _ v Hi), set_nth_other; assumption).
  unfold ref_set. set (h0 := set_raw h i v) in *. clearbody h0. clear L Hi Ht h.
  destruct (follow_leads _ fuel h0 i t L1 F) as [h1 [n [E1 [S1 [Hn [_ P1]]]]]]. rewrite Ht1 in Hn. injection Hn as <-.
  unfold ref_adapt at 1. rewrite E1.
  assert (Step : forall put h2 st2, leads find h2 i (w :: ws) t -> nth_error h2 t = Some (OfScalar k st2) ->
    exists h3, settles h2 h3 /\ assign_through find put fuel h2 i =
      match decision (w :: ws) with
      | WIgnore => (h3, Ok tt) | WNo => (h3, Err TypeErr)
      | WYes => (set_nth t (OfScalar k (put st2)) h3, Ok tt) end).
  { intros put h2 st2 L2 H2. exact (assign_leads put (w :: ws) fuel h2 i t _ L2 F H2). }
  pose proof (leads_settles _ _ S1 _ _ _ L1) as L2. pose proof (settles_other _ _ _ _ S1 Ht1 I) as Ht2.
  assert (Moved : forall h2 n', leads find h2 i (w :: ws) t -> not_ref n' -> leads find (set_nth t n' h2) i (w :: ws) t).
  { intros h2 n' LL NR. clear - LL NR. assert (exists m, nth_error h2 t = Some m /\ not_ref m) as [m [Hm NM]] by (induction LL; eauto).
    pose proof (nth_lt _ _ _ Hm) as Lt. clear Hm NM. remember (w :: ws) as l. clear Heql. induction LL as [t n H NR' | i' w' c' raw' j ws' t H C LL IH].
    - apply leads_end with n'; [now apply set_nth_same | exact NR].
    - apply leads_on with (c := c') (raw := raw') (j := j); [| exact C | now apply IH].
      rewrite set_nth_other; [exact H |]. intros ->. exact (leads_not_ref _ _ _ _ _ LL H). }
  unfold scalar_set. destruct (adapt k v) as [nv | x] eqn:EA.
  - (* adapted *)
    unfold set_value. destruct (Step (fun s => Scalar (s_raw s) nv (s_u s)) h1 st L2 Ht2) as [h3 [S3 E3]]. rewrite E3. clear E3. cbv beta iota.
    pose proof (leads_settles _ _ S3 _ _ _ L2) as L3. pose proof (settles_other _ _ _ _ S3 Ht2 I) as Ht3.
    destruct (decision (w :: ws)) eqn:D; cbv beta iota.
    + (* ignored *)
      assert (Hs : exists h4, settles h3 h4 /\
         (if is_none nv then (h3, Ok []) else ref_serialize find fuel h3 i nv) = (h4, Ok (if is_none nv then [] else serialize k nv))).
      { destruct (is_none nv); [exists h3; split; [apply settles_refl | reflexivity] |].
        destruct (follow_leads _ fuel h3 i t L3 F) as [h4 [n [E4 [S4 [Hn _]]]]]. rewrite Ht3 in Hn. injection Hn as <-.
        exists h4. split; [exact S4 |]. unfold ref_serialize. rewrite E4. reflexivity. }
      destruct Hs as [h4 [S4 E4]]; match type of E4 with ?a = _ => match goal with |- context [if is_none nv then ?x else ?y] => change (if is_none nv then x else y) with a end end; rewrite E4; clear E4. cbv beta iota. unfold set_u.
      match goal with |- context [assign_through find ?p fuel h4 i] => destruct (Step p h4 st
        (leads_settles _ _ S4 _ _ _ L3) (settles_other _ _ _ _ S4 Ht3 I)) as [h5 [S5 ->]] end.
      exists h5. split; [| reflexivity]. eauto using settles_trans.
    + (* written *)
      set (st1 := Scalar (s_raw st) nv (s_u st)).
      set (h3' := set_nth t (OfScalar k st1) h3 : heap).
      assert (L3' : leads find h3' i (w :: ws) t) by (apply Moved; [exact L3 | exact I]).
      assert (Ht3' : nth_error h3' t = Some (OfScalar k st1)) by (apply set_nth_same; exact (nth_lt _ _ _ Ht3)).
      assert (Hs : exists h4, settles h3' h4 /\
         (if is_none nv then (h3', Ok []) else ref_serialize find fuel h3' i nv) = (h4, Ok (if is_none nv then [] else serialize k nv))).
      { destruct (is_none nv); [exists h3'; split; [apply settles_refl | reflexivity] |].
        destruct (follow_leads _ fuel h3' i t L3' F) as [h4 [n [E4 [S4 [Hn _]]]]]. rewrite Ht3' in Hn. injection Hn as <-.
        exists h4. split; [exact S4 |]. unfold ref_serialize. rewrite E4. reflexivity. }
      destruct Hs as [h4 [S4 E4]]; match type of E4 with ?a = _ => match goal with |- context [if is_none nv then ?x else ?y] => change (if is_none nv then x else y) with a end end; rewrite E4; clear E4. cbv beta iota. unfold set_u.
      match goal with |- context [assign_through find ?p fuel h4 i] => destruct (Step p h4 st1
        (leads_settles _ _ S4 _ _ _ L3') (settles_other _ _ _ _ S4 Ht3' I)) as [h5 [S5 ->]] end.
      pose proof (settles_trans _ _ _ S4 S5) as S45. pose proof (settles_other _ _ _ _ S45 Ht3' I) as Ht5.
      exists (set_nth t (OfScalar k st) h5). split.
      * apply (settles_trans _ h1); [exact S1 |]. apply (settles_trans _ h3); [exact S3 |].
        pose proof (settles_set _ _ _ _ (OfScalar k st) S45 Ht3' I I) as Q. unfold h3' in Q. rewrite set_nth_twice, (set_nth_id _ _ _ Ht3) in Q. exact Q.
      * rewrite set_nth_twice. reflexivity.
    + exists h3. split; [eauto using settles_trans | reflexivity].
  - destruct x; try (cbn [s_value s_u]; destruct (decision (w :: ws));
      [exists h1; split; [exact S1 | reflexivity]
      | exists h1; split; [exact S1 |]; rewrite scalar_eta, (set_nth_id _ _ _ Ht2); reflexivity
      | exists h1; split; [exact S1 | reflexivity]]).
    (* refused *)
    unfold set_value. destruct (Step (fun s => Scalar (s_raw s) VNone (s_u s)) h1 st L2 Ht2) as [h3 [S3 E3]]. rewrite E3. clear E3. cbv beta iota.
    pose proof (leads_settles _ _ S3 _ _ _ L2) as L3. pose proof (settles_other _ _ _ _ S3 Ht2 I) as Ht3.
    unfold set_u.
    destruct (decision (w :: ws)) eqn:D; cbv beta iota.
    + match goal with |- context [assign_through find ?p fuel h3 i] => destruct (Step p h3 st L3 Ht3) as [h5 [S5 ->]] end.
      exists h5. split; [| reflexivity]. eauto using settles_trans.
    + set (st1 := Scalar (s_raw st) VNone (s_u st)). set (h3' := set_nth t (OfScalar k st1) h3 : heap).
      assert (L3' : leads find h3' i (w :: ws) t) by (apply Moved; [exact L3 | exact I]).
      assert (Ht3' : nth_error h3' t = Some (OfScalar k st1)) by (apply set_nth_same; exact (nth_lt _ _ _ Ht3)).
      match goal with |- context [assign_through find ?p fuel h3' i] => destruct (Step p h3' st1 L3' Ht3') as [h5 [S5 ->]] end.
      exists (set_nth t (OfScalar k st) h5). split.
      * apply (settles_trans _ h1); [exact S1 |]. apply (settles_trans _ h3); [exact S3 |].
        pose proof (settles_set _ _ _ _ (OfScalar k st) S5 Ht3' I I) as Q. unfold h3' in Q. rewrite set_nth_twice, (set_nth_id _ _ _ Ht3) in Q. exact Q.
      * rewrite set_nth_twice. reflexivity.
    + exists h3. split; [eauto using settles_trans | reflexivity].
Qed.
Lemma set_container w ws fuel h i t cv u v : leads find h i (w :: ws) t -> List.length (w :: ws) <= fuel ->
  nth_error h t = Some (OfContainer cv u) ->
  exists h', settles (set_raw h i v) h' /\ ref_set find fuel h i v = (h', Err AttributeErr).
Proof.
  intros L F Ht. destruct (leads_first _ _ _ _ _ L) as (c & raw & Hi).
  assert (NE : i <> t) by (intros ->; congruence).
  pose proof (set_raw_leads h i v _ (ex_intro _ w (ex_intro _ c (ex_intro _ raw Hi))) _ _ L) as L1.
  assert (Ht1 : nth_error (set_raw h i v) t = Some (OfContainer cv u)) by (rewrite (set_raw_ref _ _ _ _ _ v Hi), set_nth_other; assumption).
  destruct (follow_leads _ fuel _ i t L1 F) as [h1 [n [E1 [S1 [Hn [_ P1]]]]]]. rewrite Ht1 in Hn. injection Hn as <-.
  exists h1. split; [exact S1 |]. unfold ref_set, ref_adapt. rewrite E1. reflexivity.
Qed.
Lemma set_missing n fuel h i x v : fails find h i x n -> n < fuel -> x <> AdaptErr ->
  exists h', settles (set_raw h i v) h' /\ ref_set find fuel h i v = (h', Err x).
Proof.
  intros L F NA.
  assert (K : fails find (set_raw h i v) i x n).
  { assert (Hi : exists w c raw, nth_error h i = Some (OfRef w c raw)) by (inversion L; eauto).
    destruct Hi as (w & c & raw & Hi). rewrite (set_raw_ref _ _ _ _ _ v Hi).
    enough (G : forall b y m, fails find h b y m -> fails find (set_nth i (OfRef w c (Some v)) h) b y m) by now apply G.
    intros b y m Lb. induction Lb as [b w1 raw1 y Hb E | b w1 c1 raw1 j1 y m Hb C1 Lb IHb]; destruct (Nat.eq_dec i b) as [<-|NE].
    - rewrite Hi in Hb. injection Hb as -> -> ->. apply (fails_here _ _ _ w1 (Some v)); [apply set_nth_same; exact (nth_lt _ _ _ Hi) | exact E].
    - apply (fails_here _ _ _ w1 raw1); [rewrite set_nth_other by exact NE; exact Hb | exact E].
    - rewrite Hi in Hb. injection Hb as -> -> ->. apply (fails_on _ _ _ w1 c1 (Some v) j1); [apply set_nth_same; exact (nth_lt _ _ _ Hi) | exact C1 | exact IHb].
    - apply (fails_on _ _ _ w1 c1 raw1 j1); [rewrite set_nth_other by exact NE; exact Hb | exact C1 | exact IHb]. }
  destruct (follow_fails n fuel _ i x K F) as [h' [E S]]. exists h'. split; [exact S |].
  unfold ref_set, ref_adapt. rewrite E. destruct x; congruence.
Qed.
End Find.
Lemma remembered find find' ws fuel fuel' h h' i t n : leads find h i ws t -> List.length ws <= fuel -> nth_error h t = Some n ->
  get_value find fuel h i = (h', Ok (node_value n)) -> List.length ws <= fuel' ->
  get_value find' fuel' h' i = (h', Ok (node_value n)) /\ get_u find' fuel' h' i = (h', Ok (node_u n)).
Proof.
  intros L F Hn E F'. destruct (read_through find ws fuel h i t n L F Hn) as [h1 [S [P [E1 _]]]].
  rewrite E1 in E. injection E as ->.
  assert (Hn' : nth_error h' t = Some n) by (apply (settles_other find h); [exact S | exact Hn | now apply (leads_not_ref find h i ws t)]).
  assert (K : forall f w j, pinned h' j w t -> List.length w <= f -> follow find' f h' j = (h', Ok n)).
  { pose proof (leads_not_ref find h i ws t n L Hn) as NR. clear - Hn' NR. intros f. induction f as [| f IH]; intros w j P F;
      pose proof (P (fun _ => Err KeyErr)) as P0.
    - destruct w; [| cbn in F; lia]. apply leads_nil in P0. destruct P0 as [-> _]. cbn [follow]. rewrite Hn'.
      destruct n; try destruct NR; reflexivity.
    - cbn [follow]. destruct w as [| w ws].
      + apply leads_nil in P0. destruct P0 as [-> _]. rewrite Hn'. destruct n; try destruct NR; reflexivity.
      + apply leads_cons in P0. destruct P0 as (c & raw & j1 & H & C & _).
        destruct c as [j' |]; [subst j' | discriminate]. unfold target. rewrite H. apply (IH ws); [| cbn in F; lia].
        intros g. pose proof (P g) as Pg. apply leads_cons in Pg. destruct Pg as (c & raw' & j' & H3 & H4 & H5).
        rewrite H in H3. injection H3 as <- <-. subst. assumption. }
  unfold get_value, get_u. rewrite (K fuel' ws i P F').
  pose proof (leads_not_ref find h i ws t n L Hn) as NR. destruct n; try destruct NR; split; reflexivity.
Qed.
Lemma raw_only h i v w c raw : nth_error h i = Some (OfRef w c raw) ->
  nth_error (set_raw h i v) i = Some (OfRef w c (Some v)) /\
  (forall j, j <> i -> nth_error (set_raw h i v) j = nth_error h j).
Proof.
  intros H. rewrite (set_raw_ref _ _ _ _ _ v H). split; [apply set_nth_same; exact (nth_lt _ _ _ H) |].
  intros j NE. apply set_nth_other. congruence.
Qed.
