(* equality of elements *)
From Verif Require Import PyBase PyBaseFacts PyList ModelUtil ModelMap ModelScalar ModelNest SpecScalar SpecNest
  ProofScalar3 ProofNest ProofNest4.
From Coq Require Import Lia.

Lemma data_rect' (P : data -> Prop) :
  (forall v, P (DVal v)) -> (forall l, Forall (fun kv => P (snd kv)) l -> P (DMap l)) ->
  (forall l, Forall P l -> P (DSeq l)) -> forall d, P d.
Proof.
  intros HS HD HQ. fix F 1. intros [v | l | l].
  - apply HS.
  - apply HD. revert l. fix G 1. intros [| f l]; constructor; [apply F | apply G].
  - apply HQ. revert l. fix G 1. intros [| f l]; constructor; [apply F | apply G].
Qed.
Inductive dkeyed : data -> Prop :=
| dk_val v : dkeyed (DVal v)
| dk_map l : NoDup (map fst l) -> Forall (fun kv => dkeyed (snd kv)) l -> dkeyed (DMap l)
| dk_seq l : Forall dkeyed l -> dkeyed (DSeq l).
Lemma value_keyed e : keyed e -> dkeyed (record_value e).
Proof.
  induction e as [sub st | l IH | c l IH] using record_rect'; intros K; inversion K as [| ? D F | ? ? F]; subst.
  - constructor.
  - cbn [record_value]. constructor.
    + rewrite map_map. exact D.
    + rewrite Forall_map. rewrite Forall_forall in *. intros kv H. apply (IH kv H). apply F, H.
  - assert (G : Forall dkeyed (map record_value l)).
    { rewrite Forall_map. rewrite Forall_forall in *. intros e H. apply IH; [exact H | apply F, H]. }
    cbn [record_value]. destruct c; [constructor; exact G | constructor; exact G |].
    destruct l as [| x l]; [constructor |]. inversion G; assumption.
Qed.
Lemma py_eq_refl v : py_eq v v = true.
Proof.
  destruct v; unfold py_eq; cbn [vnum]; try reflexivity.
  - apply Z.eqb_refl.
  - apply Z.eqb_refl.
  - apply str_eqb_refl.
  - unfold date_eqb. rewrite !N.eqb_refl. reflexivity.
  - unfold date_eqb, time_eqb. rewrite !N.eqb_refl. reflexivity.
  - unfold time_eqb. rewrite !N.eqb_refl. reflexivity.
  - apply Nat.eqb_refl.
Qed.
Lemma date_eqb_sym a b : date_eqb a b = date_eqb b a.
Proof. unfold date_eqb. rewrite (N.eqb_sym (d_y a)), (N.eqb_sym (d_m a)), (N.eqb_sym (d_d a)). reflexivity. Qed.
Lemma time_eqb_sym a b : time_eqb a b = time_eqb b a.
Proof.
  unfold time_eqb. rewrite (N.eqb_sym (t_h a)), (N.eqb_sym (t_m a)), (N.eqb_sym (t_s a)), (N.eqb_sym (t_us a)). reflexivity.
Qed.
Lemma py_eq_sym a b : py_eq a b = py_eq b a.
Proof.
  unfold py_eq. destruct (vnum a) as [x |], (vnum b) as [y |]; try reflexivity; [apply Z.eqb_sym |].
  destruct a, b; try reflexivity; rewrite ?(date_eqb_sym d), ?(time_eqb_sym t); try reflexivity.
  - apply str_eqb_sym.
  - apply Nat.eqb_sym.
Qed.
Lemma date_eqb_true a b : date_eqb a b = true -> a = b.
Proof. destruct a, b. unfold date_eqb. cbn. rewrite !andb_true_iff, !N.eqb_eq. intros [[-> ->] ->]. reflexivity. Qed.
Lemma time_eqb_true a b : time_eqb a b = true -> a = b.
Proof. destruct a, b. unfold time_eqb. cbn. rewrite !andb_true_iff, !N.eqb_eq. intros [[[-> ->] ->] ->]. reflexivity. Qed.
Lemma py_eq_trans a b c : py_eq a b = true -> py_eq b c = true -> py_eq a c = true.
Proof.
  unfold py_eq. destruct (vnum a) as [x |] eqn:Ea, (vnum b) as [y |] eqn:Eb, (vnum c) as [z |] eqn:Ec; try discriminate.
  - rewrite !Z.eqb_eq. congruence.
  - destruct a, b; try discriminate; destruct c; try discriminate; rewrite ?andb_true_iff; try reflexivity; intros H1 H2.
    + apply str_eqb_eq in H1. subst. exact H2.
    + apply date_eqb_true in H1. subst. exact H2.
    + destruct H1 as [H1 H3]. apply date_eqb_true in H1. apply time_eqb_true in H3. subst. exact H2.
    + apply time_eqb_true in H1. subst. exact H2.
    + apply Nat.eqb_eq in H1. rewrite H1. exact H2.
Qed.
(* two lists of values *)
Fixpoint datas_eq (l m : list data) : bool :=
  match l, m with [], [] => true | x :: l', y :: m' => data_eq x y && datas_eq l' m' | _, _ => false end.
Lemma data_eq_seq l m : data_eq (DSeq l) (DSeq m) = datas_eq l m.
Proof. cbn [data_eq]. revert m. induction l as [| x l IH]; intros [| y m]; cbn [datas_eq]; try reflexivity. Qed.
Lemma datas_eq_iff l m : datas_eq l m = true <-> Forall2 (fun x y => data_eq x y = true) l m.
Proof.
  revert m. induction l as [| x l IH]; intros [| y m]; cbn [datas_eq]; split; intros H; try discriminate; try constructor;
    try (inversion H; subst; fail).
  - apply andb_true_iff in H. apply H.
  - apply andb_true_iff in H. apply IH, H.
  - inversion H; subst. apply andb_true_iff. split; [assumption | apply IH; assumption].
Qed.
Lemma data_eq_refl d : dkeyed d -> data_eq d d = true.
Proof.
  induction d as [v | l IH | l IH] using data_rect'; intros K; inversion K as [| ? D F | ? F]; subst.
  - apply py_eq_refl.
  - cbn [data_eq]. rewrite Nat.eqb_refl. cbn [andb]. apply forallb_forall. intros [n d] H. cbn [fst snd].
    rewrite (in_aget n d l D H). rewrite Forall_forall in IH, F. apply (IH _ H), (F _ H).
  - rewrite data_eq_seq. apply datas_eq_iff. clear K. induction l as [| x l IHl]; constructor.
    + inversion IH; inversion F; subst; auto.
    + inversion IH; inversion F; subst; auto.
Qed.
(* equal dicts have the same keys *)
Lemma map_eq_iff l m : NoDup (map fst l) -> NoDup (map fst m) ->
  (data_eq (DMap l) (DMap m) = true <->
   (forall n, In n (map fst l) <-> In n (map fst m)) /\
   (forall n x y, In (n, x) l -> In (n, y) m -> data_eq x y = true)).
Proof.
  intros Dl Dm. cbn [data_eq]. rewrite andb_true_iff, Nat.eqb_eq, forallb_forall. split.
  - intros [L H].
    assert (I1 : incl (map fst l) (map fst m)).
    { intros n Hn. apply in_map_iff in Hn. destruct Hn as [[n' x] [<- Hn]]. specialize (H _ Hn). cbn [fst snd] in *.
      destruct (aget name_eqb n' m) as [y |] eqn:E; [| discriminate]. apply aget_in in E. apply (in_map fst) in E. exact E. }
    split.
    + intros n. split; [apply I1 |]. apply (NoDup_length_incl Dl); [rewrite !map_length, L; constructor | exact I1].
    + intros n x y Hx Hy. specialize (H _ Hx). cbn [fst snd] in H. rewrite (in_aget n y m Dm Hy) in H. exact H.
  - intros [K H]. split.
    + rewrite <- (map_length fst l), <- (map_length fst m).
      apply Nat.le_antisymm; apply NoDup_incl_length; try assumption; intros n Hn; apply K, Hn.
    + intros [n x] Hx. cbn [fst snd].
      assert (Hn : In n (map fst m)) by (apply K; apply (in_map fst) in Hx; exact Hx).
      apply in_map_iff in Hn. destruct Hn as [[n' y] [E Hy]]. cbn [fst] in E. subst n'.
      rewrite (in_aget n y m Dm Hy). exact (H n x y Hx Hy).
Qed.
Lemma data_eq_sym a : dkeyed a -> forall b, dkeyed b -> data_eq a b = true -> data_eq b a = true.
Proof.
  induction a as [v | l IH | l IH] using data_rect'; intros Ka b Kb H; destruct b as [w | m | m]; try discriminate.
  - cbn [data_eq] in *. rewrite py_eq_sym. exact H.
  - inversion Ka as [| ? Dl Fl |]; subst. inversion Kb as [| ? Dm Fm |]; subst.
    apply map_eq_iff in H; [| exact Dl | exact Dm]. destruct H as [K H].
    apply map_eq_iff; [exact Dm | exact Dl |]. split; [intros n; symmetry; apply K |].
    intros n y x Hy Hx. rewrite Forall_forall in IH, Fl, Fm.
    apply (IH _ Hx (Fl _ Hx) y (Fm _ Hy)). exact (H n x y Hx Hy).
  - inversion Ka as [| | ? Fl]; subst. inversion Kb as [| | ? Fm]; subst.
    rewrite data_eq_seq, datas_eq_iff in *. clear Ka Kb. revert m Fm H.
    induction l as [| x l IHl]; intros m Fm H; inversion H; subst; constructor.
    + inversion IH; inversion Fl; inversion Fm; subst; auto.
    + inversion IH; inversion Fl; inversion Fm; subst; auto.
Qed.
Lemma data_eq_trans a : dkeyed a -> forall b c, dkeyed b -> dkeyed c ->
  data_eq a b = true -> data_eq b c = true -> data_eq a c = true.
Proof.
  induction a as [v | l IH | l IH] using data_rect'; intros Ka b c Kb Kc H1 H2; destruct b as [w | m | m]; try discriminate;
    destruct c as [z | k | k]; try discriminate.
  - cbn [data_eq] in *. exact (py_eq_trans v w z H1 H2).
  - inversion Ka as [| ? Dl Fl |]; subst. inversion Kb as [| ? Dm Fm |]; subst. inversion Kc as [| ? Dk Fk |]; subst.
    apply map_eq_iff in H1; [| exact Dl | exact Dm]. apply map_eq_iff in H2; [| exact Dm | exact Dk].
    destruct H1 as [K1 H1], H2 as [K2 H2]. apply map_eq_iff; [exact Dl | exact Dk |].
    split; [intros n; rewrite K1; apply K2 |]. intros n x z Hx Hz.
    assert (Hn : In n (map fst m)) by (apply K1; apply (in_map fst) in Hx; exact Hx).
    apply in_map_iff in Hn. destruct Hn as [[n' y] [E Hy]]. cbn [fst] in E. subst n'.
    rewrite Forall_forall in IH, Fl, Fm, Fk.
    exact (IH _ Hx (Fl _ Hx) y z (Fm _ Hy) (Fk _ Hz) (H1 n x y Hx Hy) (H2 n y z Hy Hz)).
  - inversion Ka as [| | ? Fl]; subst. inversion Kb as [| | ? Fm]; subst. inversion Kc as [| | ? Fk]; subst.
    rewrite data_eq_seq, datas_eq_iff in *. clear Ka Kb Kc. revert m k Fm Fk H1 H2.
    induction l as [| x l IHl]; intros m k Fm Fk H1 H2; inversion H1; subst; inversion H2; subst; constructor.
    + inversion IH; inversion Fl; inversion Fm; inversion Fk; subst; eauto.
    + inversion IH; inversion Fl; inversion Fm; inversion Fk; subst; eauto.
Qed.

Section Repr.
Variable printable : N -> bool.
Notation eq a b := (record_eq printable a (Some b) = true).
Notation record_u := (record_u printable).
Notation shown := (shown printable).
Lemma eq_iff a b : eq a b <-> data_eq (record_value a) (record_value b) = true /\ record_u a = record_u b.
Proof. unfold record_eq. rewrite andb_true_iff, str_eqb_eq. reflexivity. Qed.
Theorem eq_refl' a : keyed a -> eq a a.
Proof. intros K. apply eq_iff. split; [apply data_eq_refl, value_keyed, K | reflexivity]. Qed.
Theorem eq_sym' a b : keyed a -> keyed b -> eq a b -> eq b a.
Proof.
  intros Ka Kb H. apply eq_iff in H. apply eq_iff. split; [| symmetry; apply H].
  apply data_eq_sym; [apply value_keyed, Ka | apply value_keyed, Kb | apply H].
Qed.
Theorem eq_trans' a b c : keyed a -> keyed b -> keyed c -> eq a b -> eq b c -> eq a c.
Proof.
  intros Ka Kb Kc H1 H2. apply eq_iff in H1, H2. apply eq_iff. split; [| etransitivity; [apply H1 | apply H2]].
  apply (data_eq_trans (record_value a)) with (record_value b); try (apply value_keyed; assumption); [apply H1 | apply H2].
Qed.
Lemma shown_iff x y : clean x -> clean y -> data_eq (record_value x) (record_value y) = true ->
  (shown x = shown y <-> record_u x = record_u y /\ mark x = mark y).
Proof.
  intros Cx Cy D. destruct x as [sx x | x | c x], y as [sy y | y | c' y]; try discriminate.
  - cbn [ProofNest4.shown mark ModelNest.record_u]. split.
    + intros H. inversion Cx; inversion Cy; subst.
      apply (f_equal (fun t => t ++ [])) in H. apply show_text_prefix in H; [| assumption | assumption].
      destruct H as [-> [E _]]. split; [exact E | reflexivity].
    + intros [-> ->]. reflexivity.
  - exfalso. inversion Cy; subst. destruct c'; try congruence; discriminate.
  - cbn [ProofNest4.shown mark]. intuition.
  - exfalso. inversion Cy; subst. destruct c'; try congruence; discriminate.
  - exfalso. inversion Cx; subst. destruct c; try congruence; discriminate.
  - exfalso. inversion Cx; subst. destruct c; try congruence; discriminate.
  - cbn [ProofNest4.shown mark]. intuition.
Qed.
Definition alike (x y : record) : Prop := eq x y /\ mark x = mark y.
Lemma value_seq c l : c <> OfMulti -> record_value (RSeq c l) = DSeq (map record_value l).
Proof. intros H. destruct c; congruence || reflexivity. Qed.
Theorem seq_eq c c' l m : clean (RSeq c l) -> clean (RSeq c' m) ->
  (eq (RSeq c l) (RSeq c' m) <-> Forall2 alike l m).
Proof.
  intros Cl Cm. inversion Cl as [| | ? ? Hc Fl]; subst. inversion Cm as [| | ? ? Hc' Fm]; subst.
  rewrite eq_iff, !value_seq, data_eq_seq, datas_eq_iff by assumption.
  assert (U : record_u (RSeq c l) = record_u (RSeq c' m) <-> Forall2 (fun x y => shown x = shown y) l m).
  { rewrite Forall_forall in Fl, Fm. rewrite !u_seq by assumption. split; intros H.
    - apply app_inv_head in H.
      apply (join_prefix shown (fun x y => shown x = shown y) 93%N l m [] []) in H; [apply H | discriminate | |].
      + intros e [He | He]; [apply Fl in He | apply Fm in He];
          destruct (shown_head printable e He) as [h [r [E D]]]; exists h, r; (split; [exact E |]);
          destruct D as [-> | [-> | ->]]; discriminate.
      + intros e e' x y He He' E. pose proof (shown_prefix printable e (Fl e He) e' (Fm e' He') x y E) as [O X].
        split; [| exact X]. apply outline_shown; [apply Fl, He | apply Fm, He' | exact O].
    - assert (E : map shown l = map shown m) by (clear - H; induction H; cbn [map]; congruence).
      rewrite E. reflexivity. }
  rewrite U. clear U Cl Cm. split.
  - intros [H1 H2]. revert m Fm H1 H2. induction l as [| x l IH]; intros m Fm H1 H2; inversion H2; subst; constructor.
    + cbn [map] in H1. inversion H1; inversion Fl; inversion Fm; subst. unfold alike. rewrite eq_iff.
      apply shown_iff in H3; try assumption. intuition.
    + cbn [map] in H1. inversion H1; inversion Fl; inversion Fm; subst. apply IH; assumption.
  - intros H. split.
    + clear - H. induction H as [| x y l m [H _] F IH]; cbn [map]; constructor; [| exact IH]. apply eq_iff in H. apply H.
    + revert m Fm H. induction l as [| x l IH]; intros m Fm H; inversion H; subst; constructor.
      * inversion Fl; inversion Fm; subst. destruct H2 as [H2 M]. apply eq_iff in H2.
        apply shown_iff; intuition.
      * inversion Fl; inversion Fm; subst. apply IH; assumption.
Qed.
Theorem dict_eq l m : clean (RDict l) -> clean (RDict m) -> NoDup (map fst l) ->
  (eq (RDict l) (RDict m) <-> Forall2 (fun x y => fst x = fst y /\ alike (snd x) (snd y)) l m).
Proof.
  intros Cl Cm D. inversion Cl as [| ? Fl |]; subst. inversion Cm as [| ? Fm |]; subst.
  rewrite eq_iff.
  assert (U : record_u (RDict l) = record_u (RDict m) <->
              Forall2 (fun x y => fst x = fst y /\ shown (snd x) = shown (snd y)) l m).
  { rewrite Forall_forall in Fl, Fm. rewrite !u_dict. split; intros H.
    - apply app_inv_head in H.
      apply (join_prefix (fun kv => show_key printable (fst kv) ++ lit ": " ++ shown (snd kv))
               (fun x y => fst x = fst y /\ shown (snd x) = shown (snd y)) 125%N l m [] []) in H; [apply H | discriminate | |].
      + intros [n e] _. cbn [fst snd]. destruct n as [s |]; cbn [ModelNest.show_key]; eexists; eexists;
          (split; [reflexivity | discriminate]).
      + intros [n e] [n' e'] x' y' Hl Hm E. cbn [fst snd] in *. rewrite <- !app_assoc in E.
        destruct (Fl _ Hl) as [G1 G2]. destruct (Fm _ Hm) as [G3 G4]. cbn [fst snd] in *.
        apply show_key_prefix in E; [| exact G1 | exact G3]. destruct E as [-> E]. apply app_inv_head in E.
        pose proof (shown_prefix printable e G2 e' G4 x' y' E) as [O X]. split; [| exact X].
        split; [reflexivity | apply outline_shown; assumption].
    - assert (E : map (fun kv => show_key printable (fst kv) ++ lit ": " ++ shown (snd kv)) l =
                  map (fun kv => show_key printable (fst kv) ++ lit ": " ++ shown (snd kv)) m).
      { clear - H. induction H as [| x y l m [E1 E2] F IH]; cbn [map]; [reflexivity |]. rewrite E1, E2, IH. reflexivity. }
      rewrite E. reflexivity. }
  rewrite U. clear U Cl Cm.
  assert (K : forall m', Forall2 (fun x y => fst x = fst y /\ shown (snd x) = shown (snd y)) l m' -> map fst l = map fst m').
  { clear. intros m' H. induction H as [| x y l m [E _] F IH]; cbn [map]; congruence. }
  assert (K2 : forall m', Forall2 (fun x y => fst x = fst y /\ alike (snd x) (snd y)) l m' -> map fst l = map fst m').
  { clear. intros m' H. induction H as [| x y l m [E _] F IH]; cbn [map]; congruence. }
  cbn [record_value]. split.
  - intros [H1 H2]. pose proof (K m H2) as Ek. assert (Dm : NoDup (map fst m)) by (rewrite <- Ek; exact D).
    apply map_eq_iff in H1; [| rewrite map_map; exact D | rewrite map_map; exact Dm].
    destruct H1 as [_ H1].
    assert (P : forall x y, In x l -> In y m -> fst x = fst y -> data_eq (record_value (snd x)) (record_value (snd y)) = true).
    { intros [n x] [n' y] Hx Hy E. cbn [fst snd] in *. subst n'. apply (H1 n).
      - apply in_map_iff. exists (n, x). split; [reflexivity | exact Hx].
      - apply in_map_iff. exists (n, y). split; [reflexivity | exact Hy]. }
    clear K K2 H1 D Dm Ek. revert m Fm H2 P. induction l as [| x l IH]; intros m Fm H2 P; inversion H2; subst; constructor.
    + inversion Fl; inversion Fm; subst. destruct H1 as [E S]. split; [exact E |].
      assert (De := P x y (or_introl _ (eq_refl x)) (or_introl _ (eq_refl y)) E).
      apply shown_iff in S; [| tauto | tauto | exact De]. split; [apply eq_iff; tauto | apply S].
    + inversion Fl; inversion Fm; subst. apply IH; try assumption. intros a b Ha Hb. apply P; right; assumption.
  - intros H. pose proof (K2 m H) as Ek. assert (Dm : NoDup (map fst m)) by (rewrite <- Ek; exact D). split.
    + apply map_eq_iff; [rewrite map_map; exact D | rewrite map_map; exact Dm |].
      split; [intros n; rewrite !map_map; change (In n (map fst l) <-> In n (map fst m)); rewrite <- Ek; tauto |].
      intros n x y Hx Hy. apply in_map_iff in Hx, Hy. destruct Hx as [[n1 a] [E1 Hx]], Hy as [[n2 b] [E2 Hy]].
      cbn [fst snd] in *. injection E1 as -> <-. injection E2 as -> <-.
      clear K K2 Fl Fm Dm. revert m Ek H Hy. induction l as [| p l IH]; intros m Ek H Hy; [destruct Hx |].
      inversion H as [| ? q ? m' [Eq Al] F]; subst. cbn [map] in *. inversion D as [| ? ? D1 D2]; subst.
      injection Ek as _ Ek.
      destruct Hx as [Hx | Hx], Hy as [Hy | Hy].
      * subst p q. cbn [snd] in Al. destruct Al as [Al _]. apply eq_iff in Al. apply Al.
      * subst p. exfalso. apply D1. cbn [fst]. rewrite Ek. apply (in_map fst) in Hy. exact Hy.
      * subst q. exfalso. apply D1. rewrite Eq. cbn [fst]. apply (in_map fst) in Hx. exact Hx.
      * apply (IH D2 Hx m' Ek F Hy).
    + clear K K2 D Dm Ek. revert m Fm H. induction l as [| x l IH]; intros m Fm H; inversion H; subst; constructor.
      * inversion Fl; inversion Fm; subst. destruct H2 as [E [A M]]. split; [exact E |]. apply eq_iff in A.
        apply shown_iff; tauto.
      * inversion Fl; inversion Fm; subst. apply IH; assumption.
Qed.
Theorem kinds_differ a b : clean a -> clean b -> eq a b ->
  match a, b with RScalar _ _, RScalar _ _ | RDict _, RDict _ | RSeq _ _, RSeq _ _ => True | _, _ => False end.
Proof.
  intros Ca Cb H. apply eq_iff in H. destruct H as [H _].
  destruct a as [| | c l], b as [| | c' m]; try exact I; try discriminate.
  - inversion Cb; subst. destruct c'; try congruence; discriminate.
  - inversion Cb; subst. destruct c'; try congruence; discriminate.
  - inversion Ca; subst. destruct c; try congruence; discriminate.
  - inversion Ca; subst. destruct c; try congruence; discriminate.
Qed.
End Repr.
Lemma ne_iff printable a b : record_ne printable a b = true <-> record_eq printable a b <> true.
Proof. unfold record_ne. destruct (record_eq printable a b); cbn; intuition congruence. Qed.
Lemma data_eq_cases :
  (forall v w, data_eq (DVal v) (DVal w) = true <-> equal_values v w) /\
  (forall l m, data_eq (DSeq l) (DSeq m) = true <-> Forall2 (fun x y => data_eq x y = true) l m) /\
  (forall v l, data_eq (DVal v) (DSeq l) = false /\ data_eq (DSeq l) (DVal v) = false) /\
  (forall v l, data_eq (DVal v) (DMap l) = false /\ data_eq (DMap l) (DVal v) = false) /\
  (forall l m, data_eq (DSeq l) (DMap m) = false /\ data_eq (DMap m) (DSeq l) = false).
Proof.
  split; [intros; apply py_eq_iff |]. split; [intros; rewrite data_eq_seq; apply datas_eq_iff |].
  repeat split; intros; reflexivity.
Qed.
Lemma scalar_eq printable sub st sub' st' :
  record_eq printable (RScalar sub st) (Some (RScalar sub' st')) = true <->
  equal_values (s_value st) (s_value st') /\ s_u st = s_u st'.
Proof. rewrite eq_iff. cbn [record_value record_u data_eq]. rewrite py_eq_iff. reflexivity. Qed.
