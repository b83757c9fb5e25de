(* Proofs: options bound inside a select. *)
From Verif Require Import PyBase PyBaseFacts ModelMarkup SpecMarkup ModelGenshi SpecGenshi ProofGenshi.

Lemma qname_eqb_eq a b : qname_eqb a b = true <-> a = b.
Proof.
  unfold qname_eqb. rewrite andb_true_iff, name_eqb_eq, str_eqb_eq. destruct a, b; cbn. split; [now intros (-> & ->)|].
  intros E. now injection E.
Qed.
Lemma qname_eqb_refl a : qname_eqb a a = true.
Proof. now apply qname_eqb_eq. Qed.
Lemma qname_eqb_neq a b : a <> b -> qname_eqb a b = false.
Proof. intros D. destruct (qname_eqb a b) eqn:E; [|easy]. now apply qname_eqb_eq in E. Qed.
Lemma qname_dec (a b : qname) : a = b \/ a <> b.
Proof. destruct (qname_eqb a b) eqn:E; [left; now apply qname_eqb_eq|right; intros ->; now rewrite qname_eqb_refl in E]. Qed.
Lemma in_names_spec q (a : gattrs) : memb qname_eqb q (map fst a) = true <-> In q (map fst a).
Proof.
  unfold memb. rewrite existsb_exists. split.
  - intros (x & I & E). apply qname_eqb_eq in E. now subst. - intros I. exists q. split; [easy|apply qname_eqb_refl].
Qed.
Lemma touches_dec q e : touches q e \/ ~ touches q e.
Proof.
  unfold touches. destruct e; try (right; intros [(x & K)|K]; discriminate).
  - destruct (qname_dec q0 q) as [->|D]; [left; left; eauto|right; intros [(x & K)|K]; [now injection K as ->|easy]].
  - destruct (qname_dec q0 q) as [->|D]; [now left; right|right; intros [(x & K)|K]; [easy|now injection K as ->]].
Qed.

(* ---- the events up to the closing tag ---- *)
Definition depth (q : qname) (stack : nat) (e : event) : nat :=
  match e with
  | Start q' _ => if qname_eqb q' q then S stack else stack
  | End q' => if qname_eqb q' q then Nat.pred stack else stack
  | _ => stack
  end.
Lemma take_step q n e r : take_tag q (S n) (e :: r) = rmap (fun p => (e :: fst p, snd p)) (take_tag q (depth q (S n) e) r).
Proof. destruct e; reflexivity. Qed.
Lemma depth_other q n e : ~ touches q e -> depth q n e = n.
Proof.
  unfold touches. destruct e; cbn; intros D; try easy; (rewrite qname_eqb_neq; [easy|intros ->; apply D]); [left; eauto|now right].
Qed.
Lemma rmap_pair (e : event) (l : list event) (x : res (list event * list event)) :
  rmap (fun p => (e :: fst p, snd p)) (rmap (fun p => (l ++ fst p, snd p)) x) = rmap (fun p => ((e :: l) ++ fst p, snd p)) x.
Proof. destruct x as [[]|]; reflexivity. Qed.
Lemma take_closed q inner : closed q inner -> forall n l,
  take_tag q (S n) (inner ++ l) = rmap (fun p => (inner ++ fst p, snd p)) (take_tag q (S n) l).
Proof.
  induction 1 as [|e l0 D C IH|a l1 l2 C1 IH1 C2 IH2]; intros n l.
  - cbn [app]. destruct (take_tag q (S n) l) as [[]|]; reflexivity.
  - cbn [app]. rewrite take_step, depth_other, IH by easy. apply rmap_pair.
  - cbn [app]. rewrite take_step. cbn [depth]. rewrite qname_eqb_refl. rewrite <- app_assoc, IH1. cbn [app].
    rewrite take_step. cbn [depth]. rewrite qname_eqb_refl. cbn [Nat.pred]. rewrite IH2.
    destruct (take_tag q (S n) l) as [[]|]; cbn [rmap fst snd]; [|easy]. now rewrite <- app_assoc.
Qed.
Lemma take_found q inner l : closed q inner -> take_tag q 1 (inner ++ End q :: l) = Ok (inner ++ [End q], l).
Proof.
  intros C. rewrite take_closed by easy. rewrite take_step. cbn [depth]. rewrite qname_eqb_refl. cbn [Nat.pred].
  destruct l; reflexivity.
Qed.
Lemma take_inv q : forall k l n p r, List.length l < k -> take_tag q (S n) l = Ok (p, r) ->
  exists inner l' p', closed q inner /\ l = inner ++ End q :: l' /\ p = inner ++ End q :: p' /\ take_tag q n l' = Ok (p', r).
Proof.
  induction k as [|k IH]; intros l n p r L E; [lia|]. destruct l as [|e l]; [discriminate|]. cbn [List.length] in L.
  rewrite take_step in E. destruct (touches_dec q e) as [[(a & ->)| ->]|D].
  - cbn [depth] in E. rewrite qname_eqb_refl in E.
    destruct (take_tag q (S (S n)) l) as [[p1 r1]|] eqn:E1; [|discriminate]. cbn in E. injection E as <- <-.
    destruct (IH l (S n) p1 r1 ltac:(lia) E1) as (i1 & l1 & p1' & C1 & -> & -> & T1).
    rewrite app_length in L. cbn [List.length] in L.
    destruct (IH l1 n p1' r1 ltac:(lia) T1) as (i2 & l2 & p2' & C2 & -> & -> & T2).
    exists (Start q a :: i1 ++ End q :: i2), l2, p2'. split; [now constructor|].
    cbn [app]. rewrite <- app_assoc. cbn [app]. repeat split; [|easy]. now rewrite <- app_assoc.
  - cbn [depth] in E. rewrite qname_eqb_refl in E. cbn [Nat.pred] in E.
    destruct (take_tag q n l) as [[p1 r1]|] eqn:E1; [|discriminate]. cbn in E. injection E as <- <-.
    exists [], l, p1. repeat split; [constructor|easy].
  - rewrite depth_other in E by easy.
    destruct (take_tag q (S n) l) as [[p1 r1]|] eqn:E1; [|discriminate]. cbn in E. injection E as <- <-.
    destruct (IH l n p1 r1 ltac:(lia) E1) as (i & l1 & p1' & C & -> & -> & T).
    exists (e :: i), l1, p1'. split; [now constructor|]. easy.
Qed.
Lemma take_one q l p r : take_tag q 1 l = Ok (p, r) -> exists inner, closed q inner /\ l = inner ++ End q :: r /\ p = inner ++ [End q].
Proof.
  intros E. destruct (take_inv q (S (List.length l)) l 0 p r ltac:(lia) E) as (i & l' & p' & C & -> & -> & T).
  assert (take_tag q 0 l' = Ok ([], l')) as T0 by (destruct l'; reflexivity). rewrite T0 in T. injection T as <- <-. eauto.
Qed.
Lemma take_errors q : forall l n e, take_tag q n l = Err e -> e = IndexErr.
Proof.
  induction l as [|x l IH]; intros [|n] e E; try discriminate; [cbn in E; congruence|].
  rewrite take_step in E. destruct (take_tag q (depth q (S n) x) l) eqn:E1; cbn in E; [discriminate|]. injection E as <-. eauto.
Qed.

(* ---- binding ---- *)
Lemma binding_in ds : existsb is_binding ds = true <-> exists x, In (DBind x) ds.
Proof.
  rewrite existsb_exists. split.
  - intros (d & I & B). destruct d; try discriminate. eauto. - intros (x & I). now exists (DBind x).
Qed.
Lemma binding_out ds : existsb is_binding ds = false <-> forall x, ~ In (DBind x) ds.
Proof.
  split.
  - intros E x I. assert (existsb is_binding ds = true) by (apply binding_in; eauto). congruence.
  - intros H. destruct (existsb is_binding ds) eqn:E; [|easy]. apply binding_in in E as (x & I). now elim (H x).
Qed.
Lemma rmap_ok {A B} (f : A -> B) x y : rmap f x = Ok y -> exists a, x = Ok a /\ f a = y.
Proof. destruct x; cbn; [|discriminate]. intros E. injection E as <-. eauto. Qed.
Lemma bt_snoc_end q b : forall l l', bound_to q b l l' -> bound_to q b (l ++ [End q]) (l' ++ [End q]).
Proof.
  induction 1; cbn [app].
  - apply bt_same; [easy|easy|constructor].
  - rewrite <- app_assoc. cbn [app]. now constructor.
  - now apply (bt_bound q b ds sub x).
  - now apply bt_sub.
  - now apply bt_same.
Qed.
(* closing tags may be left over *)
Inductive half (q : qname) : list event -> Prop :=
| hf_nil : half q []
| hf_other e l : (forall a, e <> Start q a) -> half q l -> half q (e :: l)
| hf_tag a l1 l2 : closed q l1 -> half q l2 -> half q (Start q a :: l1 ++ End q :: l2).
Lemma half_app q l1 l2 : half q l1 -> half q l2 -> half q (l1 ++ l2).
Proof.
  induction 1; intros H2; cbn [app]; [easy|now constructor; [|apply IHhalf]|].
  rewrite <- app_assoc. cbn [app]. constructor; [easy|now apply IHhalf].
Qed.
Lemma closed_half q l : closed q l -> half q l.
Proof. induction 1; [constructor|apply hf_other; [intros a ->; apply H; left; eauto|easy]|now apply hf_tag]. Qed.
Lemma half_tail q l1 l2 : closed q l1 -> half q l2 -> half q (l1 ++ End q :: l2).
Proof. intros C H. apply half_app; [now apply closed_half|]. now constructor. Qed.

Lemma bt_snoc_inv q b : forall l0 l', bound_to q b l0 l' -> forall l, l0 = l ++ [End q] -> half q l ->
  exists l1, l' = l1 ++ [End q] /\ bound_to q b l l1.
Proof.
  induction 1 as [|a inner inner' l l' Na C B1 IH1 B2 IH2|ds sub x l l' I B IH|ds sub sub' l l' Ni B1 IH1 B2 IH2|e l l' Ns Nq B IH]; intros l0 E C0.
  - destruct l0; discriminate.
  - destruct l0 as [|e l0]; [discriminate|]. cbn [app] in E. injection E as <- E.
    inversion C0 as [|? ? T0 C1|a0 i2 l2 C1 C2 E0]; subst; [now elim (T0 a)|].
    assert (P : take_tag q 1 (inner ++ End q :: l) = take_tag q 1 (i2 ++ End q :: (l2 ++ [End q]))).
    { rewrite E, <- app_assoc. reflexivity. }
    rewrite !take_found in P by easy. injection P as P1 P2. apply app_inj_tail in P1 as (-> & _).
    destruct (IH2 l2 P2 C2) as (l3 & -> & B3). eexists (_ :: l3). split; [reflexivity|]. now constructor.
  - destruct l0 as [|e l0]; [discriminate|]. injection E as <- E. inversion C0 as [|? ? T0 C1|]; subst.
    destruct (IH l0 eq_refl C1) as (l1 & -> & B1). eexists (_ :: l1). split; [reflexivity|]. now apply (bt_bound q b ds sub x).
  - destruct l0 as [|e l0]; [discriminate|]. injection E as <- E. inversion C0 as [|? ? T0 C1|]; subst.
    destruct (IH2 l0 eq_refl C1) as (l1 & -> & B3). eexists (_ :: l1). split; [reflexivity|]. now apply bt_sub.
  - destruct l0 as [|e0 l0].
    + injection E as -> ->. exists []. split; [|constructor]. inversion B; subst. reflexivity.
    + injection E as -> E. assert (half q l0) as H.
      { inversion C0; subst; [easy|]. now apply half_tail. }
      destruct (IH l0 E H) as (l1 & -> & B1). exists (e0 :: l1). split; [reflexivity|]. now apply bt_same.
Qed.

Lemma bind_tags_sound q b : forall fuel l l', bind_tags fuel q b l = Ok l' -> bound_to q b l l'.
Proof.
  induction fuel as [|fuel IH]; intros l l' E; [discriminate|]. cbn [bind_tags] in E. destruct l as [|e r]; [injection E as <-; constructor|].
  destruct e as [q' a|q'|h s|h s|l1|ds sub|n].
  1: destruct (negb (qname_eqb q' q) || memb qname_eqb q (map fst a)) eqn:D.
  { apply rmap_ok in E as (r' & E & <-). apply bt_same; [easy| |now apply IH]. intros a0 E0. injection E0 as -> <-.
    rewrite qname_eqb_refl in D. now apply in_names_spec in D. }
  { apply orb_false_iff in D as (D1 & D2). rewrite negb_false_iff in D1. apply qname_eqb_eq in D1 as ->.
    destruct (take_tag q 1 r) as [[p r0]|] eqn:T; [|discriminate]. cbn [bind fst snd] in E.
    destruct (bind_tags fuel q b p) as [inner|] eqn:E1; [|discriminate]. cbn [bind] in E. apply rmap_ok in E as (r' & E & <-).
    apply take_one in T as (i & C & -> & ->). apply IH in E1, E.
    destruct (bt_snoc_inv q b _ _ E1 i eq_refl (closed_half _ _ C)) as (i' & -> & Bi).
    constructor; try easy. intros I. apply in_names_spec in I. congruence. }
  5: { destruct (existsb is_binding ds) eqn:Bd; cbn [bind] in E.
       - apply rmap_ok in E as (r' & E & <-). apply binding_in in Bd as (x & I). apply (bt_bound q b ds sub x); [easy|now apply IH].
       - destruct (bind_tags fuel q b sub) as [sub'|] eqn:E1; [|discriminate]. cbn [bind] in E. apply rmap_ok in E as (r' & E & <-).
         apply bt_sub; [now apply binding_out|now apply IH|now apply IH]. }
  all: apply rmap_ok in E as (r' & E & <-); apply bt_same; [easy|easy|now apply IH].
Qed.

Lemma esize_sub ds l : esize (Sub ds l) = S (S (esizes l)).
Proof. reflexivity. Qed.
Lemma bind_tags_complete q b l l' : bound_to q b l l' -> forall fuel, esizes l < fuel -> bind_tags fuel q b l = Ok l'.
Proof.
  intros B. assert (G : forall tl, (tl = [] \/ tl = [End q]) -> forall fuel, esizes (l ++ tl) < fuel -> bind_tags fuel q b (l ++ tl) = Ok (l' ++ tl)).
  2: { intros fuel L. specialize (G [] (or_introl eq_refl) fuel). rewrite !app_nil_r in G. now apply G. }
  induction B as [|a inner inner' l l' Na C B1 IH1 B2 IH2|ds sub x l l' I B IH|ds sub sub' l l' Ni B1 IH1 B2 IH2|e l l' Ns Nq B IH];
    intros tl T fuel L; (destruct fuel as [|fuel]; [lia|]).
  - destruct T as [-> | ->]; [reflexivity|]. cbn in L. destruct fuel; [lia|]. reflexivity.
  - cbn [app] in *. rewrite <- app_assoc in *. cbn [app] in *. rewrite esizes_cons, esizes_app, esizes_cons in L. cbn [esize] in L.
    cbn [bind_tags]. rewrite qname_eqb_refl. cbn [negb orb].
    destruct (memb qname_eqb q (map fst a)) eqn:M; [now apply in_names_spec in M|].
    rewrite take_found by easy. cbn [bind fst snd].
    rewrite (IH1 [End q] (or_intror eq_refl)) by (rewrite esizes_app; cbn; lia). cbn [bind].
    rewrite (IH2 tl T) by lia. reflexivity.
  - cbn [app] in *. rewrite esizes_cons, esize_sub in L. cbn [bind_tags].
    assert (existsb is_binding ds = true) as -> by (apply binding_in; eauto). cbn [bind]. rewrite (IH tl T) by lia. reflexivity.
  - cbn [app] in *. rewrite esizes_cons, esize_sub in L. cbn [bind_tags].
    assert (existsb is_binding ds = false) as -> by now apply binding_out.
    pose proof (IH1 [] (or_introl eq_refl) fuel) as E1. rewrite !app_nil_r in E1. rewrite E1 by lia. cbn [bind].
    rewrite (IH2 tl T) by lia. reflexivity.
  - cbn [app] in *. rewrite esizes_cons in L. pose proof (IH tl T fuel) as E1.
    assert (1 <= esize e) by (destruct e; cbn; lia).
    cbn [bind_tags]. destruct e as [q' a|q'|h s|h s|l1|ds sub|n]; try (rewrite E1 by lia; reflexivity).
    + destruct (qname_dec q' q) as [->|D].
      * rewrite qname_eqb_refl. cbn [negb orb]. assert (memb qname_eqb q (map fst a) = true) as -> by (apply in_names_spec; eauto).
        rewrite E1 by lia. reflexivity.
      * rewrite qname_eqb_neq by easy. cbn [negb orb]. rewrite E1 by lia. reflexivity.
    + now elim (Ns ds sub).
Qed.

Theorem bind_unbound_iff q b l l' : bind_unbound q b l = Ok l' <-> bound_to q b l l'.
Proof. split; [apply bind_tags_sound|]. intros B. apply bind_tags_complete; [easy|lia]. Qed.

(* it fails only on a tag that is never closed *)
Lemma take_size q : forall l n p r, take_tag q n l = Ok (p, r) -> esizes p + esizes r = esizes l.
Proof.
  induction l as [|e l IH]; intros [|n] p r E; try (cbn in E; injection E as <- <-; reflexivity); [discriminate|].
  rewrite take_step in E. destruct (take_tag q (depth q (S n) e) l) as [[p1 r1]|] eqn:E1; [|discriminate]. cbn in E. injection E as <- <-.
  apply IH in E1. rewrite !esizes_cons. lia.
Qed.
Lemma bind_tags_err q b : forall fuel l e, esizes l < fuel -> bind_tags fuel q b l = Err e -> e = IndexErr.
Proof.
  induction fuel as [|fuel IH]; intros l e L E; [lia|]. cbn [bind_tags] in E. destruct l as [|x r]; [discriminate|].
  rewrite esizes_cons in L. assert (1 <= esize x) by (destruct x; cbn; lia).
  destruct x as [q' a|q'|h s|h s|l1|ds sub|n].
  1: destruct (negb (qname_eqb q' q) || memb qname_eqb q (map fst a)).
  2: { destruct (take_tag q 1 r) as [[p r0]|] eqn:T; [|cbn in E; injection E as <-; now apply take_errors in T].
       apply take_size in T. cbn [bind fst snd] in E.
       destruct (bind_tags fuel q b p) eqn:E1; [|injection E as <-; apply (IH p); [lia|easy]]. cbn [bind] in E.
       destruct (bind_tags fuel q b r0) eqn:E2; [discriminate|]. injection E as <-. apply (IH r0); [lia|easy]. }
  6: { rewrite esize_sub in L. destruct (existsb is_binding ds); cbn [bind] in E.
       - destruct (bind_tags fuel q b r) eqn:E2; [discriminate|]. injection E as <-. apply (IH r); [lia|easy].
       - destruct (bind_tags fuel q b sub) eqn:E1; [|injection E as <-; apply (IH sub); [lia|easy]]. cbn [bind] in E.
         destruct (bind_tags fuel q b r) eqn:E2; [discriminate|]. injection E as <-. apply (IH r); [lia|easy]. }
  all: destruct (bind_tags fuel q b r) eqn:E2; [discriminate|]; injection E as <-; apply (IH r); [lia|easy].
Qed.
Theorem bind_unbound_errors q b l e : bind_unbound q b l = Err e -> e = IndexErr.
Proof. apply bind_tags_err. lia. Qed.

Lemma orderly_app q l1 l2 : orderly q l1 -> orderly q l2 -> orderly q (l1 ++ l2).
Proof.
  induction 1; intros H2; cbn [app]; [easy|now apply or_sub; [|apply IHorderly2]|now apply or_other; [| |apply IHorderly]|].
  rewrite <- app_assoc. cbn [app]. apply or_tag; [easy|easy|now apply IHorderly2].
Qed.
Lemma orderly_end q l : orderly q l -> orderly q (End q :: l).
Proof. now apply or_other. Qed.
Theorem bind_unbound_orderly q b l : orderly q l -> exists l', bound_to q b l l'.
Proof.
  assert (G : forall k l, esizes l < k -> orderly q l -> exists l', bound_to q b l l').
  { induction k as [|k IH]; intros l0 L O; [lia|].
    inversion O as [|ds l1 r O1 O2|e r Ne Ns O1|a l1 r C O1 O2]; subst.
    - exists []. constructor.
    - rewrite esizes_cons, esize_sub in L. destruct (IH r ltac:(lia) O2) as (r' & B).
      destruct (existsb is_binding ds) eqn:E.
      + apply binding_in in E as (x & I). exists (Sub ds l1 :: r'). now apply (bt_bound q b ds l1 x).
      + destruct (IH l1 ltac:(lia) O1) as (l1' & B1). exists (Sub ds l1' :: r'). apply bt_sub; [now apply binding_out|easy|easy].
    - rewrite esizes_cons in L. assert (1 <= esize e) by (destruct e; cbn; lia). destruct (IH r ltac:(lia) O1) as (r' & B).
      exists (e :: r'). apply bt_same; [easy| |easy]. intros a ->. now elim (Ne a).
    - rewrite esizes_cons, esizes_app, esizes_cons in L. cbn [esize] in L.
      destruct (memb qname_eqb q (map fst a)) eqn:M.
      + apply in_names_spec in M.
        destruct (IH (l1 ++ End q :: r)) as (r' & B); [rewrite esizes_app, esizes_cons; cbn [esize]; lia| |].
        { apply orderly_app; [easy|now apply orderly_end]. }
        exists (Start q a :: r'). apply bt_same; [easy| |easy]. intros a0 E0. now injection E0 as <-.
      + destruct (IH l1 ltac:(lia) O1) as (l1' & B1). destruct (IH r ltac:(lia) O2) as (r' & B2).
        eexists. apply bt_tag; try eassumption. intros I. apply in_names_spec in I. congruence. }
  apply (G (S (esizes l))). lia.
Qed.

Lemma shapes_cons e l : shapes (e :: l) = shape e ++ shapes l.
Proof. reflexivity. Qed.
Lemma shapes_app l1 l2 : shapes (l1 ++ l2) = shapes l1 ++ shapes l2.
Proof. apply flat_map_app. Qed.
Lemma shape_sub ds l : shape (Sub ds l) = shapes l.
Proof. reflexivity. Qed.
Theorem bound_to_shapes q b l l' : bound_to q b l l' -> shapes l' = shapes l.
Proof.
  induction 1; rewrite ?shapes_cons, ?shape_sub, ?shapes_cons, ?shapes_app, ?shapes_cons; rewrite ?IHbound_to, ?IHbound_to1, ?IHbound_to2; try easy.
  cbn. now rewrite <- app_assoc.
Qed.
(* nothing is left to bind *)
Theorem bound_to_again q b b' l l' : bound_to q b l l' -> bound_to q b' l' l'.
Proof.
  induction 1 as [|a inner inner' l l' Na C B1 IH1 B2 IH2|ds sub x l l' I B IH|ds sub sub' l l' Ni B1 IH1 B2 IH2|e l l' Ns Nq B IH].
  - constructor. - apply (bt_bound q b' _ _ (Some b)); [now left|easy]. - now apply (bt_bound q b' ds sub x). - now apply bt_sub. - now apply bt_same.
Qed.
