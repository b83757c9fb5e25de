From Verif Require Import PyBase PyBaseFacts PyList PyListFacts ModelSeq SpecSeq.
From Coq Require Import Permutation.

Lemma NoDup_app_r' {A} (l l' : list A) : NoDup (l ++ l') -> NoDup l'.
Proof. induction l; [easy|]. cbn. intros H. inversion H; auto. Qed.
Section P.
Context {V M : Type} (sch : mschema V M).
Implicit Types (h : heap M) (q : seqst M) (L : list nat).

(* ---------------- heaps ---------------- *)
Definition ext h h' : Prop :=
  h_next h <= h_next h' /\ forall i, i < h_next h -> h_con h' i = h_con h i /\ h_elem h' i = h_elem h i.
Lemma ext_refl h : ext h h. Proof. split; auto. Qed.
Lemma ext_trans h1 h2 h3 : ext h1 h2 -> ext h2 h3 -> ext h1 h3.
Proof.
  intros [A1 B1] [A2 B2]. split; [lia|]. intros i Hi.
  destruct (B1 i Hi), (B2 i) as [-> ->]; [lia|]. easy.
Qed.
Lemma fset_same {A} (f : nat -> A) k v : fset f k v k = v.
Proof. unfold fset. now rewrite Nat.eqb_refl. Qed.
Lemma fset_other {A} (f : nat -> A) k v i : i <> k -> fset f k v i = f i.
Proof. unfold fset. destruct (Nat.eqb_spec i k); easy. Qed.

(* L lists slots of the list [self] with members *)
Definition preh h (self : nat) L : Prop :=
  NoDup L
  /\ (forall s, In s L -> s < h_next h /\ h_elem h s < h_next h
        /\ h_parent h s = Some self /\ h_parent h (h_elem h s) = Some s)
  /\ (forall s s', In s L -> In s' L -> h_elem h s <> s').
Definition looseL h L e : Prop :=
  e < h_next h /\ ~ In e L /\ forall s, In s L -> h_elem h s <> e.
Definition namedL h L : Prop := forall i s, nth_error L i = Some s -> h_name h s = dec_nat i.
Definition linv q : Prop := preh (q_h q) (q_self q) (q_items q) /\ namedL (q_h q) (q_items q).

Lemma preh_subm h self L L' : preh h self L -> subm L' L -> preh h self L'.
Proof.
  intros (H1 & H2 & H3) Hs. pose proof (subm_incl _ _ Hs) as Hi.
  split; [now apply (subm_NoDup _ _ Hs)|]. split; intros; [apply H2|apply H3]; auto.
Qed.

Lemma make_spec h v :
  let '(h', r) := make sch h v in
  ext h h' /\ h_name h' = h_name h
  /\ (forall i, i < h_next h -> h_parent h' i = h_parent h i)
  /\ match r with
     | Ok e => e = h_next h /\ h_next h' = S e /\ wrap sch (h_con h) (AVal v) = Ok (h_con h' e)
     | Err x => h' = h /\ wrap sch (h_con h) (AVal v) = Err x
     end.
Proof.
  unfold make, wrap. destruct (ms_set sch (ms_new sch) v) as [m [b|x]]; simpl.
  - split; [|split; [easy|split]].
    + split; simpl; [lia|]. intros i Hi. rewrite fset_other by lia. easy.
    + intros i Hi. now rewrite fset_other by lia.
    + rewrite fset_same. easy.
  - split; [apply ext_refl|]. easy.
Qed.
Lemma as_element_spec h a :
  let '(h', r) := as_element sch h a in
  ext h h' /\ h_name h' = h_name h
  /\ (forall i, i < h_next h -> h_parent h' i = h_parent h i)
  /\ match r with
     | Ok e => wrap sch (h_con h) a = Ok (h_con h' e) /\ (a = AElem e /\ h' = h \/ (exists v, a = AVal v) /\ e = h_next h /\ h_next h' = S e)
     | Err x => h' = h /\ wrap sch (h_con h) a = Err x
     end.
Proof.
  destruct a as [v|e]; unfold as_element.
  - pose proof (make_spec h v) as H. destruct (make sch h v) as [h' [e|x]].
    + destruct H as (H1 & H2 & H3 & H4 & H5 & H6). repeat (split; [easy|]). right. eauto.
    + easy.
  - split; [apply ext_refl|]. repeat (split; [easy|]). now left.
Qed.
Lemma preh_ext h h' self L : preh h self L -> ext h h' ->
  (forall i, i < h_next h -> h_parent h' i = h_parent h i) -> preh h' self L.
Proof.
  intros (H1 & H2 & H3) [E1 E2] Hp. split; [easy|]. split.
  - intros s Hs. destruct (H2 s Hs) as (A & B & C & D). destruct (E2 s A) as [_ Ee]. rewrite Ee.
    repeat split; try lia; rewrite Hp by easy; easy.
  - intros s s' Hs Hs'. destruct (H2 s Hs) as (A & _). destruct (E2 s A) as [_ ->]. now apply H3.
Qed.
Lemma alloc_slot_spec h nm self e L : preh h self L -> looseL h L e ->
  let '(h', s) := alloc_slot h nm self e in
  ext h h' /\ s = h_next h /\ h_next h' = S s /\ preh h' self (s :: L) /\ h_name h' s = nm /\ h_elem h' s = e
  /\ (forall i, i <> s -> h_name h' i = h_name h i) /\ h_con h' = h_con h.
Proof.
  intros (H1 & H2 & H3) (He & HeL & Hee). unfold alloc_slot. cbn [h_next h_name h_elem h_con].
  rewrite !fset_same. split; [|repeat split; try easy].
  - split; cbn; [lia|]. intros i Hi. rewrite fset_other by lia. easy.
  - constructor; [|easy]. intros Hs. destruct (H2 _ Hs). lia.
  - destruct H as [<-|Hs]; cbn; [lia|]. destruct (H2 _ Hs). lia.
  - cbn. destruct H as [<-|Hs]; [rewrite fset_same; lia|]. destruct (H2 _ Hs) as (A & B & _).
    rewrite fset_other by lia. lia.
  - cbn. destruct H as [<-|Hs].
    + rewrite fset_other by lia. apply fset_same.
    + destruct (H2 _ Hs) as (A & B & C & D). rewrite fset_other by (intros ->; now apply HeL).
      rewrite fset_other by lia. easy.
  - cbn. destruct H as [<-|Hs].
    + rewrite fset_same, fset_same. easy.
    + destruct (H2 _ Hs) as (A & B & C & D). rewrite (fset_other (h_elem h)) by lia.
      rewrite fset_other by (apply Hee; easy). rewrite fset_other by lia. easy.
  - cbn. intros s s' [<-|Hs] [<-|Hs'].
    + rewrite fset_same. lia.
    + rewrite fset_same. now intros ->.
    + destruct (H2 _ Hs) as (A & B & _). rewrite fset_other by lia. lia.
    + destruct (H2 _ Hs) as (A & B & _). rewrite fset_other by lia. auto.
  - intros i Hi. apply fset_other. exact Hi.
Qed.
Lemma looseL_ext h h' L e : looseL h L e -> (forall s, In s L -> s < h_next h) -> ext h h' -> looseL h' L e.
Proof.
  intros (A & B & C) Hb [E1 E2]. split; [lia|]. split; [easy|]. intros s Hs.
  destruct (E2 s (Hb s Hs)) as [_ ->]. auto.
Qed.
Lemma new_slot_spec q a L : preh (q_h q) (q_self q) L ->
  (forall e, a = AElem e -> looseL (q_h q) L e) ->
  let '(h', r) := new_slot sch q a in
  ext (q_h q) h' /\ (forall i, i < h_next (q_h q) -> h_name h' i = h_name (q_h q) i)
  /\ match r with
     | Ok s => preh h' (q_self q) (s :: L) /\ h_name h' s = dec_nat (List.length (q_items q))
               /\ wrap sch (h_con (q_h q)) a = Ok (h_con h' (h_elem h' s)) /\ h_next (q_h q) <= s
               /\ (forall e, h_elem h' s = e -> e < h_next (q_h q) -> a = AElem e)
     | Err x => preh h' (q_self q) L /\ wrap sch (h_con (q_h q)) a = Err x
     end.
Proof.
  intros Hp Hl. unfold new_slot. pose proof (as_element_spec (q_h q) a) as H.
  destruct (as_element sch (q_h q) a) as [h r]. destruct H as (E & Hn & Hpar & H).
  assert (preh h (q_self q) L) as Hp' by (eapply preh_ext; eauto).
  destruct r as [e|x].
  - destruct H as [Hw Ha].
    assert (looseL h L e) as He.
    { destruct Ha as [[-> ->]|((v & ->) & -> & Hnx)]; [auto|].
      split; [lia|]. destruct Hp as (_ & H2 & _). split.
      - intros Hs. destruct (H2 _ Hs). lia.
      - intros s Hs. destruct (H2 _ Hs) as (A & B & _). destruct E as [_ E]. destruct (E s A) as [_ ->]. lia. }
    pose proof (alloc_slot_spec h (dec_nat (List.length (q_items q))) (q_self q) e L Hp' He) as Hs.
    destruct (alloc_slot h _ (q_self q) e) as [h' s]. destruct Hs as (E' & -> & Hnx & Hp2 & Hname & Helem & Hnm & Hc).
    split; [eapply ext_trans; eauto|]. split.
    + intros i Hi. rewrite Hnm by (destruct E; lia). now rewrite Hn.
    + split; [easy|]. split; [easy|]. rewrite Helem, Hc. split; [easy|]. destruct E. split; [lia|].
      intros e' <- Hlt. destruct Ha as [[-> _]|(_ & -> & _)]; [easy|lia].
  - destruct H as [-> Hw]. split; [easy|]. split; [easy|]. easy.
Qed.

(* ---------------- renumbering ---------------- *)
Lemma renumber_from_frame h i l : h_next (renumber_from h i l) = h_next h
  /\ h_parent (renumber_from h i l) = h_parent h /\ h_elem (renumber_from h i l) = h_elem h
  /\ h_con (renumber_from h i l) = h_con h
  /\ (forall x, ~ In x l -> h_name (renumber_from h i l) x = h_name h x).
Proof.
  revert h i; induction l as [|s l IH]; intros h i; cbn [renumber_from]; [easy|].
  destruct (IH (set_name h s (dec_nat i)) (S i)) as (A & B & C & D & E). rewrite A, B, C, D.
  repeat (split; [easy|]). intros x Hx. rewrite E by (intros ?; apply Hx; now right). cbn.
  apply fset_other. intros ->. apply Hx. now left.
Qed.
Lemma renumber_from_names h i l : NoDup l ->
  forall k s, nth_error l k = Some s -> h_name (renumber_from h i l) s = dec_nat (i + k).
Proof.
  revert h i; induction l as [|x l IH]; intros h i Hn k s Hk; [now destruct k|].
  inversion Hn; subst. cbn [renumber_from]. destruct k as [|k]; cbn in Hk.
  - injection Hk as ->. destruct (renumber_from_frame (set_name h s (dec_nat i)) (S i) l) as (_ & _ & _ & _ & E).
    rewrite E by easy. cbn [h_name set_name]. rewrite fset_same, Nat.add_0_r. easy.
  - rewrite (IH _ _ H2 k s Hk). now rewrite Nat.add_succ_comm.
Qed.
Lemma renumber_spec q : preh (q_h q) (q_self q) (q_items q) ->
  linv (renumber q) /\ q_self (renumber q) = q_self q /\ q_items (renumber q) = q_items q
  /\ h_con (q_h (renumber q)) = h_con (q_h q) /\ h_elem (q_h (renumber q)) = h_elem (q_h q)
  /\ h_next (q_h (renumber q)) = h_next (q_h q).
Proof.
  intros Hp. unfold renumber, with_heap. cbn.
  destruct (renumber_from_frame (q_h q) 0 (q_items q)) as (A & B & C & D & E).
  split; [|now rewrite A, C, D]. split.
  - cbn. destruct Hp as (H1 & H2 & H3). split; [easy|]. rewrite A, B, C. easy.
  - cbn. intros i s Hi. apply (renumber_from_names _ 0); [apply Hp|easy].
Qed.
Lemma renumber_values q : preh (q_h q) (q_self q) (q_items q) -> list_values (renumber q) = list_values q.
Proof.
  intros H. destruct (renumber_spec q H) as (_ & _ & B & C & D & _). unfold list_values. now rewrite B, C, D.
Qed.

Lemma values_ext h h' L : (forall s, In s L -> s < h_next h /\ h_elem h s < h_next h) -> ext h h' ->
  map (fun s => h_con h' (h_elem h' s)) L = map (fun s => h_con h (h_elem h s)) L.
Proof.
  intros Hb [_ E]. apply map_ext_in. intros s Hs. destruct (Hb s Hs) as [A B].
  destruct (E s A) as [_ ->]. now destruct (E _ B) as [-> _].
Qed.
Lemma preh_bound h self L : preh h self L -> forall s, In s L -> s < h_next h /\ h_elem h s < h_next h.
Proof. intros (_ & H & _) s Hs. destruct (H s Hs) as (? & ? & _). easy. Qed.

(* ---------------- one call at a time ---------------- *)
Definition good q q' : Prop := linv q' /\ q_self q' = q_self q.
Lemma linv_ok q : linv q -> list_ok q.
Proof.
  intros [(H1 & H2 & H3) Hn]. split; [easy|]. intros i s Hi. split; [auto|].
  apply nth_error_In in Hi. destruct (H2 s Hi) as (_ & _ & ? & ?). easy.
Qed.
Lemma namedL_ext h h' L : namedL h L -> (forall s, In s L -> s < h_next h) ->
  (forall i, i < h_next h -> h_name h' i = h_name h i) -> namedL h' L.
Proof. intros H Hb Hn i s Hi. rewrite Hn; [now apply H|]. apply Hb. eapply nth_error_In; eauto. Qed.

Lemma append_spec q a : linv q -> (forall e, a = AElem e -> loose q e) ->
  let '(q', r) := l_append sch q a in
  good q q' /\ ext (q_h q) (q_h q')
  /\ match r with
     | Ok _ => exists m s, wrap sch (h_con (q_h q)) a = Ok m /\ list_values q' = list_values q ++ [m]
                  /\ q_items q' = q_items q ++ [s] /\ h_next (q_h q) <= s
                  /\ (forall e, h_elem (q_h q') s = e -> e < h_next (q_h q) -> a = AElem e)
     | Err x => wrap sch (h_con (q_h q)) a = Err x /\ list_values q' = list_values q /\ q_items q' = q_items q
     end.
Proof.
  intros [Hp Hn] Ha. unfold l_append. pose proof (new_slot_spec q a (q_items q) Hp Ha) as H.
  destruct (new_slot sch q a) as [h r]. destruct H as (E & Hnm & H).
  pose proof (preh_bound _ _ _ Hp) as Hb.
  destruct r as [s|x].
  - destruct H as (Hp' & Hname & Hw & Hs & He). split; [split; [split|]|]; try easy.
    + cbn. eapply preh_subm; [exact Hp'|]. apply subm_perm. apply Permutation_sym, Permutation_cons_append.
    + cbn. intros i x Hi. destruct (Nat.lt_ge_cases i (List.length (q_items q))) as [Hlt|Hge].
      * rewrite nth_error_app1 in Hi by easy. rewrite Hnm; [now apply Hn|]. apply Hb. eapply nth_error_In; eauto.
      * rewrite nth_error_app2 in Hi by easy. destruct (i - List.length (q_items q)) as [|k] eqn:Ek; [|destruct k; easy].
        cbn in Hi. injection Hi as <-. rewrite Hname. replace i with (List.length (q_items q)) by lia. easy.
    + cbn. split; [easy|]. eexists _, s. split; [exact Hw|]. unfold list_values. cbn. rewrite map_app. cbn.
      rewrite (values_ext (q_h q) h) by easy. easy.
  - destruct H as [Hp' Hw]. split; [split; [split|]|]; cbn; try easy.
    + eapply namedL_ext; eauto. intros s Hs. now apply Hb.
    + split; [easy|]. split; [easy|]. split; [|easy]. unfold list_values. cbn. now rewrite (values_ext (q_h q) h).
Qed.

Lemma loose_after q q' a s e : linv q -> ext (q_h q) (q_h q') -> q_items q' = q_items q ++ [s] ->
  h_next (q_h q) <= s -> (forall e, h_elem (q_h q') s = e -> e < h_next (q_h q) -> a = AElem e) ->
  loose q e -> @AElem V e <> a -> loose q' e.
Proof.
  intros [Hp _] [E1 E2] Hi Hs Ha (L1 & L2 & L3) Hne. split; [lia|]. rewrite Hi. split.
  - rewrite in_app_iff. intros [H|[H|[]]]; [easy|lia].
  - intros x Hx. rewrite in_app_iff in Hx. destruct Hx as [Hx|[<-|[]]].
    + destruct (preh_bound _ _ _ Hp x Hx) as [Hb _]. destruct (E2 x Hb) as [_ ->]. auto.
    + intros He. apply Hne. symmetry. now apply Ha.
Qed.
Lemma wrap_con_ext (c c' : nat -> M) a : (forall e, a = AElem e -> c e = c' e) -> wrap sch c a = wrap sch c' a.
Proof. destruct a; cbn; [easy|]. intros H. now rewrite (H e). Qed.
Lemma wrap_all_ext (c c' : nat -> M) l x : (forall e, In e (arg_elems l) -> c e = c' e) -> wrap_all sch c l x = wrap_all sch c' l x.
Proof.
  induction l as [|a l IH]; intros H; [easy|]. cbn [wrap_all].
  rewrite (wrap_con_ext c c') by (intros e ->; apply H; now left).
  rewrite IH; [easy|]. intros e He. apply H. cbn. apply in_or_app. now right.
Qed.
Lemma extend_all_spec q l last : linv q -> loose_all q l ->
  let '(q', r) := iter_end (l_extend_all sch q l) last in
  good q q' /\ ext (q_h q) (q_h q')
  /\ let '(ms, x) := wrap_all sch (h_con (q_h q)) l last in
     list_values q' = list_values q ++ ms /\ r = match x with None => Ok tt | Some e => Err e end.
Proof.
  revert q; induction l as [|a l IH]; intros q Hq [Hnd Hl]; cbn [l_extend_all wrap_all].
  - cbn. destruct last; (split; [easy|]; split; [apply ext_refl|]; now rewrite app_nil_r).
  - assert (forall e, a = AElem e -> loose q e) as Ha by (intros e ->; apply Hl; now left).
    pose proof (append_spec q a Hq Ha) as H. destruct (l_append sch q a) as [q1 r1].
    destruct H as ((Hq1 & Hs1) & E1 & H1). destruct r1 as [u|x].
    + destruct H1 as (m & s & Hw & Hv & Hi & Hsn & He). rewrite Hw.
      assert (loose_all q1 l) as Hl1.
      { split.
        - cbn in Hnd. apply NoDup_app_r' in Hnd. exact Hnd.
        - intros e Hin. eapply (loose_after q q1 a s e); eauto.
          + apply Hl. cbn. apply in_or_app. now right.
          + intros Heq. subst a. cbn in Hnd. inversion Hnd; subst. easy. }
      specialize (IH q1 Hq1 Hl1). destruct (l_extend_all sch q1 l) as [q2 r2].
      destruct (iter_end (q2, r2) last) as [q3 r3]. destruct IH as ((Hq3 & Hs3) & E3 & H3).
      split; [split; [easy|congruence]|]. split; [eapply ext_trans; eauto|].
      rewrite (wrap_all_ext (h_con (q_h q)) (h_con (q_h q1))).
      * destruct (wrap_all sch (h_con (q_h q1)) l last) as [ms x]. destruct H3 as [H3 ->].
        rewrite H3, Hv, <- app_assoc. easy.
      * intros e Hin. destruct E1 as [_ E1]. destruct (E1 e) as [-> _]; [|easy].
        apply Hl. cbn. apply in_or_app. now right.
    + destruct H1 as (Hw & Hv & Hi). rewrite Hw. cbn. split; [easy|]. split; [easy|]. now rewrite app_nil_r.
Qed.
(*CUT*)

Ltac reb q := match goal with |- context [Seq (q_h q) (q_self q) (q_items q)] => idtac end.
Lemma values_with_heap q h : preh (q_h q) (q_self q) (q_items q) -> ext (q_h q) h ->
  list_values (with_heap q h) = list_values q.
Proof. intros Hp E. unfold list_values, with_heap. cbn. now rewrite (values_ext (q_h q) h _ (preh_bound _ _ _ Hp) E). Qed.
Lemma linv_ext q h : linv q -> ext (q_h q) h -> preh h (q_self q) (q_items q) ->
  (forall i, i < h_next (q_h q) -> h_name h i = h_name (q_h q) i) -> linv (with_heap q h).
Proof.
  intros [Hp Hn] E Hp' Hnm. split; [easy|]. cbn. eapply namedL_ext; eauto.
  intros s Hs. now apply (preh_bound _ _ _ Hp).
Qed.
Lemma as_element_linv q a h r : linv q -> as_element sch (q_h q) a = (h, r) ->
  linv (with_heap q h) /\ ext (q_h q) h
  /\ match r with Ok e => wrap sch (h_con (q_h q)) a = Ok (h_con h e)
     | Err x => wrap sch (h_con (q_h q)) a = Err x end.
Proof.
  intros Hq E. pose proof (as_element_spec (q_h q) a) as H. rewrite E in H. destruct H as (Ex & Hn & Hp & H).
  split; [|split; [easy|]].
  - apply linv_ext; auto; [|now rewrite Hn]. eapply preh_ext; eauto. apply Hq.
  - destruct r; easy.
Qed.

Definition val h s : M := h_con h (h_elem h s).
Lemma list_values_val q : list_values q = map (val (q_h q)) (q_items q).
Proof. easy. Qed.

(* a change of the items to a sub-multiset, then renumbering *)
Lemma sub_renumber q l : linv q -> subm l (q_items q) ->
  good q (renumber (with_items q l)) /\ list_values (renumber (with_items q l)) = map (val (q_h q)) l.
Proof.
  intros [Hp Hn] Hs. assert (preh (q_h q) (q_self q) l) as Hl by (eapply preh_subm; eauto).
  destruct (renumber_spec (with_items q l) Hl) as (A & B & _). split; [now split|].
  now rewrite (renumber_values (with_items q l) Hl).
Qed.
Lemma insert_spec q i a : linv q -> (forall e, a = AElem e -> loose q e) ->
  let '(q', r) := l_insert sch q i a in
  good q q' /\ match wrap sch (h_con (q_h q)) a with
     | Ok m => r = Ok tt /\ list_values q' = pl_insert (list_values q) i m
     | Err x => r = Err x /\ list_values q' = list_values q
     end.
Proof.
  intros Hq Ha. pose proof Hq as [Hp Hn]. unfold l_insert.
  pose proof (new_slot_spec q a (q_items q) Hp Ha) as H.
  destruct (new_slot sch q a) as [h r]. destruct H as (E & Hnm & H). destruct r as [s|x].
  - destruct H as (Hp' & Hname & Hw & Hs & He). rewrite Hw.
    assert (preh h (q_self q) (pl_insert (q_items q) i s)) as Hl
      by (eapply preh_subm; [exact Hp'|]; apply subm_perm, perm_insert).
    destruct (renumber_spec (Seq h (q_self q) (pl_insert (q_items q) i s)) Hl) as (A & B & _).
    split; [now split|]. split; [easy|].
    rewrite (renumber_values (Seq h (q_self q) (pl_insert (q_items q) i s)) Hl).
    rewrite list_values_val. cbn [q_h q_items]. rewrite <- pl_insert_map.
    f_equal. symmetry. rewrite list_values_val. symmetry. now apply (values_ext (q_h q) h); [apply (preh_bound _ _ _ Hp)|].
  - destruct H as [Hp' Hw]. rewrite Hw. split; [split; [now apply linv_ext|easy]|].
    split; [easy|]. now apply values_with_heap.
Qed.
Lemma new_slots_spec q l L last : preh (q_h q) (q_self q) L ->
  NoDup (arg_elems l) -> (forall e, In e (arg_elems l) -> looseL (q_h q) L e) ->
  let '(h', r) := new_slots sch q l in
  ext (q_h q) h' /\ (forall i, i < h_next (q_h q) -> h_name h' i = h_name (q_h q) i)
  /\ preh h' (q_self q) L
  /\ match r with
     | Ok ss => preh h' (q_self q) (ss ++ L) /\ wrap_all sch (h_con (q_h q)) l last = (map (val h') ss, last)
     | Err x => exists ms, wrap_all sch (h_con (q_h q)) l last = (ms, Some x)
     end.
Proof.
  revert q L; induction l as [|a l IH]; intros q L Hp Hnd Hl; cbn [new_slots wrap_all].
  - split; [apply ext_refl|]. easy.
  - assert (forall e, a = AElem e -> looseL (q_h q) L e) as Ha by (intros e ->; apply Hl; now left).
    pose proof (new_slot_spec q a L Hp Ha) as H. destruct (new_slot sch q a) as [h [s|x]].
    2:{ destruct H as (E & Hnm & Hp' & Hw). rewrite Hw. repeat (split; [easy|]). now exists []. }
    destruct H as (E & Hnm & Hp' & Hname & Hw & Hs & He). rewrite Hw.
    assert (NoDup (arg_elems l)) as Hnd' by (cbn in Hnd; now apply NoDup_app_r' in Hnd).
    assert (forall e, In e (arg_elems l) -> looseL (q_h (with_heap q h)) (s :: L) e) as Hl'.
    { intros e Hin. assert (looseL (q_h q) L e) as Hle by (apply Hl; cbn; apply in_or_app; now right).
      pose proof (looseL_ext _ h _ _ Hle (fun s Hs => proj1 (preh_bound _ _ _ Hp s Hs)) E) as (B1 & B2 & B3).
      split; [exact B1|]. split.
      - intros [<-|Hx]; [destruct Hle; lia|easy].
      - intros x [<-|Hx]; [|now apply B3]. intros Heq. cbn in Heq. apply He in Heq; [|apply Hle]. subst a.
        cbn in Hnd. inversion Hnd; subst. easy. }
    specialize (IH (with_heap q h) (s :: L) Hp' Hnd' Hl'). cbn [q_h with_heap q_self] in IH.
    change (new_slots sch (with_heap q h) l) with (new_slots sch (Seq h (q_self q) (q_items q)) l) in *.
    change (with_heap q h) with (Seq h (q_self q) (q_items q)).
    destruct (new_slots sch (Seq h (q_self q) (q_items q)) l) as [h2 r2].
    destruct IH as (E2 & Hn2 & Hp2 & H2).
    split; [eapply ext_trans; eauto|]. split; [intros i Hi; rewrite Hn2, Hnm by (try easy; destruct E; lia); easy|].
    split; [eapply preh_subm; [exact Hp2|]; exists [s]; apply Permutation_sym, Permutation_cons_append|].
    rewrite (wrap_all_ext (h_con (q_h q)) (h_con h)).
    2:{ intros e Hin. destruct E as [_ E]. destruct (E e) as [-> _]; [|easy]. apply Hl. cbn. apply in_or_app. now right. }
    destruct r2 as [ss|x]; cbn [rmap].
    + destruct H2 as [H2 ->]. split.
      * eapply preh_subm; [exact H2|]. apply subm_perm. apply Permutation_middle.
      * f_equal. cbn. f_equal. unfold val. destruct (preh_bound _ _ _ Hp' s) as [C1 C2]; [now left|].
        destruct E2 as [_ E2]. destruct (E2 s C1) as [_ ->]. now destruct (E2 _ C2) as [-> _].
    + destruct H2 as [ms ->]. eauto.
Qed.
Lemma setslice_spec q sl it : linv q -> loose_all q (it_items it) ->
  let '(q', r) := l_setslice sch q sl it in
  good q q' /\ let '(ms, x) := wrap_all sch (h_con (q_h q)) (it_items it) (it_end it) in
     match x with
     | Some e => r = Err e /\ list_values q' = list_values q
     | None => match pl_setslice (list_values q) sl ms with
               | Ok l => r = Ok tt /\ list_values q' = l
               | Err e => r = Err e /\ list_values q' = list_values q
               end
     end.
Proof.
  intros Hq [Hnd Hl]. pose proof Hq as [Hp Hn]. unfold l_setslice.
  pose proof (new_slots_spec q (it_items it) (q_items q) (it_end it) Hp Hnd Hl) as H.
  destruct (new_slots sch q (it_items it)) as [h r]. destruct H as (E & Hnm & Hp' & H).
  assert (good q (with_heap q h)) as Hg by (split; [now apply linv_ext|easy]).
  assert (list_values (with_heap q h) = list_values q) as Hv by now apply values_with_heap.
  destruct r as [ss|x].
  2:{ destruct H as [ms ->]. easy. }
  destruct H as [Hss ->]. destruct (it_end it) as [x|]; [easy|].
  rewrite <- Hv. rewrite list_values_val. cbn [q_h q_items with_heap]. rewrite pl_setslice_map.
  destruct (pl_setslice (q_items q) sl ss) as [l|x] eqn:El; cbn [rmap]; [|easy].
  assert (preh h (q_self q) l) as Hpl by (eapply preh_subm; [exact Hss|eapply subm_setslice; eauto]).
  destruct (renumber_spec (Seq h (q_self q) l) Hpl) as (A & B & _).
  split; [now split|]. split; [easy|]. now rewrite (renumber_values (Seq h (q_self q) l) Hpl).
Qed.
(*CUT*)

Lemma elem_inj h self L s s' : preh h self L -> In s L -> In s' L -> h_elem h s = h_elem h s' -> s = s'.
Proof.
  intros (_ & H & _) Hs Hs' E. destruct (H s Hs) as (_ & _ & _ & P). destruct (H s' Hs') as (_ & _ & _ & P').
  rewrite E in P. congruence.
Qed.
Lemma upd_nth_map_at {A B} (f g : A -> B) l k x : NoDup l -> nth_error l k = Some x ->
  (forall y, In y l -> y <> x -> g y = f y) -> map g l = upd_nth k (g x) (map f l).
Proof.
  revert k; induction l as [|y l IH]; intros k Hn Hk Hg; [now destruct k|].
  inversion Hn; subst. destruct k as [|k]; cbn in Hk.
  - injection Hk as ->. unfold upd_nth. cbn. f_equal. apply map_ext_in. intros z Hz. apply Hg; [now right|].
    now intros ->.
  - specialize (IH k H2 Hk). unfold upd_nth in *. cbn. rewrite IH by (intros z Hz; apply Hg; now right).
    cbn. f_equal. apply Hg; [now left|]. intros ->. apply H1. eapply nth_error_In; eauto.
Qed.
Lemma setitem_spec q i a : linv q ->
  let '(q', r) := l_setitem sch q i a in
  good q q' /\ match pl_get (list_values q) i with
     | Err x => r = Err x /\ list_values q' = list_values q
     | Ok m => let '(m', r') := list_in_place sch (h_con (q_h q)) m a in
               r = r' /\ pl_set (list_values q) i m' = Ok (list_values q')
     end.
Proof.
  intros Hq. pose proof Hq as [Hp Hn]. unfold l_setitem. rewrite list_values_val, pl_get_map.
  destruct (pl_get (q_items q) i) as [s|x] eqn:Eg; cbn [rmap]; [|easy].
  unfold list_in_place, val.
  destruct (match a with AVal v => _ | AElem e' => _ end) as [m r].
  assert (In s (q_items q)) as Hs by now apply (pl_get_In _ i).
  split; [split; [split|easy]|split; [easy|]].
  - destruct Hp as (A & B & C). easy.
  - easy.
  - unfold pl_set, pl_get in *. rewrite map_length. destruct (norm_index _ i) as [k|]; [|easy].
    destruct (nth_error (q_items q) k) as [s'|] eqn:Ek; [|easy]. injection Eg as ->.
    f_equal. symmetry. unfold list_values. cbn.
    rewrite (upd_nth_map_at (val (q_h q)) (fun s0 => fset (h_con (q_h q)) (h_elem (q_h q) s) m (h_elem (q_h q) s0)) _ k s);
      [now rewrite fset_same|apply Hp|easy|].
    intros y Hy Hne. unfold val. apply fset_other. intros E. apply Hne. eapply elem_inj; eauto.
Qed.
Lemma fill_spec q fs : linv q ->
  let '(q', r) := fill sch q fs in
  good q q' /\ let '(ms, x) := fill_all sch fs in
     list_values q' = list_values q ++ ms /\ r = match x with None => Ok tt | Some e => Err e end.
Proof.
  revert q; induction fs as [|f fs IH]; intros q Hq; cbn [fill fill_all].
  { split; [easy|]. now rewrite app_nil_r. }
  pose proof Hq as [Hp Hn]. unfold blank_slot. cbn [alloc_elem].
  set (h1 := Heap (S (h_next (q_h q))) (fset (h_parent (q_h q)) (h_next (q_h q)) None) (h_name (q_h q))
      (h_elem (q_h q)) (fset (h_con (q_h q)) (h_next (q_h q)) (ms_new sch))).
  assert (ext (q_h q) h1) as E1.
  { split; cbn; [lia|]. intros i Hi. rewrite fset_other by lia. easy. }
  assert (preh h1 (q_self q) (q_items q)) as Hp1.
  { eapply preh_ext; eauto. intros i Hi. cbn. now rewrite fset_other by lia. }
  assert (looseL h1 (q_items q) (h_next (q_h q))) as Hl.
  { split; [cbn; lia|]. split; [intros Hx|intros s Hx]; destruct (preh_bound _ _ _ Hp _ Hx); cbn; lia. }
  pose proof (alloc_slot_spec h1 (dec_nat (List.length (q_items q))) (q_self q) _ _ Hp1 Hl) as H.
  destruct (alloc_slot h1 _ (q_self q) _) as [h s]. destruct H as (E2 & Hs & Hnx & Hp2 & Hname & Helem & Hnm & Hc).
  rewrite Helem, Hc. replace (h_con h1 (h_next (q_h q))) with (ms_new sch) by (cbn; now rewrite fset_same).
  destruct (f (ms_new sch)) as [m r].
  set (q' := Seq (set_con h (h_next (q_h q)) m) (q_self q) (q_items q ++ [s])).
  assert (linv q') as Hq'.
  { split.
    - cbn. assert (preh h (q_self q) (q_items q ++ [s])) as (A & B & C).
      { eapply preh_subm; [exact Hp2|]. apply subm_perm, Permutation_sym, Permutation_cons_append. }
      easy.
    - cbn. intros i x Hi. cbn. destruct (Nat.lt_ge_cases i (List.length (q_items q))) as [Hlt|Hge].
      + rewrite nth_error_app1 in Hi by easy. rewrite Hnm; [now apply Hn|]. apply nth_error_In in Hi.
        destruct (preh_bound _ _ _ Hp _ Hi). intros ->. rewrite Hs in H. cbn in H. lia.
      + rewrite nth_error_app2 in Hi by easy. destruct (i - List.length (q_items q)) as [|k] eqn:Ek; [|destruct k; easy].
        cbn in Hi. injection Hi as <-. rewrite Hname. replace i with (List.length (q_items q)) by lia. easy. }
  assert (list_values q' = list_values q ++ [m]) as Hv.
  { unfold list_values. cbn. rewrite map_app. cbn. rewrite Helem, fset_same. f_equal.
    apply map_ext_in. intros x Hx. destruct (preh_bound _ _ _ Hp x Hx) as [C1 C2].
    assert (h_elem h x = h_elem (q_h q) x) as ->.
    { destruct E2 as [_ E2]. destruct (E2 x) as [_ ->]; [cbn; lia|]. easy. }
    rewrite fset_other by lia. rewrite Hc. cbn. now rewrite fset_other by lia. }
  destruct r as [u|x].
  - specialize (IH q' Hq'). destruct (fill sch q' fs) as [q2 r2]. destruct IH as [[A B] IH].
    split; [split; [easy|rewrite B; easy]|]. destruct (fill_all sch fs) as [ms x]. destruct IH as [-> ->].
    rewrite Hv, <- app_assoc. easy.
  - split; [easy|]. easy.
Qed.
Lemma build_spec h l conv last :
  let '(h', r) := build sch h l conv in
  ext h h' /\ h_name h' = h_name h /\ (forall i, i < h_next h -> h_parent h' i = h_parent h i)
  /\ let '(ms, c, x) := set_all sch l last in
     match r with
     | Ok (es, c') => NoDup es /\ (forall e, In e es -> h_next h <= e < h_next h')
                      /\ ms = map (h_con h') es /\ c' = conv && c /\ x = last
     | Err e => x = Some e
     end.
Proof.
  revert h conv; induction l as [|v l IH]; intros h conv; cbn [build set_all].
  { split; [apply ext_refl|]. repeat (split; [easy|]). split; [constructor|]. split; [easy|]. split; [easy|].
    now rewrite andb_true_r. }
  destruct (ms_set sch (ms_new sch) v) as [m [b|x]]; [|split; [apply ext_refl|easy]].
  cbn [alloc_elem]. set (h1 := Heap _ _ _ _ _). specialize (IH h1 (conv && b)).
  assert (ext h h1) as E1.
  { split; cbn; [lia|]. intros i Hi. rewrite fset_other by lia. easy. }
  destruct (build sch h1 l (conv && b)) as [h2 r2]. destruct IH as (E2 & Hn & Hpar & IH).
  split; [eapply ext_trans; eauto|]. split; [now rewrite Hn|].
  split; [intros i Hi; rewrite Hpar by (cbn; lia); cbn; now rewrite fset_other by lia|].
  destruct (set_all sch l last) as [[ms c] x]. destruct r2 as [[es c']|e]; cbn [rmap fst snd]; [|easy].
  destruct IH as (A & B & C & D & F). repeat split.
  - constructor; [|easy]. intros Hx. apply B in Hx. cbn in Hx. lia.
  - destruct H as [<-|Hx]; [lia|]. apply B in Hx. cbn in Hx. lia.
  - destruct H as [<-|Hx]; [destruct E2; cbn in *; lia|]. apply B in Hx. lia.
  - rewrite C. cbn. f_equal. destruct E2 as [_ E2]. destruct (E2 (h_next h)) as [-> _]; [cbn; lia|].
    cbn. now rewrite fset_same.
  - rewrite D. now rewrite andb_assoc.
  - easy.
Qed.
Lemma arg_elems_map es : arg_elems (map (@AElem V) es) = es.
Proof. induction es; [easy|]. cbn. now f_equal. Qed.
Lemma wrap_all_elems con es : wrap_all sch con (map AElem es) None = (map con es, None).
Proof. induction es as [|e es IH]; [easy|]. cbn. now rewrite IH. Qed.
Lemma clear_spec q : linv q ->
  exists q0, l_delslice q whole_slice = (q0, Ok tt) /\ good q q0 /\ q_items q0 = [] .
Proof.
  intros Hq. unfold l_delslice, whole_slice. rewrite del_whole. eexists. split; [reflexivity|].
  destruct (sub_renumber q [] Hq) as [A B]; [now exists (q_items q)|]. split; [easy|]. easy.
Qed.
Lemma set_spec q it : linv q ->
  let '(q', r) := l_set sch q it in
  good q q' /\ let '(ms, r') := set_plain sch it in
     list_values q' = ms /\ rmap RBool r = r'.
Proof.
  intros Hq. unfold l_set. destruct (clear_spec q Hq) as (q0 & -> & [Hq0 Hs0] & Hi0).
  pose proof (build_spec (q_h q0) (it_items it) true (it_end it)) as H. unfold set_plain.
  destruct (build sch (q_h q0) (it_items it) true) as [h r]. destruct H as (E & Hn & Hpar & H).
  assert (linv (with_heap q0 h)) as Hq1.
  { apply linv_ext; auto; [|now rewrite Hn]. eapply preh_ext; eauto. apply Hq0. }
  assert (list_values (with_heap q0 h) = []) as Hv by (unfold list_values; cbn; now rewrite Hi0).
  destruct (set_all sch (it_items it) (it_end it)) as [[ms c] x]. destruct r as [[es c']|e].
  - destruct H as (A & B & C & D & F). subst x. destruct (it_end it) as [e|].
    + cbn. destruct e; repeat (split; try easy).
    + assert (loose_all (with_heap q0 h) (map (@AElem V) es)) as Hl.
      { split; rewrite arg_elems_map; [easy|]. intros e He. apply B in He. split; [easy|].
        cbn. rewrite Hi0. easy. }
      pose proof (extend_all_spec (with_heap q0 h) _ None Hq1 Hl) as H1.
      destruct (l_extend_all sch (with_heap q0 h) (map AElem es)) as [q2 r2].
      rewrite wrap_all_elems in H1. cbn [iter_end] in H1.
      assert (match r2 with Ok _ | _ => (q2, r2) end = (q2, r2)) as E2 by now destruct r2.
      rewrite E2 in H1. destruct H1 as ([A1 A2] & _ & A3 & ->). cbn.
      split; [split; [easy|now rewrite A2]|]. rewrite A3, Hv, C, D. easy.
  - subst x. cbn. destruct e; (split; [now split|easy]).
Qed.
Lemma remove_spec q a : linv q ->
  let '(q', r) := l_remove sch q a in
  good q q' /\ match wrap sch (h_con (q_h q)) a with
     | Err x => r = Err x /\ list_values q' = list_values q
     | Ok m => match pl_remove (fun y => ms_eq sch y m) (list_values q) with
               | Ok l => r = Ok tt /\ list_values q' = l
               | Err x => r = Err x /\ list_values q' = list_values q
               end
     end.
Proof.
  intros Hq. unfold l_remove. destruct (as_element sch (q_h q) a) as [h r] eqn:Ea.
  destruct (as_element_linv q a h r Hq Ea) as (Hq' & E & Hw).
  pose proof (values_with_heap q h (proj1 Hq) E) as Hv. destruct r as [e|x]; rewrite Hw.
  2:{ easy. }
  rewrite <- Hv. rewrite list_values_val. cbn [q_h q_items with_heap].
  rewrite (pl_remove_map _ _ (slot_eq sch h e)) by easy.
  destruct (pl_remove (slot_eq sch h e) (q_items q)) as [l|x] eqn:El; cbn [rmap].
  - destruct (sub_renumber (with_heap q h) l Hq' (subm_remove _ _ _ El)) as [A B]. easy.
  - easy.
Qed.
Lemma search_spec {A} (f : (nat -> bool) -> list nat -> res A) (g : (M -> bool) -> list M -> res A) q a :
  (forall k p p' l, (forall x, In x l -> p' x = p (k x)) -> g p (map k l) = f p' l) ->
  linv q ->
  let '(q', r) := l_search sch f q a in
  good q q' /\ list_values q' = list_values q
  /\ r = match wrap sch (h_con (q_h q)) a with
         | Err x => Err x | Ok m => g (fun y => ms_eq sch y m) (list_values q) end.
Proof.
  intros Hf Hq. unfold l_search. destruct (as_element sch (q_h q) a) as [h r] eqn:Ea.
  destruct (as_element_linv q a h r Hq Ea) as (Hq' & E & Hw).
  pose proof (values_with_heap q h (proj1 Hq) E) as Hv. destruct r as [e|x]; rewrite Hw.
  - split; [easy|]. split; [easy|]. rewrite <- Hv. rewrite list_values_val. cbn [q_h q_items with_heap].
    symmetry. apply Hf. easy.
  - easy.
Qed.
Lemma pop_spec q i : linv q ->
  let '(q', r) := l_pop q i in
  good q q' /\ match pl_pop (list_values q) i with
     | Err x => r = Err x /\ list_values q' = list_values q
     | Ok (m, l) => exists s, r = Ok s /\ val (q_h q') s = m /\ list_values q' = l
     end.
Proof.
  intros Hq. unfold l_pop. rewrite list_values_val, pl_pop_map.
  destruct (pl_pop (q_items q) i) as [[s l]|x] eqn:El; cbn [rmap fst snd]; [|easy].
  destruct (pl_pop_spec _ _ _ _ El) as [Hperm _].
  assert (subm l (q_items q)) as Hsub.
  { exists [s]. eapply Permutation_trans; [|exact Hperm]. apply Permutation_sym, Permutation_cons_append. }
  destruct (sub_renumber q l Hq Hsub) as [[[Hp Hn] Hs] Hv].
  assert (preh (q_h q) (q_self q) (q_items (with_items q l))) as Hpl by (eapply preh_subm; [apply Hq|easy]).
  destruct (renumber_spec (with_items q l) Hpl) as (_ & _ & Ei & Ec & Ee & Ex).
  assert (preh (q_h q) (q_self q) (s :: l)) as (N1 & N2 & N3)
    by (eapply preh_subm; [apply Hq|apply subm_perm; exact Hperm]).
  split; [split; [split|easy]|].
  - cbn. destruct Hp as (A & B & C). split; [easy|]. split; [|exact C].
    intros x Hx. destruct (B x Hx) as (B1 & B2 & B3 & B4). cbn in B1, B2, B3, B4. cbn.
    repeat (split; [easy|]).
    assert (x <> s) as H1 by (intros ->; inversion N1; subst; easy).
    rewrite fset_other by easy. split; [easy|]. rewrite fset_other; [easy|].
    replace (h_elem (renumber_from (q_h q) 0 l)) with (h_elem (q_h q)) by now rewrite <- Ee.
    apply N3; [now right|now left].
  - cbn. exact Hn.
  - exists s. split; [easy|]. split.
    + unfold val. cbn. cbn in Ec, Ee. now rewrite Ec, Ee.
    + exact Hv.
Qed.
(*CUT*)

Lemma loose1 q (a : arg V) : loose_all q [a] -> forall e, a = AElem e -> loose q e.
Proof. intros [_ H] e ->. apply H. now left. Qed.
Theorem l_step_spec q (o : op V M) : linv q -> list_call q o ->
  let '(q', r) := l_step sch q o in
  good q q'
  /\ plain_op sch (h_con (q_h q)) (list_in_place sch (h_con (q_h q))) (list_values q) o
     = (list_values q', rmap (out_map (val (q_h q'))) r).
Proof.
  intros Hq Hc. destruct o; cbn [l_step plain_op list_call] in *; try easy.
  - pose proof (append_spec q a Hq (loose1 q a Hc)) as H. cbn [wrap_all].
    destruct (l_append sch q a) as [q' r]. destruct H as (G & _ & H). cbn [returns].
    split; [easy|]. destruct r as [u|x].
    + destruct H as (m & s & -> & -> & _). easy.
    + destruct H as (-> & -> & _). now rewrite app_nil_r.
  - pose proof (extend_all_spec q (it_items it) (it_end it) Hq Hc) as H. unfold l_extend.
    destruct (iter_end _ _) as [q' r]. destruct H as (G & _ & H). cbn [returns]. split; [easy|].
    destruct (wrap_all _ _ _ _) as [ms x]. destruct H as [-> ->]. now destruct x.
  - pose proof (insert_spec q i a Hq (loose1 q a Hc)) as H.
    destruct (l_insert sch q i a) as [q' r]. destruct H as (G & H). cbn [returns]. split; [easy|].
    destruct (wrap _ _ a) as [m|x]; destruct H as [-> ->]; easy.
  - pose proof (setitem_spec q i a Hq) as H. destruct (l_setitem sch q i a) as [q' r].
    destruct H as (G & H). cbn [returns]. split; [easy|].
    destruct (pl_get (list_values q) i) as [m|x]; [|destruct H as [-> ->]; easy].
    destruct (list_in_place sch _ m a) as [m' r']. destruct H as [-> ->]. now destruct r'.
  - pose proof (setslice_spec q s it Hq Hc) as H. destruct (l_setslice sch q s it) as [q' r].
    destruct H as (G & H). cbn [returns]. split; [easy|].
    destruct (wrap_all _ _ _ _) as [ms [x|]]; [destruct H as [-> ->]; easy|].
    unfold pure. destruct (pl_setslice _ s ms) as [l|x]; destruct H as [-> ->]; easy.
  - unfold l_delitem. rewrite (list_values_val q). rewrite pl_del_map.
    destruct (pl_del (q_items q) i) as [l|x] eqn:El; cbn [rmap pure returns]; [|easy].
    destruct (sub_renumber q l Hq (subm_del _ _ _ El)) as [A B]. now rewrite B.
  - unfold l_delslice. rewrite (list_values_val q). rewrite pl_delslice_map.
    destruct (pl_delslice (q_items q) s) as [l|x] eqn:El; cbn [rmap pure returns]; [|easy].
    destruct (sub_renumber q l Hq (subm_delslice _ _ _ El)) as [A B]. now rewrite B.
  - pose proof (pop_spec q i Hq) as H. destruct (l_pop q i) as [q' r]. destruct H as [G H]. cbn [returns].
    split; [easy|]. destruct (pl_pop (list_values q) i) as [[m l]|x].
    + destruct H as (s & -> & <- & ->). easy.
    + destruct H as [-> ->]. easy.
  - pose proof (remove_spec q a Hq) as H. destruct (l_remove sch q a) as [q' r]. destruct H as [G H]. cbn [returns].
    split; [easy|]. destruct (wrap _ _ a) as [m|x]; [|destruct H as [-> ->]; easy].
    unfold pure. destruct (pl_remove _ (list_values q)); destruct H as [-> ->]; easy.
  - pose proof (search_spec pl_index pl_index q a (fun k p p' l H => pl_index_map k p p' l H) Hq) as H.
    unfold l_index. destruct (l_search sch pl_index q a) as [q' r]. cbn [returns]. destruct H as (G & -> & ->).
    split; [easy|]. destruct (wrap _ _ a) as [m|x]; [|easy]. now destruct (pl_index _ _).
  - pose proof (search_spec (fun p l => Ok (pl_count p l)) (fun p l => Ok (pl_count p l)) q a) as H.
    unfold l_count. destruct (l_search sch _ q a) as [q' r]. cbn [returns].
    destruct H as (G & -> & ->); [intros; f_equal; now apply pl_count_map|easy|].
    split; [easy|]. now destruct (wrap _ _ a) as [m|x].
  - pose proof (search_spec (fun p l => Ok (pl_contains p l)) (fun p l => Ok (pl_contains p l)) q a) as H.
    unfold l_contains. destruct (l_search sch _ q a) as [q' r]. cbn [returns].
    destruct H as (G & -> & ->); [intros; f_equal; now apply pl_contains_map|easy|].
    split; [easy|]. now destruct (wrap _ _ a) as [m|x].
  - unfold l_reverse. destruct (sub_renumber q (rev (q_items q)) Hq) as [A B].
    { apply subm_perm, Permutation_sym, Permutation_rev. }
    split; [easy|]. now rewrite B, list_values_val, <- map_rev.
  - unfold l_sort. rewrite (list_values_val q).
    rewrite (pl_sort_map _ key (fun s => key (val (q_h q) s))) by easy.
    change (fun s => key (h_con (q_h q) (h_elem (q_h q) s))) with (fun s => key (val (q_h q) s)).
    destruct (pl_sort (fun s => key (val (q_h q) s)) reverse (q_items q)) as [l|x] eqn:El; cbn [rmap pure returns]; [|easy].
    destruct (sub_renumber q l Hq (subm_perm _ _ (perm_sort _ _ _ _ El))) as [A B]. now rewrite B.
  - pose proof (set_spec q it Hq) as H. destruct (l_set sch q it) as [q' r]. destruct H as [G H]. cbn [returns].
    split; [easy|]. destruct (set_plain sch it) as [ms r']. destruct H as [-> <-]. now destruct r.
  - destruct d as [| |z|it]; cbn [l_set_default].
    + easy.
    + easy.
    + destruct (clear_spec q Hq) as (q0 & -> & [Hq0 Hs0] & Hi0).
      pose proof (fill_spec q0 (repeat (ms_default sch) (Z.to_nat z)) Hq0) as H.
      destruct (fill sch q0 _) as [q' r]. destruct H as [[G1 G2] H]. cbn [returns].
      split; [split; [easy|congruence]|]. destruct (fill_all sch _) as [ms x]. destruct H as [-> ->].
      unfold list_values. rewrite Hi0. now destruct x.
    + destruct (clear_spec q Hq) as (q0 & -> & [Hq0 Hs0] & Hi0).
      pose proof (set_spec q0 it Hq0) as H. destruct (l_set sch q0 it) as [q' r]. destruct H as [[G1 G2] H].
      cbn [returns]. split; [split; [easy|congruence]|].
      destruct (set_plain sch it) as [ms r']. destruct H as [-> <-]. now destruct r.
  - unfold l_set_flat. destruct (clear_spec q Hq) as (q0 & -> & [Hq0 Hs0] & Hi0).
    pose proof (fill_spec q0 fs Hq0) as H.
    destruct (fill sch q0 _) as [q' r]. destruct H as [[G1 G2] H]. cbn [returns].
    split; [split; [easy|congruence]|]. destruct (fill_all sch _) as [ms x]. destruct H as [-> ->].
    unfold list_values. rewrite Hi0. now destruct x.
Qed.
Theorem run_list_inv os q : linv q -> list_history sch q os -> linv (run_list sch q os).
Proof.
  revert q; induction os as [|o os IH]; intros q Hq Hh; cbn in *; [easy|].
  destruct Hh as [Hc Hh]. apply IH; [|easy]. pose proof (l_step_spec q o Hq Hc) as H.
  destruct (l_step sch q o) as [q' r]. apply H.
Qed.
Lemma fresh_linv q : fresh_seq q -> linv q.
Proof.
  intros [Hi _]. unfold linv, preh, namedL. rewrite Hi. repeat split; try easy; try constructor.
  intros i s H. now destruct i.
Qed.
End P.
