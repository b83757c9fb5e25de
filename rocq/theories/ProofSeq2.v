From Verif Require Import PyBase PyBaseFacts PyList PyListFacts ModelSeq SpecSeq ProofSeq.
From Coq Require Import Permutation.

Section P.
Context {V M : Type} (sch : mschema V M).
Implicit Types (h : heap M) (q : seqst M) (L : list nat).

Definition boundL h L : Prop := forall e, In e L -> e < h_next h.
Definition ownL h self L : Prop := forall e, In e L -> h_parent h e = Some self.
(* parents of old objects only change to self *)
Definition aext self h h' : Prop :=
  ext h h' /\ forall i, i < h_next h -> h_parent h' i = h_parent h i \/ h_parent h' i = Some self.
Lemma aext_refl self h : aext self h h. Proof. split; [apply ext_refl|auto]. Qed.
Lemma aext_trans self h1 h2 h3 : aext self h1 h2 -> aext self h2 h3 -> aext self h1 h3.
Proof.
  intros [A B] [C D]. split; [eapply ext_trans; eauto|]. intros i Hi. destruct A as [A _].
  destruct (D i ltac:(lia)) as [->|]; auto.
Qed.
Lemma boundL_ext h h' L : boundL h L -> ext h h' -> boundL h' L.
Proof. intros H [E _] e He. specialize (H e He). lia. Qed.
Lemma ownL_aext self h h' L : boundL h L -> ownL h self L -> aext self h h' -> ownL h' self L.
Proof. intros Hb Ho [_ Ha] e He. destruct (Ha e (Hb e He)) as [->|]; auto. Qed.
Lemma con_ext h h' L : boundL h L -> ext h h' -> map (h_con h') L = map (h_con h) L.
Proof. intros Hb [_ E]. apply map_ext_in. intros e He. now destruct (E e (Hb e He)) as [-> _]. Qed.
Lemma boundL_incl h L L' : boundL h L -> incl L' L -> boundL h L'.
Proof. intros H Hi e He. auto. Qed.
Lemma ownL_incl h self L L' : ownL h self L -> incl L' L -> ownL h self L'.
Proof. intros H Hi e He. auto. Qed.

(* _as_element then parent = self *)
Lemma adopt_spec self h a : (forall e, a = AElem e -> e < h_next h) ->
  let '(h1, r) := as_element sch h a in
  aext self h h1
  /\ match r with
     | Ok e => let h' := set_parent h1 e (Some self) in
               aext self h h' /\ e < h_next h' /\ h_parent h' e = Some self
               /\ wrap sch (h_con h) a = Ok (h_con h' e) /\ e < h_next h1
               /\ wrap sch (h_con h) a = Ok (h_con h1 e)
     | Err x => wrap sch (h_con h) a = Err x
     end.
Proof.
  intros Ha. pose proof (as_element_spec sch h a) as H. destruct (as_element sch h a) as [h1 r].
  destruct H as (E & Hn & Hp & H). assert (aext self h h1) as A by (split; [easy|]; intros; left; auto).
  split; [easy|]. destruct r as [e|x]; [|easy]. destruct H as [Hw Hc].
  assert (e < h_next h1) as He by (destruct Hc as [[-> ->]|(_ & -> & Hx)]; [auto|lia]).
  split.
  { split; [destruct E; split; easy|]. intros i Hi. cbn. unfold fset. destruct (Nat.eqb i e); auto. }
  cbn. rewrite fset_same. easy.
Qed.
Definition ainv q : Prop := boundL (q_h q) (q_items q).
Lemma a_append_spec q a : ainv q -> (forall e, a = AElem e -> e < h_next (q_h q)) ->
  let '(q', r) := a_append sch q a in
  ainv q' /\ q_self q' = q_self q /\ aext (q_self q) (q_h q) (q_h q')
  /\ (array_ok q -> array_ok q')
  /\ match r with
     | Ok _ => exists m, wrap sch (h_con (q_h q)) a = Ok m /\ array_values q' = array_values q ++ [m]
     | Err x => wrap sch (h_con (q_h q)) a = Err x /\ array_values q' = array_values q
     end.
Proof.
  intros Hq Ha. unfold a_append. pose proof (adopt_spec (q_self q) (q_h q) a Ha) as H.
  destruct (as_element sch (q_h q) a) as [h r]. destruct H as (A & H). destruct r as [e|x].
  - destruct H as (A' & He & Hp & Hw & _). split; [|split; [easy|split; [easy|split]]].
    + intros x Hx. cbn in Hx. rewrite in_app_iff in Hx. destruct Hx as [Hx|[<-|[]]]; [|easy].
      eapply boundL_ext; [exact Hq|apply A'|exact Hx].
    + intros Ho x Hx. cbn [q_items q_h q_self] in *. rewrite in_app_iff in Hx. destruct Hx as [Hx|[<-|[]]]; [|easy].
      eapply ownL_aext; [exact Hq|exact Ho|exact A'|exact Hx].
    + eexists. split; [exact Hw|]. unfold array_values. cbn [q_items q_h]. rewrite map_app. f_equal.
      apply con_ext; [easy|apply A'].
  - split; [eapply boundL_ext; [exact Hq|apply A]|]. split; [easy|]. split; [easy|]. split.
    + intros Ho. eapply ownL_aext; [exact Hq|exact Ho|exact A].
    + split; [easy|]. apply con_ext; [easy|apply A].
Qed.
Lemma a_extend_spec q l last : ainv q -> (forall e, In (AElem e) l -> e < h_next (q_h q)) ->
  let '(q', r) := iter_end (a_extend_all sch q l) last in
  ainv q' /\ q_self q' = q_self q /\ aext (q_self q) (q_h q) (q_h q')
  /\ (array_ok q -> array_ok q')
  /\ let '(ms, x) := wrap_all sch (h_con (q_h q)) l last in
     array_values q' = array_values q ++ ms /\ r = match x with None => Ok tt | Some e => Err e end.
Proof.
  revert q; induction l as [|a l IH]; intros q Hq Hl; cbn [a_extend_all wrap_all].
  - cbn. destruct last; (split; [easy|]; split; [easy|]; split; [apply aext_refl|]; now rewrite app_nil_r).
  - pose proof (a_append_spec q a Hq (fun e E => Hl e (or_introl E))) as H.
    destruct (a_append sch q a) as [q1 r1]. destruct H as (Hq1 & Hs1 & A1 & Ho1 & H). destruct r1 as [u|x].
    + destruct H as (m & Hw & Hv). rewrite Hw.
      assert (forall e, In (AElem e) l -> e < h_next (q_h q1)) as Hl1.
      { intros e He. specialize (Hl e (or_intror He)). destruct A1 as [[A1 _] _]. lia. }
      specialize (IH q1 Hq1 Hl1). destruct (iter_end (a_extend_all sch q1 l) last) as [q2 r2].
      destruct IH as (Hq2 & Hs2 & A2 & Ho2 & IH). split; [easy|]. split; [congruence|].
      split; [rewrite Hs1 in A2; eapply aext_trans; eauto|]. split; [auto|].
      rewrite (wrap_all_ext sch (h_con (q_h q)) (h_con (q_h q1))).
      * destruct (wrap_all sch (h_con (q_h q1)) l last) as [ms x]. destruct IH as [-> ->].
        rewrite Hv, <- app_assoc. easy.
      * intros e He. destruct A1 as [[_ E] _]. destruct (E e) as [-> _]; [|easy]. apply Hl. right.
        clear -He. induction l as [|b l IH]; [easy|]. cbn in He. apply in_app_or in He. destruct He as [He|He].
        -- destruct b; [easy|]. destruct He as [->|[]]. now left.
        -- right. auto.
    + destruct H as [Hw Hv]. rewrite Hw. cbn. repeat (split; [easy|]). now rewrite app_nil_r.
Qed.
Lemma adopt_all_spec q l last : (forall e, In (AElem e) l -> e < h_next (q_h q)) ->
  let '(h', r) := adopt_all sch q l in
  aext (q_self q) (q_h q) h'
  /\ match r with
     | Ok es => wrap_all sch (h_con (q_h q)) l last = (map (h_con h') es, last)
                /\ boundL h' es /\ ownL h' (q_self q) es
     | Err x => exists ms, wrap_all sch (h_con (q_h q)) l last = (ms, Some x)
     end.
Proof.
  revert q; induction l as [|a l IH]; intros q Hl; cbn [adopt_all wrap_all].
  { split; [apply aext_refl|]. easy. }
  pose proof (adopt_spec (q_self q) (q_h q) a (fun e E => Hl e (or_introl E))) as H.
  destruct (as_element sch (q_h q) a) as [h r]. destruct H as [A H]. destruct r as [e|x].
  2:{ rewrite H. split; [easy|]. now exists []. }
  destruct H as (A' & He & Hp & Hw & _). rewrite Hw.
  set (h1 := set_parent h e (Some (q_self q))) in *.
  assert (forall e0, In (AElem e0) l -> e0 < h_next (q_h (with_heap q h1))) as Hl1.
  { intros e0 He0. specialize (Hl e0 (or_intror He0)). cbn. destruct A' as [[A' _] _]. cbn in A'. lia. }
  specialize (IH (with_heap q h1) Hl1). destruct (adopt_all sch (with_heap q h1) l) as [h2 r2].
  destruct IH as [A2 IH]. change (q_self (with_heap q h1)) with (q_self q) in *. change (q_h (with_heap q h1)) with h1 in *.
  split; [eapply aext_trans; eauto|].
  rewrite (wrap_all_ext sch (h_con (q_h q)) (h_con h1)).
  2:{ intros e0 He0. destruct A' as [[_ E] _]. destruct (E e0) as [-> _]; [|easy]. apply Hl. right.
      clear -He0. induction l as [|b l IH]; [easy|]. cbn in He0. apply in_app_or in He0. destruct He0 as [He|He].
      -- destruct b; [easy|]. destruct He as [->|[]]. now left.
      -- right. auto. }
  destruct r2 as [es|x]; cbn [rmap].
  - destruct IH as (-> & Hb & Ho). repeat split.
    + cbn. f_equal. f_equal. destruct A2 as [[_ E] _]. symmetry. now apply E.
    + intros x [<-|Hx]; [|auto]. destruct A2 as [[E _] _]. lia.
    + intros x [<-|Hx]; [|auto]. destruct A2 as [_ E]. destruct (E e He) as [->|]; auto.
  - destruct IH as [ms ->]. eauto.
Qed.
Lemma pl_set_incl {A} (l : list A) i x l' : pl_set l i x = Ok l' -> incl l' (x :: l).
Proof.
  unfold pl_set. destruct (norm_index _ _); [|easy]. intros [= <-]. apply subm_incl, subm_upd_nth.
Qed.

(* a call that only rearranges or drops members *)
Lemma a_sub q l : ainv q -> incl l (q_items q) ->
  ainv (with_items q l) /\ (array_ok q -> array_ok (with_items q l)).
Proof. intros Hq Hi. split; [eapply boundL_incl; eauto|]. intros Ho. eapply ownL_incl; eauto. Qed.
Lemma as_elem_a q a h r : ainv q -> as_element sch (q_h q) a = (h, r) ->
  ainv (with_heap q h) /\ aext (q_self q) (q_h q) h /\ array_values (with_heap q h) = array_values q
  /\ match r with Ok e => wrap sch (h_con (q_h q)) a = Ok (h_con h e)
     | Err x => wrap sch (h_con (q_h q)) a = Err x end.
Proof.
  intros Hq E. pose proof (as_element_spec sch (q_h q) a) as H. rewrite E in H. destruct H as (Ex & Hn & Hp & H).
  split; [eapply boundL_ext; eauto|]. split; [split; auto|]. split; [apply con_ext; auto|]. destruct r; easy.
Qed.
Lemma a_clear q : ainv q -> exists q0, a_delslice q whole_slice = (q0, Ok tt) /\ ainv q0
  /\ q_self q0 = q_self q /\ q_items q0 = [] /\ array_ok q0.
Proof.
  intros Hq. unfold a_delslice, whole_slice. rewrite del_whole. eexists. split; [reflexivity|]. easy.
Qed.
Lemma a_set_spec q it : ainv q ->
  let '(q', r) := a_set sch q it in
  ainv q' /\ q_self q' = q_self q /\ array_ok q'
  /\ let '(ms, r') := set_plain sch it in array_values q' = ms /\ rmap RBool r = r'.
Proof.
  intros Hq. unfold a_set. destruct (a_clear q Hq) as (q0 & -> & Hq0 & Hs0 & Hi0 & Ho0).
  pose proof (build_spec sch (q_h q0) (it_items it) true (it_end it)) as H. unfold set_plain.
  destruct (build sch (q_h q0) (it_items it) true) as [h r]. destruct H as (E & Hn & Hpar & H).
  assert (ainv (with_heap q0 h)) as Hq1 by (eapply boundL_ext; eauto).
  assert (array_values (with_heap q0 h) = []) as Hv by (unfold array_values; cbn; now rewrite Hi0).
  assert (array_ok (with_heap q0 h)) as Ho1 by (intros e He; cbn in He; now rewrite Hi0 in He).
  destruct (set_all sch (it_items it) (it_end it)) as [[ms c] x]. destruct r as [[es c']|e].
  - destruct H as (A & B & C & D & F). subst x. destruct (it_end it) as [e|].
    + cbn. destruct e; repeat (split; try easy).
    + assert (forall e, In (@AElem V e) (map AElem es) -> e < h_next (q_h (with_heap q0 h))) as Hl.
      { intros e He. apply in_map_iff in He. destruct He as (e' & [= ->] & He). apply B in He. easy. }
      pose proof (a_extend_spec (with_heap q0 h) _ None Hq1 Hl) as H1.
      destruct (a_extend_all sch (with_heap q0 h) (map AElem es)) as [q2 r2].
      rewrite wrap_all_elems in H1. cbn [iter_end] in H1.
      assert (match r2 with Ok _ | _ => (q2, r2) end = (q2, r2)) as E2 by now destruct r2.
      rewrite E2 in H1. destruct H1 as (A1 & A2 & A3 & A4 & A5 & ->). cbn.
      split; [easy|]. split; [now rewrite A2|]. split; [auto|]. rewrite A5, Hv, C, D. easy.
  - subst x. cbn. destruct e; repeat (split; try easy).
Qed.
Lemma a_fill_spec q fs : ainv q ->
  let '(q', r) := a_fill sch q fs in
  ainv q' /\ q_self q' = q_self q /\ (array_ok q -> array_ok q')
  /\ let '(ms, x) := fill_all sch fs in
     array_values q' = array_values q ++ match x with None => ms | Some _ => removelast ms end
     /\ r = match x with None => Ok tt | Some e => Err e end.
Proof.
  revert q; induction fs as [|f fs IH]; intros q Hq; cbn [a_fill fill_all].
  { repeat (split; [easy|]). now rewrite app_nil_r. }
  destruct (f (ms_new sch)) as [m [u|x]]; cbn [alloc_elem].
  2:{ repeat (split; [easy|]). cbn. now rewrite app_nil_r. }
  set (h := Heap _ _ _ _ _).
  assert (aext (q_self q) (q_h q) h) as A.
  { split; [split; cbn; [lia|]|]; intros i Hi; cbn; rewrite fset_other by lia; auto. }
  assert (ainv (with_heap q h)) as Hq1 by (eapply boundL_ext; [exact Hq|apply A]).
  assert (array_values (with_heap q h) = array_values q) as Hv by (apply con_ext; [easy|apply A]).
  assert (array_ok q -> array_ok (with_heap q h)) as Ho.
  { intros Ho. eapply ownL_aext; [exact Hq|exact Ho|exact A]. }
  pose proof (a_append_spec (with_heap q h) (AElem (h_next (q_h q))) Hq1) as H.
  destruct (a_append sch (with_heap q h) (AElem (h_next (q_h q)))) as [q2 r2]. cbn [fst].
  destruct H as (Hq2 & Hs2 & A2 & Ho2 & H); [intros e [= <-]; cbn; lia|].
  destruct r2 as [u2|x2]; [|destruct H; easy].
  destruct H as (m2 & Hm2 & Hv2).
  assert (m2 = m) as -> by (cbn in Hm2; rewrite fset_same in Hm2; congruence).
  specialize (IH q2 Hq2). destruct (a_fill sch q2 fs) as [q3 r3]. destruct IH as (Hq3 & Hs3 & Ho3 & IH).
  split; [easy|]. split; [rewrite Hs3, Hs2; easy|]. split; [auto|].
  destruct (fill_all sch fs) as [ms x] eqn:Ef. destruct IH as [-> ->]. split; [|easy].
  rewrite Hv2, Hv, <- app_assoc. f_equal. destruct x; [|easy].
  destruct ms as [|m' ms]; [|easy]. exfalso. clear -Ef. destruct fs as [|f fs]; [easy|]. cbn in Ef.
  destruct (f (ms_new sch)) as [? [|]]; [|easy]. now destruct (fill_all sch fs).
Qed.

Theorem a_step_spec q (o : op V M) : ainv q -> array_args q o ->
  let '(q', r) := a_step sch q o in
  (match o with IAdd es => forall e, In e es -> e < h_next (q_h q) | _ => True end -> ainv q')
  /\ q_self q' = q_self q
  /\ (array_call q o -> array_ok q -> array_ok q')
  /\ (listlike o -> (forall m, ms_eq sch m m = true) ->
      plain_array_op sch (h_con (q_h q)) (array_values q) o
      = (array_values q', rmap (out_map (h_con (q_h q'))) r)).
Proof.
  intros Hq Hc. destruct o; cbn [a_step plain_array_op plain_op array_args array_call listlike] in *.
  - pose proof (a_append_spec q a Hq Hc) as H. cbn [wrap_all].
    destruct (a_append sch q a) as [q' r]. cbn [returns]. destruct H as (A & B & C & D & H).
    split; [easy|]. split; [easy|]. split; [easy|]. intros _ _. destruct r as [u|x].
    + destruct H as (m & -> & ->). easy.
    + destruct H as [-> ->]. now rewrite app_nil_r.
  - pose proof (a_extend_spec q (it_items it) (it_end it) Hq Hc) as H. unfold a_extend.
    destruct (iter_end _ _) as [q' r]. cbn [returns]. destruct H as (A & B & C & D & H).
    split; [easy|]. split; [easy|]. split; [easy|]. intros _ _.
    destruct (wrap_all _ _ _ _) as [ms x]. destruct H as [-> ->]. now destruct x.
  - unfold a_insert. pose proof (adopt_spec (q_self q) (q_h q) a Hc) as H.
    destruct (as_element sch (q_h q) a) as [h r]. destruct H as (A & H). destruct r as [e|x].
    + destruct H as (A' & He & Hp & Hw & _). cbn [returns]. rewrite Hw.
      assert (incl (pl_insert (q_items q) i e) (e :: q_items q)) as Hi by (intros x; apply Permutation_in, perm_insert).
      split; [|split; [easy|split]].
      * intros _ x Hx. cbn in Hx. apply Hi in Hx. destruct Hx as [<-|Hx]; [easy|].
        eapply boundL_ext; [exact Hq|apply A'|exact Hx].
      * intros _ Ho x Hx. cbn [q_items q_h q_self] in *. apply Hi in Hx. destruct Hx as [<-|Hx]; [easy|].
        eapply ownL_aext; [exact Hq|exact Ho|exact A'|exact Hx].
      * intros _ _. unfold array_values at 2. cbn [q_h q_items]. rewrite <- pl_insert_map.
        rewrite (con_ext (q_h q)); [easy|easy|apply A'].
    + cbn [returns]. rewrite H. split; [intros _; eapply boundL_ext; [exact Hq|apply A]|]. split; [easy|].
      split; [intros _ Ho; eapply ownL_aext; [exact Hq|exact Ho|exact A]|]. intros _ _.
      f_equal. symmetry. apply con_ext; [easy|apply A].
  - unfold a_setitem. pose proof (adopt_spec (q_self q) (q_h q) a Hc) as H.
    destruct (as_element sch (q_h q) a) as [h r] eqn:Ea. destruct H as (A & H). destruct r as [e|x].
    + destruct H as (A' & He & Hp & Hw & He1 & Hw1). rewrite Hw.
      set (h2 := match a with AVal _ => set_parent h e (Some (q_self q)) | AElem _ => h end).
      assert (aext (q_self q) (q_h q) h2) as A2 by (unfold h2; destruct a; easy).
      assert (e < h_next h2) as He2 by (unfold h2; destruct a; easy).
      assert (h_con h2 = h_con h) as Hc2 by (unfold h2; destruct a; easy).
      change (h_con (set_parent h e (Some (q_self q))) e) with (h_con h e). rewrite <- Hc2.
      replace (array_values q) with (map (h_con h2) (q_items q)) by (apply con_ext; [easy|apply A2]).
      rewrite pl_set_map.
      destruct (pl_set (q_items q) i e) as [l|x] eqn:El; cbn [returns rmap].
      * split; [|split; [easy|split; [|easy]]].
        -- intros _ x Hx. cbn in Hx. apply (pl_set_incl _ _ _ _ El) in Hx. destruct Hx as [<-|Hx]; [easy|].
           eapply boundL_ext; [exact Hq|apply A2|exact Hx].
        -- intros Hcall Ho x Hx. cbn [q_items q_h q_self] in *. apply (pl_set_incl _ _ _ _ El) in Hx. destruct Hx as [<-|Hx].
           ++ destruct a as [v|e']; cbn in Ea, h2 |- *.
              ** unfold h2. cbn. now rewrite fset_same.
              ** injection Ea as <- <-. apply Hcall.
           ++ eapply ownL_aext; [exact Hq|exact Ho|exact A2|exact Hx].
      * split; [intros _; eapply boundL_ext; [exact Hq|apply A2]|]. split; [easy|].
        split; [intros _ Ho; eapply ownL_aext; [exact Hq|exact Ho|exact A2]|]. easy.
    + cbn [returns]. rewrite H. split; [intros _; eapply boundL_ext; [exact Hq|apply A]|]. split; [easy|].
      split; [intros _ Ho; eapply ownL_aext; [exact Hq|exact Ho|exact A]|]. intros _ _.
      f_equal. symmetry. apply con_ext; [easy|apply A].
  - unfold a_setslice. pose proof (adopt_all_spec q (it_items it) (it_end it) Hc) as H.
    destruct (adopt_all sch q (it_items it)) as [h r]. destruct H as [A H].
    assert (ainv (with_heap q h)) as Hq1 by (eapply boundL_ext; [exact Hq|apply A]).
    assert (array_ok q -> array_ok (with_heap q h)) as Ho1.
    { intros Ho; eapply ownL_aext; [exact Hq|exact Ho|exact A]. }
    assert (array_values (with_heap q h) = array_values q) as Hv by (apply con_ext; [easy|apply A]).
    destruct r as [es|x].
    2:{ destruct H as [ms ->]. cbn [returns]. rewrite Hv. easy. }
    destruct H as (-> & Hb & Ho). destruct (it_end it) as [x|].
    { cbn [returns]. rewrite Hv. easy. }
    rewrite <- Hv. unfold array_values at 1 2. cbn [q_h q_items with_heap]. rewrite pl_setslice_map.
    destruct (pl_setslice (q_items q) s es) as [l|x] eqn:El; cbn [rmap returns pure]; [|easy].
    apply subm_setslice, subm_incl in El.
    split; [|split; [easy|split; [|easy]]].
    * intros _ x Hx. cbn in Hx. apply El in Hx. apply in_app_or in Hx. destruct Hx as [Hx|Hx]; [now apply Hb|now apply Hq1].
    * intros _ Ho' x Hx. cbn [q_items q_h q_self] in *. apply El in Hx. apply in_app_or in Hx.
      destruct Hx as [Hx|Hx]; [now apply Ho|now apply (Ho1 Ho')].
  - unfold a_delitem. unfold array_values at 1 2. rewrite pl_del_map.
    destruct (pl_del (q_items q) i) as [l|x] eqn:El; cbn [returns rmap pure]; [|easy].
    destruct (a_sub q l Hq (subm_incl _ _ (subm_del _ _ _ El))) as [A B]. repeat (split; [easy|]). easy.
  - unfold a_delslice. unfold array_values at 1 2. rewrite pl_delslice_map.
    destruct (pl_delslice (q_items q) s) as [l|x] eqn:El; cbn [returns rmap pure]; [|easy].
    destruct (a_sub q l Hq (subm_incl _ _ (subm_delslice _ _ _ El))) as [A B]. repeat (split; [easy|]). easy.
  - unfold a_pop. unfold array_values at 1. rewrite pl_pop_map.
    destruct (pl_pop (q_items q) i) as [[e l]|x] eqn:El; cbn [returns rmap pure fst snd]; [|easy].
    destruct (pl_pop_spec _ _ _ _ El) as [Hperm _].
    assert (incl l (q_items q)) as Hi by (intros x Hx; eapply Permutation_in; [exact Hperm|now right]).
    destruct (a_sub q l Hq Hi) as [A B]. repeat (split; [easy|]). easy.
  - unfold a_remove. destruct (as_element sch (q_h q) a) as [h r] eqn:Ea.
    destruct (as_elem_a q a h r Hq Ea) as (Hq1 & A & Hv & Hw). destruct r as [e|x].
    2:{ cbn [returns]. rewrite Hw, Hv. repeat (split; [easy|]). split; [|easy].
        intros _ Ho; eapply ownL_aext; [exact Hq|exact Ho|exact A]. }
    assert (array_ok q -> array_ok (with_heap q h)) as Ho1.
    { intros Ho; eapply ownL_aext; [exact Hq|exact Ho|exact A]. }
    destruct (pl_remove (elem_eq sch h e) (q_items q)) as [l|x] eqn:El; cbn [returns].
    + destruct (a_sub (with_heap q h) l Hq1 (subm_incl _ _ (subm_remove _ _ _ El))) as [A1 B1].
      split; [easy|]. split; [easy|]. split; [auto|]. intros _ Hr. rewrite Hw, <- Hv.
      unfold array_values at 1 2. cbn [q_h q_items with_heap].
      rewrite (pl_remove_map _ _ (elem_eq sch h e)); [now rewrite El|].
      intros x Hx. unfold elem_eq. destruct (Nat.eqb_spec x e) as [->|]; [now rewrite Hr|easy].
    + split; [easy|]. split; [easy|]. split; [auto|]. intros _ Hr. rewrite Hw, <- Hv.
      unfold array_values at 1. cbn [q_h q_items with_heap].
      rewrite (pl_remove_map _ _ (elem_eq sch h e)); [now rewrite El|].
      intros x0 Hx. unfold elem_eq. destruct (Nat.eqb_spec x0 e) as [->|]; [now rewrite Hr|easy].
  - unfold a_index, a_search. destruct (as_element sch (q_h q) a) as [h r] eqn:Ea.
    destruct (as_elem_a q a h r Hq Ea) as (Hq1 & A & Hv & Hw).
    assert (array_ok q -> array_ok (with_heap q h)) as Ho1.
    { intros Ho; eapply ownL_aext; [exact Hq|exact Ho|exact A]. }
    destruct r as [e|x]; cbn [returns]; (split; [easy|]; split; [easy|]; split; [auto|]; intros _ Hr); rewrite Hw, <- Hv; [|easy].
    f_equal. unfold array_values at 1. cbn [q_h q_items with_heap].
    rewrite (pl_index_map _ _ (elem_eq sch h e)); [now destruct (pl_index _ _)|].
    intros x Hx. unfold elem_eq. destruct (Nat.eqb_spec x e) as [->|]; [now rewrite Hr|easy].
  - unfold a_count, a_search. destruct (as_element sch (q_h q) a) as [h r] eqn:Ea.
    destruct (as_elem_a q a h r Hq Ea) as (Hq1 & A & Hv & Hw).
    assert (array_ok q -> array_ok (with_heap q h)) as Ho1.
    { intros Ho; eapply ownL_aext; [exact Hq|exact Ho|exact A]. }
    destruct r as [e|x]; cbn [returns]; (split; [easy|]; split; [easy|]; split; [auto|]; intros _ Hr); rewrite Hw, <- Hv; [|easy].
    f_equal. unfold array_values at 1. cbn [q_h q_items with_heap].
    rewrite (pl_count_map _ _ (elem_eq sch h e)); [easy|].
    intros x Hx. unfold elem_eq. destruct (Nat.eqb_spec x e) as [->|]; [now rewrite Hr|easy].
  - unfold a_contains, a_search. destruct (as_element sch (q_h q) a) as [h r] eqn:Ea.
    destruct (as_elem_a q a h r Hq Ea) as (Hq1 & A & Hv & Hw).
    assert (array_ok q -> array_ok (with_heap q h)) as Ho1.
    { intros Ho; eapply ownL_aext; [exact Hq|exact Ho|exact A]. }
    destruct r as [e|x]; cbn [returns]; (split; [easy|]; split; [easy|]; split; [auto|]; intros _ Hr); rewrite Hw, <- Hv; [|easy].
    f_equal. unfold array_values at 1. cbn [q_h q_items with_heap].
    rewrite (pl_contains_map _ _ (elem_eq sch h e)); [easy|].
    intros x Hx. unfold elem_eq. destruct (Nat.eqb_spec x e) as [->|]; [now rewrite Hr|easy].
  - unfold a_reverse. destruct (a_sub q (rev (q_items q)) Hq) as [A B]; [intros x; apply in_rev|].
    repeat (split; [easy|]). intros _ _. unfold array_values. cbn. now rewrite map_rev.
  - unfold a_sort. unfold array_values at 1 2. rewrite (pl_sort_map _ key (fun e => key (h_con (q_h q) e))) by easy.
    destruct (pl_sort _ reverse (q_items q)) as [l|x] eqn:El; cbn [returns rmap pure]; [|easy].
    destruct (a_sub q l Hq (subm_incl _ _ (subm_perm _ _ (perm_sort _ _ _ _ El)))) as [A B].
    repeat (split; [easy|]). easy.
  - pose proof (a_set_spec q it Hq) as H. destruct (a_set sch q it) as [q' r]. cbn [returns].
    destruct H as (A & B & C & H). repeat (split; [easy|]). intros _ _.
    destruct (set_plain sch it) as [ms r']. destruct H as [-> <-]. now destruct r.
  - destruct d as [| |z|it]; cbn [a_set_default].
    + easy.
    + easy.
    + destruct (a_clear q Hq) as (q0 & -> & Hq0 & Hs0 & Hi0 & Ho0). cbn [returns rmap].
      repeat (split; [easy|]). intros _ _. unfold array_values. now rewrite Hi0.
    + assert (exists q0, a_delslice q whole_slice = (q0, Ok tt) /\ ainv q0
        /\ q_self q0 = q_self q /\ q_items q0 = [] /\ array_ok q0 /\ q_h q0 = q_h q) as (q0 & -> & Hq0 & Hs0 & Hi0 & Ho0 & Hh0).
      { unfold a_delslice, whole_slice. rewrite del_whole. eexists. split; [reflexivity|]. easy. }
      assert (forall e, In (@AElem V e) (map AVal (it_items it)) -> e < h_next (q_h q0)) as Hl.
      { intros e He. apply in_map_iff in He. now destruct He as (? & ? & _). }
      pose proof (a_extend_spec q0 _ (it_end it) Hq0 Hl) as H. unfold a_extend. cbn [it_items it_end].
      destruct (iter_end _ _) as [q' r]. cbn [returns]. destruct H as (A & B & C & D & H).
      split; [easy|]. split; [congruence|]. split; [auto|]. intros _ _. rewrite <- Hh0.
      destruct (wrap_all _ _ _ _) as [ms x]. destruct H as [-> ->]. unfold array_values. rewrite Hi0. now destruct x.
  - unfold a_set_flat. destruct (a_clear q Hq) as (q0 & -> & Hq0 & Hs0 & Hi0 & Ho0).
    pose proof (a_fill_spec q0 fs Hq0) as H. destruct (a_fill sch q0 fs) as [q' r]. cbn [returns].
    destruct H as (A & B & C & H). split; [easy|]. split; [congruence|]. split; [auto|]. intros _ _.
    destruct (fill_all sch fs) as [ms x]. destruct H as [-> ->]. unfold array_values. rewrite Hi0. now destruct x.
  - unfold l_sort_broken. destruct (is_perm _ _); cbn [returns]; [|easy].
    assert (incl (pick (q_items q) ps) (q_items q)) as Hi.
    { intros y Hx. unfold pick in Hx. apply in_flat_map in Hx. destruct Hx as (i & _ & Hx).
      destruct (nth_error (q_items q) i) eqn:E; [|easy]. destruct Hx as [<-|[]]. eapply nth_error_In; eauto. }
    destruct (a_sub q _ Hq Hi) as [A B]. repeat (split; [easy|]). easy.
  - cbn. split; [|split; [easy|split; [|easy]]].
    + intros He x Hx. cbn in Hx. apply in_app_or in Hx. destruct Hx; [now apply Hq|now apply He].
    + intros He Ho x Hx. cbn in Hx |- *. apply in_app_or in Hx. destruct Hx; [now apply Ho|now apply He].
  - cbn. assert (incl (List.concat (repeat (q_items q) (Z.to_nat n))) (q_items q)) as Hi.
    { intros x Hx. apply in_concat in Hx. destruct Hx as (l & Hl & Hx). apply repeat_spec in Hl. now subst. }
    destruct (a_sub q _ Hq Hi) as [A B]. repeat (split; [easy|]). easy.
Qed.
Lemma call_args q (o : op V M) : array_call q o -> array_args q o
  /\ match o with IAdd es => forall e, In e es -> e < h_next (q_h q) | _ => True end.
Proof.
  destruct o; cbn; try easy.
  - destruct a; [easy|]. intros [_ H]. split; [|easy]. now intros ? [= <-].
  - intros H. split; [easy|]. intros e He. now apply H.
Qed.
Theorem run_array_inv os q : ainv q -> array_ok q -> array_history sch q os ->
  ainv (run_array sch q os) /\ array_ok (run_array sch q os).
Proof.
  revert q; induction os as [|o os IH]; intros q Hq Ho Hh; cbn in *; [easy|].
  destruct Hh as [Hc Hh]. destruct (call_args q o Hc) as [Ha Hb].
  pose proof (a_step_spec q o Hq Ha) as H.
  destruct (a_step sch q o) as [q' r]. cbn [fst] in *. destruct H as (A & B & C & _). apply IH; auto.
Qed.
End P.
