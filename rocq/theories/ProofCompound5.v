(* the statements about threads *)
From Verif Require Import PyBase ModelScalar ModelCompound SpecCompound ProofCompound3 ProofCompound4.

Lemma proper_inv run : proper run -> exists rank, (forall c n w, In w (i_work (run c n)) -> work_ok rank c w)
  /\ forall todo sched, Inv rank todo (crun run (c_start todo) sched).
Proof.
  intros (rank & H). exists rank.
  assert (X : forall c n w, In w (i_work (run c n)) -> work_ok rank c w).
  { intros c n w W. specialize (H c n w W). destruct w; easy. }
  split; [easy|]. intros todo sched. apply run_inv. exact X.
Qed.
Lemma wins_zero c tr : wins c tr = 0%nat -> forall t, ~ In (InitEnds t c true) tr.
Proof.
  intros W t I. assert (F : In (InitEnds t c true) (filter (win c) tr)) by (apply filter_In; split; [easy|]; apply win_iff; now exists t).
  unfold wins in W. destruct (filter (win c) tr); [easy|discriminate W].
Qed.
Lemma wins_app c a b : wins c (a ++ b) = (wins c a + wins c b)%nat.
Proof. unfold wins. now rewrite filter_app, app_length. Qed.
Lemma once run todo sched t c a b : proper run ->
  rev (c_trace (crun run (c_start todo) sched)) = a ++ InitEnds t c true :: b ->
  forall t', ~ In (InitEnds t' c true) a /\ ~ In (InitEnds t' c true) b.
Proof.
  intros P E t'. destruct (proper_inv run P) as (rank & _ & Inv_). specialize (Inv_ todo sched).
  set (s := crun run (c_start todo) sched) in *.
  assert (W : (wins c (c_trace s) <= 1)%nat) by (destruct (i_one _ _ _ Inv_ c) as [H|(H & _)]; lia).
  assert (E' : c_trace s = rev b ++ InitEnds t c true :: rev a).
  { rewrite <- (rev_involutive (c_trace s)), E, rev_app_distr. cbn [rev]. now rewrite <- app_assoc. }
  rewrite E', wins_app in W. change (InitEnds t c true :: rev a) with ([InitEnds t c true] ++ rev a) in W. rewrite wins_app in W.
  assert (W1 : wins c [InitEnds t c true] = 1%nat) by (unfold wins; cbn; now rewrite Nat.eqb_refl).
  rewrite W1 in W. split; intros I; rewrite in_rev in I.
  - apply (wins_zero c (rev a)) in I; [easy|lia].
  - apply (wins_zero c (rev b)) in I; [easy|lia].
Qed.
Lemma made_after run todo sched t c a b : proper run ->
  rev (c_trace (crun run (c_start todo) sched)) = a ++ Makes t c :: b -> exists t', In (InitEnds t' c true) a.
Proof.
  intros P E. destruct (proper_inv run P) as (rank & _ & Inv_). specialize (Inv_ todo sched).
  destruct (i_before _ _ _ Inv_ t c a b E) as (x & I & t' & ->). now exists t'.
Qed.
Lemma exclusive run todo sched : proper run -> exists st, nests (rev (c_trace (crun run (c_start todo) sched))) st.
Proof.
  intros P. destruct (proper_inv run P) as (rank & _ & Inv_). specialize (Inv_ todo sched). eexists. apply (i_nest _ _ _ Inv_).
Qed.
Lemma per_thread run todo sched t : proper run ->
  exists o m settled pending, does t (thread_log t (rev (c_trace (crun run (c_start todo) sched)))) o m settled
    /\ todo t = settled ++ pending.
Proof.
  intros P. destruct (proper_inv run P) as (rank & _ & Inv_). specialize (Inv_ todo sched).
  destruct (i_log _ _ _ Inv_ t) as (m & d & D & _ & Q). eexists _, m, d, _. split; [exact D|exact Q].
Qed.
Lemma completes run todo bound sched : proper run -> (forall t, (bound <= t)%nat -> todo t = []) ->
  exists more, forall t, does t (thread_log t (rev (c_trace (crun run (c_start todo) (sched ++ more))))) [] Free (todo t).
Proof.
  intros P B. destruct (proper_inv run P) as (rank & Rk & Inv_).
  destruct (can_finish run rank Rk todo bound sched B) as (more & F). exists more. intros t.
  specialize (Inv_ todo (sched ++ more)). destruct (i_log _ _ _ Inv_ t) as (m & d & D & M & Q).
  destruct (F t) as [Es Et]. rewrite Es in D, M, Q. rewrite Et in Q. cbn in D, M, Q. rewrite app_nil_r in Q. subst m. now rewrite Q.
Qed.
Lemma retries run todo sched t c later : proper run ->
  let s := crun run (c_start todo) sched in
  c_lock s = None -> c_stack s t = [] -> c_todo s t = c :: later ->
  (forall t', ~ In (InitEnds t' c true) (c_trace s)) ->
  c_trace (crun run (c_start todo) (sched ++ [t; t; t; t])) = InitBegins t c :: c_trace s.
Proof.
  intros P s L E T N. destruct (proper_inv run P) as (rank & Rk & Inv_). specialize (Inv_ todo sched). fold s in Inv_.
  assert (U : c_prepared s c = false).
  { destruct (c_prepared s c) eqn:Pc; [|easy]. apply (i_prep _ _ _ Inv_) in Pc.
    destruct (wins_in run rank Rk c (c_trace s)) as (t' & I); [lia|]. now apply N in I. }
  unfold crun. rewrite fold_left_app. fold (crun run (c_start todo) sched). fold s. cbn [fold_left].
  unfold cstep at 4. rewrite E, T. set (s1 := CState _ _ _ _ _ _).
  assert (E1 : c_stack s1 t = [(c, Start)]) by (cbn; apply put_same).
  unfold cstep at 3. rewrite E1. change (c_prepared s1 c) with (c_prepared s c). rewrite U. set (s2 := goes _ _ _).
  assert (E2 : c_stack s2 t = [(c, Acquire)]) by (cbn; apply put_same).
  unfold cstep at 2. rewrite E2. change (c_lock s2) with (c_lock s). rewrite L. cbn [lock_acquire]. set (s3 := goes _ _ _).
  assert (E3 : c_stack s3 t = [(c, Recheck)]) by (cbn; apply put_same).
  unfold cstep. rewrite E3. change (c_prepared s3 c) with (c_prepared s c). rewrite U. reflexivity.
Qed.
Lemma not_again run todo sched t c a b : proper run ->
  rev (c_trace (crun run (c_start todo) sched)) = a ++ InitBegins t c :: b -> forall t', ~ In (InitEnds t' c true) a.
Proof.
  intros P. destruct (proper_inv run P) as (rank & Rk & Inv_).
  revert a b. induction sched as [|u sched IH] using rev_ind; intros a b E; [now destruct a|].
  unfold crun in E. rewrite fold_left_app in E. cbn [fold_left] in E. fold (crun run (c_start todo) sched) in E.
  specialize (Inv_ todo sched). set (s := crun run (c_start todo) sched) in *.
  assert (X : c_trace (cstep run s u) = c_trace s \/ exists e, c_trace (cstep run s u) = e :: c_trace s
              /\ forall t0 c0, e = InitBegins t0 c0 -> wins c0 (c_trace s) = 0%nat).
  { destruct (c_stack s u) as [|[c1 p] rest] eqn:Es.
    - left. unfold cstep. rewrite Es. now destruct (c_todo s u).
    - destruct p as [| | |[|[| |c'] ws] ok| |[|]|]; try (left; unfold cstep; rewrite Es; reflexivity);
        try (right; eexists; split; [unfold cstep; rewrite Es; reflexivity|intros t0 c0 Q; discriminate Q]).
      + left. unfold cstep. rewrite Es. now destruct (lock_acquire u (c_lock s)).
      + destruct (c_prepared s c1) eqn:Pc; [left; unfold cstep; rewrite Es, Pc; reflexivity|].
        right. eexists. split; [unfold cstep; rewrite Es, Pc; reflexivity|]. intros t0 c0 Q. injection Q as <- <-.
        destruct (i_one _ _ _ Inv_ c1) as [H|(H & [H'|(v & H')])]; [easy|congruence|]. exfalso.
        assert (v = u) as ->.
        { eapply (only_owner run rank Rk todo s u v c1 Recheck c1 Marking Inv_); [rewrite Es; now left|reflexivity|exact H'|reflexivity]. }
        rewrite Es in H'. destruct H' as [H'|H']; [discriminate H'|].
        pose proof (i_shape _ _ _ Inv_ u) as Sh. rewrite Es in Sh. destruct Sh as [_ B].
        apply (below_in run rank Rk c1 rest) in H' as (_ & ws' & ok' & H'); [discriminate H'|easy]. }
  destruct X as [X|(e & X & W)]; rewrite X in E; [now apply (IH a b)|]. cbn [rev] in E.
  destruct b as [|z b _] using rev_ind.
  - apply app_inj_tail in E as [<- ->]. intros t' I. rewrite <- in_rev in I. now apply (wins_zero c (c_trace s) (W t c eq_refl) t').
  - assert (E' : rev (c_trace s) ++ [e] = (a ++ InitBegins t c :: b) ++ [z]) by (rewrite E, <- app_assoc; easy).
    apply app_inj_tail in E' as [E' _]. now apply (IH a b).
Qed.

(* ---- the call with keywords ---- *)
Lemma call_plain {V} has prepared inits (kw : list (str * V)) : (forall k v, In (k, v) kw -> has k = false) ->
  compound_call has prepared inits kw =
  if prepared then ([Builds Own kw], true)
  else if inits then ([Inits Own true; Builds Own kw], true) else ([Inits Own true], false).
Proof.
  intros H. unfold compound_call.
  assert (filter (fun p : str * V => has (fst p)) kw = [] /\ filter (fun p : str * V => negb (has (fst p))) kw = kw) as [-> ->].
  { induction kw as [|[k v] kw IH]; [easy|]. cbn [filter fst]. rewrite (H k v) by now left. cbn [negb].
    destruct IH as [-> ->]; [|easy]. intros k' v' I. apply (H k' v'). now right. }
  easy.
Qed.
Lemma call_overrides {V} has prepared inits (kw : list (str * V)) : (exists k v, In (k, v) kw /\ has k = true) ->
  exists ov rest, (forall p, In p ov <-> In p kw /\ has (fst p) = true) /\ (forall p, In p rest <-> In p kw /\ has (fst p) = false)
  /\ compound_call has prepared inits kw =
     if inits then ([Inits (Sub ov) false; Builds (Sub ov) rest], true) else ([Inits (Sub ov) false], false).
Proof.
  intros (k & v & I & H). unfold compound_call.
  exists (filter (fun p : str * V => has (fst p)) kw), (filter (fun p : str * V => negb (has (fst p))) kw).
  split; [intros p; apply filter_In|]. split; [intros p; rewrite filter_In, negb_true_iff; easy|].
  destruct (filter (fun p : str * V => has (fst p)) kw) eqn:F; [|easy].
  exfalso. assert (J : In (k, v) (filter (fun p : str * V => has (fst p)) kw)) by now apply filter_In. now rewrite F in J.
Qed.
