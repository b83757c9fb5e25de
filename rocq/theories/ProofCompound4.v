(* every schedule can be completed *)
From Verif Require Import PyBase ModelScalar ModelCompound SpecCompound ProofCompound3.

Section Progress.
Variables (run : nat -> nat -> init_run) (rank : nat -> nat).
Hypothesis run_ok : forall c n w, In w (i_work (run c n)) -> work_ok rank c w.

Definition alone (t : nat) (s s' : cstate) : Prop := exists n, s' = crun run s (repeat t n).
Lemma alone_refl t s : alone t s s.
Proof. now exists 0%nat. Qed.
Lemma alone_trans t s1 s2 s3 : alone t s1 s2 -> alone t s2 s3 -> alone t s1 s3.
Proof.
  intros (n & ->) (m & ->). exists (n + m)%nat. unfold crun. now rewrite repeat_app, fold_left_app.
Qed.
Lemma alone_step t s s' : alone t (cstep run s t) s' -> alone t s s'.
Proof. intros H. eapply alone_trans; [|exact H]. now exists 1%nat. Qed.
Definition keeps (t : nat) (s s' : cstate) : Prop :=
  (forall u, u <> t -> c_stack s' u = c_stack s u) /\ (forall u, c_todo s' u = c_todo s u).
Lemma keeps_refl t s : keeps t s s.
Proof. easy. Qed.
Lemma keeps_trans t s1 s2 s3 : keeps t s1 s2 -> keeps t s2 s3 -> keeps t s1 s3.
Proof.
  intros [A B] [C D]. split; intros u.
  - intros N. rewrite C by easy. now apply A.
  - rewrite D. apply B.
Qed.
Definition lock_fine (t : nat) (l : option (nat * nat)) : Prop := l = None \/ exists n, l = Some (t, S n).
Lemma acquire_fine t l : lock_fine t l -> exists n, lock_acquire t l = Some (t, S n) /\ lock_release (Some (t, S n)) = l.
Proof.
  intros [-> |(n & ->)]; [now exists 0%nat|]. exists (S n). cbn. now rewrite Nat.eqb_refl.
Qed.
Definition goal (t : nat) (s : cstate) (l : option (nat * nat)) (rest : list (nat * pc)) : Prop :=
  exists s', alone t s s' /\ keeps t s s' /\ c_lock s' = l /\ (c_stack s' t = rest \/ c_stack s' t = raised rest).
Lemma goal_step t s l rest : keeps t s (cstep run s t) -> goal t (cstep run s t) l rest -> goal t s l rest.
Proof.
  intros K (s' & A & K' & L & E). exists s'. split; [now apply alone_step|]. split; [now apply (keeps_trans t s (cstep run s t))|easy].
Qed.
Ltac other := intros u N; cbn; now apply put_other.
Lemma making t s c rest : c_stack s t = (c, Making) :: rest -> goal t s (c_lock s) rest.
Proof.
  intros E. exists (cstep run s t). split; [now exists 1%nat|]. unfold cstep. rewrite E. split; [split; [other|easy]|].
  split; [easy|]. left. cbn. apply put_same.
Qed.
Lemma release_true t s c rest : c_stack s t = (c, Release true) :: rest -> goal t s (lock_release (c_lock s)) rest.
Proof.
  intros E. apply goal_step; unfold cstep; rewrite E; [split; [other|easy]|].
  set (s1 := goes _ _ _). change (lock_release (c_lock s)) with (c_lock s1). apply (making t s1 c). cbn. apply put_same.
Qed.
Lemma release_false t s c rest : c_stack s t = (c, Release false) :: rest -> goal t s (lock_release (c_lock s)) rest.
Proof.
  intros E. exists (cstep run s t). split; [now exists 1%nat|]. unfold cstep. rewrite E. split; [split; [other|easy]|].
  split; [easy|]. right. cbn. apply put_same.
Qed.
Lemma marking t s c rest : c_stack s t = (c, Marking) :: rest -> goal t s (lock_release (c_lock s)) rest.
Proof.
  intros E. apply goal_step; unfold cstep; rewrite E; [split; [other|easy]|].
  set (s1 := goes _ _ _). change (c_lock s) with (c_lock s1). apply (release_true t s1 c). cbn. apply put_same.
Qed.
Lemma ended t s c ok rest : c_stack s t = (c, Initialising [] ok) :: rest -> goal t s (lock_release (c_lock s)) rest.
Proof.
  intros E. apply goal_step; unfold cstep; rewrite E; [split; [other|easy]|].
  set (s1 := tells _ _). change (c_lock s) with (c_lock s1). destruct ok.
  - apply (marking t s1 c). cbn. apply put_same.
  - apply (release_false t s1 c). cbn. apply put_same.
Qed.
Definition startable (c : nat) : Prop :=
  forall s t rest, c_stack s t = (c, Start) :: rest -> lock_fine t (c_lock s) -> goal t s (c_lock s) rest.
Lemma initialising c : (forall c', (rank c' < rank c)%nat -> startable c') ->
  forall ws ok s t rest n, Forall (work_ok rank c) ws -> c_stack s t = (c, Initialising ws ok) :: rest ->
    c_lock s = Some (t, S n) -> goal t s (lock_release (c_lock s)) rest.
Proof.
  intros IH. induction ws as [|w ws IHw]; intros ok s t rest n F E L; [now apply (ended t s c ok)|].
  inversion F as [|? ? Hw F']; subst. destruct w as [| |c']; [| easy |].
  - apply goal_step; unfold cstep; rewrite E; [split; [other|easy]|].
    set (s1 := goes _ _ _). change (c_lock s) with (c_lock s1). apply (IHw ok s1 t rest n F'); [cbn; apply put_same|easy].
  - apply goal_step; unfold cstep; rewrite E; [split; [other|easy]|].
    set (s1 := goes _ _ _). change (c_lock s) with (c_lock s1).
    assert (E1 : c_stack s1 t = (c', Start) :: (c, Initialising ws ok) :: rest) by (cbn; apply put_same).
    assert (L1 : c_lock s1 = Some (t, S n)) by easy.
    destruct (IH c' Hw s1 t _ E1) as (s2 & A & K & L2 & E2); [right; now exists n|].
    assert (G : goal t s2 (lock_release (c_lock s2)) rest).
    { destruct E2 as [E2|E2]; [apply (IHw ok s2 t rest n F' E2); congruence|]. cbn [raised] in E2. now apply (ended t s2 c false). }
    destruct G as (s3 & A' & K' & L3 & E3). exists s3. split; [now apply (alone_trans t s1 s2)|].
    split; [now apply (keeps_trans t s1 s2)|]. split; [congruence|easy].
Qed.
Lemma recheck c : (forall c', (rank c' < rank c)%nat -> startable c') ->
  forall s t rest n, c_stack s t = (c, Recheck) :: rest -> c_lock s = Some (t, S n) -> goal t s (lock_release (c_lock s)) rest.
Proof.
  intros IH s t rest n E L. destruct (c_prepared s c) eqn:P.
  - apply goal_step; unfold cstep; rewrite E, P; [split; [other|easy]|].
    set (s1 := goes _ _ _). change (c_lock s) with (c_lock s1). apply (release_true t s1 c). cbn. apply put_same.
  - apply goal_step; unfold cstep; rewrite E, P; [split; [other|easy]|]. cbn zeta.
    set (s1 := tells _ _). change (c_lock s) with (c_lock s1).
    apply (initialising c IH _ _ s1 t rest n) with (2 := put_same _ _ _); [|easy].
    apply Forall_forall. intros w. apply run_ok.
Qed.
Lemma acquire c : (forall c', (rank c' < rank c)%nat -> startable c') ->
  forall s t rest, c_stack s t = (c, Acquire) :: rest -> lock_fine t (c_lock s) -> goal t s (c_lock s) rest.
Proof.
  intros IH s t rest E L. destruct (acquire_fine t _ L) as (n & A & R).
  apply goal_step; unfold cstep; rewrite E, A; [split; [other|easy]|].
  set (s1 := goes _ _ _). rewrite <- R. change (Some (t, S n)) with (c_lock s1).
  apply (recheck c IH s1 t rest n); [cbn; apply put_same|easy].
Qed.
Lemma start_finishes c : startable c.
Proof.
  induction c as [c IH] using (induction_ltof1 nat rank). unfold ltof in IH.
  intros s t rest E L. apply goal_step; unfold cstep; rewrite E; [split; [other|easy]|].
  destruct (c_prepared s c).
  - set (s1 := goes _ _ _). change (c_lock s) with (c_lock s1). apply (making t s1 c). cbn. apply put_same.
  - set (s1 := goes _ _ _). change (c_lock s) with (c_lock s1). apply (acquire c IH s1 t rest); [cbn; apply put_same|easy].
Qed.
Lemma inv_alone todo0 t s s' : Inv rank todo0 s -> alone t s s' -> Inv rank todo0 s'.
Proof.
  intros I (n & ->). unfold crun. revert s I. induction n as [|n IH]; intros s I; [easy|]. cbn [repeat fold_left].
  apply IH. now apply step_inv.
Qed.
(* t has the lock or nobody has *)
Definition may (t : nat) (s : cstate) : Prop := forall u, u <> t -> held (c_stack s u) = 0%nat.
Lemma may_fine todo0 t s : Inv rank todo0 s -> may t s -> lock_fine t (c_lock s).
Proof.
  intros I M. pose proof (i_lock _ _ _ I) as L. unfold lock_ok in L. destruct (c_lock s) as [[o n]|]; [|now left].
  destruct L as (P & H & L). destruct (Nat.eq_dec o t) as [-> |N]; [|specialize (M o N); lia].
  right. destruct n as [|n]; [lia|now exists n].
Qed.
Lemma finish_stack todo0 t k s : Inv rank todo0 s -> may t s -> (List.length (c_stack s t) <= k)%nat ->
  exists s', alone t s s' /\ keeps t s s' /\ c_stack s' t = [].
Proof.
  revert s. induction k as [|k IH]; intros s I M Hk.
  - exists s. split; [apply alone_refl|]. split; [apply keeps_refl|]. destruct (c_stack s t); [easy|cbn in Hk; lia].
  - destruct (c_stack s t) as [|[c p] rest] eqn:E; [exists s; split; [apply alone_refl|]; split; [apply keeps_refl|easy]|].
    assert (G : exists l, goal t s l rest).
    { pose proof (may_fine todo0 t s I M) as F. pose proof (i_shape _ _ _ I t) as Sh. rewrite E in Sh. destruct Sh as [Pk _].
      assert (X : held1 p = 1%nat -> c_lock s = Some (t, S (held rest))) by (intros H; eapply owner; eassumption).
      assert (IHc : forall c', (rank c' < rank c)%nat -> startable c') by (intros; apply start_finishes).
      destruct p as [| | |ws ok| |[|]|]; eexists.
      - now apply (start_finishes c s t rest).
      - now apply (acquire c IHc s t rest).
      - apply (recheck c IHc s t rest (held rest) E). now apply X.
      - apply (initialising c IHc ws ok s t rest (held rest) Pk E). now apply X.
      - now apply (marking t s c).
      - now apply (release_true t s c).
      - now apply (release_false t s c).
      - now apply (making t s c). }
    destruct G as (l & s1 & A & K & _ & E1).
    destruct (IH s1) as (s2 & A2 & K2 & E2).
    + now apply (inv_alone todo0 t s).
    + intros u N. rewrite (proj1 K u N). now apply M.
    + assert (Lr : List.length (raised rest) = List.length rest) by (destruct rest as [|[? [| | | | | |]] ?]; easy).
      cbn in Hk. destruct E1 as [-> | ->]; lia.
    + exists s2. split; [now apply (alone_trans t s s1)|]. split; [now apply (keeps_trans t s s1)|easy].
Qed.
Definition keeps_others (t : nat) (s s' : cstate) : Prop :=
  forall u, u <> t -> c_stack s' u = c_stack s u /\ c_todo s' u = c_todo s u.
Lemma finish_thread todo0 t k s : Inv rank todo0 s -> may t s -> List.length (c_todo s t) = k ->
  exists s', alone t s s' /\ keeps_others t s s' /\ c_stack s' t = [] /\ c_todo s' t = [].
Proof.
  revert s. induction k as [|k IH]; intros s I M Hk;
    destruct (finish_stack todo0 t (List.length (c_stack s t)) s I M (le_n _)) as (s1 & A & (K1 & K2) & E).
  - exists s1. split; [easy|]. split; [|split; [easy|rewrite K2; now destruct (c_todo s t)]].
    intros u N. split; [now apply K1|apply K2].
  - destruct (c_todo s t) as [|c todo] eqn:T; [discriminate Hk|].
    assert (T1 : c_todo s1 t = c :: todo) by now rewrite K2.
    set (s2 := cstep run s1 t).
    assert (Q : c_stack s2 t = [(c, Start)] /\ c_todo s2 t = todo /\ keeps_others t s1 s2).
    { unfold s2, cstep. rewrite E, T1. cbn. rewrite !put_same. split; [easy|]. split; [easy|]. intros u N. cbn. now rewrite !put_other. }
    destruct Q as (Q1 & Q2 & Q3).
    assert (A2 : alone t s1 s2) by now exists 1%nat.
    destruct (IH s2) as (s3 & A3 & K3 & F).
    + apply (inv_alone todo0 t s1); [now apply (inv_alone todo0 t s)|easy].
    + intros u N. rewrite (proj1 (Q3 u N)), K1 by easy. now apply M.
    + rewrite Q2. now injection Hk.
    + exists s3. split; [now apply (alone_trans t s s1), (alone_trans t s1 s2)|]. split; [|easy].
      intros u N. destruct (K3 u N) as [-> ->]. destruct (Q3 u N) as [-> ->]. split; [now apply K1|apply K2].
Qed.
Lemma finish_many todo0 ts s : Inv rank todo0 s -> (forall t, held (c_stack s t) = 0%nat) ->
  exists more, let s' := crun run s more in
    (forall t, In t ts -> c_stack s' t = [] /\ c_todo s' t = [])
    /\ (forall t, c_stack s t = [] /\ c_todo s t = [] -> c_stack s' t = [] /\ c_todo s' t = []).
Proof.
  revert s. induction ts as [|t ts IH]; intros s I H.
  - exists []. cbn. easy.
  - destruct (finish_thread todo0 t _ s I (fun u _ => H u) eq_refl) as (s1 & (n & E1) & K & F).
    destruct (IH s1) as (more & D1 & D2).
    + apply (inv_alone todo0 t s); [easy|now exists n].
    + intros u. destruct (Nat.eq_dec u t) as [-> |N]; [destruct F as [-> _]; easy|destruct (K u N) as [-> _]; apply H].
    + exists (repeat t n ++ more). unfold crun in *. rewrite fold_left_app, <- E1. split.
      * intros u [<- |J]; [now apply D2|now apply D1].
      * intros u J. apply D2. destruct (Nat.eq_dec u t) as [-> |N]; [easy|]. destruct (K u N) as [-> ->]. easy.
Qed.
Lemma can_finish todo0 bound sched : (forall t, (bound <= t)%nat -> todo0 t = []) ->
  exists more, finished (crun run (c_start todo0) (sched ++ more)).
Proof.
  intros B. set (s := crun run (c_start todo0) sched).
  assert (I : Inv rank todo0 s) by (apply run_inv; exact run_ok).
  assert (X : exists more1, forall t, held (c_stack (crun run s more1) t) = 0%nat).
  { pose proof (i_lock _ _ _ I) as L. unfold lock_ok in L. destruct (c_lock s) as [[o n]|]; [|now exists []].
    destruct L as (_ & _ & L). destruct (finish_thread todo0 o _ s I L eq_refl) as (s1 & (m & E1) & K & F & _).
    exists (repeat o m). rewrite <- E1. intros u. destruct (Nat.eq_dec u o) as [-> |N]; [now rewrite F|].
    destruct (K u N) as [-> _]. now apply L. }
  destruct X as (more1 & H1). set (s1 := crun run s more1) in *.
  assert (I1 : Inv rank todo0 s1).
  { unfold s1, s, crun. rewrite <- fold_left_app. apply run_inv. exact run_ok. }
  destruct (finish_many todo0 (seq 0 bound) s1 I1 H1) as (more2 & D1 & D2).
  exists (more1 ++ more2). unfold crun. rewrite !fold_left_app. fold (crun run (c_start todo0) sched). fold s. fold (crun run s more1). fold s1.
  intros t. destruct (Nat.le_gt_cases bound t) as [C|C].
  - apply D2. destruct (i_log _ _ _ I1 t) as (m & d & _ & _ & Q). rewrite (B t C) in Q. symmetry in Q.
    apply app_eq_nil in Q as [_ Q]. apply app_eq_nil in Q as [Qb Qt]. split; [|easy].
    destruct (c_stack s1 t) as [|[c p] rest]; [easy|]. exfalso. clear - Qb.
    revert c p Qb. induction rest as [|[c2 p2] rest IH]; intros c p Qb; [discriminate Qb|]. now apply (IH c2 p2).
  - apply D1. apply in_seq. lia.
Qed.
End Progress.
