(* class initialisation under threads *)
From Verif Require Import PyBase ModelScalar ModelCompound SpecCompound.

Section Threads.
Variables (run : nat -> nat -> init_run) (rank : nat -> nat).
Definition work_ok (c : nat) (w : work) : Prop :=
  match w with Works => True | CallsInherited => False | Constructs c' => (rank c' < rank c)%nat end.
Hypothesis run_ok : forall c n w, In w (i_work (run c n)) -> work_ok c w.

Lemma put_same {A} (f : nat -> A) t a : put f t a t = a.
Proof. unfold put. now rewrite Nat.eqb_refl. Qed.
Lemma put_other {A} (f : nat -> A) t a u : u <> t -> put f t a u = f u.
Proof. unfold put. intros H. now apply Nat.eqb_neq in H as ->. Qed.

(* ---- stacks ---- *)
Definition held1 (p : pc) : nat :=
  match p with Recheck | Initialising _ _ | Marking | Release _ => 1 | _ => 0 end%nat.
Fixpoint held (st : list (nat * pc)) : nat :=
  match st with [] => 0 | (_, p) :: r => held1 p + held r end%nat.
Fixpoint inits (st : list (nat * pc)) : list nat :=
  match st with [] => [] | (c, Initialising _ _) :: r => c :: inits r | _ :: r => inits r end.
Definition pc_ok (c : nat) (p : pc) : Prop :=
  match p with Initialising ws _ => Forall (work_ok c) ws | _ => True end.
Fixpoint below (c : nat) (st : list (nat * pc)) : Prop :=
  match st with
  | [] => True
  | (c', Initialising ws _) :: r => (rank c < rank c')%nat /\ Forall (work_ok c') ws /\ below c' r
  | _ => False
  end.
Definition shape (st : list (nat * pc)) : Prop :=
  match st with [] => True | (c, p) :: r => pc_ok c p /\ below c r end.
Fixpoint bottom (st : list (nat * pc)) : list nat :=
  match st with [] => [] | [(c, _)] => [c] | _ :: r => bottom r end.

Lemma below_in c st c' p : below c st -> In (c', p) st -> (rank c < rank c')%nat /\ exists ws ok, p = Initialising ws ok.
Proof.
  revert c; induction st as [|[c1 p1] st IH]; intros c B I; [easy|]. cbn [below] in B.
  destruct p1 as [| | |ws ok| | |]; try easy. destruct B as (R & _ & B). destruct I as [I|I].
  - injection I as <- <-. split; [easy|eauto].
  - destruct (IH c1 B I) as (R' & E). split; [lia|easy].
Qed.
Lemma below_raised c st : below c st -> below c (raised st).
Proof. destruct st as [|[c1 [| | |ws ok| | |]] st]; try easy. cbn. intuition. Qed.
Lemma shape_raised c st : below c st -> shape (raised st).
Proof. destruct st as [|[c1 [| | |ws ok| | |]] st]; try easy. cbn. intuition. Qed.
Lemma inits_raised st : inits (raised st) = inits st.
Proof. destruct st as [|[c1 [| | |ws ok| | |]] st]; easy. Qed.
Lemma held_raised st : held (raised st) = held st.
Proof. destruct st as [|[c1 [| | |ws ok| | |]] st]; easy. Qed.
Lemma bottom_raised st : bottom (raised st) = bottom st.
Proof. destruct st as [|[c1 [| | |ws ok| | |]] st]; try easy. Qed.
Lemma in_raised st c p : In (c, p) (raised st) -> exists p', In (c, p') st /\ (p' = p \/ exists ws ok ws' ok', p' = Initialising ws ok /\ p = Initialising ws' ok').
Proof.
  destruct st as [|[c1 p1] st]; [easy|]. intros I.
  destruct p1 as [| | |ws ok| | |]; cbn [raised] in I; try (exists p; split; [exact I|now left]).
  destruct I as [I|I].
  - injection I as <- <-. exists (Initialising ws ok). split; [now left|]. right. now exists ws, ok, [], false.
  - exists p. split; [now right|now left].
Qed.
Lemma bottom_cons c p st : st <> [] -> bottom ((c, p) :: st) = bottom st.
Proof. now destruct st. Qed.
Lemma bottom_top c p p' st : bottom ((c, p) :: st) = bottom ((c, p') :: st).
Proof. now destruct st. Qed.
Lemma bottom_nil c p : bottom [(c, p)] = [c].
Proof. reflexivity. Qed.

(* ---- traces ---- *)
Definition win (c : nat) (e : event) : bool :=
  match e with InitEnds _ c' true => Nat.eqb c' c | _ => false end.
Definition wins (c : nat) (tr : list event) : nat := List.length (filter (win c) tr).
Lemma win_iff c e : win c e = true <-> ends_well c e.
Proof.
  split.
  - destruct e as [| t c' [|] | |]; try easy. cbn. intros H. apply Nat.eqb_eq in H as ->. now exists t.
  - intros (t & ->). cbn. apply Nat.eqb_refl.
Qed.
Lemma wins_in c tr : (0 < wins c tr)%nat -> exists t, In (InitEnds t c true) tr.
Proof.
  unfold wins. destruct (filter (win c) tr) as [|e l] eqn:E; [cbn; lia|]. intros _.
  assert (I : In e (filter (win c) tr)) by (rewrite E; now left). apply filter_In in I as (I & W).
  apply win_iff in W as (t & ->). now exists t.
Qed.

Definition mood_ok (m : mood) (st : list (nat * pc)) : Prop :=
  match st with
  | [] => m = Free
  | (c, Release false) :: _ => m = MustRaise c
  | (c, Marking) :: _ => m = MustMake c
  | (c, Release true) :: _ | (c, Making) :: _ => m = Free \/ m = MustMake c
  | (_, Initialising [] false) :: _ => m = Free \/ m = Failing
  | _ => m = Free
  end.

Definition lock_ok (s : cstate) : Prop :=
  match c_lock s with
  | None => forall t, held (c_stack s t) = 0%nat
  | Some (t, n) => (0 < n)%nat /\ held (c_stack s t) = n /\ forall u, u <> t -> held (c_stack s u) = 0%nat
  end.
Definition opened (s : cstate) : list (nat * nat) :=
  match c_lock s with None => [] | Some (t, _) => map (fun c => (t, c)) (inits (c_stack s t)) end.
Definition logged (todo0 : nat -> list nat) (s : cstate) (t : nat) : Prop :=
  exists m settled, does t (thread_log t (rev (c_trace s))) (inits (c_stack s t)) m settled
  /\ mood_ok m (c_stack s t) /\ todo0 t = settled ++ bottom (c_stack s t) ++ c_todo s t.
Record Inv (todo0 : nat -> list nat) (s : cstate) : Prop := {
  i_lock : lock_ok s;
  i_shape : forall t, shape (c_stack s t);
  i_prep : forall c, c_prepared s c = true -> wins c (c_trace s) = 1%nat;
  i_mark : forall t c, In (c, Marking) (c_stack s t) -> wins c (c_trace s) = 1%nat /\ c_prepared s c = false;
  i_init : forall t c ws ok, In (c, Initialising ws ok) (c_stack s t) -> wins c (c_trace s) = 0%nat;
  i_one : forall c, wins c (c_trace s) = 0%nat \/ wins c (c_trace s) = 1%nat
          /\ (c_prepared s c = true \/ exists t, In (c, Marking) (c_stack s t));
  i_made : forall t c p, In (c, p) (c_stack s t) -> p = Release true \/ p = Making -> c_prepared s c = true;
  i_nest : nests (rev (c_trace s)) (opened s);
  i_log : forall t, logged todo0 s t;
  i_before : forall t c, before (rev (c_trace s)) (Makes t c) (ends_well c) }.

Lemma start_inv todo0 : Inv todo0 (c_start todo0).
Proof.
  constructor; try easy.
  - intros c. now left.
  - constructor.
  - intros t. exists Free, []. split; [constructor|]. easy.
  - intros t c a b E. now destruct a.
Qed.

(* only the owner of the lock has frames inside *)
Lemma held_in st c p : In (c, p) st -> held1 p = 1%nat -> (0 < held st)%nat.
Proof.
  induction st as [|[c1 p1] st IH]; intros I H; [easy|]. cbn [held]. destruct I as [I|I].
  - injection I as -> ->. lia.
  - specialize (IH I H). lia.
Qed.
Lemma only_owner todo0 s t u c p c' p' : Inv todo0 s -> In (c, p) (c_stack s t) -> held1 p = 1%nat ->
  In (c', p') (c_stack s u) -> held1 p' = 1%nat -> u = t.
Proof.
  intros I A Ha B Hb. pose proof (i_lock _ _ I) as L. unfold lock_ok in L.
  apply held_in in A, B; try easy. destruct (c_lock s) as [[o n]|].
  - destruct L as (_ & _ & L). assert (t = o) as -> by (destruct (Nat.eq_dec t o); [easy|specialize (L t n0); lia]).
    destruct (Nat.eq_dec u o); [easy|specialize (L u n0); lia].
  - specialize (L t). lia.
Qed.
Lemma owner todo0 s t c p rest : Inv todo0 s -> c_stack s t = (c, p) :: rest -> held1 p = 1%nat ->
  c_lock s = Some (t, S (held rest)) /\ forall u, u <> t -> held (c_stack s u) = 0%nat.
Proof.
  intros I E H. pose proof (i_lock _ _ I) as L. unfold lock_ok in L.
  destruct (c_lock s) as [[o n]|].
  - destruct L as (P & Q & L). destruct (Nat.eq_dec t o) as [-> |N].
    + rewrite E in Q. cbn [held] in Q. rewrite H in Q. split; [now f_equal; f_equal|easy].
    + specialize (L t N). rewrite E in L. cbn [held] in L. lia.
  - specialize (L t). rewrite E in L. cbn [held] in L. lia.
Qed.
Lemma not_held_in st c p : held st = 0%nat -> In (c, p) st -> held1 p = 0%nat.
Proof.
  intros H I. assert (X : held1 p = 0%nat \/ held1 p = 1%nat) by (destruct p; cbn; tauto).
  destruct X as [X|X]; [easy|]. pose proof (held_in st c p I X). lia.
Qed.
Lemma inits_held st : held st = 0%nat -> inits st = [].
Proof. induction st as [|[c p] st IH]; [easy|]. cbn [held]. intros H. destruct p; cbn in *; try lia; apply IH; lia. Qed.
Lemma below_held c st : below c st -> held st = List.length (inits st).
Proof.
  revert c; induction st as [|[c1 p1] st IH]; intros c B; [easy|]. cbn [below] in B.
  destruct p1; try easy. cbn. f_equal. eapply IH. apply B.
Qed.
Lemma below_empty c st : below c st -> held st = 0%nat -> st = [].
Proof. destruct st as [|[c1 p1] st]; [easy|]. cbn [below held]. destruct p1; try easy. Qed.

(* ---- silent steps of thread t ---- *)
Lemma silent todo0 s s' t : Inv todo0 s ->
  (forall c, c_prepared s' c = c_prepared s c) -> c_trace s' = c_trace s ->
  (forall u, u <> t -> c_stack s' u = c_stack s u /\ c_todo s' u = c_todo s u) ->
  lock_ok s' -> opened s' = opened s ->
  shape (c_stack s' t) -> inits (c_stack s' t) = inits (c_stack s t) ->
  bottom (c_stack s' t) ++ c_todo s' t = bottom (c_stack s t) ++ c_todo s t ->
  (forall m, mood_ok m (c_stack s t) -> mood_ok m (c_stack s' t)) ->
  (forall c, In (c, Marking) (c_stack s' t) <-> In (c, Marking) (c_stack s t)) ->
  (forall c ws ok, In (c, Initialising ws ok) (c_stack s' t) -> exists ws' ok', In (c, Initialising ws' ok') (c_stack s t)) ->
  (forall c p, In (c, p) (c_stack s' t) -> p = Release true \/ p = Making -> c_prepared s c = true) ->
  Inv todo0 s'.
Proof.
  intros I Hp Ht Ho Hl Hop Hsh Hin Hb Hm Hmk Hini Hmade.
  assert (U : forall u, u = t \/ (u <> t /\ c_stack s' u = c_stack s u /\ c_todo s' u = c_todo s u)).
  { intros u. destruct (Nat.eq_dec u t) as [E|E]; [now left|right; split; [easy|now apply Ho]]. }
  constructor; try rewrite Ht.
  - easy.
  - intros u. destruct (U u) as [-> |(_ & -> & _)]; [easy|apply (i_shape _ _ I)].
  - intros c. rewrite Hp. apply (i_prep _ _ I).
  - intros u c. rewrite Hp. destruct (U u) as [-> |(_ & -> & _)]; [rewrite Hmk|]; apply (i_mark _ _ I).
  - intros u c ws ok. destruct (U u) as [-> |(_ & -> & _)]; [|apply (i_init _ _ I)].
    intros J. destruct (Hini _ _ _ J) as (ws' & ok' & J'). apply (i_init _ _ I _ _ _ _ J').
  - intros c. rewrite Hp. destruct (i_one _ _ I c) as [H|(H & [H'|(u & H')])]; [now left| |]; right; (split; [easy|]).
    + now left.
    + right. exists u. destruct (U u) as [-> |(_ & -> & _)]; [now apply Hmk|easy].
  - intros u c p. rewrite Hp. destruct (U u) as [-> |(_ & -> & _)]; [apply Hmade|apply (i_made _ _ I)].
  - rewrite Hop. apply (i_nest _ _ I).
  - intros u. destruct (i_log _ _ I u) as (m & d & D & M & E). exists m, d. rewrite Ht.
    destruct (U u) as [-> |(_ & -> & ->)]; [|easy]. rewrite Hin, Hb. split; [easy|]. split; [now apply Hm|easy].
  - apply (i_before _ _ I).
Qed.
Lemma lock_same s s' t : lock_ok s -> c_lock s' = c_lock s -> held (c_stack s' t) = held (c_stack s t) ->
  (forall u, u <> t -> c_stack s' u = c_stack s u) -> lock_ok s'.
Proof.
  intros L E H Ho. assert (X : forall u, held (c_stack s' u) = held (c_stack s u)).
  { intros u. destruct (Nat.eq_dec u t) as [-> |N]; [easy|now rewrite Ho]. }
  unfold lock_ok in *. rewrite E. destruct (c_lock s) as [[o n]|]; [|intros u; now rewrite X].
  destruct L as (P & Q & L). rewrite X. split; [easy|]. split; [easy|]. intros u N. rewrite X. now apply L.
Qed.
Lemma opened_same s s' t : c_lock s' = c_lock s -> inits (c_stack s' t) = inits (c_stack s t) ->
  (forall u, u <> t -> c_stack s' u = c_stack s u) -> opened s' = opened s.
Proof.
  intros E H Ho. unfold opened. rewrite E. destruct (c_lock s) as [[o n]|]; [|easy].
  destruct (Nat.eq_dec o t) as [-> |N]; [now rewrite H|now rewrite Ho].
Qed.
(* the lock is not touched *)
Lemma silent_goes todo0 s t st' : Inv todo0 s ->
  held st' = held (c_stack s t) ->
  shape st' -> inits st' = inits (c_stack s t) -> bottom st' = bottom (c_stack s t) ->
  (forall m, mood_ok m (c_stack s t) -> mood_ok m st') ->
  (forall c, In (c, Marking) st' <-> In (c, Marking) (c_stack s t)) ->
  (forall c ws ok, In (c, Initialising ws ok) st' -> exists ws' ok', In (c, Initialising ws' ok') (c_stack s t)) ->
  (forall c p, In (c, p) st' -> p = Release true \/ p = Making -> c_prepared s c = true) ->
  Inv todo0 (goes s t st').
Proof.
  intros I H1 H2 H3 H4 H5 H6 H7 H8.
  assert (O : forall u, u <> t -> c_stack (goes s t st') u = c_stack s u) by (intros u N; cbn; now apply put_other).
  assert (T : c_stack (goes s t st') t = st') by (cbn; apply put_same).
  apply (silent todo0 s _ t); rewrite ?T; try easy.
  - intros u N. split; [now apply O|easy].
  - apply (lock_same s _ t); rewrite ?T; try easy. apply (i_lock _ _ I).
  - apply (opened_same s _ t); rewrite ?T; easy.
  - cbn [c_todo goes]. now rewrite H4.
Qed.

Definition is_init (p : pc) : bool := match p with Initialising _ _ => true | _ => false end.
Lemma top_change todo0 s t c p q rest : Inv todo0 s -> c_stack s t = (c, p) :: rest ->
  held1 q = held1 p -> is_init q = is_init p -> p <> Marking -> q <> Marking -> pc_ok c q ->
  (forall m, mood_ok m ((c, p) :: rest) -> mood_ok m ((c, q) :: rest)) ->
  (q = Release true \/ q = Making -> c_prepared s c = true) ->
  Inv todo0 (goes s t ((c, q) :: rest)).
Proof.
  intros I E H HI Np Nq Pq Hm Hd. pose proof (i_shape _ _ I t) as Sh. rewrite E in Sh. destruct Sh as [Pp B].
  apply silent_goes; rewrite ?E; try easy.
  - cbn [held]. now rewrite H.
  - cbn [inits]. destruct p, q; try discriminate HI; easy.
  - intros c0. cbn [In]. split; intros [X|X]; try congruence; now right.
  - intros c0 ws ok [X|X]; [|exists ws, ok; now right]. injection X as <- ->. destruct p; try discriminate HI.
    eexists _, _. left. reflexivity.
  - intros c0 p0 [X|X] M.
    + injection X as <- <-. now apply Hd.
    + apply (i_made _ _ I t c0 p0); [rewrite E; now right|easy].
Qed.
Lemma step_todo todo0 s t c todo : Inv todo0 s -> c_stack s t = [] -> c_todo s t = c :: todo ->
  Inv todo0 (CState (c_prepared s) (c_lock s) (c_begun s) (put (c_stack s) t [(c, Start)]) (put (c_todo s) t todo) (c_trace s)).
Proof.
  intros I E T.
  assert (O : forall u, u <> t -> put (c_stack s) t [(c, Start)] u = c_stack s u) by (intros; now apply put_other).
  apply (silent todo0 s _ t); cbn [c_prepared c_trace c_stack c_todo]; rewrite ?put_same; try easy.
  - intros u N. now rewrite !put_other.
  - apply (lock_same s _ t); cbn [c_lock c_stack]; rewrite ?put_same, ?E; try easy. apply (i_lock _ _ I).
  - apply (opened_same s _ t); cbn [c_lock c_stack]; rewrite ?put_same, ?E; easy.
  - now rewrite E.
  - now rewrite E, T.
  - now rewrite E.
  - rewrite E. intros c0. cbn. split; [|easy]. intros [X|[]]. discriminate X.
  - intros c0 ws ok [X|[]]. discriminate X.
  - intros c0 p [X|[]] [-> | ->]; discriminate X.
Qed.
Lemma step_start todo0 s t c rest : Inv todo0 s -> c_stack s t = (c, Start) :: rest ->
  Inv todo0 (goes s t ((c, if c_prepared s c then Making else Acquire) :: rest)).
Proof.
  intros I E. destruct (c_prepared s c) eqn:P; apply (top_change todo0 s t c Start _ rest); try easy.
  - intros m ->. now left.
  - intros [X|X]; discriminate X.
Qed.
Lemma step_acquire todo0 s t c rest l : Inv todo0 s -> c_stack s t = (c, Acquire) :: rest ->
  lock_acquire t (c_lock s) = Some l -> Inv todo0 (goes (locks s (Some l)) t ((c, Recheck) :: rest)).
Proof.
  intros I E A. pose proof (i_shape _ _ I t) as Sh. rewrite E in Sh. destruct Sh as [_ B].
  assert (O : forall u, u <> t -> put (c_stack s) t ((c, Recheck) :: rest) u = c_stack s u) by (intros; now apply put_other).
  pose proof (i_lock _ _ I) as L. unfold lock_ok in L.
  assert (X : exists n, l = (t, S n) /\ n = held rest /\ (forall u, u <> t -> held (c_stack s u) = 0%nat)
              /\ (c_lock s = None /\ n = 0%nat \/ c_lock s = Some (t, n))).
  { unfold lock_acquire in A. destruct (c_lock s) as [[o n]|].
    - destruct (Nat.eqb o t) eqn:Q; [|discriminate A]. apply Nat.eqb_eq in Q. subst o. injection A as <-.
      destruct L as (_ & H & L). rewrite E in H. cbn [held held1 Nat.add] in H. exists n. split; [easy|]. split; [easy|]. split; [easy|]. now right.
    - injection A as <-. exists 0%nat. split; [easy|]. pose proof (L t) as L'. rewrite E in L'. cbn [held held1 Nat.add] in L'.
      split; [easy|]. split; [intros; apply L|now left]. }
  destruct X as (n & -> & En & Ho & Lk).
  apply (silent todo0 s _ t); cbn [c_prepared c_trace c_stack c_todo goes locks]; rewrite ?put_same, ?E; try easy.
  - intros u N. now rewrite O.
  - unfold lock_ok. cbn [c_lock goes locks c_stack]. rewrite put_same. cbn [held held1]. split; [lia|]. split; [lia|].
    intros u N. rewrite O by easy. now apply Ho.
  - unfold opened. cbn [c_lock goes locks c_stack]. rewrite put_same. destruct Lk as [(-> & Z)| ->].
    + rewrite Z in En. symmetry in En. cbn [inits]. now rewrite (inits_held rest En).
    + now rewrite E.
  - intros c0. cbn [In]. split; intros [X|X]; try congruence; now right.
  - intros c0 ws ok [X|X]; [discriminate X|]. exists ws, ok. now right.
  - intros c0 p [X|X] M; [injection X as <- <-; now destruct M|].
    apply (i_made _ _ I t c0 p); [rewrite E; now right|easy].
Qed.
Lemma step_recheck_done todo0 s t c rest : Inv todo0 s -> c_stack s t = (c, Recheck) :: rest -> c_prepared s c = true ->
  Inv todo0 (goes s t ((c, Release true) :: rest)).
Proof.
  intros I E P. apply (top_change todo0 s t c Recheck _ rest); try easy. intros m ->. now left.
Qed.
Lemma step_works todo0 s t c ws ok rest : Inv todo0 s -> c_stack s t = (c, Initialising (Works :: ws) ok) :: rest ->
  Inv todo0 (goes s t ((c, Initialising ws ok) :: rest)).
Proof.
  intros I E. pose proof (i_shape _ _ I t) as Sh. rewrite E in Sh. destruct Sh as [P _].
  apply (top_change todo0 s t c (Initialising (Works :: ws) ok) _ rest); try easy.
  - now inversion P.
  - intros m ->. destruct ws, ok; cbn; tauto.
  - intros [X|X]; discriminate X.
Qed.
Lemma step_constructs todo0 s t c c' ws ok rest : Inv todo0 s ->
  c_stack s t = (c, Initialising (Constructs c' :: ws) ok) :: rest ->
  Inv todo0 (goes s t ((c', Start) :: (c, Initialising ws ok) :: rest)).
Proof.
  intros I E. pose proof (i_shape _ _ I t) as Sh. rewrite E in Sh. destruct Sh as [P B].
  inversion P as [|? ? Wk P']; subst.
  apply silent_goes; rewrite ?E; try easy.
  - intros c0. cbn [In]. split; [intros [X|[X|X]]|intros [X|X]]; try congruence; try (now right); right; now right.
  - intros c0 ws0 ok0 [X|[X|X]]; [discriminate X| |].
    + injection X as <- <- <-. eexists _, _. left. reflexivity.
    + exists ws0, ok0. now right.
  - intros c0 p [X|[X|X]] M; [injection X as <- <-; now destruct M|injection X as <- <-; now destruct M|].
    apply (i_made _ _ I t c0 p); [rewrite E; now right|easy].
Qed.
Lemma step_release todo0 s t c rest : Inv todo0 s -> c_stack s t = (c, Release true) :: rest ->
  Inv todo0 (goes (locks s (lock_release (c_lock s))) t ((c, Making) :: rest)).
Proof.
  intros I E. pose proof (i_shape _ _ I t) as Sh. rewrite E in Sh. destruct Sh as [_ B].
  assert (O : forall st u, u <> t -> put (c_stack s) t st u = c_stack s u) by (intros; now apply put_other).
  destruct (owner todo0 s t c _ rest I E eq_refl) as (L & Ho).
  pose proof (i_made _ _ I t c (Release true)) as Md. rewrite E in Md. specialize (Md (or_introl eq_refl) (or_introl eq_refl)).
  apply (silent todo0 s _ t); cbn [c_prepared c_trace c_stack c_todo goes locks]; rewrite ?put_same, ?E; try easy.
  - intros u N. now rewrite O.
  - unfold lock_ok. cbn [c_lock goes locks c_stack]. rewrite L. cbn [lock_release]. destruct (held rest) as [|n] eqn:H.
    + intros u. destruct (Nat.eq_dec u t) as [-> |N]; [rewrite put_same; easy|]. rewrite O by easy. now apply Ho.
    + rewrite put_same. split; [lia|]. split; [easy|]. intros u N. rewrite O by easy. now apply Ho.
  - unfold opened. cbn [c_lock goes locks c_stack]. rewrite L. cbn [lock_release]. destruct (held rest) as [|n] eqn:H.
    + rewrite E. cbn [inits]. now rewrite (inits_held rest H).
    + now rewrite put_same, E.
  - intros c0. cbn [In]. split; intros [X|X]; try congruence; now right.
  - intros c0 ws ok [X|X]; [discriminate X|]. exists ws, ok. now right.
  - intros c0 p [X|X] M; [injection X as <- <-; easy|].
    apply (i_made _ _ I t c0 p); [rewrite E; now right|easy].
Qed.

(* ---- steps that are seen ---- *)
Lemma before_snoc tr e x P : before tr x P -> (e = x -> exists y, In y tr /\ P y) -> before (tr ++ [e]) x P.
Proof.
  intros H N a b E. destruct b as [|z b] using rev_ind.
  - apply app_inj_tail in E as [-> <-]. destruct (N eq_refl) as (y & I & Py). exists y. easy.
  - clear IHb. assert (E' : tr ++ [e] = (a ++ x :: b) ++ [z]) by (rewrite E, <- app_assoc; easy).
    apply app_inj_tail in E' as [E' _]. now apply (H a b).
Qed.
Lemma log_other t e tr : thread_of e <> t -> thread_log t (rev (e :: tr)) = thread_log t (rev tr).
Proof.
  intros N. cbn [rev]. unfold thread_log. rewrite filter_app. cbn [filter]. apply Nat.eqb_neq in N as ->. apply app_nil_r.
Qed.
Lemma log_own e tr : thread_log (thread_of e) (rev (e :: tr)) = thread_log (thread_of e) (rev tr) ++ [e].
Proof. cbn [rev]. unfold thread_log. rewrite filter_app. cbn [filter]. now rewrite Nat.eqb_refl. Qed.

Lemma loud todo0 s s' e t : Inv todo0 s -> thread_of e = t -> (forall c, win c e = false) ->
  (forall c, c_prepared s' c = c_prepared s c) -> c_trace s' = e :: c_trace s ->
  (forall u, u <> t -> c_stack s' u = c_stack s u) -> (forall u, c_todo s' u = c_todo s u) ->
  lock_ok s' -> nests (rev (c_trace s) ++ [e]) (opened s') ->
  shape (c_stack s' t) -> logged todo0 s' t ->
  (forall c, In (c, Marking) (c_stack s' t) <-> In (c, Marking) (c_stack s t)) ->
  (forall c ws ok, In (c, Initialising ws ok) (c_stack s' t) -> wins c (c_trace s) = 0%nat) ->
  (forall c p, In (c, p) (c_stack s' t) -> p = Release true \/ p = Making -> c_prepared s c = true) ->
  (forall c, e = Makes t c -> c_prepared s c = true) ->
  Inv todo0 s'.
Proof.
  intros I He Hw Hp Ht Ho Htd Hl Hn Hsh Hlog Hmk Hini Hmade Hmakes.
  assert (U : forall u, u = t \/ (u <> t /\ c_stack s' u = c_stack s u)).
  { intros u. destruct (Nat.eq_dec u t) as [E|E]; [now left|right; split; [easy|now apply Ho]]. }
  assert (W : forall c, wins c (c_trace s') = wins c (c_trace s)).
  { intros c. rewrite Ht. unfold wins. cbn [filter]. now rewrite Hw. }
  constructor.
  - easy.
  - intros u. destruct (U u) as [-> |(_ & ->)]; [easy|apply (i_shape _ _ I)].
  - intros c. rewrite Hp, W. apply (i_prep _ _ I).
  - intros u c. rewrite Hp, W. destruct (U u) as [-> |(_ & ->)]; [rewrite Hmk|]; apply (i_mark _ _ I).
  - intros u c ws ok. rewrite W. destruct (U u) as [-> |(_ & ->)]; [apply Hini|apply (i_init _ _ I)].
  - intros c. rewrite Hp, W. destruct (i_one _ _ I c) as [H|(H & [H'|(u & H')])]; [now left| |]; right; (split; [easy|]).
    + now left.
    + right. exists u. destruct (U u) as [-> |(_ & ->)]; [now apply Hmk|easy].
  - intros u c p. rewrite Hp. destruct (U u) as [-> |(_ & ->)]; [apply Hmade|apply (i_made _ _ I)].
  - rewrite Ht. exact Hn.
  - intros u. destruct (U u) as [-> |(N & E)]; [easy|].
    destruct (i_log _ _ I u) as (m & d & D & M & Q). exists m, d. rewrite Ht, E, Htd, log_other; [easy|]. rewrite He. congruence.
  - intros u c. rewrite Ht. cbn [rev]. apply before_snoc; [apply (i_before _ _ I)|].
    intros Ee. assert (u = t) as -> by (rewrite <- He, Ee; easy).
    specialize (Hmakes c Ee). apply (i_prep _ _ I) in Hmakes.
    destruct (wins_in c (c_trace s)) as (x & X); [lia|]. exists (InitEnds x c true).
    split; [now apply in_rev in X|now exists x].
Qed.
Lemma nests_opened todo0 s t c p rest : Inv todo0 s -> c_stack s t = (c, p) :: rest -> held1 p = 1%nat ->
  nests (rev (c_trace s)) (map (fun c => (t, c)) (inits ((c, p) :: rest))).
Proof.
  intros I E H. destruct (owner todo0 s t c p rest I E H) as (L & _).
  pose proof (i_nest _ _ I) as N. unfold opened in N. now rewrite L, E in N.
Qed.
Lemma step_begin todo0 s t c rest : Inv todo0 s -> c_stack s t = (c, Recheck) :: rest -> c_prepared s c = false ->
  Inv todo0 (let r := run c (c_begun s c) in
             tells (goes (begins s c) t ((c, Initialising (i_work r) (i_ok r)) :: rest)) (InitBegins t c)).
Proof.
  intros I E P. cbn zeta. set (r := run c (c_begun s c)).
  pose proof (i_shape _ _ I t) as Sh. rewrite E in Sh. destruct Sh as [_ B].
  destruct (owner todo0 s t c _ rest I E eq_refl) as (L & Ho).
  assert (O : forall st u, u <> t -> put (c_stack s) t st u = c_stack s u) by (intros; now apply put_other).
  apply (loud todo0 s _ (InitBegins t c) t); cbn [c_prepared c_trace c_stack c_todo goes tells begins]; rewrite ?put_same, ?E; try easy.
  - intros u N. now rewrite O.
  - apply (lock_same s _ t); cbn [c_lock c_stack goes tells begins]; rewrite ?put_same, ?E; try easy; [apply (i_lock _ _ I)|].
    intros u N. now rewrite O.
  - unfold opened. cbn [c_lock c_stack goes tells begins]. rewrite L, put_same. cbn [inits map].
    apply ns_begin; [apply (nests_opened todo0 s t c Recheck rest I E eq_refl)|].
    apply Forall_map. cbn. apply Forall_forall. easy.
  - split; [|easy]. apply Forall_forall. intros w W. now apply (run_ok c (c_begun s c)).
  - destruct (i_log _ _ I t) as (m & d & D & M & Q). rewrite E in D, M, Q. cbn [mood_ok] in M. subst m.
    exists Free, d. cbn [c_trace c_stack c_todo goes tells begins]. rewrite put_same.
    pose proof (log_own (InitBegins t c) (c_trace s)) as Lo. cbn [thread_of] in Lo. rewrite Lo. cbn [inits]. split; [now apply do_begin|]. split; [|exact Q].
    cbn. destruct (i_work r), (i_ok r); cbn; tauto.
  - intros c0. cbn [In]. split; intros [X|X]; try congruence; now right.
  - intros c0 ws ok [X|X].
    + injection X as <- _ _. destruct (i_one _ _ I c) as [H|(H & [H'|(u & H')])]; [easy|congruence|].
      exfalso. assert (u = t) as -> by (apply (only_owner todo0 s t u c Recheck c Marking I); [rewrite E; now left|reflexivity|exact H'|reflexivity]).
      rewrite E in H'. destruct H' as [H'|H']; [discriminate H'|]. apply (below_in c rest) in H' as (_ & ws' & ok' & H'); [discriminate H'|easy].
    + apply (i_init _ _ I t c0 ws ok). rewrite E. now right.
  - intros c0 p [X|X] M; [injection X as <- <-; now destruct M|].
    apply (i_made _ _ I t c0 p); [rewrite E; now right|easy].
Qed.
Lemma step_end_bad todo0 s t c rest : Inv todo0 s -> c_stack s t = (c, Initialising [] false) :: rest ->
  Inv todo0 (tells (goes s t ((c, Release false) :: rest)) (InitEnds t c false)).
Proof.
  intros I E.
  pose proof (i_shape _ _ I t) as Sh. rewrite E in Sh. destruct Sh as [_ B].
  destruct (owner todo0 s t c _ rest I E eq_refl) as (L & Ho).
  assert (O : forall st u, u <> t -> put (c_stack s) t st u = c_stack s u) by (intros; now apply put_other).
  apply (loud todo0 s _ (InitEnds t c false) t); cbn [c_prepared c_trace c_stack c_todo goes tells]; rewrite ?put_same, ?E; try easy.
  - intros u N. now rewrite O.
  - apply (lock_same s _ t); cbn [c_lock c_stack goes tells]; rewrite ?put_same, ?E; try easy; [apply (i_lock _ _ I)|].
    intros u N. now rewrite O.
  - unfold opened. cbn [c_lock c_stack goes tells]. rewrite L, put_same. cbn [inits].
    apply ns_end. apply (nests_opened todo0 s t c _ rest I E eq_refl).
  - destruct (i_log _ _ I t) as (m & d & D & M & Q). rewrite E in D, M, Q. cbn [mood_ok] in M.
    exists (MustRaise c), d. cbn [c_trace c_stack c_todo goes tells]. rewrite put_same.
    pose proof (log_own (InitEnds t c false) (c_trace s)) as Lo. cbn [thread_of] in Lo. rewrite Lo. cbn [inits]. split; [|split; [easy|exact Q]].
    now apply do_end_bad with m.
  - intros c0. cbn [In]. split; intros [X|X]; try congruence; now right.
  - intros c0 ws ok [X|X]; [discriminate X|]. apply (i_init _ _ I t c0 ws ok). rewrite E. now right.
  - intros c0 p [X|X] M; [injection X as <- <-; now destruct M|].
    apply (i_made _ _ I t c0 p); [rewrite E; now right|easy].
Qed.
Lemma step_raise todo0 s t c rest : Inv todo0 s -> c_stack s t = (c, Release false) :: rest ->
  Inv todo0 (tells (goes (locks s (lock_release (c_lock s))) t (raised rest)) (Raises t c)).
Proof.
  intros I E.
  pose proof (i_shape _ _ I t) as Sh. rewrite E in Sh. destruct Sh as [_ B].
  destruct (owner todo0 s t c _ rest I E eq_refl) as (L & Ho).
  assert (O : forall st u, u <> t -> put (c_stack s) t st u = c_stack s u) by (intros; now apply put_other).
  apply (loud todo0 s _ (Raises t c) t); cbn [c_prepared c_trace c_stack c_todo goes tells locks]; rewrite ?put_same, ?E; try easy.
  - intros u N. now rewrite O.
  - unfold lock_ok. cbn [c_lock goes locks c_stack tells]. rewrite L. cbn [lock_release]. destruct (held rest) as [|n] eqn:H.
    + intros u. destruct (Nat.eq_dec u t) as [-> |N]; [rewrite put_same, held_raised; easy|]. rewrite O by easy. now apply Ho.
    + rewrite put_same, held_raised. split; [lia|]. split; [easy|]. intros u N. rewrite O by easy. now apply Ho.
  - pose proof (nests_opened todo0 s t c _ rest I E eq_refl) as N. cbn [inits] in N.
    unfold opened. cbn [c_lock goes locks c_stack tells]. rewrite L. cbn [lock_release]. apply ns_raises. destruct (held rest) as [|n] eqn:H.
    + now rewrite (inits_held rest H) in N.
    + now rewrite put_same, inits_raised.
  - now apply (shape_raised c).
  - destruct (i_log _ _ I t) as (m & d & D & M & Q). rewrite E in D, M, Q. cbn [mood_ok] in M. subst m. cbn [inits] in D.
    exists (match inits rest with [] => Free | _ => Failing end), (settle c (inits rest) d).
    cbn [c_trace c_stack c_todo goes tells locks]. rewrite put_same, inits_raised, bottom_raised.
    pose proof (log_own (Raises t c) (c_trace s)) as Lo. cbn [thread_of] in Lo. rewrite Lo.
    split; [now apply do_raise|].
    destruct rest as [|[c2 p2] rest]; [split; [easy|]; cbn; rewrite Q; cbn; now rewrite <- app_assoc|].
    cbn [below] in B. destruct p2; try easy. cbn [inits settle raised mood_ok]. split; [now right|].
    rewrite Q. easy.
  - intros c0. split.
    + intros X. apply in_raised in X as (p' & X & Y). right. destruct Y as [-> |(ws & ok & ws' & ok' & _ & Y)]; [easy|discriminate Y].
    + intros [X|X]; [discriminate X|]. apply (below_in c rest) in X as (_ & ws' & ok' & X); [discriminate X|easy].
  - intros c0 ws ok X. apply in_raised in X as (p' & X & Y).
    assert (Z : exists ws' ok', p' = Initialising ws' ok') by (destruct Y as [-> |(ws1 & ok1 & _ & _ & -> & _)]; eauto).
    destruct Z as (ws' & ok' & ->). apply (i_init _ _ I t c0 ws' ok'). rewrite E. now right.
  - intros c0 p X M. apply in_raised in X as (p' & X & Y). destruct Y as [-> |(_ & _ & ws1 & ok1 & _ & ->)]; [|now destruct M].
    apply (i_made _ _ I t c0 p); [rewrite E; now right|easy].
Qed.
Lemma step_make todo0 s t c rest : Inv todo0 s -> c_stack s t = (c, Making) :: rest ->
  Inv todo0 (tells (goes s t rest) (Makes t c)).
Proof.
  intros I E.
  pose proof (i_shape _ _ I t) as Sh. rewrite E in Sh. destruct Sh as [_ B].
  pose proof (i_made _ _ I t c Making) as Md. rewrite E in Md. specialize (Md (or_introl eq_refl) (or_intror eq_refl)).
  assert (O : forall st u, u <> t -> put (c_stack s) t st u = c_stack s u) by (intros; now apply put_other).
  apply (loud todo0 s _ (Makes t c) t); cbn [c_prepared c_trace c_stack c_todo goes tells]; rewrite ?put_same, ?E; try easy.
  - intros u N. now rewrite O.
  - apply (lock_same s _ t); cbn [c_lock c_stack goes tells]; rewrite ?put_same, ?E; try easy; [apply (i_lock _ _ I)|].
    intros u N. now rewrite O.
  - apply ns_makes. assert (opened (tells (goes s t rest) (Makes t c)) = opened s) as ->; [|apply (i_nest _ _ I)].
    apply (opened_same s _ t); cbn [c_lock c_stack goes tells]; rewrite ?put_same, ?E; try easy. intros u N. now rewrite O.
  - destruct rest as [|[c2 p2] rest]; [easy|]. cbn [below] in B. destruct p2; try easy.
  - destruct (i_log _ _ I t) as (m & d & D & M & Q). rewrite E in D, M, Q. cbn [mood_ok] in M. cbn [inits] in D.
    exists Free, (settle c (inits rest) d).
    cbn [c_trace c_stack c_todo goes tells]. rewrite put_same.
    pose proof (log_own (Makes t c) (c_trace s)) as Lo. cbn [thread_of] in Lo. rewrite Lo.
    split; [now apply do_make with m|].
    destruct rest as [|[c2 p2] rest]; [split; [easy|]; cbn; rewrite Q; cbn; now rewrite <- app_assoc|].
    cbn [below] in B. destruct p2; try easy. cbn [inits settle raised mood_ok]. split; [destruct w, ok; cbn; tauto|].
    rewrite Q. easy.
  - intros c0. split; [intros X; now right|]. intros [X|X]; [discriminate X|easy].
  - intros c0 ws ok X. apply (i_init _ _ I t c0 ws ok). rewrite E. now right.
  - intros c0 p X M. apply (i_made _ _ I t c0 p); [rewrite E; now right|easy].
  - intros c0 X. injection X as <-. easy.
Qed.
Lemma step_end_ok todo0 s t c rest : Inv todo0 s -> c_stack s t = (c, Initialising [] true) :: rest ->
  Inv todo0 (tells (goes s t ((c, Marking) :: rest)) (InitEnds t c true)).
Proof.
  intros I E.
  pose proof (i_shape _ _ I t) as Sh. rewrite E in Sh. destruct Sh as [_ B].
  destruct (owner todo0 s t c _ rest I E eq_refl) as (L & Ho).
  assert (O : forall st u, u <> t -> put (c_stack s) t st u = c_stack s u) by (intros; now apply put_other).
  assert (W0 : wins c (c_trace s) = 0%nat) by (apply (i_init _ _ I t c [] true); rewrite E; now left).
  assert (P0 : c_prepared s c = false).
  { destruct (c_prepared s c) eqn:P; [|easy]. apply (i_prep _ _ I) in P. lia. }
  set (s' := tells (goes s t ((c, Marking) :: rest)) (InitEnds t c true)).
  assert (T : c_stack s' t = (c, Marking) :: rest) by (cbn; apply put_same).
  assert (U : forall u, u = t \/ (u <> t /\ c_stack s' u = c_stack s u)).
  { intros u. destruct (Nat.eq_dec u t) as [Q|Q]; [now left|right; split; [easy|]]. now apply O. }
  assert (Wc : wins c (c_trace s') = 1%nat).
  { cbn. unfold wins. cbn [filter win]. rewrite Nat.eqb_refl. cbn [List.length]. unfold wins in W0. now rewrite W0. }
  assert (Wo : forall c0, c0 <> c -> wins c0 (c_trace s') = wins c0 (c_trace s)).
  { intros c0 N. cbn. unfold wins. cbn [filter win]. apply Nat.neq_sym, Nat.eqb_neq in N. now rewrite N. }
  assert (Hold : forall u c0 p, In (c0, p) (c_stack s' u) -> held1 p = 1%nat -> (c0 = c /\ p = Marking) \/ c0 <> c /\ In (c0, p) (c_stack s u)).
  { intros u c0 p X Hp. destruct (U u) as [-> |(N & Q)].
    - rewrite T in X. destruct X as [X|X]; [injection X as <- <-; now left|]. right.
      split; [|rewrite E; now right]. apply (below_in c rest) in X as (X & _); [|easy]. intros ->. lia.
    - rewrite Q in X. exfalso. apply held_in in X; [|easy]. specialize (Ho u N). lia. }
  constructor.
  - apply (lock_same s _ t); rewrite ?T, ?E; try easy; [apply (i_lock _ _ I)|]. intros u N. now apply O.
  - intros u. destruct (U u) as [-> |(_ & ->)]; [rewrite T; easy|apply (i_shape _ _ I)].
  - intros c0 P. cbn in P. assert (N : c0 <> c) by congruence. rewrite (Wo c0 N). now apply (i_prep _ _ I).
  - intros u c0 X. destruct (Hold u c0 Marking X eq_refl) as [(-> & _)|(N & X')]; [easy|].
    rewrite (Wo c0 N). apply (i_mark _ _ I u c0 X').
  - intros u c0 ws ok X. destruct (Hold u c0 _ X eq_refl) as [(_ & X')|(N & X')]; [discriminate X'|].
    rewrite (Wo c0 N). apply (i_init _ _ I u c0 ws ok X').
  - intros c0. destruct (Nat.eq_dec c0 c) as [-> |N].
    + right. split; [easy|]. right. exists t. rewrite T. now left.
    + rewrite (Wo c0 N). destruct (i_one _ _ I c0) as [H|(H & [H'|(u & H')])]; [now left| |]; right; (split; [easy|]).
      * now left.
      * right. exists u. destruct (U u) as [-> |(_ & ->)]; [|easy]. rewrite T. rewrite E in H'. destruct H' as [H'|H']; [discriminate H'|now right].
  - intros u c0 p X M. cbn [c_prepared s' tells goes]. destruct (U u) as [-> |(_ & Q)].
    + rewrite T in X. destruct X as [X|X]; [injection X as <- <-; now destruct M|].
      apply (i_made _ _ I t c0 p); [rewrite E; now right|easy].
    + rewrite Q in X. now apply (i_made _ _ I u c0 p).
  - unfold opened. cbn [c_lock s' goes tells]. rewrite L. fold s'. rewrite T. cbn [inits].
    apply ns_end. apply (nests_opened todo0 s t c _ rest I E eq_refl).
  - intros u. destruct (U u) as [-> |(N & Q)].
    + destruct (i_log _ _ I t) as (m & d & D & M & Q). rewrite E in D, M, Q. cbn [mood_ok] in M.
      exists (MustMake c), d. rewrite T. cbn [c_trace c_todo s' goes tells].
      pose proof (log_own (InitEnds t c true) (c_trace s)) as Lo. cbn [thread_of] in Lo. rewrite Lo. cbn [inits]. split; [|split; [easy|exact Q]].
      apply do_end_ok. subst m. exact D.
    + destruct (i_log _ _ I u) as (m & d & D & M & Q'). exists m, d. rewrite Q. cbn [c_trace c_todo s' goes tells].
      rewrite log_other; [easy|]. cbn. congruence.
  - intros u c0. cbn [c_trace s' goes tells rev]. apply before_snoc; [apply (i_before _ _ I)|easy].
Qed.
Lemma step_mark todo0 s t c rest : Inv todo0 s -> c_stack s t = (c, Marking) :: rest ->
  Inv todo0 (goes (prepares s c) t ((c, Release true) :: rest)).
Proof.
  intros I E.
  pose proof (i_shape _ _ I t) as Sh. rewrite E in Sh. destruct Sh as [_ B].
  destruct (owner todo0 s t c _ rest I E eq_refl) as (L & Ho).
  assert (O : forall st u, u <> t -> put (c_stack s) t st u = c_stack s u) by (intros; now apply put_other).
  destruct (i_mark _ _ I t c) as (W1 & P0); [rewrite E; now left|].
  set (s' := goes (prepares s c) t ((c, Release true) :: rest)).
  assert (T : c_stack s' t = (c, Release true) :: rest) by (cbn; apply put_same).
  assert (U : forall u, u = t \/ (u <> t /\ c_stack s' u = c_stack s u)).
  { intros u. destruct (Nat.eq_dec u t) as [Q|Q]; [now left|right; split; [easy|]]. now apply O. }
  assert (Pc : c_prepared s' c = true) by (cbn; apply put_same).
  assert (Po : forall c0, c0 <> c -> c_prepared s' c0 = c_prepared s c0) by (intros c0 N; cbn; now apply put_other).
  constructor.
  - apply (lock_same s _ t); rewrite ?T, ?E; try easy; [apply (i_lock _ _ I)|]. intros u N. now apply O.
  - intros u. destruct (U u) as [-> |(_ & ->)]; [rewrite T; easy|apply (i_shape _ _ I)].
  - intros c0 P. cbn [c_trace s' goes prepares]. destruct (Nat.eq_dec c0 c) as [-> |N]; [easy|]. rewrite (Po c0 N) in P. now apply (i_prep _ _ I).
  - intros u c0 X. cbn [c_trace s' goes prepares].
    assert (X' : c0 <> c /\ In (c0, Marking) (c_stack s u)).
    { destruct (U u) as [-> |(N & Q)].
      - rewrite T in X. destruct X as [X|X]; [discriminate X|]. apply (below_in c rest) in X as (_ & ws & ok & X); [discriminate X|easy].
      - rewrite Q in X. exfalso. apply held_in in X; [|easy]. specialize (Ho u N). lia. }
    destruct X' as (N & X'). rewrite Po by easy. apply (i_mark _ _ I u c0 X').
  - intros u c0 ws ok X. cbn [c_trace s' goes prepares]. apply (i_init _ _ I u c0 ws ok).
    destruct (U u) as [-> |(N & Q)]; [|now rewrite Q in X]. rewrite T in X. rewrite E. destruct X as [X|X]; [discriminate X|now right].
  - intros c0. cbn [c_trace s' goes prepares]. destruct (Nat.eq_dec c0 c) as [-> |N].
    + right. split; [easy|]. now left.
    + rewrite (Po c0 N). destruct (i_one _ _ I c0) as [H|(H & [H'|(u & H')])]; [now left| |]; right; (split; [easy|]).
      * now left.
      * right. exists u. destruct (U u) as [-> |(_ & ->)]; [|easy]. rewrite T. rewrite E in H'. destruct H' as [H'|H']; [congruence|now right].
  - intros u c0 p X M. destruct (Nat.eq_dec c0 c) as [-> |N]; [easy|]. rewrite (Po c0 N).
    apply (i_made _ _ I u c0 p); [|easy]. destruct (U u) as [-> |(_ & Q)]; [|now rewrite Q in X].
    rewrite T in X. rewrite E. destruct X as [X|X]; [congruence|now right].
  - cbn [c_trace s' goes prepares]. assert (opened s' = opened s) as ->; [|apply (i_nest _ _ I)].
    apply (opened_same s _ t); rewrite ?T, ?E; try easy. intros u N. now apply O.
  - intros u. destruct (i_log _ _ I u) as (m & d & D & M & Q). exists m, d. cbn [c_trace c_todo s' goes prepares].
    destruct (U u) as [-> |(N & Q')]; [|now rewrite Q'].
    rewrite T. rewrite E in D, M, Q. cbn [inits] in *. split; [easy|]. split; [|exact Q]. cbn in *. now right.
  - cbn [c_trace s' goes prepares]. apply (i_before _ _ I).
Qed.
Lemma step_inv todo0 s t : Inv todo0 s -> Inv todo0 (cstep run s t).
Proof.
  intros I. unfold cstep. destruct (c_stack s t) as [|[c p] rest] eqn:E.
  - destruct (c_todo s t) as [|c todo] eqn:T; [easy|]. now apply step_todo.
  - destruct p as [| | |[|[| |c'] ws] ok| |[|]|].
    + now apply step_start.
    + destruct (lock_acquire t (c_lock s)) as [l|] eqn:A; [|easy]. now apply step_acquire.
    + destruct (c_prepared s c) eqn:P; [now apply step_recheck_done|now apply step_begin].
    + destruct ok; [now apply step_end_ok|now apply step_end_bad].
    + now apply step_works.
    + exfalso. pose proof (i_shape _ _ I t) as Sh. rewrite E in Sh. destruct Sh as [W _]. now inversion W.
    + now apply step_constructs.
    + now apply step_mark.
    + now apply step_release.
    + now apply step_raise.
    + now apply step_make.
Qed.
Lemma run_inv todo0 sched : Inv todo0 (crun run (c_start todo0) sched).
Proof.
  unfold crun. rewrite <- fold_left_rev_right. induction (rev sched) as [|t l IH]; [apply start_inv|].
  cbn [fold_right]. now apply step_inv.
Qed.
End Threads.
