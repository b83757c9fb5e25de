(* Outcomes of find, its modes, the cache, canonical paths. *)
From Verif Require Import PyBase PyBaseFacts PyList ProofPyList ModelUtil ModelSeq ModelProps ModelDsl SpecScalar ProofScalar ModelPaths SpecPaths ProofPaths ProofPaths2 ProofPaths3 ProofPaths4 ProofPaths5.

Lemma slice_positions_err n s x : slice_positions n s = Err x <-> sl_step s = Some 0%Z /\ x = ValueErr.
Proof.
  unfold slice_positions, slice_indices. destruct (sl_step s) as [k|]; cbn [Z.eqb].
  - destruct (Z.eqb_spec k 0) as [->|H]; cbn [rmap]; split; try easy.
    + intros [= <-]. easy.
    + now intros [_ ->].
    + intros [[= ->] _]. easy.
  - cbn. split; [easy|]. now intros [[=] _].
Qed.
Lemma chosen_exists {A} (l : list A) s ps : slice_positions (List.length l) s = Ok ps -> chosen l ps (pick l ps).
Proof.
  intros H. apply pick_forall2. intros p Hp. pose proof (positions_lemma (List.length l) s) as K. rewrite H in K. now apply K.
Qed.
Lemma chosen_unique {A} (l : list A) ps r : chosen l ps r -> r = pick l ps.
Proof. intros H. symmetry. now apply chosen_pick. Qed.

Section O.
Context (t : tree) (P : proper t).
Definition ends (strict : bool) (r : list op) (e : elem) : Prop := r = [] \/ exists x, stuck t strict r e x.
(* what running one context says about what it reaches *)
Lemma run_reaches strict ops e : match run_ops t strict ops e with
  | Ok (Found u) => forall r' e', ends strict r' e' -> (reaches t ops e r' e' <-> r' = [] /\ e' = u)
  | Ok Nothing => forall r' e', ends strict r' e' -> ~ reaches t ops e r' e'
  | Ok (More cs) => exists post es, after_slice ops = Some post /\ cs = map (fun c => (post, c)) es /\
      forall r' e', ends strict r' e' -> (reaches t ops e r' e' <-> exists u, In u es /\ reaches t post u r' e')
  | Err x => exists r' e', reaches t ops e r' e' /\ stuck t strict r' e' x
  end.
Proof.
  revert e. induction ops as [|o ops IH]; intros e.
  - cbn [run_ops]. intros r' e' _. split.
    + intros H. inversion H; subst. easy.
    + intros [-> ->]. constructor.
  - (* an operation that moves to u *)
    assert (forall o u, (forall r' e', ends strict r' e' -> (reaches t (o :: ops) e r' e' <-> reaches t ops u r' e')) ->
      (forall r' e', reaches t ops u r' e' -> reaches t (o :: ops) e r' e') ->
      after_slice (o :: ops) = after_slice ops ->
      run_ops t strict (o :: ops) e = run_ops t strict ops u ->
      match run_ops t strict (o :: ops) e with
      | Ok (Found u) => forall r' e', ends strict r' e' -> (reaches t (o :: ops) e r' e' <-> r' = [] /\ e' = u)
      | Ok Nothing => forall r' e', ends strict r' e' -> ~ reaches t (o :: ops) e r' e'
      | Ok (More cs) => exists post es, after_slice (o :: ops) = Some post /\ cs = map (fun c => (post, c)) es /\
          forall r' e', ends strict r' e' -> (reaches t (o :: ops) e r' e' <-> exists u, In u es /\ reaches t post u r' e')
      | Err x => exists r' e', reaches t (o :: ops) e r' e' /\ stuck t strict r' e' x
      end) as M.
    { clear o. intros o u H1 H1' H2 H3. rewrite H3, H2. specialize (IH u).
      destruct (run_ops t strict ops u) as [[v| |cs]|x].
      - intros r' e' E. rewrite H1 by easy. auto.
      - intros r' e' E. rewrite H1 by easy. auto.
      - destruct IH as (post & es & A & C & K). exists post, es. split; [easy|]. split; [easy|].
        intros r' e' E. rewrite H1 by easy. auto.
      - destruct IH as (r' & e' & R & S). eauto. }
    destruct o as [| | |s|x].
    + apply (M TOP (root t e)); [| |easy|easy]; [|now constructor]. intros r' e' E. split; [|now constructor].
      intros H. inversion H; subst; [|easy]. destruct E as [E|[x E]]; inversion E.
    + apply (M UP (up_of t e)); [| |easy|easy].
      * intros r' e' E. split.
        -- intros H. inversion H; subst; [destruct E as [E|[x E]]; inversion E|].
           match goal with H : _ \/ _ |- _ => apply up_of_unique in H; subst end. easy.
        -- intros H. apply reaches_up with (up_of t e); [apply up_of_spec|easy].
      * intros r' e' H. apply reaches_up with (up_of t e); [apply up_of_spec|easy].
    + apply (M HERE e); [| |easy|easy]; [|now constructor]. intros r' e' E. split; [|now constructor].
      intros H. inversion H; subst; [|easy]. destruct E as [E|[x E]]; inversion E.
    + cbn [run_ops]. unfold get_slice. rewrite children_kids.
      destruct (slice_positions (List.length (kids t e)) s) as [ps|x] eqn:S; cbn [rmap].
      * exists ops, (pick (kids t e) ps). split; [easy|]. split; [easy|]. intros r' e' E. split.
        -- intros H. inversion H as [| | | | |s0 r0 e0 ps0 cs u r1 e1 H1 H2 H3 H4]; subst.
           ++ exfalso. destruct E as [E|[x E]]; inversion E; subst.
              assert (slice_positions (List.length (kids t e')) s = Err ValueErr) by now apply slice_positions_err. congruence.
           ++ exists u. split; [|easy]. assert (ps0 = ps) by congruence. subst. apply chosen_unique in H2. now subst.
        -- intros (u & H1 & H2). eapply reaches_slice; [exact S|eapply chosen_exists; exact S|exact H1|easy].
      * apply slice_positions_err in S as [S ->]. exists (SLICE s :: ops), e. split; constructor. easy.
    + destruct (index t e x) as [u|err] eqn:I.
      * apply (M (NAME x) u); [| |easy|now rewrite run_name, I].
        -- intros r' e' E. split.
           ++ intros H. inversion H as [| | | |x0 r0 e0 u0 r1 e1 T R|]; subst.
              ** exfalso. apply index_ok in I. destruct E as [E|[y E]]; inversion E; subst; eapply takes_refuses; eauto.
              ** apply index_takes_lemma in T; [|easy]. congruence.
           ++ intros H. econstructor; [|exact H]. now apply index_ok.
        -- intros r' e' H. econstructor; [|exact H]. now apply index_ok.
      * rewrite run_name, I. apply index_err in I. pose proof (refuses_missing _ _ _ _ I) as Q.
        destruct (missing err).
        -- destruct strict.
           ++ exists (NAME x :: ops), e. split; [constructor|]. eapply stuck_missing; eauto. now intros ->.
           ++ intros r' e' E H. inversion H as [| | | |x0 r0 e0 u0 r1 e1 T R|]; subst.
              ** destruct E as [E|[y E]]; inversion E; subst; [easy|]. assert (err = NotImplErr) by (eapply refuses_det; eauto).
                 now subst.
              ** eapply takes_refuses; eauto.
        -- assert (err = NotImplErr) as -> by (destruct err; easy). exists (NAME x :: ops), e. split; constructor. easy.
Qed.
Definition level_ok (strict : bool) (r : res (list elem)) (found : list elem) (R : list op -> elem -> Prop) : Prop :=
  match r with
  | Ok l => exists l', l = found ++ l' /\ (forall e', In e' l' <-> R [] e') /\ forall r' e' x, R r' e' -> ~ stuck t strict r' e' x
  | Err x => exists r' e', R r' e' /\ stuck t strict r' e' x
  end.
Lemma level_ok_ext strict r found R R' : (forall r' e', ends strict r' e' -> (R r' e' <-> R' r' e')) ->
  level_ok strict r found R -> level_ok strict r found R'.
Proof.
  intros H. destruct r as [l|x]; cbn.
  - intros (l' & -> & H1 & H2). exists l'. split; [easy|]. split.
    + intros e'. rewrite H1. apply H. now left.
    + intros r' e' x K S. apply (H2 r' e' x); [|easy]. apply H; [|easy]. right. eauto.
  - intros (r' & e' & H1 & H2). exists r', e'. split; [|easy]. apply H; [|easy]. right. eauto.
Qed.
Lemma level_ok_found strict r found u R : level_ok strict r (found ++ [u]) R ->
  level_ok strict r found (fun r' e' => (r' = [] /\ e' = u) \/ R r' e').
Proof.
  destruct r as [l|x]; cbn.
  - intros (l' & -> & H1 & H2). exists (u :: l'). split; [now rewrite <- app_assoc|]. split.
    + intros e'. cbn. rewrite H1. intuition congruence.
    + intros r' e' x [[-> ->]|K] S; [inversion S|]. now apply (H2 r' e' x).
  - intros (r' & e' & H1 & H2). exists r', e'. auto.
Qed.
Lemma level n strict : forall ops, (List.length ops <= n)%nat -> forall es found, exists f r,
  (forall fuel, (f <= fuel)%nat -> run_contexts fuel t strict (map (fun e => (ops, e)) es) found = r) /\
  level_ok strict r found (fun r' e' => exists u, In u es /\ reaches t ops u r' e').
Proof.
  induction n as [|n IHn]; intros ops Hn.
  all: assert (forall es acc post found, (acc = [] \/ after_slice ops = Some post) ->
    exists f r,
    (forall fuel, (f <= fuel)%nat -> run_contexts fuel t strict (map (fun e => (ops, e)) es ++ map (fun e => (post, e)) acc) found = r) /\
    level_ok strict r found (fun r' e' => (exists u, In u es /\ reaches t ops u r' e') \/ (exists u, In u acc /\ reaches t post u r' e'))) as G.
  1, 3: intros es; induction es as [|e es IH]; intros acc post found A.
  1, 3: cbn [map app].
  1: { destruct A as [-> |A]; [|apply after_shorter in A; lia]. exists 0%nat, (Ok found). split; [intros [|fuel] _; reflexivity|].
       exists []. rewrite app_nil_r. cbn. split; [easy|]. split; [|intros r' e' x [(u & [] & _)|(u & [] & _)]].
       intros e'. split; [easy|]. intros [(u & [] & _)|(u & [] & _)]. }
  1: { destruct A as [-> |A].
       - exists 0%nat, (Ok found). split; [intros [|fuel] _; reflexivity|].
         exists []. rewrite app_nil_r. cbn. split; [easy|]. split; [|intros r' e' x [(u & [] & _)|(u & [] & _)]].
         intros e'. split; [easy|]. intros [(u & [] & _)|(u & [] & _)].
       - destruct (IHn post) with (es := acc) (found := found) as (f & r & H1 & H2); [apply after_shorter in A; lia|].
         exists f, r. split; [easy|]. eapply level_ok_ext; [|exact H2]. intros r' e' _. cbn. split; [intros K; now right|intros [(u & [] & _)|K]; easy]. }
  1, 2: pose proof (run_reaches strict ops e) as R; destruct (run_ops t strict ops e) as [[u| |cs]|x] eqn:E.
  1, 5: destruct (IH acc post (found ++ [u]) A) as (f & r & H1 & H2); exists (S f), r; split;
    [intros [|fuel] F; [lia|]; cbn [map app run_contexts]; rewrite E; cbn [bind]; apply H1; lia|];
    apply level_ok_found in H2; eapply level_ok_ext; [|exact H2]; intros r' e' N; specialize (R r' e' N); cbn; split;
    [intros [K|[(v & K1 & K2)|K]]; [left; exists e; tauto|left; exists v; auto|right; easy]
    |intros [(v & [<-|K1] & K2)|K]; [left; tauto|right; left; exists v; auto|right; right; easy]].
  1, 4: destruct (IH acc post found A) as (f & r & H1 & H2); exists (S f), r; split;
    [intros [|fuel] F; [lia|]; cbn [map app run_contexts]; rewrite E; cbn [bind]; apply H1; lia|];
    eapply level_ok_ext; [|exact H2]; intros r' e' N; specialize (R r' e' N); cbn; split;
    [intros [(v & K1 & K2)|K]; [left; exists v; auto|right; easy]
    |intros [(v & [<-|K1] & K2)|K]; [easy|left; exists v; auto|right; easy]].
  1, 3: destruct R as (post' & es' & A' & -> & R);
    assert (exists f r, (forall fuel, (f <= fuel)%nat -> run_contexts fuel t strict (map (fun e => (ops, e)) es ++ map (fun e => (post', e)) (acc ++ es')) found = r) /\
      level_ok strict r found (fun r' e' => (exists u, In u es /\ reaches t ops u r' e') \/ (exists u, In u (acc ++ es') /\ reaches t post' u r' e'))) as (f & r & H1 & H2)
      by (apply IH; auto);
    assert (map (fun e : elem => (post, e)) acc = map (fun e => (post', e)) acc /\ forall r' e', (exists u, In u acc /\ reaches t post u r' e') <-> (exists u, In u acc /\ reaches t post' u r' e')) as [M1 M2]
      by (destruct A as [-> |A]; [split; [easy|]; intros; split; intros (? & [] & _)|assert (post' = post) by congruence; subst; easy]);
    exists (S f), r; split;
    [intros [|fuel] F; [lia|]; cbn [map app run_contexts]; rewrite E; cbn [bind]; rewrite <- app_assoc, M1, <- map_app; apply H1; lia|];
    eapply level_ok_ext; [|exact H2]; intros r' e' N; specialize (R r' e' N); cbn; rewrite M2; split;
    [intros [(v & K1 & K2)|(v & K1 & K2)]; [left; exists v; auto|apply in_app_iff in K1 as [K1|K1]; [right; exists v; auto|left; exists e; split; [now left|apply R; exists v; auto]]]
    |intros [(v & [<-|K1] & K2)|(v & K1 & K2)]; [right; apply R in K2 as (v & K2 & K3); exists v; rewrite in_app_iff; auto|left; exists v; auto|right; exists v; rewrite in_app_iff; auto]].
  1, 2: exists 1%nat, (Err x); split;
    [intros [|fuel] F; [lia|]; cbn [map app run_contexts]; rewrite E; reflexivity|];
    destruct R as (r' & e' & K1 & K2); exists r', e'; split; [left; exists e; split; [now left|easy]|easy].
  all: intros es found; destruct (G es [] [] found (or_introl eq_refl)) as (f & r & H1 & H2); cbn [map] in H1; exists f, r; split;
    [intros fuel F; rewrite <- (H1 fuel F); now rewrite app_nil_r|];
    eapply level_ok_ext; [|exact H2]; intros r' e' _; cbn; split; [intros [K|(u & [] & _)]; easy|auto].
Qed.
Lemma outcome_lemma strict ops e : exists f r,
  (forall fuel, (f <= fuel)%nat -> evaluate fuel t strict ops e = r) /\
  match r with
  | Ok l => (forall e', In e' l <-> reaches t ops e [] e') /\ forall r' e' x, reaches t ops e r' e' -> ~ stuck t strict r' e' x
  | Err x => exists r' e', reaches t ops e r' e' /\ stuck t strict r' e' x
  end.
Proof.
  destruct (level (List.length ops) strict ops (le_n _) [e] []) as (f & r & H1 & H2). exists f, r. split; [exact H1|].
  destruct r as [l|x]; cbn in H2.
  - destruct H2 as (l' & -> & K1 & K2). cbn. split.
    + intros e'. rewrite K1. split; [intros (u & [<-|[]] & H); easy|eauto].
    + intros r' e' x K. apply K2. eauto.
  - destruct H2 as (r' & e' & (u & [<-|[]] & H) & S). eauto.
Qed.
End O.

(* ---------------- modes ---------------- *)
Lemma run_ops_strict t ops e : run_ops t true ops e = Err LookupErr \/ run_ops t true ops e = run_ops t false ops e.
Proof.
  revert e. induction ops as [|o ops IH]; intros e; [now right|]. destruct o as [| | |s|x]; cbn [run_ops]; auto.
  destruct (index t e x); auto. destruct (is_lookup e0 || _); auto.
Qed.
Lemma run_contexts_strict t fuel : forall cs found,
  run_contexts fuel t true cs found = Err LookupErr \/ run_contexts fuel t true cs found = run_contexts fuel t false cs found.
Proof.
  induction fuel as [|fuel IH]; intros [|[ops e] cs] found; auto. cbn [run_contexts].
  destruct (run_ops_strict t ops e) as [-> | ->]; [now left|]. destruct (run_ops t false ops e) as [[u| |l]|]; cbn [bind]; auto.
Qed.
Lemma strict_lemma fuel c t e path single :
  snd (find fuel c t e path single true) = Err LookupErr
  \/ snd (find fuel c t e path single true) = snd (find fuel c t e path single false).
Proof.
  unfold find. destruct (pathexpr c path) as [c' r]. cbn [snd]. destruct r as [[ops|]|x]; cbn [bind]; auto.
  unfold evaluate. destruct (run_contexts_strict t fuel [(ops, e)] []) as [-> | ->]; [now left|].
  destruct (run_contexts fuel t false [(ops, e)] []) as [l|]; cbn [bind]; auto.
  unfold pick_single. destruct single; cbn [negb]; auto. destruct l as [|u [|v l]]; cbn; auto.
Qed.
Lemma single_lemma fuel c t e path strict r : snd (find fuel c t e path false strict) = r ->
  snd (find fuel c t e path true strict) =
  match r with
  | Ok (Many []) => Ok (One None)
  | Ok (Many [u]) => Ok (One (Some u))
  | Ok (Many (u :: _)) => if strict then Err LookupErr else Ok (One (Some u))
  | Ok (One _) => r
  | Err x => Err x
  end.
Proof.
  intros <-. unfold find. destruct (pathexpr c path) as [c' r]. cbn [snd]. destruct r as [[ops|]|x]; cbn [bind]; auto.
  destruct (evaluate fuel t strict ops e) as [l|]; cbn [bind]; auto. unfold pick_single. cbn [negb].
  destruct l as [|u [|v l]]; cbn; auto.
Qed.
Lemma many_lemma fuel c t e path strict a : snd (find fuel c t e path false strict) = Ok a -> exists l, a = Many l.
Proof.
  unfold find. destruct (pathexpr c path) as [c' r]. cbn [snd]. destruct r as [[ops|]|x]; cbn [bind]; try easy.
  destruct (evaluate fuel t strict ops e) as [l|]; cbn [bind]; [|easy]. intros [= <-]. eauto.
Qed.
Lemma find_outcome_lemma t e path strict : proper t -> exists r, finds [] t e path false strict r /\
  match tokenize path with
  | Err x => r = Err x
  | Ok ops => match r with
              | Ok a => exists l, a = Many l /\ (forall e', In e' l <-> reaches t ops e [] e')
                                  /\ forall r' e' x, reaches t ops e r' e' -> ~ stuck t strict r' e' x
              | Err x => exists r' e', reaches t ops e r' e' /\ stuck t strict r' e' x
              end
  end.
Proof.
  intros P. destruct (tokenize path) as [ops|x] eqn:T.
  - destruct (outcome_lemma t P strict ops e) as (f & r & H1 & H2).
    exists (rmap Many r). split.
    + exists f. intros fuel F. rewrite find_empty, T. cbn [bind]. rewrite H1 by easy. destruct r; reflexivity.
    + destruct r as [l|x]; cbn [rmap]; [exists l; easy|easy].
  - exists (Err x). split; [|easy]. exists 0%nat. intros fuel _. rewrite find_empty, T. reflexivity.
Qed.

(* ---------------- the cache ---------------- *)
Definition cache_ok (c : cache) : Prop := forall s ops, aget str_eqb s c = Some ops -> tokenize s = Ok ops.
Lemma pathexpr_ok c s : cache_ok c -> cache_ok (fst (pathexpr c s)).
Proof.
  intros H. unfold pathexpr. destruct (aget str_eqb s c) eqn:A; [easy|]. destruct (tokenize s) as [ops|] eqn:T; [|easy].
  destruct (N.ltb _ _); [|easy]. cbn [fst]. intros s' ops'. destruct (str_eqb_spec s' s) as [->|N].
  - rewrite (aget_aset_eq str_eqb str_eqb_eq). congruence.
  - rewrite (aget_aset_neq str_eqb str_eqb_eq) by easy. apply H.
Qed.
Lemma serve_fst c r : serve c r = fst (pathexpr c (path_of r)).
Proof. destruct r. unfold serve, find. cbn. destruct (pathexpr c path); reflexivity. Qed.
Lemma after_ok l : cache_ok (after l).
Proof.
  unfold after. assert (forall c, cache_ok c -> cache_ok (fold_left serve l c)) as G.
  { induction l as [|r l IH]; intros c H; [easy|]. cbn [fold_left]. apply IH. rewrite serve_fst. now apply pathexpr_ok. }
  apply G. intros s ops. easy.
Qed.
Lemma find_cached fuel c t e path single strict : cache_ok c ->
  aget str_eqb path c <> None \/ (N.of_nat (List.length c) < 1024)%N ->
  snd (find fuel c t e path single strict) = snd (find fuel [] t e path single strict).
Proof.
  intros H L. rewrite find_empty. unfold find, pathexpr. destruct (aget str_eqb path c) as [ops|] eqn:A.
  - apply H in A. rewrite A. reflexivity.
  - destruct (tokenize path) as [ops|]; [|reflexivity]. destruct L as [L|L]; [easy|]. apply N.ltb_lt in L.
    unfold max_cache_size. rewrite L. reflexivity.
Qed.
Lemma find_full fuel c t e path single strict : aget str_eqb path c = None -> (1024 <= N.of_nat (List.length c))%N ->
  snd (find fuel c t e path single strict) = match tokenize path with Ok _ => Err TypeErr | Err x => Err x end.
Proof.
  intros A L. unfold find, pathexpr. rewrite A. destruct (tokenize path) as [ops|]; [|reflexivity].
  assert (N.ltb (N.of_nat (List.length c)) max_cache_size = false) as ->. { apply N.ltb_ge. exact L. } reflexivity.
Qed.
(* what is cached *)
Lemma serve_keys c r : NoDup (keys c) -> NoDup (keys (serve c r)) /\ incl (keys (serve c r)) (path_of r :: keys c).
Proof.
  intros H. rewrite serve_fst. unfold pathexpr. destruct (aget str_eqb (path_of r) c) eqn:A; [split; [easy|now apply incl_tl]|].
  destruct (tokenize (path_of r)) as [ops|]; [|split; [easy|now apply incl_tl]].
  destruct (N.ltb _ _); [|split; [easy|now apply incl_tl]]. cbn [fst]. split; [now apply (NoDup_keys_aset str_eqb str_eqb_eq)|].
  intros s K. clear H A. induction c as [|[k v] c IH]; [exact K|]. cbn in K |- *.
  destruct (str_eqb (path_of r) k); cbn in K; [tauto|]. destruct K as [K|K]; [tauto|]. apply IH in K. cbn in K. tauto.
Qed.
Lemma after_keys l : NoDup (keys (after l)) /\ incl (keys (after l)) (map path_of l).
Proof.
  unfold after.
  assert (forall c, NoDup (keys c) -> NoDup (keys (fold_left serve l c)) /\ incl (keys (fold_left serve l c)) (keys c ++ map path_of l)) as G.
  { induction l as [|r l IH]; intros c H; cbn [fold_left map]; [rewrite app_nil_r; easy|].
    destruct (serve_keys c r H) as [H1 H2]. destruct (IH _ H1) as [H3 H4]. split; [easy|].
    intros s K. apply H4 in K. apply in_app_iff in K as [K|K]; [apply H2 in K|]; rewrite in_app_iff; cbn in *; tauto. }
  destruct (G []) as [G1 G2]; [constructor|]. easy.
Qed.
Lemma cache_lemma l ps fuel t e path single strict :
  incl (map path_of l) ps -> (N.of_nat (List.length ps) < 1024)%N ->
  snd (find fuel (after l) t e path single strict) = snd (find fuel [] t e path single strict).
Proof.
  intros H L. apply find_cached; [apply after_ok|]. right. destruct (after_keys l) as [K1 K2].
  assert (List.length (keys (after l)) <= List.length ps)%nat as Q.
  { apply NoDup_incl_length; [easy|]. eapply incl_tran; eauto. }
  unfold keys in Q. rewrite map_length in Q. lia.
Qed.
Lemma cache_hit_lemma l fuel t e path single strict :
  In path (map fst (after l)) ->
  snd (find fuel (after l) t e path single strict) = snd (find fuel [] t e path single strict).
Proof.
  intros H. apply find_cached; [apply after_ok|]. left. intros A. now apply (aget_None str_eqb str_eqb_eq) in A.
Qed.
