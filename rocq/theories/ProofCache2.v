From Verif Require Import PyBase PyBaseFacts ModelUtil ProofUtil ModelPaths ModelCache SpecCache ProofCache.

Definition reached (programs : list (list str)) (sched : list nat) : look_state := look_run (look_start programs) sched.

(* what a step does to its thread *)
Lemma step_thread s t s' : look_step s t = Some s' -> exists th th', nth_error (ls_threads s) t = Some th
  /\ ls_threads s' = set_nth t th' (ls_threads s) /\ all_calls th' = all_calls th
  /\ (exists more, lt_done th' = lt_done th ++ more)
  /\ (forall p, In p (keys (ls_cache s')) -> In p (keys (ls_cache s)) \/ In p (map fst (lt_done th')))
  /\ (4 * List.length (lt_todo th') + match lt_pc th' with LIdle => 0 | LMissing _ => 3 | LCompiled _ _ => 2 | LRoom _ _ => 1 end
      < 4 * List.length (lt_todo th) + match lt_pc th with LIdle => 0 | LMissing _ => 3 | LCompiled _ _ => 2 | LRoom _ _ => 1 end).
Proof.
  unfold look_step. destruct (nth_error (ls_threads s) t) as [th|] eqn:E; [|easy]. destruct th as [todo pc done].
  cbn [lt_todo lt_pc lt_done]. intros H.
  destruct pc as [|p|p x|p x].
  - destruct todo as [|p rest]; [easy|]. destruct (aget str_eqb p (ls_cache s)); injection H as <-;
      (eexists _, _; split; [reflexivity|split; [reflexivity|]]); unfold all_calls; cbn [lt_todo lt_pc lt_done current ls_cache List.length].
    + rewrite map_app, <- !app_assoc. split; [easy|]. split; [now eexists|]. split; [now left|lia].
    + split; [easy|]. split; [exists []; now rewrite app_nil_r|]. split; [now left|lia].
  - destruct (tokenize p); injection H as <-; (eexists _, _; split; [reflexivity|split; [reflexivity|]]); unfold all_calls;
      cbn [lt_todo lt_pc lt_done current ls_cache].
    + split; [easy|]. split; [exists []; now rewrite app_nil_r|]. split; [now left|lia].
    + rewrite map_app, <- !app_assoc. split; [easy|]. split; [now eexists|]. split; [now left|lia].
  - destruct (_ <? _)%N; injection H as <-; (eexists _, _; split; [reflexivity|split; [reflexivity|]]); unfold all_calls;
      cbn [lt_todo lt_pc lt_done current ls_cache].
    + split; [easy|]. split; [exists []; now rewrite app_nil_r|]. split; [now left|lia].
    + rewrite map_app, <- !app_assoc. split; [easy|]. split; [now eexists|]. split; [now left|lia].
  - destruct (aget str_eqb p (ls_cache s)) eqn:G; injection H as <-; (eexists _, _; split; [reflexivity|split; [reflexivity|]]); unfold all_calls;
      cbn [lt_todo lt_pc lt_done current ls_cache].
    + rewrite map_app, <- !app_assoc. split; [easy|]. split; [now eexists|]. split; [now left|lia].
    + rewrite map_app, <- !app_assoc. split; [easy|]. split; [now eexists|]. split; [|lia].
      intros q Hq. apply (In_keys_aset str_eqb str_eqb_eq) in Hq as [->|Hq]; [|now left].
      right. apply in_or_app. right. now left.
Qed.

Lemma map_set_nth {A B} (f : A -> B) t x y l : nth_error l t = Some x -> f y = f x -> map f (set_nth t y l) = map f l.
Proof.
  intros H E. revert t H. induction l as [|a l IH]; intros [|t] H; cbn in *; try easy.
  - injection H as ->. now rewrite E.
  - now rewrite IH.
Qed.

Lemma run_calls s sched : map all_calls (ls_threads (look_run s sched)) = map all_calls (ls_threads s).
Proof.
  revert s. induction sched as [|t sched IH]; intros s; cbn [look_run]; [easy|]. rewrite IH.
  destruct (look_step s t) as [s'|] eqn:E; [|easy]. apply step_thread in E as (th & th' & E & -> & C & _).
  now apply map_set_nth with th.
Qed.
Lemma accounted programs sched : map all_calls (ls_threads (reached programs sched)) = programs.
Proof.
  unfold reached. rewrite run_calls. cbn. rewrite map_map. cbn. rewrite <- (map_id programs) at 2. apply map_ext. easy.
Qed.

Lemma returned_sound programs sched p r : returned (reached programs sched) p r ->
  match r with
  | Ok (Some x) => tokenize p = Ok (x_ops x)
  | Ok None => (exists ops, tokenize p = Ok ops) /\ (1024 <= N.of_nat (List.length (ls_cache (reached programs sched))))%N
  | Err e => tokenize p = Err e
  end.
Proof.
  intros (t & th & E & H). pose proof (look_inv_run _ sched (look_inv_start programs)) as I. fold (reached programs sched) in I.
  pose proof (li_done _ I _ _ _ E H) as D. unfold done_ok in D. cbn [fst snd] in D.
  destruct r as [[x|]|e]; [|easy|easy]. now apply (li_cache _ I) in D.
Qed.

Lemma find_alone fuel t e p single strict : snd (find fuel [] t e p single strict) =
  match tokenize p with Ok ops => bind (evaluate fuel t strict ops e) (pick_single single strict) | Err x => Err x end.
Proof. unfold find, pathexpr. cbn [aget]. destruct (tokenize p); easy. Qed.

Lemma returned_finds programs sched p r fuel t e single strict : returned (reached programs sched) p r -> r <> Ok None ->
  applied fuel t e single strict r = snd (find fuel [] t e p single strict).
Proof.
  intros H N. apply returned_sound in H. rewrite find_alone. destruct r as [[x|]|x]; [|easy|]; cbn; now rewrite H.
Qed.

Lemma one_object programs sched p1 p2 x1 x2 : returned (reached programs sched) p1 (Ok (Some x1)) ->
  returned (reached programs sched) p2 (Ok (Some x2)) -> (p1 = p2 <-> x_id x1 = x_id x2) /\ (p1 = p2 -> x1 = x2).
Proof.
  intros (t & th & E & H) (u & uh & E' & H'). pose proof (look_inv_run _ sched (look_inv_start programs)) as I. fold (reached programs sched) in I.
  pose proof (li_done _ I _ _ _ E H) as D. pose proof (li_done _ I _ _ _ E' H') as D'. unfold done_ok in D, D'. cbn [fst snd] in D, D'.
  split; [|intros ->; congruence]. split; [intros ->; congruence|]. exact (li_inj _ I _ _ _ _ D D').
Qed.

(* every path in the cache was looked up *)
Lemma run_kept s sched : (forall p, In p (keys (ls_cache s)) -> exists t th, nth_error (ls_threads s) t = Some th /\ In p (map fst (lt_done th))) ->
  forall p, In p (keys (ls_cache (look_run s sched))) ->
  exists t th, nth_error (ls_threads (look_run s sched)) t = Some th /\ In p (map fst (lt_done th)).
Proof.
  revert s. induction sched as [|t sched IH]; intros s H; cbn [look_run]; [easy|]. apply IH.
  destruct (look_step s t) as [s'|] eqn:E; [|easy]. apply step_thread in E as (th & th' & E & T & _ & (more & D) & K & _). rewrite T.
  assert (L : t < List.length (ls_threads s)) by (apply nth_error_Some; congruence).
  intros p Hp. apply K in Hp as [Hp|Hp].
  - apply H in Hp as (u & uh & Hu & Hp). destruct (Nat.eq_dec u t) as [->|Ne].
    + exists t, th'. split; [now apply nth_set_nth_eq|]. rewrite D, map_app. apply in_or_app. left. congruence.
    + exists u, uh. rewrite nth_set_nth_neq by congruence. easy.
  - exists t, th'. split; [now apply nth_set_nth_eq|easy].
Qed.

Lemma cached_called programs sched p : In p (keys (ls_cache (reached programs sched))) -> In p (List.concat programs).
Proof.
  intros H. apply run_kept in H as (t & th & E & H); [|easy]. fold (reached programs sched) in E.
  pose proof (accounted programs sched) as A. apply in_concat. exists (all_calls th). split.
  - rewrite <- A. apply in_map. now apply nth_error_In in E.
  - unfold all_calls. apply in_or_app. now left.
Qed.

Lemma few_paths programs sched ps p : incl (List.concat programs) ps -> (N.of_nat (List.length ps) < 1024)%N ->
  ~ returned (reached programs sched) p (Ok None).
Proof.
  intros S L H. apply returned_sound in H as [_ H]. pose proof (look_inv_run _ sched (look_inv_start programs)) as I. fold (reached programs sched) in I.
  assert (B : List.length (keys (ls_cache (reached programs sched))) <= List.length ps).
  { apply NoDup_incl_length; [apply (li_keys _ I)|]. intros q Hq. now apply S, (cached_called _ _ _ Hq). }
  unfold keys in B. rewrite map_length in B. lia.
Qed.

Lemma bounded programs sched : (N.of_nat (List.length (ls_cache (reached programs sched))) < 1024 + N.of_nat (List.length programs))%N.
Proof.
  pose proof (look_inv_run _ sched (look_inv_start programs)) as I. fold (reached programs sched) in I.
  pose proof (li_size _ I) as S. pose proof (accounted programs sched) as A. apply (f_equal (@List.length _)) in A. rewrite map_length in A. lia.
Qed.

(* nobody waits: each call takes at most four steps of its own thread *)
Definition work (th : look_thread) : nat :=
  4 * List.length (lt_todo th) + match lt_pc th with LIdle => 0 | LMissing _ => 3 | LCompiled _ _ => 2 | LRoom _ _ => 1 end.
Lemma step_moves s t th : nth_error (ls_threads s) t = Some th -> 0 < work th -> look_step s t <> None.
Proof.
  intros E W. unfold look_step. rewrite E. destruct th as [todo pc done]. unfold work in W. cbn [lt_todo lt_pc lt_done] in *.
  destruct pc as [|p|p x|p x].
  - destruct todo as [|p rest]; [cbn in W; lia|]. now destruct (aget _ _ _).
  - now destruct (tokenize p).
  - now destruct (_ <? _)%N.
  - now destruct (aget _ _ _).
Qed.
Lemma run_work s sched t th : nth_error (ls_threads s) t = Some th ->
  exists th', nth_error (ls_threads (look_run s sched)) t = Some th' /\ (work th' = 0 \/ work th' + count_occ Nat.eq_dec sched t <= work th).
Proof.
  revert s th. induction sched as [|u sched IH]; intros s th E; cbn [look_run count_occ].
  - exists th. split; [easy|right; lia].
  - destruct (look_step s u) as [s'|] eqn:Es.
    + apply step_thread in Es as (uh & uh' & Eu & T & _ & _ & _ & W). fold (work uh') (work uh) in W. destruct (Nat.eq_dec u t) as [->|Ne].
      * assert (E' : nth_error (ls_threads s') t = Some uh') by (rewrite T; apply nth_set_nth_eq, nth_error_Some; congruence).
        destruct (IH _ _ E') as (th' & H1 & H2). exists th'. split; [easy|]. assert (uh = th) as -> by congruence. lia.
      * apply IH. rewrite T, nth_set_nth_neq by congruence. easy.
    + destruct (Nat.eq_dec u t) as [->|Ne]; [|now apply IH].
      destruct (work th) as [|w] eqn:W.
      * destruct (IH _ _ E) as (th' & H1 & H2). exists th'. split; [easy|]. left. lia.
      * exfalso. apply (step_moves s t th E); [lia|easy].
Qed.
Lemma finishes programs sched t prog : nth_error programs t = Some prog -> 4 * List.length prog <= count_occ Nat.eq_dec sched t ->
  exists th, nth_error (ls_threads (reached programs sched)) t = Some th /\ map fst (lt_done th) = prog.
Proof.
  intros E C. assert (S : nth_error (ls_threads (look_start programs)) t = Some (LookThread prog LIdle [])).
  { cbn. now rewrite nth_error_map, E. }
  destruct (run_work _ sched _ _ S) as (th & H1 & H2). exists th. fold (reached programs sched) in H1. split; [easy|].
  assert (W : work th = 0). { unfold work at 3 in H2. cbn [lt_todo lt_pc] in H2. lia. }
  pose proof (accounted programs sched) as A. apply (f_equal (fun l => nth_error l t)) in A.
  rewrite nth_error_map, H1, E in A. cbn in A. injection A as <-. unfold all_calls. unfold work in W.
  destruct (lt_pc th); try lia. destruct (lt_todo th); cbn in W; [|lia]. cbn. now rewrite app_nil_r.
Qed.

Lemma look_run_app s a b : look_run s (a ++ b) = look_run (look_run s a) b.
Proof. revert s. induction a as [|t a IH]; intros s; cbn; [easy|apply IH]. Qed.
Lemma kept_path programs sched p x t th rest : returned (reached programs sched) p (Ok (Some x)) ->
  nth_error (ls_threads (reached programs sched)) t = Some th -> lt_pc th = LIdle -> lt_todo th = p :: rest ->
  nth_error (ls_threads (reached programs (sched ++ [t]))) t = Some (LookThread rest LIdle (lt_done th ++ [(p, Ok (Some x))]))
  /\ ls_cache (reached programs (sched ++ [t])) = ls_cache (reached programs sched).
Proof.
  intros (u & uh & E & H) Et P T. pose proof (look_inv_run _ sched (look_inv_start programs)) as I. fold (reached programs sched) in I.
  pose proof (li_done _ I _ _ _ E H) as D. unfold done_ok in D. cbn [fst snd] in D.
  unfold reached at 1 2. rewrite look_run_app. fold (reached programs sched). cbn [look_run]. unfold look_step. rewrite Et, P, T, D.
  split; [|easy]. apply nth_set_nth_eq, nth_error_Some. congruence.
Qed.
