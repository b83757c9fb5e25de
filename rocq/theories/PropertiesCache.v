(* C99: looking up paths from several threads. *)
From Verif Require Import PyBase ModelPaths ModelCache SpecCache ProofCache2.

Theorem C99_finds : forall programs sched path r fuel t e single strict,
  returned (look_run (look_start programs) sched) path r -> r <> Ok None ->
  applied fuel t e single strict r = snd (find fuel [] t e path single strict).
Proof. exact @returned_finds. Qed.
Print Assumptions C99_finds.
Theorem C99_returns : forall programs sched path r,
  let s := look_run (look_start programs) sched in
  returned s path r ->
  match r with
  | Ok (Some x) => tokenize path = Ok (x_ops x)
  | Ok None => (exists ops, tokenize path = Ok ops) /\ (1024 <= N.of_nat (List.length (ls_cache s)))%N
  | Err e => tokenize path = Err e
  end.
Proof. exact @returned_sound. Qed.
Print Assumptions C99_returns.
Theorem C99_one_object : forall programs sched path1 path2 x1 x2,
  let s := look_run (look_start programs) sched in
  returned s path1 (Ok (Some x1)) -> returned s path2 (Ok (Some x2)) ->
  (path1 = path2 <-> x_id x1 = x_id x2) /\ (path1 = path2 -> x1 = x2).
Proof. exact @one_object. Qed.
Print Assumptions C99_one_object.
(* a path once returned is found at once ever after, also in a full cache *)
Theorem C99_kept : forall programs sched path x t th rest,
  let s := look_run (look_start programs) sched in
  returned s path (Ok (Some x)) ->
  nth_error (ls_threads s) t = Some th -> lt_pc th = LIdle -> lt_todo th = path :: rest ->
  let s' := look_run (look_start programs) (sched ++ [t]) in
  nth_error (ls_threads s') t = Some (LookThread rest LIdle (lt_done th ++ [(path, Ok (Some x))])) /\ ls_cache s' = ls_cache s.
Proof. exact @kept_path. Qed.
Print Assumptions C99_kept.
Theorem C99_few_paths : forall programs sched paths path,
  incl (List.concat programs) paths -> (N.of_nat (List.length paths) < 1024)%N ->
  ~ returned (look_run (look_start programs) sched) path (Ok None).
Proof. exact @few_paths. Qed.
Print Assumptions C99_few_paths.
Theorem C99_bounded : forall programs sched,
  (N.of_nat (List.length (ls_cache (look_run (look_start programs) sched))) < 1024 + N.of_nat (List.length programs))%N.
Proof. exact @bounded. Qed.
Print Assumptions C99_bounded.
Theorem C99_accounted : forall programs sched, map all_calls (ls_threads (look_run (look_start programs) sched)) = programs.
Proof. exact @accounted. Qed.
Print Assumptions C99_accounted.
(* no thread waits for another *)
Theorem C99_finishes : forall programs sched t calls, nth_error programs t = Some calls ->
  4 * List.length calls <= count_occ Nat.eq_dec sched t ->
  exists th, nth_error (ls_threads (look_run (look_start programs) sched)) t = Some th /\ map fst (lt_done th) = calls.
Proof. exact @finishes. Qed.
Print Assumptions C99_finishes.
(* both threads compile a/b; the one that comes second gets the first one's *)
Example C99_case :
  let s := look_run (look_start race) [0; 1; 0; 1; 1; 0; 1; 0; 0; 1; 0; 1; 0; 0] in
  map (fun th => map (fun q => (fst q, rmap (option_map x_id) (snd q))) (lt_done th)) (ls_threads s)
  = [[(lit "a/b", Ok (Some 1)); (lit "c", Ok (Some 2))]; [(lit "a/b", Ok (Some 1)); (lit "l[-]", Err ValueErr)]]
  /\ map fst (ls_cache s) = [lit "a/b"; lit "c"].
Proof. vm_compute. split; reflexivity. Qed.
Example C99_hypotheses : returned (look_run (look_start race) [0; 0; 0; 0]) (lit "a/b") (Ok (Some (Expression 0 [NAME (Some (lit "a")); NAME (Some (lit "b"))]))).
Proof. exists 0. eexists. split; [vm_compute; reflexivity|]. now left. Qed.
(* the limit is not kept: two threads can both find room for the last path *)
Theorem C99_limit_refuted : exists programs sched,
  (1024 < N.of_nat (List.length (ls_cache (look_run (look_start programs) sched))))%N.
Proof.
  exists [map dec_nat (seq 0 (N.to_nat 1023)) ++ [lit "x"]; [lit "y"]], (repeat 0 (N.to_nat 4092) ++ [0; 1; 0; 1; 0; 1; 0; 1]).
  vm_compute. reflexivity.
Qed.
Print Assumptions C99_limit_refuted.
