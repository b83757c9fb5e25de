(* What threads may see of the cache of compiled paths (independent of how
   the threads take their steps). *)
From Verif Require Import PyBase ModelPaths ModelCache.

(* a call of pathexpr has returned in some thread *)
Definition returned (s : look_state) (path : str) (r : res (option expression)) : Prop :=
  exists t th, nth_error (ls_threads s) t = Some th /\ In (path, r) (lt_done th).
(* the call a thread is in *)
Definition current (pc : look_pc) : list str :=
  match pc with LIdle => [] | LMissing p | LCompiled p _ | LRoom p _ => [p] end.
(* all the calls of a thread: made, being made, to be made *)
Definition all_calls (th : look_thread) : list str := map fst (lt_done th) ++ current (lt_pc th) ++ lt_todo th.
(* find() with what pathexpr returned (schema/base.py:526-536) *)
Definition applied (fuel : nat) (t : tree) (e : elem) (single strict : bool) (r : res (option expression)) : res answer :=
  bind r (fun o => match o with
                   | Some x => bind (evaluate fuel t strict (x_ops x) e) (pick_single single strict)
                   | None => Err TypeErr
                   end).
(* two threads looking up the same and different paths *)
Definition race : list (list str) := [[lit "a/b"; lit "c"]; [lit "a/b"; lit "l[-]"]].
