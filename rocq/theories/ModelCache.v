(* Model of the cache of compiled paths under threads
   (flatland/schema/paths.py:38-48).  Threads share expression_cache; there is
   no lock.  Each step is one action on the shared dict: the lookup (42), len
   (45) and setdefault (46); compiling (44) touches nothing shared.  Compiled
   expressions are numbered as they are made.  Each thread makes a list of
   calls; finished calls are recorded with their result.  Simplification:
   expr is text (39-40). *)
From Verif Require Import PyBase ModelUtil ModelPaths.

(* schema/paths.py:51-55: a PathExpression object *)
Record expression := Expression { x_id : nat; x_ops : list op }.
(* schema/paths.py:38-48: where a thread is *)
Inductive look_pc :=
| LIdle                                  (* between calls *)
| LMissing (path : str)                  (* 43: KeyError was caught *)
| LCompiled (path : str) (x : expression)(* 45: before len *)
| LRoom (path : str) (x : expression).   (* 46: before setdefault *)
(* a thread of calls of schema/paths.py:38; a result None is the builtin
   compile (48) *)
Record look_thread := LookThread {
  lt_todo : list str;
  lt_pc : look_pc;
  lt_done : list (str * res (option expression)) }.
(* schema/paths.py:8 *)
Record look_state := LookState {
  ls_cache : list (str * expression);
  ls_next : nat;
  ls_threads : list look_thread }.
(* schema/paths.py:38-48: one step of thread t; None when it has no call left *)
Definition look_step (s : look_state) (t : nat) : option look_state :=
  match nth_error (ls_threads s) t with
  | None => None
  | Some th =>
      let put c n todo pc done := Some (LookState c n (set_nth t (LookThread todo pc done) (ls_threads s))) in
      let c := ls_cache s in
      let n := ls_next s in
      let todo := lt_todo th in
      let done := lt_done th in
      match lt_pc th with
      | LIdle =>
          match todo with
          | [] => None
          | p :: rest => match aget str_eqb p c with
                         | Some x => put c n rest LIdle (done ++ [(p, Ok (Some x))])
                         | None => put c n rest (LMissing p) done
                         end
          end
      | LMissing p =>
          match tokenize p with
          | Ok ops => put c (S n) todo (LCompiled p (Expression n ops)) done
          | Err e => put c n todo LIdle (done ++ [(p, Err e)])
          end
      | LCompiled p x =>
          if N.ltb (N.of_nat (List.length c)) max_cache_size then put c n todo (LRoom p x) done
          else put c n todo LIdle (done ++ [(p, Ok None)])
      | LRoom p x =>
          match aget str_eqb p c with
          | Some y => put c n todo LIdle (done ++ [(p, Ok (Some y))])
          | None => put (aset str_eqb p x c) n todo LIdle (done ++ [(p, Ok (Some x))])
          end
      end
  end.
(* schema/paths.py:8: nothing looked up yet *)
Definition look_start (programs : list (list str)) : look_state :=
  LookState [] 0 (map (fun p => LookThread p LIdle []) programs).
(* schema/paths.py:38-48: the threads take turns as the schedule says; a thread
   with nothing left is passed over *)
Fixpoint look_run (s : look_state) (sched : list nat) : look_state :=
  match sched with
  | [] => s
  | t :: rest => look_run (match look_step s t with Some s' => s' | None => s end) rest
  end.
