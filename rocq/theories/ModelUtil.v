(* Model of flatland/util/base.py: luhn10, keyslice_pairs, re_uescape,
   Maybe, symbol. *)
From Verif Require Import PyBase.

(* flatland/util/base.py:224-230 -- the while loop of luhn10.  [fuel]
   bounds the number of iterations; running out is the distinguished
   OutOfFuel outcome (the Python loop would still be running). *)
Fixpoint luhn_loop (fuel : nat) (number sum : Z) : res Z :=
  if (number =? 0)%Z then Ok sum else
  match fuel with
  | O => Err OutOfFuel
  | S f =>
      let r := (number mod 100)%Z in
      let number := (number / 100)%Z in
      let z := (r mod 10)%Z in
      let r := (r / 10 * 2)%Z in
      luhn_loop f number (sum + (r / 10 + r mod 10 + z))%Z
  end.

(* flatland/util/base.py:221-232 luhn10(number), [fuel] as above *)
Definition luhn10 (fuel : nat) (number : Z) : res bool :=
  rmap (fun sum => (sum mod 10 =? 0)%Z) (luhn_loop fuel number 0).

(* the loop of util/base.py:225: enough iterations for every non-negative
   number *)
Definition luhn_fuel (number : Z) : nat := N.size_nat (Z.to_N number).

(* flatland/util/base.py:252-299 keyslice_pairs.  Keys are any type with a
   decidable equality (Python hash/eq).  `include`, `omit`, `rename` given as
   None or an empty collection are equivalent (truth tests at 278-283);
   `rename` goes through dict(), so the last pair for a key wins.
   Simplification: the generator is run to completion, so the TypeError that
   Python raises at the first next() is the outcome of the call. *)
Section Keyslice.
  Context {K V : Type} (eqb : K -> K -> bool).

  (* util/base.py:278, 281-283 the truth of a collection that may be None *)
  Definition truthy {A} (l : option (list A)) : bool :=
    match l with Some (_ :: _) => true | _ => false end.
  (* util/base.py:281-283 *)
  Definition items {A} (l : option (list A)) : list A :=
    match l with Some l => l | None => [] end.

  (* util/base.py:283: dict(pairs) *)
  Definition py_dict {B} (pairs : list (K * B)) : list (K * B) :=
    fold_left (fun m kv => aset eqb (fst kv) (snd kv) m) pairs [].

  (* util/base.py:287-299 *)
  Fixpoint keyslice_loop (include omit : list K) (rename : list (K * K))
           (keyfunc : option (K -> K)) (pairs : list (K * V))
    : list (K * V) :=
    match pairs with
    | [] => []
    | (key, value) :: rest =>
        let key := match keyfunc with Some f => f key | None => key end in
        let rest := keyslice_loop include omit rename keyfunc rest in
        match aget eqb key rename with
        | Some new => (new, value) :: rest
        | None =>
            match include with
            | _ :: _ => if memb eqb key include
                        then (key, value) :: rest else rest
            | [] =>
                match omit with
                | _ :: _ => if memb eqb key omit then rest
                            else (key, value) :: rest
                | [] => (key, value) :: rest
                end
            end
        end
    end.

  (* util/base.py:252-299 *)
  Definition keyslice_pairs (pairs : list (K * V))
             (include omit : option (list K)) (rename : option (list (K * K)))
             (key : option (K -> K)) : res (list (K * V)) :=
    if truthy include && truthy omit then Err TypeErr
    else Ok (keyslice_loop (items include) (items omit)
                           (py_dict (items rename)) key pairs).
End Keyslice.

(* flatland/util/base.py:204-206 the set _alphanum *)
Definition re_alphanum (c : N) : bool :=
  ((48 <=? c) && (c <=? 57) || (97 <=? c) && (c <=? 122)
   || (65 <=? c) && (c <=? 90))%N.

(* flatland/util/base.py:209-218 re_uescape; 92 is the backslash *)
Definition re_uescape (pattern : str) : str :=
  flat_map (fun c => if re_alphanum c then [c]
                     else if (c =? 0)%N then lit "\000"
                     else [92%N; c]) pattern.

(* flatland/util/base.py:302-355 the ternary value Maybe.  [TOther] stands
   for any operand that is none of True, False, Maybe and has no & or | of
   its own. *)
Inductive trool := TTrue | TFalse | TMaybe | TOther.

(* util/base.py:305-311: `Maybe & other` / `other & Maybe`;
   NotImplemented on both sides is TypeError; two plain bools use
   bool.__and__. *)
Definition trool_and (a b : trool) : res trool :=
  match a, b with
  | TOther, _ | _, TOther => Err TypeErr
  | TMaybe, TTrue | TTrue, TMaybe | TMaybe, TMaybe => Ok TMaybe
  | TMaybe, TFalse | TFalse, TMaybe => Ok TFalse
  | TTrue, TTrue => Ok TTrue
  | _, _ => Ok TFalse
  end.
(* util/base.py:313-319: `Maybe | other` *)
Definition trool_or (a b : trool) : res trool :=
  match a, b with
  | TOther, _ | _, TOther => Err TypeErr
  | TMaybe, TFalse | TFalse, TMaybe | TMaybe, TMaybe => Ok TMaybe
  | TMaybe, TTrue | TTrue, TMaybe => Ok TTrue
  | TFalse, TFalse => Ok TFalse
  | _, _ => Ok TTrue
  end.
(* util/base.py:321-334: Maybe.not_(other) *)
Definition trool_not (a : trool) : res trool :=
  match a with
  | TMaybe => Ok TMaybe
  | TTrue => Ok TFalse
  | TFalse => Ok TTrue
  | TOther => Err TypeErr
  end.
(* util/base.py:336-344: Maybe.truth(other) *)
Definition trool_truth (a : trool) : res bool :=
  match a with
  | TMaybe => Ok true
  | TTrue => Ok true
  | TFalse => Ok false
  | TOther => Err TypeErr
  end.

(* ------------------------------------------------------------------ *)
(* util/base.py:407-432 symbol.__new__ under
   threads. Threads share the table `symbols` and the lock; each atomic step
   is one bytecode-level action visible to others: acquire (425), the table
   lookup (427), creating and storing a new symbol (429), release (432).
   Objects are numbered by creation. Each thread performs a list of calls;
   finished calls are recorded with their result. Simplification: the
   assertion that the name is a str (395) holds. *)
Inductive sym_pc :=
| SIdle                         (* between calls *)
| SAcquired (n : str)           (* lock held, before .get *)
| SMissing (n : str)            (* .get returned None *)
| SFound (n : str) (o : nat).   (* sym bound, before release *)

(* a thread of calls of util/base.py:424 *)
Record sym_thread := SymThread {
  st_todo : list str;           (* names of the calls still to make *)
  st_pc : sym_pc;
  st_done : list (str * nat) }. (* finished calls with returned object *)

(* util/base.py:421-422 *)
Record sym_state := SymState {
  ss_lock : option nat;         (* index of the thread holding the lock *)
  ss_table : list (str * nat);
  ss_next : nat;                (* next fresh object *)
  ss_threads : list sym_thread }.

(* the thread that moves, util/base.py:424-432 *)
Fixpoint set_nth {A} (n : nat) (x : A) (l : list A) : list A :=
  match l, n with
  | [], _ => []
  | _ :: l', O => x :: l'
  | y :: l', S n' => y :: set_nth n' x l'
  end.

(* util/base.py:424-432: one step of thread [t]; None when that thread cannot
   move *)
Definition sym_step (s : sym_state) (t : nat) : option sym_state :=
  match nth_error (ss_threads s) t with
  | None => None
  | Some th =>
      let put th' s' := SymState (ss_lock s') (ss_table s') (ss_next s')
                                 (set_nth t th' (ss_threads s')) in
      match st_pc th with
      | SIdle =>
          match st_todo th, ss_lock s with
          | n :: rest, None =>
              Some (put (SymThread rest (SAcquired n) (st_done th))
                        (SymState (Some t) (ss_table s) (ss_next s)
                                  (ss_threads s)))
          | _, _ => None
          end
      | SAcquired n =>
          match aget str_eqb n (ss_table s) with
          | None => Some (put (SymThread (st_todo th) (SMissing n)
                                         (st_done th)) s)
          | Some o => Some (put (SymThread (st_todo th) (SFound n o)
                                           (st_done th)) s)
          end
      | SMissing n =>
          Some (put (SymThread (st_todo th) (SFound n (ss_next s))
                               (st_done th))
                    (SymState (ss_lock s)
                              (aset str_eqb n (ss_next s) (ss_table s))
                              (S (ss_next s)) (ss_threads s)))
      | SFound n o =>
          Some (put (SymThread (st_todo th) SIdle (st_done th ++ [(n, o)]))
                    (SymState None (ss_table s) (ss_next s) (ss_threads s)))
      end
  end.

(* util/base.py:421-422 *)
Definition sym_init (programs : list (list str)) : sym_state :=
  SymState None [] 0 (map (fun p => SymThread p SIdle []) programs).

(* util/base.py:424-432: run a schedule (thread indices); steps that cannot be
   taken are no-ops (the thread stays blocked) *)
Fixpoint sym_run (s : sym_state) (sched : list nat) : sym_state :=
  match sched with
  | [] => s
  | t :: rest => sym_run (match sym_step s t with Some s' => s' | None => s end)
                         rest
  end.
