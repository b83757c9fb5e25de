(* Properties of flatland.util: C22 (key slicing), C47 (Luhn),
   C48 (symbols under threads), C54 (Maybe), C55 (re_uescape). *)
From Verif Require Import PyBase PyBaseFacts ModelUtil SpecUtil ProofUtil.

(* C47: luhn10 decides the Luhn condition on the decimal digits. *)
Theorem C47_luhn10_decides : forall ds, digit_list ds ->
  exists b, luhn_returns (decimal_value ds) b /\ (b = true <-> luhn_valid ds).
Proof. exact luhn10_decides. Qed.
Print Assumptions C47_luhn10_decides.
(* every natural number has such digits *)
Theorem C47_digits_exist : forall n, (0 <= n)%Z ->
  exists ds, digit_list ds /\ decimal_value ds = n.
Proof. exact digits_exist. Qed.
Print Assumptions C47_digits_exist.
(* C47: a single wrong digit is always detected. *)
Theorem C47_luhn10_single_digit_error : forall ds i d old,
  digit_list ds -> nth_error ds i = Some old -> (0 <= d < 10)%Z -> d <> old ->
  luhn_returns (decimal_value ds) true ->
  luhn_returns (decimal_value (replaced ds i d)) false.
Proof. exact luhn10_error_detected. Qed.
Print Assumptions C47_luhn10_single_digit_error.
(* C47: swapping adjacent different digits is detected except 09/90. *)
Theorem C47_luhn10_transposition : forall l1 a b l2,
  digit_list (l1 ++ a :: b :: l2) -> a <> b ->
  luhn_returns (decimal_value (l1 ++ a :: b :: l2)) true ->
  luhn_returns (decimal_value (l1 ++ b :: a :: l2))
               ((a =? 0) && (b =? 9) || (a =? 9) && (b =? 0))%Z.
Proof. exact luhn10_swap_detected. Qed.
Print Assumptions C47_luhn10_transposition.
(* Finding: on a negative number the loop never ends. *)
Theorem C47_luhn10_negative_never_returns : forall fuel n, (n < 0)%Z ->
  luhn10 fuel n = Err OutOfFuel.
Proof. exact luhn10_negative. Qed.
Print Assumptions C47_luhn10_negative_never_returns.

(* 4111 1111 1111 1111 and 79927398713 are Luhn valid, 79927398710 is not *)
Example C47_witness :
  digit_list [7;9;9;2;7;3;9;8;7;1;3]%Z
  /\ luhn_returns (decimal_value [7;9;9;2;7;3;9;8;7;1;3]%Z) true
  /\ luhn_returns (decimal_value [7;9;9;2;7;3;9;8;7;1;0]%Z) false
  /\ luhn10 60 4111111111111111 = Ok true
  /\ nth_error [7;9;9;2;7;3;9;8;7;1;3]%Z 10 = Some 3%Z.
Proof.
  assert (digit_list [7;9;9;2;7;3;9;8;7;1;3]%Z) by (repeat constructor; lia).
  assert (digit_list [7;9;9;2;7;3;9;8;7;1;0]%Z) by (repeat constructor; lia).
  repeat split; try easy; try (now apply luhn_returns_iff).
Qed.

(* C22: keyslice_pairs returns exactly the slice described by SpecUtil.sliced
   (the unique one), or TypeError exactly when both include and omit are
   given (non-empty). *)
Theorem C22_keyslice_pairs : forall (K V : Type) (eqb : K -> K -> bool),
  (forall x y, eqb x y = true <-> x = y) ->
  forall (pairs : list (K * V)) include omit rename key,
    match keyslice_pairs eqb pairs include omit rename key with
    | Ok out => ~ (items include <> [] /\ items omit <> [])
                /\ forall out', sliced (items include) (items omit)
                                       (items rename) (keyf key) pairs out'
                                <-> out' = out
    | Err e => e = TypeErr /\ items include <> [] /\ items omit <> []
    end.
Proof. exact @keyslice_pairs_spec. Qed.
Print Assumptions C22_keyslice_pairs.
Example C22_witness :
  keyslice_pairs N.eqb [(1, 10); (2, 20); (3, 30); (2, 21)]%N
                 None (Some [1; 3]%N) (Some [(3, 7); (3, 9)]%N) None
  = Ok [(2, 20); (9, 30); (2, 21)]%N
  /\ keyslice_pairs N.eqb [(1, 10)]%N (Some [1]%N) (Some [1]%N) None None
     = Err TypeErr
  /\ (forall x y, N.eqb x y = true <-> x = y).
Proof. repeat split; try reflexivity; apply N.eqb_eq. Qed.

(* C48: whatever the interleaving, two finished symbol(name) calls return the
   same object iff the names are equal. *)
Theorem C48_symbols_are_singletons :
  forall programs sched t1 t2 th1 th2 n1 n2 o1 o2,
  let s := sym_run (sym_init programs) sched in
  nth_error (ss_threads s) t1 = Some th1 -> In (n1, o1) (st_done th1) ->
  nth_error (ss_threads s) t2 = Some th2 -> In (n2, o2) (st_done th2) ->
  (n1 = n2 <-> o1 = o2).
Proof. exact sym_singletons. Qed.
Print Assumptions C48_symbols_are_singletons.
(* C48: no call is lost, duplicated or reordered *)
Theorem C48_calls_accounted : forall programs sched,
  map calls (ss_threads (sym_run (sym_init programs) sched)) = programs.
Proof. exact sym_run_calls. Qed.
Print Assumptions C48_calls_accounted.
(* C48: the lock never deadlocks: some thread can always move until all calls
   have returned. *)
Theorem C48_no_deadlock : forall programs sched,
  let s := sym_run (sym_init programs) sched in
  (exists t s', sym_step s t = Some s')
  \/ (forall th, In th (ss_threads s) -> st_todo th = [] /\ st_pc th = SIdle).
Proof. exact sym_progress. Qed.
Print Assumptions C48_no_deadlock.
(* two threads race for "a"; the second is blocked while the first creates it *)
Example C48_witness :
  let s := sym_run (sym_init [[lit "a"; lit "b"]; [lit "a"]])
                   [0; 1; 0; 1; 0; 0; 1; 1; 0; 1; 0; 0; 0; 0] in
  map st_done (ss_threads s) = [[(lit "a", 0); (lit "b", 1)]; [(lit "a", 0)]]
  /\ ss_lock s = None.
Proof. vm_compute. split; reflexivity. Qed.

(* C54: Maybe is Kleene's third truth value. *)
Theorem C54_maybe_is_kleene : forall a b,
  (exists c, trool_and (of_tri a) (of_tri b) = Ok (of_tri c)
             /\ tri_num c = Z.min (tri_num a) (tri_num b))
  /\ (exists c, trool_or (of_tri a) (of_tri b) = Ok (of_tri c)
             /\ tri_num c = Z.max (tri_num a) (tri_num b))
  /\ (exists c, trool_not (of_tri a) = Ok (of_tri c)
             /\ tri_num c = 2 - tri_num a)%Z
  /\ trool_truth (of_tri a) = Ok (0 <? tri_num a)%Z.
Proof. exact trool_kleene. Qed.
Print Assumptions C54_maybe_is_kleene.
Theorem C54_other_operands_refused : forall a,
  trool_and TOther a = Err TypeErr /\ trool_and a TOther = Err TypeErr
  /\ trool_or TOther a = Err TypeErr /\ trool_or a TOther = Err TypeErr
  /\ trool_not TOther = Err TypeErr /\ trool_truth TOther = Err TypeErr.
Proof. exact trool_other. Qed.
Print Assumptions C54_other_operands_refused.
Example C54_witness :
  trool_and TMaybe TTrue = Ok TMaybe /\ of_tri TH = TMaybe /\ of_tri T1 = TTrue.
Proof. easy. Qed.

(* C55: the escaped pattern is a pure literal that denotes the text itself. *)
Theorem C55_re_uescape_literal : forall pattern,
  read_literal (re_uescape pattern) = Some pattern.
Proof. exact re_uescape_reads. Qed.
Print Assumptions C55_re_uescape_literal.
Example C55_witness :
  re_uescape (lit "a.b" ++ [0%N]) = lit "a\.b\000"
  /\ read_literal (lit "a.b") = None.
Proof. vm_compute. split; reflexivity. Qed.
