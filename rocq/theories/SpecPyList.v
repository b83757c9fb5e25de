(* What the Python reference says about list methods, without the formulas of
   PyList.v. *)
From Verif Require Import PyBase.
From Coq Require Import Sorting.Sorted.

(* l is a, then y at index i, then b *)
Definition at_index {A} (l : list A) (i : Z) (a : list A) (y : A) (b : list A) : Prop :=
  l = a ++ y :: b /\ (i = Z.of_nat (List.length a) \/ i = Z.of_nat (List.length a) - Z.of_nat (List.length l))%Z.
Definition no_index {A} (l : list A) (i : Z) : Prop :=
  (i < - Z.of_nat (List.length l) \/ Z.of_nat (List.length l) <= i)%Z.
(* "indices i, i+k, i+2*k and so on, stopping when j is reached (but never
   including j)", with i and j counted from the end when negative and cut to
   the list *)
Definition slice_end (n : Z) (given : option Z) (default least most : Z) (e : Z) : Prop :=
  match given with
  | None => e = default
  | Some x => let y := (if x <? 0 then x + n else x)%Z in
              (y < least /\ e = least \/ most < y /\ least <= y /\ e = most \/ least <= y <= most /\ e = y)%Z
  end.
Definition step_of (s : slice) : Z := match sl_step s with None => 1%Z | Some k => k end.
Definition selected (n : nat) (s : slice) (x : nat) : Prop :=
  let N := Z.of_nat n in let X := Z.of_nat x in
  exists i j c, (X = i + c * step_of s /\ 0 <= c)%Z /\
    if (0 <? step_of s)%Z
    then slice_end N (sl_start s) 0 0 N i /\ slice_end N (sl_stop s) N 0 N j /\ (i <= X < j)%Z
    else slice_end N (sl_start s) (N - 1) (-1) (N - 1) i /\ slice_end N (sl_stop s) (-1) (-1) (N - 1) j /\ (j < X <= i)%Z.
Definition in_order (s : slice) (ps : list nat) : Prop :=
  if (0 <? step_of s)%Z then StronglySorted lt ps else StronglySorted gt ps.
(* the members of l whose position is not in ps, in order *)
Definition outside {A} (l : list A) (ps : list nat) (l' : list A) : Prop :=
  exists qs, StronglySorted lt qs /\ (forall i, In i qs <-> i < List.length l /\ ~ In i ps)
             /\ Forall2 (fun i x => nth_error l i = Some x) qs l'.
(* sorted by key, equal keys in their old order *)
Definition sorted_by {A} (key : A -> res Z) (reverse : bool) (l l' : list A) : Prop :=
  StronglySorted (fun x y => exists a b, key x = Ok a /\ key y = Ok b /\ if reverse then (b <= a)%Z else (a <= b)%Z) l'
  /\ forall k, filter (fun x => match key x with Ok k' => (k' =? k)%Z | Err _ => false end) l'
             = filter (fun x => match key x with Ok k' => (k' =? k)%Z | Err _ => false end) l.
