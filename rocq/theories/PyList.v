(* The built-in Python list operations that flatland's sequences inherit or
   call: CPython 3.3 Objects/listobject.c. *)
From Verif Require Import PyBase.

Definition upd_nth {A} (i : nat) (x : A) (l : list A) : list A :=
  firstn i l ++ match skipn i l with [] => [] | _ :: t => x :: t end.
Definition del_nth {A} (i : nat) (l : list A) : list A :=
  firstn i l ++ skipn (S i) l.

(* l[i] *)
Definition pl_get {A} (l : list A) (i : Z) : res A :=
  match norm_index (List.length l) i with
  | None => Err IndexErr
  | Some k => match nth_error l k with Some x => Ok x | None => Err IndexErr end
  end.
(* l[i] = x *)
Definition pl_set {A} (l : list A) (i : Z) (x : A) : res (list A) :=
  match norm_index (List.length l) i with
  | None => Err IndexErr
  | Some k => Ok (upd_nth k x l)
  end.
(* del l[i] *)
Definition pl_del {A} (l : list A) (i : Z) : res (list A) :=
  match norm_index (List.length l) i with
  | None => Err IndexErr
  | Some k => Ok (del_nth k l)
  end.
(* l.pop(i) *)
Definition pl_pop {A} (l : list A) (i : Z) : res (A * list A) :=
  bind (pl_get l i) (fun x => rmap (fun l' => (x, l')) (pl_del l i)).
(* l.insert(i, x) *)
Definition pl_insert {A} (l : list A) (i : Z) (x : A) : list A :=
  let k := insert_pos (List.length l) i in firstn k l ++ x :: skipn k l.

(* l[s] = xs *)
Fixpoint upd_all {A} (ps : list nat) (xs : list A) (l : list A) : list A :=
  match ps, xs with
  | p :: ps', x :: xs' => upd_all ps' xs' (upd_nth p x l)
  | _, _ => l
  end.
Definition pl_setslice {A} (l : list A) (s : slice) (xs : list A) : res (list A) :=
  bind (slice_indices (List.length l) s) (fun t =>
  let '(start, stop, step) := t in
  if (step =? 1)%Z
  then Ok (firstn (Z.to_nat start) l ++ xs ++ skipn (Z.to_nat (Z.max start stop)) l)
  else let ps := map Z.to_nat (range start stop step) in
       if Nat.eqb (List.length xs) (List.length ps) then Ok (upd_all ps xs l) else Err ValueErr).
(* del l[s] *)
Fixpoint drop_at {A} (ps : list nat) (i : nat) (l : list A) : list A :=
  match l with
  | [] => []
  | x :: l' => if memb Nat.eqb i ps then drop_at ps (S i) l' else x :: drop_at ps (S i) l'
  end.
Definition pl_delslice {A} (l : list A) (s : slice) : res (list A) :=
  rmap (fun ps => drop_at ps 0 l) (slice_positions (List.length l) s).

(* the index of the first member satisfying p *)
Fixpoint find_index {A} (p : A -> bool) (l : list A) : option nat :=
  match l with
  | [] => None
  | x :: l' => if p x then Some O else option_map S (find_index p l')
  end.
(* l.index(x), l.remove(x), l.count(x), x in l, where p y is y == x *)
Definition pl_index {A} (p : A -> bool) (l : list A) : res nat :=
  match find_index p l with Some i => Ok i | None => Err ValueErr end.
Definition pl_remove {A} (p : A -> bool) (l : list A) : res (list A) :=
  rmap (fun i => del_nth i l) (pl_index p l).
Definition pl_count {A} (p : A -> bool) (l : list A) : nat := List.length (filter p l).
Definition pl_contains {A} (p : A -> bool) (l : list A) : bool := existsb p l.

(* l.sort(key=..., reverse=...) with integer keys: stable; reverse keeps the
   order of equal members *)
Fixpoint sort_insert {A} (k : Z) (x : A) (l : list (Z * A)) : list (Z * A) :=
  match l with
  | [] => [(k, x)]
  | (k', y) :: l' => if (k <=? k')%Z then (k, x) :: l else (k', y) :: sort_insert k x l'
  end.
Fixpoint sort_keyed {A} (l : list (Z * A)) : list (Z * A) :=
  match l with
  | [] => []
  | (k, x) :: l' => sort_insert k x (sort_keyed l')
  end.
(* the keys are computed first, in order *)
Fixpoint map_keys {A} (key : A -> res Z) (l : list A) : res (list (Z * A)) :=
  match l with
  | [] => Ok []
  | x :: l' => bind (key x) (fun k => rmap (cons (k, x)) (map_keys key l'))
  end.
Definition pl_sort {A} (key : A -> res Z) (reverse : bool) (l : list A) : res (list A) :=
  rmap (fun kl => if reverse then rev (map snd (sort_keyed (rev kl))) else map snd (sort_keyed kl))
       (map_keys key l).
