(* Model of sequences and mappings used as their own argument, and of the list methods that
   Sequence and List do not override (flatland/schema/containers.py 139-542).
   The iterator over a list looks at the members one position at a time, so it
   sees what was added meanwhile. *)
From Verif Require Import PyBase PyList ModelSeq ModelMap.

Section Self.
Context {V M : Type} (sch : mschema V M).

(* containers.py:480-482 extend with append of 477-478 and the iterator of
   504-506: for v in self: self.append(v), from position i on.  The fuel counts
   the members appended. *)
Fixpoint l_extend_from (fuel i : nat) (q : seqst M) : seqst M * res unit :=
  match nth_error (q_items q) i with
  | None => (q, Ok tt)
  | Some s =>
      match fuel with
      | 0 => (q, Err OutOfFuel)
      | S fuel' =>
          let '(q', r) := l_append sch q (AElem (h_elem (q_h q) s)) in
          match r with Ok _ => l_extend_from fuel' (S i) q' | Err x => (q', Err x) end
      end
  end.
(* schema/containers.py:480-482 *)
Definition l_extend_self (fuel : nat) (q : seqst M) : seqst M * res unit := l_extend_from fuel 0 q.
(* containers.py:301-309 the same of an Array *)
Fixpoint a_extend_from (fuel i : nat) (q : seqst M) : seqst M * res unit :=
  match nth_error (q_items q) i with
  | None => (q, Ok tt)
  | Some e =>
      match fuel with
      | 0 => (q, Err OutOfFuel)
      | S fuel' =>
          let '(q', r) := a_append sch q (AElem e) in
          match r with Ok _ => a_extend_from fuel' (S i) q' | Err x => (q', Err x) end
      end
  end.
(* schema/containers.py:301-309 *)
Definition a_extend_self (fuel : nat) (q : seqst M) : seqst M * res unit := a_extend_from fuel 0 q.

(* containers.py:229-263 set() given elements: each new member is set to an
   element instead of a plain value.  [taking] is the member schema seen that
   way. *)
Definition taking : mschema M M :=
  MSchema M M (ms_new sch) (ms_set_el sch) (ms_set_el sch) (ms_default sch) (ms_eq sch).
(* schema/containers.py:229-263 of a List *)
Definition l_set_elements (q : seqst M) (es : list nat) : seqst M * res bool :=
  l_set taking q (Iter (map (h_con (q_h q)) es) None).
(* schema/containers.py:229-263 of an Array *)
Definition a_set_elements (q : seqst M) (es : list nat) : seqst M * res bool :=
  a_set taking q (Iter (map (h_con (q_h q)) es) None).
(* schema/containers.py:229-263: self.set(self): line 251 removes the members
   before line 255 iterates *)
Definition l_set_self (q : seqst M) : seqst M * res bool :=
  let '(q0, r) := l_delslice q whole_slice in
  match r with Ok _ => l_set_elements q0 (l_members q0) | Err x => (q0, Err x) end.
(* schema/containers.py:229-263 *)
Definition a_set_self (q : seqst M) : seqst M * res bool :=
  let '(q0, r) := a_delslice q whole_slice in
  match r with Ok _ => a_set_elements q0 (q_items q0) | Err x => (q0, Err x) end.
(* containers.py:492-496, 323-336: self[s] = self; the iteration is over before
   the assignment *)
Definition l_setslice_self (q : seqst M) (sl : slice) : seqst M * res unit :=
  l_setslice sch q sl (Iter (map AElem (l_members q)) None).
(* schema/containers.py:323-336 *)
Definition a_setslice_self (q : seqst M) (sl : slice) : seqst M * res unit :=
  a_setslice sch q sl (Iter (map AElem (q_items q)) None).

(* schema/containers.py:139, 431: inherited from list, not overridden by
   139-398 nor by 431-632: reversed(self), self.copy(), self + other, self *
   n; of a List they see the slots *)
Definition raw_reversed (q : seqst M) : list nat := rev (q_items q).
(* schema/containers.py:139, 431 inherits list.copy *)
Definition raw_copy (q : seqst M) : list nat := q_items q.
(* schema/containers.py:139, 431 inherits list.__add__ *)
Definition raw_add (q : seqst M) (other : list nat) : list nat := q_items q ++ other.
(* schema/containers.py:139, 431 inherits list.__mul__ *)
Definition raw_mul (q : seqst M) (n : Z) : list nat := List.concat (repeat (q_items q) (Z.to_nat n)).
End Self.

(* ------------------------------ mappings ------------------------------ *)
Section SelfMap.
Context {V M : Type} (cls : nat -> ecls V M) (isa : nat -> nat -> bool) (fields : list field) (minf : minimum).

(* containers.py:978-1014 self.set(self).  to_pairs (util/base.py:235-249) has
   the iterator over the keys before _reset() is called, and looks up the member
   of a key when that key comes, so what is set is a blank member to itself. *)
Fixpoint set_to_itself (pol : policy) (s : mapst M) (ks seen : list name) (conv : bool) : mapst M * res bool :=
  match ks with
  | [] => match pol with
          | Strict => (s, if forallb (fun k => memb name_eqb k seen) (keys (field_map fields))
                          then Ok conv else Err TypeErr)
          | _ => (s, Ok conv)
          end
  | k :: ks' =>
      match mget k s with
      | None => (s, Err KeyErr)
      | Some e =>
          match aget name_eqb k (field_map fields) with
          | None => match pol with Duck => set_to_itself pol s ks' seen conv | _ => (s, Err KeyErr) end
          | Some _ =>
              let '(h, r) := set_child cls (m_h s) e (AElem e) in
              match r with
              | Ok b => set_to_itself pol (with_eheap s h) ks' (k :: seen) (conv && b)
              | Err x => (with_eheap s h, Err x)
              end
          end
      end
  end.
(* schema/containers.py:978-1014: CPython's iterators of dicts raise
   RuntimeError when the number of keys is no longer what it was *)
Definition dict_set_self (fl : flavour) (own : policy) (s : mapst M) (given : option policy) : mapst M * res bool :=
  let s0 := do_reset cls fields minf fl s in
  let go pol := if Nat.eqb (List.length (m_items s0)) (List.length (m_items s))
                then set_to_itself pol s0 (keys (m_items s0)) [] true else (s0, Err RuntimeErr) in
  match given with
  | Some OtherPolicy => (s0, Err AssertErr)
  | Some p => go p
  | None => go own
  end.
(* containers.py:786-795 self.update(self) *)
Definition update_self (setitem : mapst M -> name -> arg V -> mapst M * res unit) (s : mapst M) : mapst M * res unit :=
  map_update setitem s [Iter (map (fun ke => (fst ke, AElem (snd ke))) (m_items s)) None] [].
End SelfMap.
