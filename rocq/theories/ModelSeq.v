(* Model of sequences: flatland/schema/containers.py Sequence 139-398, ListSlot
   401-428, List 431-632 and what Array 635-683 inherits from Sequence.
   [List._set_flat] is modelled in ModelFlat.v; here it is the history step
   [SetFlat], a rebuild with new members. *)
From Verif Require Import PyBase PyList.

(* What a sequence uses of its member_schema.  M is the content of a member
   element, V the plain values given to it.
   ms_new: member_schema();  ms_set: element.set(value), content and outcome;
   ms_set_el: element.set(other element);  ms_default: element.set_default();
   ms_eq: base.py:346-350 element == element. *)
Record mschema (V M : Type) := MSchema {
  ms_new : M;
  ms_set : M -> V -> M * res bool;
  ms_set_el : M -> M -> M * res bool;
  ms_default : M -> M * res unit;
  ms_eq : M -> M -> bool }.
Arguments ms_new {V M}. Arguments ms_set {V M}. Arguments ms_set_el {V M}.
Arguments ms_default {V M}. Arguments ms_eq {V M}.

(* schema/containers.py:298, 335, 413-417, 542: the attributes of slots and
   members that are assigned: Objects are numbers below h_next. An object that
   is a ListSlot has a name and an element; one that is a member element has
   content. Everything has a parent. *)
Record heap (M : Type) := Heap {
  h_next : nat;
  h_parent : nat -> option nat;
  h_name : nat -> str;
  h_elem : nat -> nat;
  h_con : nat -> M }.
Arguments Heap {M}. Arguments h_next {M}. Arguments h_parent {M}. Arguments h_name {M}.
Arguments h_elem {M}. Arguments h_con {M}.

(* assigning an attribute, as in schema/containers.py:413-417 *)
Definition fset {A} (f : nat -> A) (k : nat) (v : A) : nat -> A :=
  fun i => if Nat.eqb i k then v else f i.
(* schema/containers.py:298, 320, 329, 335, 520 value.parent = ... *)
Definition set_parent {M} (h : heap M) (x : nat) (p : option nat) : heap M :=
  Heap (h_next h) (fset (h_parent h) x p) (h_name h) (h_elem h) (h_con h).
(* schema/containers.py:542 slot.name = ... *)
Definition set_name {M} (h : heap M) (x : nat) (n : str) : heap M :=
  Heap (h_next h) (h_parent h) (fset (h_name h) x n) (h_elem h) (h_con h).
(* the in-place changes of schema/containers.py:499, 591, 601, 626 *)
Definition set_con {M} (h : heap M) (x : nat) (m : M) : heap M :=
  Heap (h_next h) (h_parent h) (h_name h) (h_elem h) (fset (h_con h) x m).
(* schema/containers.py:256, 297, 460, 464 member_schema(...): a new element
   without parent *)
Definition alloc_elem {M} (h : heap M) (m : M) : heap M * nat :=
  (Heap (S (h_next h)) (fset (h_parent h) (h_next h) None) (h_name h) (h_elem h)
        (fset (h_con h) (h_next h) m), h_next h).
(* containers.py:413-417 ListSlot(name, parent, element) *)
Definition alloc_slot {M} (h : heap M) (nm : str) (parent e : nat) : heap M * nat :=
  let s := h_next h in
  (Heap (S s) (fset (fset (h_parent h) s (Some parent)) e (Some s))
        (fset (h_name h) s nm) (fset (h_elem h) s e) (h_con h), s).

(* schema/containers.py:139 Sequence, 472-475 List._slots: A sequence: its own
   identity and the members list.__iter__ sees (slots for a List, elements for
   an Array). *)
Record seqst (M : Type) := Seq { q_h : heap M; q_self : nat; q_items : list nat }.
Arguments Seq {M}. Arguments q_h {M}. Arguments q_self {M}. Arguments q_items {M}.
(* the list part of schema/containers.py:139 replaced *)
Definition with_items {M} (q : seqst M) (l : list nat) : seqst M := Seq (q_h q) (q_self q) l.
(* the rest of schema/containers.py:139 replaced *)
Definition with_heap {M} (q : seqst M) (h : heap M) : seqst M := Seq h (q_self q) (q_items q).

(* schema/containers.py:296, 318, 327, 333, 461 isinstance(value, Element): an
   argument: a plain value or an existing element *)
Inductive arg (V : Type) := AVal (v : V) | AElem (e : nat).
Arguments AVal {V}. Arguments AElem {V}.
(* schema/containers.py:255, 308, 326, 481, 494: an iterable: what it yields,
   then how it ends *)
Record iterable (A : Type) := Iter { it_items : list A; it_end : option exn }.
Arguments Iter {A}. Arguments it_items {A}. Arguments it_end {A}.

Section Ops.
Context {V M : Type} (sch : mschema V M).

(* base.py:130-152 member_schema(value) *)
Definition make (h : heap M) (v : V) : heap M * res nat :=
  let '(m, r) := ms_set sch (ms_new sch) v in
  match r with
  | Ok _ => let '(h', e) := alloc_elem h m in (h', Ok e)
  | Err x => (h, Err x)
  end.
(* containers.py:457-464 _as_element, and the same test in Sequence's methods *)
Definition as_element (h : heap M) (a : arg V) : heap M * res nat :=
  match a with AElem e => (h, Ok e) | AVal v => make h v end.

(* ------------------------------ List ------------------------------ *)
(* containers.py:466-470 _new_slot(value) *)
Definition new_slot (q : seqst M) (a : arg V) : heap M * res nat :=
  let '(h, r) := as_element (q_h q) a in
  match r with
  | Err x => (h, Err x)
  | Ok e => let '(h', s) := alloc_slot h (dec_nat (List.length (q_items q))) (q_self q) e in (h', Ok s)
  end.
(* schema/containers.py:466-470: _new_slot(): a blank member *)
Definition blank_slot (q : seqst M) : heap M * nat :=
  let '(h, e) := alloc_elem (q_h q) (ms_new sch) in
  alloc_slot h (dec_nat (List.length (q_items q))) (q_self q) e.

(* containers.py:540-542 _renumber *)
Fixpoint renumber_from (h : heap M) (i : nat) (l : list nat) : heap M :=
  match l with
  | [] => h
  | s :: l' => renumber_from (set_name h s (dec_nat i)) (S i) l'
  end.
(* schema/containers.py:540-542 *)
Definition renumber (q : seqst M) : seqst M := with_heap q (renumber_from (q_h q) 0 (q_items q)).

(* containers.py:477-478 append *)
Definition l_append (q : seqst M) (a : arg V) : seqst M * res unit :=
  let '(h, r) := new_slot q a in
  match r with
  | Err x => (with_heap q h, Err x)
  | Ok s => (Seq h (q_self q) (q_items q ++ [s]), Ok tt)
  end.
(* containers.py:480-482 extend *)
Fixpoint l_extend_all (q : seqst M) (l : list (arg V)) : seqst M * res unit :=
  match l with
  | [] => (q, Ok tt)
  | a :: l' => let '(q', r) := l_append q a in
               match r with Ok _ => l_extend_all q' l' | Err x => (q', Err x) end
  end.
(* schema/containers.py:255, 308, 481: how the iteration ends *)
Definition iter_end {A} (x : A * res unit) (e : option exn) : A * res unit :=
  let '(q, r) := x in
  match r, e with Ok _, Some ex => (q, Err ex) | _, _ => (q, r) end.
(* schema/containers.py:480-482 *)
Definition l_extend (q : seqst M) (it : iterable (arg V)) : seqst M * res unit :=
  iter_end (l_extend_all q (it_items it)) (it_end it).
(* containers.py:523-525 insert *)
Definition l_insert (q : seqst M) (i : Z) (a : arg V) : seqst M * res unit :=
  let '(h, r) := new_slot q a in
  match r with
  | Err x => (with_heap q h, Err x)
  | Ok s => (renumber (Seq h (q_self q) (pl_insert (q_items q) i s)), Ok tt)
  end.
(* containers.py:497-499 self[index] = value, integer index: the member is set
   in place *)
Definition l_setitem (q : seqst M) (i : Z) (a : arg V) : seqst M * res unit :=
  match pl_get (q_items q) i with
  | Err x => (q, Err x)
  | Ok s =>
      let e := h_elem (q_h q) s in
      let '(m, r) := match a with
                     | AVal v => ms_set sch (h_con (q_h q) e) v
                     | AElem e' => ms_set_el sch (h_con (q_h q) e) (h_con (q_h q) e')
                     end in
      (with_heap q (set_con (q_h q) e m), rmap (fun _ => tt) r)
  end.
(* schema/containers.py:494: [self._new_slot(item) for item in value] *)
Fixpoint new_slots (q : seqst M) (l : list (arg V)) : heap M * res (list nat) :=
  match l with
  | [] => (q_h q, Ok [])
  | a :: l' =>
      let '(h, r) := new_slot q a in
      match r with
      | Err x => (h, Err x)
      | Ok s => let '(h', r') := new_slots (with_heap q h) l' in (h', rmap (cons s) r')
      end
  end.
(* containers.py:492-496 slice assignment *)
Definition l_setslice (q : seqst M) (sl : slice) (it : iterable (arg V)) : seqst M * res unit :=
  let '(h, r) := new_slots q (it_items it) in
  match r with
  | Err x => (with_heap q h, Err x)
  | Ok ss =>
      match it_end it with
      | Some x => (with_heap q h, Err x)
      | None => match pl_setslice (q_items q) sl ss with
                | Err x => (with_heap q h, Err x)
                | Ok l => (renumber (Seq h (q_self q) l), Ok tt)
                end
      end
  end.
(* containers.py:508-512 del self[i], del self[s] *)
Definition l_delitem (q : seqst M) (i : Z) : seqst M * res unit :=
  match pl_del (q_items q) i with
  | Err x => (q, Err x)
  | Ok l => (renumber (with_items q l), Ok tt)
  end.
(* schema/containers.py:508-512 del self[s] *)
Definition l_delslice (q : seqst M) (sl : slice) : seqst M * res unit :=
  match pl_delslice (q_items q) sl with
  | Err x => (q, Err x)
  | Ok l => (renumber (with_items q l), Ok tt)
  end.
(* schema/containers.py:251, 549, 621 the slice [:] *)
Definition whole_slice : slice := Slice None None None.
(* containers.py:517-521 pop; the result is the slot *)
Definition l_pop (q : seqst M) (i : Z) : seqst M * res nat :=
  match pl_pop (q_items q) i with
  | Err x => (q, Err x)
  | Ok (s, l) => let q' := renumber (with_items q l) in
                 (with_heap q' (set_parent (q_h q') s None), Ok s)
  end.
(* schema/containers.py:419-425 with schema/base.py:346-350: slot == element:
   the slot's value and u are its element's *)
Definition slot_eq (h : heap M) (e s : nat) : bool := ms_eq sch (h_con h (h_elem h s)) (h_con h e).
(* containers.py:527-529 remove *)
Definition l_remove (q : seqst M) (a : arg V) : seqst M * res unit :=
  let '(h, r) := as_element (q_h q) a in
  match r with
  | Err x => (with_heap q h, Err x)
  | Ok e => match pl_remove (slot_eq h e) (q_items q) with
            | Err x => (with_heap q h, Err x)
            | Ok l => (renumber (Seq h (q_self q) l), Ok tt)
            end
  end.
(* containers.py:353-387 index, count, in; inherited from Sequence *)
Definition l_search {A} (f : (nat -> bool) -> list nat -> res A) (q : seqst M) (a : arg V)
  : seqst M * res A :=
  let '(h, r) := as_element (q_h q) a in
  match r with
  | Err x => (with_heap q h, Err x)
  | Ok e => (with_heap q h, f (slot_eq h e) (q_items q))
  end.
(* schema/containers.py:353-363 *)
Definition l_index := l_search pl_index.
(* schema/containers.py:365-375 *)
Definition l_count := l_search (fun p l => Ok (pl_count p l)).
(* schema/containers.py:377-387 *)
Definition l_contains := l_search (fun p l => Ok (pl_contains p l)).
(* containers.py:536-538 reverse *)
Definition l_reverse (q : seqst M) : seqst M := renumber (with_items q (rev (q_items q))).
(* containers.py:531-534 sort(key=...); the key sees the slot, here its content *)
Definition l_sort (q : seqst M) (key : M -> res Z) (reverse : bool) : seqst M * res unit :=
  match pl_sort (fun s => key (h_con (q_h q) (h_elem (q_h q) s))) reverse (q_items q) with
  | Err x => (q, Err x)
  | Ok l => (renumber (with_items q l), Ok tt)
  end.
(* schema/containers.py:531-534: list.sort when comparing two keys raises:
   CPython leaves some permutation behind, and _renumber is not reached *)
Definition is_perm (n : nat) (ps : list nat) : bool :=
  Nat.eqb (List.length ps) n && forallb (fun i => memb Nat.eqb i ps) (seq 0 n).
(* schema/containers.py:531-534 when list.sort raises *)
Definition l_sort_broken (q : seqst M) (ps : list nat) (x : exn) : seqst M * res unit :=
  if is_perm (List.length (q_items q)) ps
  then (with_items q (pick (q_items q) ps), Err x) else (q, Err x).
(* containers.py:484-487, 504-506: self[i], self[s], iteration: the elements *)
Definition l_getitem (q : seqst M) (i : Z) : res nat :=
  rmap (h_elem (q_h q)) (pl_get (q_items q) i).
(* schema/containers.py:484-487 self[s] *)
Definition l_getslice (q : seqst M) (sl : slice) : res (list nat) :=
  rmap (map (h_elem (q_h q))) (get_slice (q_items q) sl).
(* schema/containers.py:504-506, 544-546 *)
Definition l_members (q : seqst M) : list nat := map (h_elem (q_h q)) (q_items q).

(* containers.py:229-263 set: members are built first, then appended *)
Fixpoint build (h : heap M) (l : list V) (conv : bool) : heap M * res (list nat * bool) :=
  match l with
  | [] => (h, Ok ([], conv))
  | v :: l' =>
      let '(m, r) := ms_set sch (ms_new sch) v in
      match r with
      | Err x => (h, Err x)
      | Ok b => let '(h1, e) := alloc_elem h m in
                let '(h2, r2) := build h1 l' (conv && b) in
                (h2, rmap (fun t => (e :: fst t, snd t)) r2)
      end
  end.
(* schema/containers.py:260-261 *)
Definition swallow {A} (x : A * res bool) : A * res bool :=
  let '(q, r) := x in
  match r with Err TypeErr => (q, Ok false) | _ => (q, r) end.
(* schema/containers.py:229-263 *)
Definition l_set (q : seqst M) (it : iterable V) : seqst M * res bool :=
  let '(q0, r0) := l_delslice q whole_slice in
  match r0 with
  | Err x => (q0, Err x)
  | Ok _ =>
      swallow (
      let '(h, r) := build (q_h q0) (it_items it) true in
      let q1 := with_heap q0 h in
      match r with
      | Err x => (q1, Err x)
      | Ok (es, conv) =>
          match it_end it with
          | Some x => (q1, Err x)
          | None => let '(q2, r2) := l_extend_all q1 (map AElem es) in (q2, rmap (fun _ => conv) r2)
          end
      end)
  end.

(* schema/containers.py:589-591, 597-601, 624-626: a blank slot is appended,
   then its element is changed in place (set_flat, set_default); stops at the
   first exception *)
Fixpoint fill (q : seqst M) (fs : list (M -> M * res unit)) : seqst M * res unit :=
  match fs with
  | [] => (q, Ok tt)
  | f :: fs' =>
      let '(h, s) := blank_slot q in
      let '(m, r) := f (h_con h (h_elem h s)) in
      let q' := Seq (set_con h (h_elem h s) m) (q_self q) (q_items q ++ [s]) in
      match r with Ok _ => fill q' fs' | Err x => (q', Err x) end
  end.
(* set_default: containers.py:603-628 *)
Inductive default (V : Type) := DNone | DUnspecified | DInt (z : Z) | DIter (it : iterable V).
Arguments DNone {V}. Arguments DUnspecified {V}. Arguments DInt {V}. Arguments DIter {V}.
(* schema/containers.py:603-628 *)
Definition l_set_default (q : seqst M) (d : default V) : seqst M * res unit :=
  match d with
  | DNone | DUnspecified => (q, Ok tt)
  | DInt z => let '(q0, _) := l_delslice q whole_slice in
              fill q0 (repeat (ms_default sch) (Z.to_nat z))
  | DIter it => let '(q0, _) := l_delslice q whole_slice in
                let '(q1, r) := l_set q0 it in (q1, rmap (fun _ => tt) r)
  end.
(* containers.py:548-601 _set_flat as a history step: fs says what set_flat
   does to each new member *)
Definition l_set_flat (q : seqst M) (fs : list (M -> M * res unit)) : seqst M * res unit :=
  let '(q0, _) := l_delslice q whole_slice in fill q0 fs.

(* schema/containers.py:139, 431: list.__iadd__, list.__imul__: not
   overridden, so they act on the hidden slots; only element operands are
   modelled *)
Definition raw_iadd (q : seqst M) (es : list nat) : seqst M := with_items q (q_items q ++ es).
(* schema/containers.py:139, 431 inherits list.__imul__ *)
Definition raw_imul (q : seqst M) (n : Z) : seqst M :=
  with_items q (List.concat (repeat (q_items q) (Z.to_nat n))).

(* ------------------------------ Array ------------------------------ *)
(* containers.py:289-299 append *)
Definition a_append (q : seqst M) (a : arg V) : seqst M * res unit :=
  let '(h, r) := as_element (q_h q) a in
  match r with
  | Err x => (with_heap q h, Err x)
  | Ok e => (Seq (set_parent h e (Some (q_self q))) (q_self q) (q_items q ++ [e]), Ok tt)
  end.
(* containers.py:301-309 extend *)
Fixpoint a_extend_all (q : seqst M) (l : list (arg V)) : seqst M * res unit :=
  match l with
  | [] => (q, Ok tt)
  | a :: l' => let '(q', r) := a_append q a in
               match r with Ok _ => a_extend_all q' l' | Err x => (q', Err x) end
  end.
(* schema/containers.py:301-309 *)
Definition a_extend (q : seqst M) (it : iterable (arg V)) : seqst M * res unit :=
  iter_end (a_extend_all q (it_items it)) (it_end it).
(* containers.py:311-321 insert *)
Definition a_insert (q : seqst M) (i : Z) (a : arg V) : seqst M * res unit :=
  let '(h, r) := as_element (q_h q) a in
  match r with
  | Err x => (with_heap q h, Err x)
  | Ok e => (Seq (set_parent h e (Some (q_self q))) (q_self q) (pl_insert (q_items q) i e), Ok tt)
  end.
(* containers.py:332-336 integer index: an element given keeps its parent *)
Definition a_setitem (q : seqst M) (i : Z) (a : arg V) : seqst M * res unit :=
  let '(h, r) := as_element (q_h q) a in
  match r with
  | Err x => (with_heap q h, Err x)
  | Ok e =>
      let h := match a with AVal _ => set_parent h e (Some (q_self q)) | AElem _ => h end in
      match pl_set (q_items q) i e with
      | Err x => (with_heap q h, Err x)
      | Ok l => (Seq h (q_self q) l, Ok tt)
      end
  end.
(* containers.py:323-331, 336 slice assignment *)
Fixpoint adopt_all (q : seqst M) (l : list (arg V)) : heap M * res (list nat) :=
  match l with
  | [] => (q_h q, Ok [])
  | a :: l' =>
      let '(h, r) := as_element (q_h q) a in
      match r with
      | Err x => (h, Err x)
      | Ok e => let '(h', r') := adopt_all (with_heap q (set_parent h e (Some (q_self q)))) l' in
                (h', rmap (cons e) r')
      end
  end.
(* schema/containers.py:323-331, 336 *)
Definition a_setslice (q : seqst M) (sl : slice) (it : iterable (arg V)) : seqst M * res unit :=
  let '(h, r) := adopt_all q (it_items it) in
  match r with
  | Err x => (with_heap q h, Err x)
  | Ok es =>
      match it_end it with
      | Some x => (with_heap q h, Err x)
      | None => match pl_setslice (q_items q) sl es with
                | Err x => (with_heap q h, Err x)
                | Ok l => (Seq h (q_self q) l, Ok tt)
                end
      end
  end.
(* schema/base.py:346-350: element == element; the same object is always equal
   *)
Definition elem_eq (h : heap M) (e x : nat) : bool :=
  Nat.eqb x e || ms_eq sch (h_con h x) (h_con h e).
(* containers.py:341-387 remove; index, count, in *)
Definition a_remove (q : seqst M) (a : arg V) : seqst M * res unit :=
  let '(h, r) := as_element (q_h q) a in
  match r with
  | Err x => (with_heap q h, Err x)
  | Ok e => match pl_remove (elem_eq h e) (q_items q) with
            | Err x => (with_heap q h, Err x)
            | Ok l => (Seq h (q_self q) l, Ok tt)
            end
  end.
(* schema/containers.py:353-387 *)
Definition a_search {A} (f : (nat -> bool) -> list nat -> res A) (q : seqst M) (a : arg V)
  : seqst M * res A :=
  let '(h, r) := as_element (q_h q) a in
  match r with
  | Err x => (with_heap q h, Err x)
  | Ok e => (with_heap q h, f (elem_eq h e) (q_items q))
  end.
(* schema/containers.py:353-363 *)
Definition a_index := a_search pl_index.
(* schema/containers.py:365-375 *)
Definition a_count := a_search (fun p l => Ok (pl_count p l)).
(* schema/containers.py:377-387 *)
Definition a_contains := a_search (fun p l => Ok (pl_contains p l)).
(* schema/containers.py:139, 635: inherited from list: del, pop, reverse, sort
   *)
Definition a_delitem (q : seqst M) (i : Z) : seqst M * res unit :=
  match pl_del (q_items q) i with Err x => (q, Err x) | Ok l => (with_items q l, Ok tt) end.
(* schema/containers.py:139, 635 inherits list.__delitem__ *)
Definition a_delslice (q : seqst M) (sl : slice) : seqst M * res unit :=
  match pl_delslice (q_items q) sl with Err x => (q, Err x) | Ok l => (with_items q l, Ok tt) end.
(* schema/containers.py:139, 635 inherits list.pop *)
Definition a_pop (q : seqst M) (i : Z) : seqst M * res nat :=
  match pl_pop (q_items q) i with Err x => (q, Err x) | Ok (e, l) => (with_items q l, Ok e) end.
(* schema/containers.py:139, 635 inherits list.reverse *)
Definition a_reverse (q : seqst M) : seqst M := with_items q (rev (q_items q)).
(* schema/containers.py:139, 635 inherits list.sort *)
Definition a_sort (q : seqst M) (key : M -> res Z) (reverse : bool) : seqst M * res unit :=
  match pl_sort (fun e => key (h_con (q_h q) e)) reverse (q_items q) with
  | Err x => (q, Err x)
  | Ok l => (with_items q l, Ok tt)
  end.
(* containers.py:229-263 set *)
Definition a_set (q : seqst M) (it : iterable V) : seqst M * res bool :=
  let '(q0, _) := a_delslice q whole_slice in
  swallow (
  let '(h, r) := build (q_h q0) (it_items it) true in
  let q1 := with_heap q0 h in
  match r with
  | Err x => (q1, Err x)
  | Ok (es, conv) =>
      match it_end it with
      | Some x => (q1, Err x)
      | None => let '(q2, r2) := a_extend_all q1 (map AElem es) in (q2, rmap (fun _ => conv) r2)
      end
  end).
(* containers.py:265-269 set_default: an integer default cannot be iterated *)
Definition a_set_default (q : seqst M) (d : default V) : seqst M * res unit :=
  match d with
  | DNone | DUnspecified => (q, Ok tt)
  | DInt _ => let '(q0, _) := a_delslice q whole_slice in (q0, Err TypeErr)
  | DIter it => let '(q0, _) := a_delslice q whole_slice in
                a_extend q0 (Iter (map AVal (it_items it)) (it_end it))
  end.

(* containers.py:647-683 _set_flat as a history step: each member is built by
   from_flat, then appended *)
Fixpoint a_fill (q : seqst M) (fs : list (M -> M * res unit)) : seqst M * res unit :=
  match fs with
  | [] => (q, Ok tt)
  | f :: fs' =>
      let '(m, r) := f (ms_new sch) in
      match r with
      | Err x => (q, Err x)
      | Ok _ => let '(h, e) := alloc_elem (q_h q) m in
                a_fill (fst (a_append (with_heap q h) (AElem e))) fs'
      end
  end.
(* schema/containers.py:647-683 *)
Definition a_set_flat (q : seqst M) (fs : list (M -> M * res unit)) : seqst M * res unit :=
  let '(q0, _) := a_delslice q whole_slice in a_fill q0 fs.

(* ------------------------------ histories ------------------------------ *)
(* the public methods of schema/containers.py:229-683 as steps of a history *)
Inductive op :=
| Append (a : arg V) | Extend (it : iterable (arg V)) | Insert (i : Z) (a : arg V)
| SetItem (i : Z) (a : arg V) | SetSlice (s : slice) (it : iterable (arg V))
| DelItem (i : Z) | DelSlice (s : slice) | Pop (i : Z) | Remove (a : arg V)
| Index (a : arg V) | Count (a : arg V) | Contains (a : arg V)
| Reverse | Sort (key : M -> res Z) (reverse : bool) | SetIt (it : iterable V)
| SetDefault (d : default V) | SetFlat (fs : list (M -> M * res unit))
| SortBroken (ps : list nat) (x : exn) | IAdd (es : list nat) | IMul (n : Z).
(* what the methods of schema/containers.py:229-683 return: what a call
   returns *)
Inductive out (A : Type) := RNone | RBool (b : bool) | RNat (n : nat) | RItem (a : A).
Arguments RNone {A}. Arguments RBool {A}. Arguments RNat {A}. Arguments RItem {A}.
(* the result of a method of schema/containers.py:229-683 *)
Definition returns {A B} (f : A -> out nat) (x : B * res A) : B * res (out nat) :=
  let '(q, r) := x in (q, rmap f r).
(* a method of schema/containers.py:229-683 that returns None *)
Definition none (_ : unit) : out nat := RNone.
(* schema/containers.py:431-632 one call *)
Definition l_step (q : seqst M) (o : op) : seqst M * res (out nat) :=
  match o with
  | Append a => returns none (l_append q a)
  | Extend it => returns none (l_extend q it)
  | Insert i a => returns none (l_insert q i a)
  | SetItem i a => returns none (l_setitem q i a)
  | SetSlice s it => returns none (l_setslice q s it)
  | DelItem i => returns none (l_delitem q i)
  | DelSlice s => returns none (l_delslice q s)
  | Pop i => returns RItem (l_pop q i)
  | Remove a => returns none (l_remove q a)
  | Index a => returns RNat (l_index q a)
  | Count a => returns RNat (l_count q a)
  | Contains a => returns RBool (l_contains q a)
  | Reverse => (l_reverse q, Ok RNone)
  | Sort k r => returns none (l_sort q k r)
  | SetIt it => returns RBool (l_set q it)
  | SetDefault d => returns none (l_set_default q d)
  | SetFlat fs => returns none (l_set_flat q fs)
  | SortBroken ps x => returns none (l_sort_broken q ps x)
  | IAdd es => (raw_iadd q es, Ok RNone)
  | IMul n => (raw_imul q n, Ok RNone)
  end.
(* schema/containers.py:635-683 one call *)
Definition a_step (q : seqst M) (o : op) : seqst M * res (out nat) :=
  match o with
  | Append a => returns none (a_append q a)
  | Extend it => returns none (a_extend q it)
  | Insert i a => returns none (a_insert q i a)
  | SetItem i a => returns none (a_setitem q i a)
  | SetSlice s it => returns none (a_setslice q s it)
  | DelItem i => returns none (a_delitem q i)
  | DelSlice s => returns none (a_delslice q s)
  | Pop i => returns RItem (a_pop q i)
  | Remove a => returns none (a_remove q a)
  | Index a => returns RNat (a_index q a)
  | Count a => returns RNat (a_count q a)
  | Contains a => returns RBool (a_contains q a)
  | Reverse => (a_reverse q, Ok RNone)
  | Sort k r => returns none (a_sort q k r)
  | SetIt it => returns RBool (a_set q it)
  | SetDefault d => returns none (a_set_default q d)
  | SetFlat fs => returns none (a_set_flat q fs)
  | SortBroken ps x => returns none (l_sort_broken q ps x)
  | IAdd es => (raw_iadd q es, Ok RNone)
  | IMul n => (raw_imul q n, Ok RNone)
  end.
End Ops.
Arguments DNone {V}. Arguments DUnspecified {V}. Arguments DInt {V}. Arguments DIter {V}.
Arguments Append {V M}. Arguments Extend {V M}. Arguments Insert {V M}. Arguments SetItem {V M}.
Arguments SetSlice {V M}. Arguments DelItem {V M}. Arguments DelSlice {V M}. Arguments Pop {V M}.
Arguments Remove {V M}. Arguments Index {V M}. Arguments Count {V M}. Arguments Contains {V M}.
Arguments Reverse {V M}. Arguments Sort {V M}. Arguments SetIt {V M}. Arguments SetDefault {V M}.
Arguments SetFlat {V M}. Arguments SortBroken {V M}. Arguments IAdd {V M}. Arguments IMul {V M}.
Arguments RNone {A}. Arguments RBool {A}. Arguments RNat {A}. Arguments RItem {A}.
Arguments op : clear implicits.
