(* References to other elements (schema/scalars.py:558-617).  The elements are
   in a heap and known by number; the tree they form only matters for where a
   path leads, which is the function [find] below. *)
From Verif Require Import PyBase ModelUtil ModelScalar.

(* schema/scalars.py:562: what .writable is: 'ignore', else true or false *)
Inductive writable := WIgnore | WYes | WNo.
(* schema/base.py:130-152, schema/scalars.py:558-617 *)
Inductive node :=
| OfScalar (k : kind) (st : scalar)
(* a Dict, List or Array: no adapt and serialize; value and u are read only
   (containers.py:389-396, 879-892) *)
| OfContainer (v : pyval) (u : str)
(* the __dict__ entry of the lazy target, and raw (None: Unset) *)
| OfRef (w : writable) (target : option nat) (raw : option pyval).
(* schema/base.py:130-152: all elements *)
Definition heap := list node.

Section Find.
(* self.root.el(self.target_path), for the Ref of that number, as the tree is
   now (base.py:538-600) *)
Variable find : nat -> res nat.

(* scalars.py:585-587 target, a lazy_property (util/base.py:25-42) *)
Definition target (h : heap) (r : nat) : heap * res nat :=
  match nth_error h r with
  | Some (OfRef _ (Some t) _) => (h, Ok t)
  | Some (OfRef w None raw) =>
      match find r with
      | Ok t => (set_nth r (OfRef w (Some t) raw) h, Ok t)
      | Err x => (h, Err x)
      end
  | _ => (h, Err AttributeErr)
  end.
(* schema/scalars.py:577-606: self.target, its target and so on up to an
   element that is no Ref. A Ref that refers to itself meets the recursion
   limit, here the end of fuel. *)
Fixpoint follow (fuel : nat) (h : heap) (i : nat) : heap * res node :=
  match nth_error h i with
  | Some (OfRef _ _ _) =>
      match fuel with
      | O => (h, Err RuntimeErr)
      | S fuel' => match target h i with
                   | (h1, Ok t) => follow fuel' h1 t
                   | (h1, Err x) => (h1, Err x)
                   end
      end
  | Some n => (h, Ok n)
  | None => (h, Err AttributeErr)
  end.
(* scalars.py:604-606 and 589-591: reading .value and .u *)
Definition get_value (fuel : nat) (h : heap) (i : nat) : heap * res pyval :=
  match follow fuel h i with
  | (h1, Ok (OfScalar _ st)) => (h1, Ok (s_value st))
  | (h1, Ok (OfContainer v _)) => (h1, Ok v)
  | (h1, Ok (OfRef _ _ _)) => (h1, Err RuntimeErr)
  | (h1, Err x) => (h1, Err x)
  end.
(* schema/scalars.py:589-591 *)
Definition get_u (fuel : nat) (h : heap) (i : nat) : heap * res str :=
  match follow fuel h i with
  | (h1, Ok (OfScalar _ st)) => (h1, Ok (s_u st))
  | (h1, Ok (OfContainer _ u)) => (h1, Ok u)
  | (h1, Ok (OfRef _ _ _)) => (h1, Err RuntimeErr)
  | (h1, Err x) => (h1, Err x)
  end.
(* scalars.py:577-578 adapt and 580-581 serialize *)
Definition ref_adapt (fuel : nat) (h : heap) (i : nat) (v : pyval) : heap * res pyval :=
  match follow fuel h i with
  | (h1, Ok (OfScalar k _)) => (h1, adapt k v)
  | (h1, Ok _) => (h1, Err AttributeErr)
  | (h1, Err x) => (h1, Err x)
  end.
(* schema/scalars.py:580-581 *)
Definition ref_serialize (fuel : nat) (h : heap) (i : nat) (v : pyval) : heap * res str :=
  match follow fuel h i with
  | (h1, Ok (OfScalar k _)) => (h1, Ok (serialize k v))
  | (h1, Ok _) => (h1, Err AttributeErr)
  | (h1, Err x) => (h1, Err x)
  end.
(* scalars.py:593-599 and 608-614: assigning .u or .value; [put] changes the
   attribute of a scalar *)
Fixpoint assign_through (put : scalar -> scalar) (fuel : nat) (h : heap) (i : nat) : heap * res unit :=
  match nth_error h i with
  | Some (OfScalar k st) => (set_nth i (OfScalar k (put st)) h, Ok tt)
  | Some (OfRef WIgnore _ _) => (h, Ok tt)
  | Some (OfRef WNo _ _) => (h, Err TypeErr)
  | Some (OfRef WYes _ _) =>
      match fuel with
      | O => (h, Err RuntimeErr)
      | S fuel' => match target h i with
                   | (h1, Ok t) => assign_through put fuel' h1 t
                   | (h1, Err x) => (h1, Err x)
                   end
      end
  | _ => (h, Err AttributeErr)
  end.
(* schema/scalars.py:608-614 *)
Definition set_value (v : pyval) := assign_through (fun st => Scalar (s_raw st) v (s_u st)).
(* schema/scalars.py:593-599 *)
Definition set_u (s : str) := assign_through (fun st => Scalar (s_raw st) (s_value st) s).
(* scalars.py:72 self.raw = value *)
Definition set_raw (h : heap) (i : nat) (v : pyval) : heap :=
  match nth_error h i with
  | Some (OfScalar k st) => set_nth i (OfScalar k (Scalar (Some v) (s_value st) (s_u st))) h
  | Some (OfRef w t _) => set_nth i (OfRef w t (Some v)) h
  | _ => h
  end.
(* scalars.py:53-94 set, as Ref inherits it *)
Definition ref_set (fuel : nat) (h : heap) (i : nat) (v : pyval) : heap * res bool :=
  let h := set_raw h i v in
  match ref_adapt fuel h i v with
  | (h, Ok n) =>
      match set_value n fuel h i with
      | (h, Ok _) =>
          match (if is_none n then (h, Ok []) else ref_serialize fuel h i n) with
          | (h, Ok s) => let '(h, r) := set_u s fuel h i in (h, rmap (fun _ => true) r)
          | (h, Err x) => (h, Err x)
          end
      | (h, Err x) => (h, Err x)
      end
  | (h, Err AdaptErr) =>
      match set_value VNone fuel h i with
      | (h, Ok _) =>
          let '(h, r) := set_u (if is_none v then [] else vtext v) fuel h i in (h, rmap (fun _ => false) r)
      | (h, Err x) => (h, Err x)
      end
  | (h, Err x) => (h, Err x)
  end.
End Find.
