(* Model of inheritable properties: flatland/schema/properties.py. *)
From Verif Require Import PyBase ModelUtil ModelSeq.

(* a stored value, or the Deleted marker (properties.py:7) *)
Inductive slot (V : Type) := Val (v : V) | Deleted.
Arguments Val {V}. Arguments Deleted {V}.
Notation pdict V := (list (str * slot V)).

(* schema/properties.py:161-162, 243-259: Classes, descriptors (Properties
   objects), dicts and instances are numbers. - w_mro c: c.__mro__, c first; -
   w_own c: c.__dict__.get('properties'), when it is a descriptor; - w_init d:
   the dict d.initial_set (238-241); - w_map d c: the dict d.map[c] (238-241);
   - w_dict r: the content of dict object r; - w_cls i: type(i); - w_local i:
   i.__dict__.get('properties'): absent, a local_storage, or a plain dict
   assigned wholesale (whose content is not shared with another holder: a
   simplification). *)
Inductive local (V : Type) := NoLocal | Storage (l : pdict V) | Whole (l : list (str * V)).
Arguments NoLocal {V}. Arguments Storage {V}. Arguments Whole {V}.
(* schema/properties.py:236-259 *)
Record world (V : Type) := World {
  w_mro : nat -> list nat;
  w_own : nat -> option nat;
  w_init : nat -> nat;
  w_map : nat -> nat -> option nat;
  w_next : nat;
  w_dict : nat -> pdict V;
  w_cls : nat -> nat;
  w_local : nat -> local V }.
Arguments World {V}. Arguments w_mro {V}. Arguments w_own {V}. Arguments w_init {V}. Arguments w_map {V}.
Arguments w_next {V}. Arguments w_dict {V}. Arguments w_cls {V}. Arguments w_local {V}.

Section Props.
Context {V : Type}.
Notation wd := (world V).

(* schema/properties.py:143, 157-158: self.map.setdefault *)
Definition set_map (w : wd) (d c r : nat) : wd :=
  World (w_mro w) (w_own w) (w_init w) (fset (w_map w) d (fset (w_map w d) c (Some r)))
        (w_next w) (w_dict w) (w_cls w) (w_local w).
(* schema/properties.py:97, 101, 123: changing a dict *)
Definition set_dict (w : wd) (r : nat) (m : pdict V) : wd :=
  World (w_mro w) (w_own w) (w_init w) (w_map w) (w_next w) (fset (w_dict w) r m) (w_cls w) (w_local w).
(* schema/properties.py:170, 191, 258-259: the properties entry of an
   instance's __dict__ *)
Definition set_local (w : wd) (i : nat) (l : local V) : wd :=
  World (w_mro w) (w_own w) (w_init w) (w_map w) (w_next w) (w_dict w) (w_cls w) (fset (w_local w) i l).
(* schema/properties.py:158: a new dict *)
Definition new_dict (w : wd) : wd * nat :=
  (World (w_mro w) (w_own w) (w_init w) (w_map w) (S (w_next w)) (fset (w_dict w) (w_next w) [])
         (w_cls w) (w_local w), w_next w).
(* schema/properties.py:243-246: type(c).properties: the descriptor
   Class.properties finds along the MRO *)
Fixpoint find_desc (own : nat -> option nat) (mro : list nat) : option nat :=
  match mro with
  | [] => None
  | c :: r => match own c with Some d => Some d | None => find_desc own r end
  end.
(* schema/properties.py:243-246: the descriptor of a class *)
Definition desc (w : wd) (c : nat) : option nat := find_desc (w_own w) (w_mro w c).
(* schema/properties.py:141, 145, 156: is d the descriptor in the class's own __dict__ *)
Definition mine (w : wd) (d c : nat) : bool :=
  match w_own w c with Some d' => Nat.eqb d' d | None => false end.

(* properties.py:137-146 one round of _frames: the frame of c, if it is not
   skipped *)
Definition frame_at (w : wd) (d c : nat) : wd * option nat :=
  match w_map w d c with
  | Some r => (w, Some r)
  | None => if mine w d c then (set_map w d c (w_init w d), Some (w_init w d)) else (w, None)
  end.
(* properties.py:84-94 __getitem__; None when no frame has the key *)
Fixpoint t_find (d : nat) (mro : list nat) (k : str) (w : wd) : wd * option (slot V) :=
  match mro with
  | [] => (w, None)
  | c :: rest =>
      let '(w', f) := frame_at w d c in
      match f with
      | None => t_find d rest k w'
      | Some r => match aget str_eqb k (w_dict w' r) with
                  | Some v => (w', Some v)
                  | None => if mine w d c then (w', None) else t_find d rest k w'
                  end
      end
  end.
(* schema/properties.py:84-94 *)
Definition t_get (d c : nat) (k : str) (w : wd) : wd * res (slot V) :=
  let '(w', o) := t_find d (w_mro w c) k w in
  (w', match o with Some (Val v) => Ok (Val v) | _ => Err KeyErr end).
(* properties.py:148-158 _base_frame *)
Definition base_frame (d c : nat) (w : wd) : wd * nat :=
  match w_map w d c with
  | Some r => (w, r)
  | None => if mine w d c then (set_map w d c (w_init w d), w_init w d)
            else let '(w', r) := new_dict w in (set_map w' d c r, r)
  end.
(* properties.py:125-132 iteritems *)
Fixpoint scan (seen : list str) (l : pdict V) : list str * list (str * V) :=
  match l with
  | [] => (seen, [])
  | (k, v) :: l' =>
      if memb str_eqb k seen then scan seen l'
      else let '(seen', out) := scan (k :: seen) l' in
           (seen', match v with Val x => (k, x) :: out | Deleted => out end)
  end.
(* schema/properties.py:125-132 *)
Fixpoint t_items (d : nat) (mro : list nat) (seen : list str) (w : wd) : wd * list (str * V) :=
  match mro with
  | [] => (w, [])
  | c :: rest =>
      let '(w1, f) := frame_at w d c in
      match f with
      | None => t_items d rest seen w1
      | Some r => let '(seen', out) := scan seen (w_dict w1 r) in
                  if mine w d c then (w1, out)
                  else let '(w2, out') := t_items d rest seen' w1 in (w2, out ++ out')
      end
  end.
(* schema/properties.py:121-123: dict.update with the pairs of a dict *)
Definition d_update (m : pdict V) (l : list (str * V)) : pdict V :=
  fold_left (fun m kv => aset str_eqb (fst kv) (Val (snd kv)) m) l m.
(* schema/properties.py:105-106, 199-200 *)
Definition d_mark (m : pdict V) (ks : list str) : pdict V :=
  fold_left (fun m k => aset str_eqb k Deleted m) ks m.

(* Calls on a properties object.  get(k, default), copy, ==, repr derive from
   these (properties.py:47-73). *)
Inductive pop :=
| PGet (k : str) | PGetOr (k : str) (v : V) | PSet (k : str) (v : V) | PDel (k : str) | PClear
| PPop (k : str) (default : option V) | PPopItem | PSetdefault (k : str) (v : V)
| PUpdate (l : list (str * V)) | PContains (k : str) | PItems | PBool.
(* schema/properties.py:47-132: what the calls return *)
Inductive pout := PONone | POSlot (s : slot V) | POBool (b : bool) | POItems (l : list (str * V)).

(* properties.py:76-158 _TypeLookup, on Class.properties.  In clear (103-106)
   the keys are collected before being marked: marking only touches keys
   already seen, so the order does not matter. *)
Definition type_step (d c : nat) (o : pop) (w : wd) : wd * res pout :=
  match o with
  | PGet k => let '(w', r) := t_get d c k w in (w', rmap POSlot r)
  | PGetOr k v => let '(w', r) := t_get d c k w in
                  (w', Ok (POSlot (match r with Ok s => s | Err _ => Val v end)))
  | PSet k v => let '(w', f) := base_frame d c w in
                (set_dict w' f (aset str_eqb k (Val v) (w_dict w' f)), Ok PONone)
  | PDel k => let '(w1, r) := t_get d c k w in
              match r with
              | Err x => (w1, Err x)
              | Ok _ => let '(w', f) := base_frame d c w1 in
                        (set_dict w' f (aset str_eqb k Deleted (w_dict w' f)), Ok PONone)
              end
  | PClear => let '(w1, f) := base_frame d c w in
              let '(w2, its) := t_items d (w_mro w1 c) [] w1 in
              (set_dict w2 f (d_mark (w_dict w2 f) (map fst its)), Ok PONone)
  | PPop k default =>
      let '(w1, r) := t_get d c k w in
      match r with
      | Err _ => (w1, match default with Some v => Ok (POSlot (Val v)) | None => Err KeyErr end)
      | Ok s => let '(w', f) := base_frame d c w1 in
                (set_dict w' f (aset str_eqb k Deleted (w_dict w' f)), Ok (POSlot s))
      end
  | PPopItem => (w, Err NotImplErr)
  | PSetdefault k v =>
      let '(w', f) := base_frame d c w in
      match aget str_eqb k (w_dict w' f) with
      | Some s => (w', Ok (POSlot s))
      | None => (set_dict w' f (aset str_eqb k (Val v) (w_dict w' f)), Ok (POSlot (Val v)))
      end
  | PUpdate l => let '(w', f) := base_frame d c w in
                 (set_dict w' f (d_update (w_dict w' f) l), Ok PONone)
  | PContains k => let '(w', its) := t_items d (w_mro w c) [] w in
                   (w', Ok (POBool (memb str_eqb k (map fst its))))
  | PItems => let '(w', its) := t_items d (w_mro w c) [] w in (w', Ok (POItems its))
  | PBool => let '(w', its) := t_items d (w_mro w c) [] w in
             (w', Ok (POBool (match its with [] => false | _ => true end)))
  end.
(* properties.py:243-246 Class.properties *)
Definition class_step (c : nat) (o : pop) (w : wd) : wd * res pout :=
  match desc w c with None => (w, Err AttributeErr) | Some d => type_step d c o w end.

(* properties.py:165-228 _InstanceLookup: l is the local storage *)
Definition i_get (d c : nat) (l : pdict V) (k : str) (w : wd) : wd * res (slot V) :=
  match aget str_eqb k l with
  | Some Deleted => (w, Err KeyErr)
  | Some v => (w, Ok v)
  | None => t_get d c k w
  end.
(* schema/properties.py:218-228 *)
Definition i_items (d c : nat) (l : pdict V) (w : wd) : wd * list (str * V) :=
  let '(seen, out) := scan [] l in
  let '(w', its) := t_items d (w_mro w c) [] w in
  (w', out ++ snd (scan seen (map (fun kv => (fst kv, Val (snd kv))) its))).
(* schema/properties.py:179-228, 47-73 *)
Definition local_step (d c i : nat) (l : pdict V) (o : pop) (w : wd) : wd * res pout :=
  let put w l' := set_local w i (Storage l') in
  match o with
  | PGet k => let '(w', r) := i_get d c l k w in (w', rmap POSlot r)
  | PGetOr k v => let '(w', r) := i_get d c l k w in
                  (w', Ok (POSlot (match r with Ok s => s | Err _ => Val v end)))
  | PSet k v => (put w (aset str_eqb k (Val v) l), Ok PONone)
  | PDel k => let '(w', r) := i_get d c l k w in
              match r with
              | Err x => (w', Err x)
              | Ok _ => (put w' (aset str_eqb k Deleted l), Ok PONone)
              end
  | PClear => let '(w', its) := t_items d (w_mro w c) [] w in
              (put w' (d_mark [] (map fst its)), Ok PONone)
  | PPop k default =>
      match aget str_eqb k l with
      | Some s => (put w (adel str_eqb k l), Ok (POSlot s))
      | None => type_step d c (PPop k default) w
      end
  | PPopItem => (w, Err NotImplErr)
  | PSetdefault k v =>
      let '(w', r) := i_get d c l k w in
      match r with
      | Ok s => (w', Ok (POSlot s))
      | Err _ => match aget str_eqb k l with
                 | Some s => (w', Ok (POSlot s))
                 | None => (put w' (aset str_eqb k (Val v) l), Ok (POSlot (Val v)))
                 end
      end
  | PUpdate items => (put w (d_update l items), Ok PONone)
  | PContains k => let '(w', its) := i_items d c l w in
                   (w', Ok (POBool (memb str_eqb k (map fst its))))
  | PItems => let '(w', its) := i_items d c l w in (w', Ok (POItems its))
  | PBool => let '(w', its) := i_items d c l w in
             (w', Ok (POBool (match its with [] => false | _ => true end)))
  end.
(* schema/properties.py:252-255: calls on a plain dict; popitem takes the
   first pair (Python's choice is arbitrary) *)
Definition plain_step (l : list (str * V)) (o : pop) : list (str * V) * res pout :=
  let found k := aget str_eqb k l in
  match o with
  | PGet k => (l, match found k with Some v => Ok (POSlot (Val v)) | None => Err KeyErr end)
  | PGetOr k v => (l, Ok (POSlot (Val (match found k with Some v' => v' | None => v end))))
  | PSet k v => (aset str_eqb k v l, Ok PONone)
  | PDel k => match found k with Some _ => (adel str_eqb k l, Ok PONone) | None => (l, Err KeyErr) end
  | PClear => ([], Ok PONone)
  | PPop k default =>
      match found k with
      | Some v => (adel str_eqb k l, Ok (POSlot (Val v)))
      | None => (l, match default with Some v => Ok (POSlot (Val v)) | None => Err KeyErr end)
      end
  | PPopItem => match l with [] => (l, Err KeyErr) | kv :: l' => (l', Ok (POItems [kv])) end
  | PSetdefault k v => match found k with
                       | Some v' => (l, Ok (POSlot (Val v')))
                       | None => (aset str_eqb k v l, Ok (POSlot (Val v)))
                       end
  | PUpdate items => (fold_left (fun m kv => aset str_eqb (fst kv) (snd kv) m) items l, Ok PONone)
  | PContains k => (l, Ok (POBool (match found k with Some _ => true | None => false end)))
  | PItems => (l, Ok (POItems l))
  | PBool => (l, Ok (POBool (match l with [] => false | _ => true end)))
  end.
(* properties.py:243-256 instance.properties, which creates the local storage
   (168-177) unless something was assigned wholesale *)
Definition inst_step (i : nat) (o : pop) (w : wd) : wd * res pout :=
  let c := w_cls w i in
  match desc w c with
  | None => (w, Err AttributeErr)
  | Some d =>
      match w_local w i with
      | Whole l => let '(l', r) := plain_step l o in (set_local w i (Whole l'), r)
      | NoLocal => local_step d c i [] o (set_local w i (Storage []))
      | Storage l => local_step d c i l o w
      end
  end.
(* properties.py:258-259 instance.properties = a dict *)
Definition inst_assign (i : nat) (l : list (str * V)) (w : wd) : wd * res pout :=
  match desc w (w_cls w i) with
  | None => (w, Ok PONone)   (* an ordinary attribute, of no concern here *)
  | Some _ => (set_local w i (Whole l), Ok PONone)
  end.

(* schema/properties.py:243-259 *)
Inductive wop := OnClass (c : nat) (o : pop) | OnInst (i : nat) (o : pop) | Assign (i : nat) (l : list (str * V)).
(* schema/properties.py:243-259 *)
Definition world_step (w : wd) (o : wop) : wd * res pout :=
  match o with
  | OnClass c o => class_step c o w
  | OnInst i o => inst_step i o w
  | Assign i l => inst_assign i l w
  end.
End Props.
Arguments pop : clear implicits. Arguments pout : clear implicits. Arguments wop : clear implicits.
Arguments PGet {V}. Arguments PGetOr {V}. Arguments PSet {V}. Arguments PDel {V}. Arguments PClear {V}.
Arguments PPop {V}. Arguments PPopItem {V}. Arguments PSetdefault {V}. Arguments PUpdate {V}.
Arguments PContains {V}. Arguments PItems {V}. Arguments PBool {V}.
Arguments PONone {V}. Arguments POSlot {V}. Arguments POBool {V}. Arguments POItems {V}.
Arguments OnClass {V}. Arguments OnInst {V}. Arguments Assign {V}.
