(* Model of mappings: flatland/schema/containers.py Mapping 737-913, Dict
   916-1114, SparseDict 1117-1240.  Keys are names (a text or None). *)
From Verif Require Import PyBase ModelUtil ModelSeq.

(* the element classes of schema/containers.py:740 field_schema: What a
   mapping uses of an element class. V: plain values; M: the content of an
   element. c_new: cls(); c_optional: cls.optional; c_set: element.set(value);
   c_set_el: element.set(other element); c_set_flat: element.set_flat(pairs);
   c_default: element.set_default(); c_empty, c_value: is_empty and value. *)
Record ecls (V M : Type) := Ecls {
  c_new : M;
  c_optional : bool;
  c_set : M -> V -> M * res bool;
  c_set_el : M -> M -> M * res bool;
  c_set_flat : M -> list (name * V) -> M * res unit;
  c_default : M -> M * res unit;
  c_empty : M -> bool;
  c_value : M -> V }.
Arguments Ecls {V M}. Arguments c_new {V M}. Arguments c_optional {V M}. Arguments c_set {V M}.
Arguments c_set_el {V M}. Arguments c_set_flat {V M}. Arguments c_default {V M}.
Arguments c_empty {V M}. Arguments c_value {V M}.

(* schema/containers.py:776, 1157, 1160, 1162 the attributes of members that
   are assigned: element objects: parent, class, instance attribute optional,
   content *)
Record eheap (M : Type) := EHeap {
  e_next : nat;
  e_parent : nat -> option nat;
  e_class : nat -> nat;
  e_optional : nat -> bool;
  e_con : nat -> M }.
Arguments EHeap {M}. Arguments e_next {M}. Arguments e_parent {M}. Arguments e_class {M}.
Arguments e_optional {M}. Arguments e_con {M}.

(* schema/containers.py:737: a mapping: its identity and the dict of its
   members *)
Record mapst (M : Type) := MapSt { m_h : eheap M; m_self : nat; m_items : list (name * nat) }.
Arguments MapSt {M}. Arguments m_h {M}. Arguments m_self {M}. Arguments m_items {M}.

(* schema/containers.py:740 field_schema: a class and its name *)
Record field := Field { f_name : name; f_class : nat }.
(* schema/containers.py:1136: minimum_fields: None, 'required', anything else
   *)
Inductive minimum := MinNone | MinRequired | MinOther.
(* schema/containers.py:919, 985 the policies of Dict.set *)
Inductive policy := Strict | Subset | Duck | OtherPolicy.
(* schema/containers.py:814-817, 978-981: an argument to set(): something
   to_pairs (util/base.py:235-249) cannot iterate, or pairs; the values are
   plain values *)
Inductive source (V : Type) := NotIterable | Pairs (it : iterable (name * V)).
Arguments NotIterable {V}. Arguments Pairs {V}.

Section Ops.
Context {V M : Type}.
(* the classes, isinstance(an instance of c, d) as [isa c d], the schema *)
Context (cls : nat -> ecls V M) (isa : nat -> nat -> bool) (fields : list field) (own_name : name).
Notation st := (mapst M).

(* Python's self[key], self.get of a dict, schema/containers.py:756, 807, 827 *)
Definition mget (k : name) (s : st) : option nat := aget name_eqb k (m_items s).
(* schema/containers.py:753, 760, 766, 862, 999 key in self *)
Definition mhas (k : name) (s : st) : bool := ahas name_eqb k (m_items s).
(* schema/containers.py:775-776, 1147-1148 dict.__setitem__ *)
Definition put (s : st) (k : name) (e : nat) : st :=
  MapSt (m_h s) (m_self s) (aset name_eqb k e (m_items s)).
(* the members of schema/containers.py:737 changed in place *)
Definition with_eheap (s : st) (h : eheap M) : st := MapSt h (m_self s) (m_items s).
(* schema/containers.py:776, 865, 1002, 1160, 1216 member_schema(...): a new
   element of class c holding m *)
Definition alloc (h : eheap M) (c : nat) (m : M) (parent : option nat) : eheap M * nat :=
  let i := e_next h in
  (EHeap (S i) (fset (e_parent h) i parent) (fset (e_class h) i c)
         (fset (e_optional h) i (c_optional (cls c))) (fset (e_con h) i m), i).
(* schema/containers.py:1157, 1162 value.parent = self *)
Definition adopt (h : eheap M) (e self : nat) : eheap M :=
  EHeap (e_next h) (fset (e_parent h) e (Some self)) (e_class h) (e_optional h) (e_con h).
(* schema/containers.py:756, 827, 863, 866, 874, 1000, 1003: a call on an
   existing element that may change its content *)
Definition on_child {A} (h : eheap M) (e : nat) (f : M -> M * res A) : eheap M * res A :=
  let '(m, r) := f (e_con h e) in
  (EHeap (e_next h) (e_parent h) (e_class h) (e_optional h) (fset (e_con h) e m), r).
(* schema/containers.py:756, 827, 1000, 1003, 1165 element.set(value) *)
Definition set_child (h : eheap M) (e : nat) (a : arg V) : eheap M * res bool :=
  on_child h e (fun m => match a with
                         | AVal v => c_set (cls (e_class h e)) m v
                         | AElem x => c_set_el (cls (e_class h e)) m (e_con h x)
                         end).

(* containers.py:899-906 field_schema_mapping: the last field of a name *)
Definition field_map : list (name * nat) :=
  fold_left (fun m f => aset name_eqb (f_name f) (f_class f) m) fields [].
(* containers.py:908-913 _field_schema_for: the first *)
Fixpoint first_field (k : name) (l : list field) : option nat :=
  match l with
  | [] => None
  | f :: l' => if name_eqb (f_name f) k then Some (f_class f) else first_field k l'
  end.
(* schema/containers.py:908-913 *)
Definition schema_for (k : name) : option nat := first_field k fields.

(* ------------------------------ Mapping ------------------------------ *)
(* containers.py:764-766 may_contain *)
Definition map_may (s : st) (k : name) : bool := mhas k s.
(* containers.py:771-776 _reset *)
Definition fresh_member (s : st) (f : field) : st :=
  let '(h, e) := alloc (m_h s) (f_class f) (c_new (cls (f_class f))) (Some (m_self s)) in
  put (with_eheap s h) (f_name f) e.
(* schema/containers.py:771-776 *)
Definition reset (s : st) : st := fold_left fresh_member fields s.
(* containers.py:752-756 __setitem__ *)
Definition map_setitem (s : st) (k : name) (a : arg V) : st * res unit :=
  match mget k s with
  | None => (s, Err TypeErr)
  | Some e => let '(h, r) := set_child (m_h s) e a in (with_eheap s h, rmap (fun _ => tt) r)
  end.
(* containers.py:758-762 __delitem__, 781-784 pop *)
Definition map_delitem (s : st) (k : name) : st * res unit :=
  if mhas k s then (s, Err TypeErr) else (s, Err KeyErr).
(* containers.py:786-795 update: at most one positional, then keywords *)
Fixpoint set_items (setitem : st -> name -> arg V -> st * res unit) (s : st)
         (l : list (name * arg V)) (last : option exn) : st * res unit :=
  match l with
  | [] => (s, match last with None => Ok tt | Some x => Err x end)
  | (k, a) :: l' => let '(s', r) := setitem s k a in
                    match r with Ok _ => set_items setitem s' l' last | Err x => (s', Err x) end
  end.
(* schema/containers.py:786-795 *)
Definition map_update (setitem : st -> name -> arg V -> st * res unit) (s : st)
           (dictish : list (iterable (name * arg V))) (kwargs : list (name * arg V)) : st * res unit :=
  match dictish with
  | _ :: _ :: _ => (s, Err TypeErr)
  | [it] => let '(s', r) := set_items setitem s (it_items it) (it_end it) in
            match r with Ok _ => set_items setitem s' kwargs None | Err x => (s', Err x) end
  | [] => set_items setitem s kwargs None
  end.
(* containers.py:801-807 get *)
Definition map_get (s : st) (k : name) : res nat :=
  match mget k s with Some e => Ok e | None => Err KeyErr end.
(* containers.py:814-835 Mapping.set *)
Fixpoint map_set_all (s : st) (l : list (name * V)) (last : option exn) (seen : list name) (conv : bool)
  : st * res bool :=
  match l with
  | [] => match last with
          | Some x => (s, Err x)
          | None => (s, if forallb (fun k => memb name_eqb k seen) (keys (m_items s))
                        then Ok conv else Err TypeErr)
          end
  | (k, v) :: l' =>
      match mget k s with
      | None => (s, Err KeyErr)
      | Some e => let '(h, r) := set_child (m_h s) e (AVal v) in
                  match r with
                  | Ok b => map_set_all (with_eheap s h) l' last (k :: seen) (conv && b)
                  | Err x => (with_eheap s h, Err x)
                  end
      end
  end.
(* schema/containers.py:814-835 *)
Definition map_set (s : st) (src : source V) : st * res bool :=
  match src with
  | NotIterable => (s, Err TypeErr)
  | Pairs it => map_set_all (reset s) (it_items it) (it_end it) [] true
  end.

(* schema/containers.py:848, 859 key.startswith(prefix), for the following:
   containers.py:837-866 _set_flat; raw is not modelled *)
Definition py_startswith (key : name) (prefix : name) : res bool :=
  match key, prefix with
  | None, _ => Err AttributeErr
  | Some _, None => Err TypeErr
  | Some k, Some p => Ok (starts_with p k)
  end.
(* schema/containers.py:838-850 *)
Fixpoint possibles (prefix : str) (pairs : list (name * V)) : res (list (name * V)) :=
  match pairs with
  | [] => Ok []
  | (key, v) :: rest =>
      bind (py_startswith key (Some prefix)) (fun b =>
      rmap (fun l => if b then (option_map (skipn (List.length prefix)) key, v) :: l else l)
           (possibles prefix rest))
  end.
(* schema/containers.py:857-860 *)
Fixpoint accumulate (fname : name) (pairs : list (name * V)) : res (list (name * V)) :=
  match pairs with
  | [] => Ok []
  | (key, v) :: rest =>
      bind (py_startswith key fname) (fun b =>
      rmap (fun l => if b then (key, v) :: l else l) (accumulate fname rest))
  end.
(* schema/containers.py:855-866 *)
Fixpoint flat_fields (setitem : st -> name -> arg V -> st * res unit) (s : st)
         (fs : list field) (ps : list (name * V)) : st * res unit :=
  match fs with
  | [] => (s, Ok tt)
  | f :: fs' =>
      match accumulate (f_name f) ps with
      | Err x => (s, Err x)
      | Ok [] => flat_fields setitem s fs' ps
      | Ok ((_ :: _) as acc) =>
          (* self[field] = schema() when the field is missing *)
          let '(s1, r1) :=
            if mhas (f_name f) s then (s, Ok tt)
            else let '(h, e) := alloc (m_h s) (f_class f) (c_new (cls (f_class f))) None in
                 setitem (with_eheap s h) (f_name f) (AElem e) in
          match r1 with
          | Err x => (s1, Err x)
          | Ok _ =>
              match mget (f_name f) s1 with
              | None => (s1, Err KeyErr)
              | Some e =>
                  let '(h, r) := on_child (m_h s1) e (fun m => c_set_flat (cls (e_class (m_h s1) e)) m acc) in
                  match r with
                  | Ok _ => flat_fields setitem (with_eheap s1 h) fs' ps
                  | Err x => (with_eheap s1 h, Err x)
                  end
              end
          end
      end
  end.
(* schema/containers.py:837-866 *)
Definition map_set_flat (setitem : st -> name -> arg V -> st * res unit) (s : st)
           (pairs : list (name * V)) (sep : str) : st * res unit :=
  match (match own_name with None => Ok pairs | Some n => possibles (n ++ sep) pairs end) with
  | Err x => (s, Err x)
  | Ok [] => (s, Ok tt)
  | Ok ps => flat_fields setitem s fields ps
  end.

(* containers.py:868-874 set_default; each child in turn *)
Fixpoint default_children (s : st) (es : list nat) : st * res unit :=
  match es with
  | [] => (s, Ok tt)
  | e :: es' =>
      let '(h, r) := on_child (m_h s) e (c_default (cls (e_class (m_h s) e))) in
      match r with
      | Ok _ => default_children (with_eheap s h) es'
      | Err x => (with_eheap s h, Err x)
      end
  end.
(* schema/containers.py:869-870 default_value *)
Inductive mdefault := MDNone | MDUnspecified | MDValue (src : source V).
(* schema/containers.py:868-874 *)
Definition map_set_default (set : st -> source V -> st * res bool) (s : st) (d : mdefault) : st * res unit :=
  match d with
  | MDValue src => let '(s', r) := set s src in (s', rmap (fun _ => tt) r)
  | _ => default_children s (map snd (m_items s))
  end.

(* ------------------------------ SparseDict ------------------------------ *)
Context (minf : minimum).
(* containers.py:1141-1148 _reset *)
Definition required (f : field) : bool :=
  match minf with MinNone => false | _ => negb (c_optional (cls (f_class f))) end.
(* schema/containers.py:1141-1148 *)
Definition sparse_reset (s : st) : st :=
  fold_left (fun s f => if required f then fresh_member s f else s) fields
            (MapSt (m_h s) (m_self s) []).
(* containers.py:1138-1139 may_contain *)
Definition sparse_may (s : st) (k : name) : bool :=
  mhas k s || match schema_for k with Some _ => true | None => false end.
(* schema/containers.py:1150-1165: isinstance(value, schema) and value.parent
   = self; dict.__setitem__ *)
Definition sparse_setitem (s : st) (k : name) (a : arg V) : st * res unit :=
  let take e := (put (with_eheap s (adopt (m_h s) e (m_self s))) k e, Ok tt) in
  match mget k s, schema_for k with
  | None, None => (s, Err TypeErr)
  | None, Some c =>
      match a with
      | AElem x =>
          if isa (e_class (m_h s) x) c then take x
          else let '(m, r) := c_set_el (cls c) (c_new (cls c)) (e_con (m_h s) x) in
               match r with
               | Err e => (s, Err e)
               | Ok _ => let '(h, e) := alloc (m_h s) c m (Some (m_self s)) in (put (with_eheap s h) k e, Ok tt)
               end
      | AVal v =>
          let '(m, r) := c_set (cls c) (c_new (cls c)) v in
          match r with
          | Err e => (s, Err e)
          | Ok _ => let '(h, e) := alloc (m_h s) c m (Some (m_self s)) in (put (with_eheap s h) k e, Ok tt)
          end
      end
  | Some e, sc =>
      match sc, a with
      | None, _ => (s, Err TypeErr)   (* isinstance(value, None) *)
      | Some c, AElem x =>
          if isa (e_class (m_h s) x) c then take x
          else let '(h, r) := set_child (m_h s) e a in (with_eheap s h, rmap (fun _ => tt) r)
      | Some c, AVal _ =>
          let '(h, r) := set_child (m_h s) e a in (with_eheap s h, rmap (fun _ => tt) r)
      end
  end.
(* containers.py:1167-1190 __delitem__ *)
Definition sparse_del (s : st) (k : name) : st := MapSt (m_h s) (m_self s) (adel name_eqb k (m_items s)).
(* schema/containers.py:1167-1190 *)
Definition sparse_delitem (s : st) (k : name) : st * res unit :=
  match minf with
  | MinNone => if mhas k s then (sparse_del s k, Ok tt)
               else if sparse_may s k then (s, Err KeyErr) else (s, Err TypeErr)
  | _ =>
      match mget k s with
      | Some e => if e_optional (m_h s) e then (sparse_del s k, Ok tt) else (s, Err TypeErr)
      | None => match schema_for k with
                | None => (s, Err TypeErr)
                | Some c => if c_optional (cls c) then (s, Err KeyErr) else (s, Err TypeErr)
                end
      end
  end.
(* containers.py:1198-1204 pop *)
Definition sparse_pop (s : st) (k : name) : st * res nat :=
  match mget k s with
  | None => (s, Err KeyErr)
  | Some e => match minf with
              | MinRequired => if e_optional (m_h s) e then (sparse_del s k, Ok e) else (s, Err TypeErr)
              | _ => (sparse_del s k, Ok e)
              end
  end.
(* containers.py:1206-1218 setdefault; the result is a plain value *)
Definition sparse_setdefault (s : st) (k : name) (d : V) : st * res V :=
  if negb (sparse_may s k) then (s, Err TypeErr) else
  let finish s e :=
    let '(h, r) := set_child (m_h s) e (AVal d) in (with_eheap s h, rmap (fun _ => d) r) in
  match mget k s with
  | Some e => if c_empty (cls (e_class (m_h s) e)) (e_con (m_h s) e) then finish s e
              else (s, Ok (c_value (cls (e_class (m_h s) e)) (e_con (m_h s) e)))
  | None =>
      match aget name_eqb k field_map with
      | None => (s, Err KeyErr)
      | Some c =>
          let '(h, e) := alloc (m_h s) c (c_new (cls c)) None in
          let '(s', r) := sparse_setitem (with_eheap s h) k (AElem e) in
          match r with Ok _ => finish s' e | Err x => (s', Err x) end
      end
  end.

(* ------------------------------ Dict.set ------------------------------ *)
(* schema/containers.py:916 Dict, 1117 SparseDict *)
Inductive flavour := IsDict | IsSparse.
(* schema/containers.py:982: 771-776 or 1141-1148 *)
Definition do_reset (fl : flavour) (s : st) : st :=
  match fl with IsDict => reset s | IsSparse => sparse_reset s end.
(* schema/containers.py:1002: 752-756 or 1150-1165 *)
Definition do_setitem (fl : flavour) : st -> name -> arg V -> st * res unit :=
  match fl with IsDict => map_setitem | IsSparse => sparse_setitem end.
(* containers.py:978-1014 set; given: the policy argument; pol: the class's *)
Fixpoint dict_set_all (fl : flavour) (pol : policy) (s : st) (l : list (name * V)) (last : option exn)
         (seen : list name) (conv : bool) : st * res bool :=
  match l with
  | [] =>
      match last with
      | Some x => (s, Err x)
      | None => match pol with
                | Strict => (s, if forallb (fun k => memb name_eqb k seen) (keys field_map)
                                then Ok conv else Err TypeErr)
                | _ => (s, Ok conv)
                end
      end
  | (k, v) :: l' =>
      match aget name_eqb k field_map with
      | None => match pol with
                | Duck => dict_set_all fl pol s l' last seen conv
                | _ => (s, Err KeyErr)
                end
      | Some c =>
          let '(s1, r1) :=
            match mget k s with
            | Some e => (s, Ok e)
            | None => let '(h, e) := alloc (m_h s) c (c_new (cls c)) None in
                      let '(s', r) := do_setitem fl (with_eheap s h) k (AElem e) in
                      (s', rmap (fun _ => e) r)
            end in
          match r1 with
          | Err x => (s1, Err x)
          | Ok e => let '(h, r) := set_child (m_h s1) e (AVal v) in
                    match r with
                    | Ok b => dict_set_all fl pol (with_eheap s1 h) l' last (k :: seen) (conv && b)
                    | Err x => (with_eheap s1 h, Err x)
                    end
          end
      end
  end.
(* schema/containers.py:978-1014 *)
Definition dict_set (fl : flavour) (own : policy) (s : st) (src : source V) (given : option policy)
  : st * res bool :=
  match src with
  | NotIterable => (s, Err TypeErr)
  | Pairs it =>
      let s0 := do_reset fl s in
      match given with
      | Some OtherPolicy => (s0, Err AssertErr)
      | Some p => dict_set_all fl p s0 (it_items it) (it_end it) [] true
      | None => dict_set_all fl own s0 (it_items it) (it_end it) [] true
      end
  end.

(* containers.py:1226-1240 SparseDict.set_default; from_defaults may raise *)
Fixpoint sparse_defaults (s : st) (fs : list field) : st * res unit :=
  match fs with
  | [] => (s, Ok tt)
  | f :: fs' =>
      if c_optional (cls (f_class f)) then sparse_defaults s fs' else
      let '(m, r) := c_default (cls (f_class f)) (c_new (cls (f_class f))) in
      match r with
      | Err x => (s, Err x)
      | Ok _ => let '(h, e) := alloc (m_h s) (f_class f) m None in
                let '(s', r') := sparse_setitem (with_eheap s h) (f_name f) (AElem e) in
                match r' with Ok _ => sparse_defaults s' fs' | Err x => (s', Err x) end
      end
  end.
(* schema/containers.py:1226-1240 *)
Definition sparse_set_default (own : policy) (s : st) (d : mdefault) : st * res unit :=
  match d with
  | MDValue src => let '(s', r) := dict_set IsSparse own s src None in (s', rmap (fun _ => tt) r)
  | _ => match minf with
         | MinNone => (sparse_reset s, Ok tt)
         | MinRequired => sparse_defaults (sparse_reset s) fields
         | MinOther => (s, Err RuntimeErr)
         end
  end.

(* containers.py:1016-1092 set_by_object.  obj a is getattr(obj, a), None when
   there is no such attribute.  [order] is the order in which the set of
   attributes is iterated; attributes outside that set are skipped here.
   hasattr(obj, None) is a TypeError, met before anything is set. *)
Definition attributes (fs : list name) (omit : list name) (rename : list (name * name)) : list name :=
  let attrs := fold_left (fun acc kv => if memb name_eqb (snd kv) acc && negb (memb name_eqb (fst kv) acc)
                                        then acc ++ [fst kv] else acc) rename fs in
  filter (fun a => negb (memb name_eqb a omit)) attrs.
(* schema/containers.py:1016-1092 *)
Definition set_by_object (fl : flavour) (own : policy) (s : st) (obj : name -> option V)
           (include omit : option (list name)) (rename : option (list (name * name)))
           (order : list name) : st * res unit :=
  let fs := keys (m_items s) in
  let attrs := attributes fs (items omit) (items rename) in
  let possible := flat_map (fun a => if memb name_eqb a attrs
                                     then match obj a with Some v => [(a, v)] | None => [] end
                                     else []) order in
  if memb name_eqb None attrs then (s, Err TypeErr) else
  match keyslice_pairs name_eqb possible include omit rename None with
  | Err x => (s, Err x)
  | Ok sliced =>
      let final := py_dict name_eqb (filter (fun kv => memb name_eqb (fst kv) fs) sliced) in
      let '(s', r) := dict_set fl own s (Pairs (Iter final None)) None in
      (s', rmap (fun _ => tt) r)
  end.
(* containers.py:1109-1114 slice *)
Definition pair_values (s : st) : list (name * V) :=
  map (fun ke => (fst ke, c_value (cls (e_class (m_h s) (snd ke))) (e_con (m_h s) (snd ke)))) (m_items s).
(* schema/containers.py:1109-1114 *)
Definition dict_slice (s : st) (include omit : option (list name)) (rename : option (list (name * name)))
           (key : option (name -> name)) : res (list (name * V)) :=
  rmap (py_dict name_eqb) (keyslice_pairs name_eqb (pair_values s) include omit rename key).
(* containers.py:1106-1107 setattr in turn on obj; the name None is a TypeError.
   The dict is taken in insertion order, the real order is unspecified. *)
Fixpoint assign (obj : name -> option V) (data : list (name * V)) : (name -> option V) * res unit :=
  match data with
  | [] => (obj, Ok tt)
  | (None, _) :: _ => (obj, Err TypeErr)
  | (k, v) :: data' => assign (fun a => if name_eqb a k then Some v else obj a) data'
  end.
(* containers.py:1094-1107 update_object *)
Definition update_object (s : st) (obj : name -> option V) (include omit : option (list name))
           (rename : option (list (name * name))) (key : name -> name) : (name -> option V) * res unit :=
  match dict_slice s include omit rename (Some key) with
  | Err x => (obj, Err x)
  | Ok data => assign obj data
  end.

(* containers.py:743-750 construction *)
Definition construct_map (fl : flavour) (own : policy) (h : eheap M) (self : nat) (value : option (source V))
  : st * res unit :=
  let s0 := MapSt h self [] in
  match fields with
  | [] => (s0, Err TypeErr)
  | _ => let s1 := do_reset fl s0 in
         match value with
         | None => (s1, Ok tt)
         | Some src => let '(s2, r) := dict_set fl own s1 src None in (s2, rmap (fun _ => tt) r)
         end
  end.

(* containers.py:949-976 from_object(obj, ..., value=...) *)
Definition from_object (fl : flavour) (own : policy) (h : eheap M) (self : nat) (value : option (source V))
           (obj : name -> option V) (include omit : option (list name)) (rename : option (list (name * name)))
           (order : list name) : st * res unit :=
  let '(s, r) := construct_map fl own h self value in
  match r with
  | Ok _ => set_by_object fl own s obj include omit rename order
  | Err x => (s, Err x)
  end.

(* ------------------------------ histories ------------------------------ *)
(* the public methods of schema/containers.py:737-1240 as steps of a history *)
Inductive mop :=
| MSetItem (k : name) (a : arg V) | MDelItem (k : name) | MClear | MPopItem | MPop (k : name)
| MUpdate (dictish : list (iterable (name * arg V))) (kwargs : list (name * arg V))
| MSetdefault (k : name) (d : V) | MGet (k : name)
| MSet (src : source V) (p : option policy)
| MSetFlat (pairs : list (name * V)) (sep : str) | MSetDefault (d : mdefault)
| MSetByObject (obj : name -> option V) (include omit : option (list name))
               (rename : option (list (name * name))) (order : list name).
(* what the methods of schema/containers.py:737-1240 return *)
Inductive mout := MONone | MOBool (b : bool) | MOElem (e : nat) | MOValue (v : V).
(* the result of a method of schema/containers.py:737-1240 *)
Definition mret {A} (f : A -> mout) (x : st * res A) : st * res mout := let '(s, r) := x in (s, rmap f r).
(* a method of schema/containers.py:737-1240 that returns None *)
Definition mnone (_ : unit) : mout := MONone.
(* schema/containers.py:916-1114 one call of a Dict *)
Definition dict_step (own : policy) (s : st) (o : mop) : st * res mout :=
  match o with
  | MSetItem k a => mret mnone (map_setitem s k a)
  | MDelItem k | MPop k => mret mnone (map_delitem s k)
  | MClear | MPopItem | MSetdefault _ _ => (s, Err TypeErr)
  | MUpdate d kw => mret mnone (map_update map_setitem s d kw)
  | MGet k => (s, rmap MOElem (map_get s k))
  | MSet src p => mret MOBool (dict_set IsDict own s src p)
  | MSetFlat ps sep => mret mnone (map_set_flat map_setitem s ps sep)
  | MSetDefault d => mret mnone (map_set_default (fun s src => dict_set IsDict own s src None) s d)
  | MSetByObject obj inc om ren ord => mret mnone (set_by_object IsDict own s obj inc om ren ord)
  end.
(* schema/containers.py:1117-1240 one call of a SparseDict *)
Definition sparse_step (own : policy) (s : st) (o : mop) : st * res mout :=
  match o with
  | MSetItem k a => mret mnone (sparse_setitem s k a)
  | MDelItem k => mret mnone (sparse_delitem s k)
  | MPop k => mret MOElem (sparse_pop s k)
  | MClear => (sparse_reset s, Ok MONone)
  | MPopItem => (s, Err NotImplErr)
  | MSetdefault k d => mret MOValue (sparse_setdefault s k d)
  | MUpdate d kw => mret mnone (map_update sparse_setitem s d kw)
  | MGet k => (s, rmap MOElem (map_get s k))
  | MSet src p => mret MOBool (dict_set IsSparse own s src p)
  | MSetFlat ps sep => mret mnone (map_set_flat sparse_setitem s ps sep)
  | MSetDefault d => mret mnone (sparse_set_default own s d)
  | MSetByObject obj inc om ren ord => mret mnone (set_by_object IsSparse own s obj inc om ren ord)
  end.
End Ops.
Arguments MSetItem {V}. Arguments MDelItem {V}. Arguments MClear {V}. Arguments MPopItem {V}. Arguments MPop {V}.
Arguments MUpdate {V}. Arguments MSetdefault {V}. Arguments MGet {V}. Arguments MSet {V}.
Arguments MSetFlat {V}. Arguments MSetDefault {V}. Arguments MSetByObject {V}.
Arguments mop : clear implicits. Arguments mout : clear implicits. Arguments mdefault : clear implicits.
Arguments MDNone {V}. Arguments MDUnspecified {V}. Arguments MDValue {V}.

(* containers.py:925-947 Dict.of: names must be unique *)
Definition dict_of (fs : list field) : res (list field) :=
  let unique_names := keys (py_dict name_eqb (map (fun f => (f_name f, tt)) fs)) in
  if Nat.eqb (List.length unique_names) (List.length fs) then Ok fs else Err TypeErr.
(* containers.py:894-897, 1220-1224 is_empty *)
Definition map_is_empty {M} (fl : flavour) (s : mapst M) : bool :=
  match fl with IsDict => false | IsSparse => match m_items s with [] => true | _ => false end end.
