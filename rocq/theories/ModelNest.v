(* Model of nested elements seen as Python values: set, value, u, == and
   is_empty of Dicts, SparseDicts, Lists, Arrays and MultiValues of scalars, to
   any depth (flatland/schema/containers.py, base.py, scalars.py).  Not here:
   Compound, JoinedString, Ref.  raw is kept for scalars only. *)
From Verif Require Import PyBase PyList ModelUtil ModelMap ModelScalar.

(* schema/base.py:701-741: what set takes and value gives: Python values:
   scalars, dicts and lists (or tuples). Dict keys are text or None. *)
Inductive data :=
| DVal (v : pyval)
| DMap (l : list (name * data))
| DSeq (l : list data).
(* schema/base.py:346-353: a == b. The order of dict items does not matter. *)
Fixpoint data_eq (a b : data) {struct a} : bool :=
  match a, b with
  | DVal v, DVal w => py_eq v w
  | DMap l, DMap m =>
      Nat.eqb (List.length l) (List.length m)
      && forallb (fun kv => match aget name_eqb (fst kv) m with
                            | Some d => data_eq (snd kv) d
                            | None => false
                            end) l
  | DSeq l, DSeq m =>
      (fix go (l m : list data) : bool :=
         match l, m with
         | [], [] => true
         | x :: l', y :: m' => data_eq x y && go l' m'
         | _, _ => false
         end) l m
  | _, _ => false
  end.

(* Schemas.  A field comes with its name and whether a new mapping holds it:
   always for a Dict, for a SparseDict when minimum_fields is set and the field
   is not optional (containers.py:1141-1148). *)
Inductive seqkind := OfList | OfArray | OfMulti.
(* schema/containers.py:139-181, 743-776 *)
Inductive nested :=
| NScalar (k : kind)
| NDict (own : policy) (fields : list (name * bool * nested))
| NSeq (c : seqkind) (member : nested).
(* Elements.  sub: the u of this scalar is an instance of the str subclass of
   String.serialize (scalars.py:197-203), which shows in its repr. *)
Inductive record :=
| RScalar (sub : bool) (st : scalar)
| RDict (items : list (name * record))
| RSeq (c : seqkind) (l : list record).

(* cls(): base.py:130-152, containers.py:743-750, 771-776, 1141-1148 *)
Fixpoint empty (s : nested) : record :=
  match s with
  | NScalar _ => RScalar false blank
  | NDict _ fields =>
      RDict (flat_map (fun f => if snd (fst f) : bool then [(fst (fst f), empty (snd f))] else []) fields)
  | NSeq c _ => RSeq c []
  end.

(* scalars.py:205-210: with strip the result is a plain str again; 424-425
   Constrained passes its child's on.  set stores u'' for None (scalars.py:88-91) *)
Fixpoint unstripped (k : kind) : bool :=
  match k with
  | KString st => negb st
  | KConstrained c _ | KEnum c _ => unstripped c
  | _ => false
  end.
(* schema/scalars.py:197-210 *)
Definition marked (k : kind) (st : scalar) : bool := unstripped k && negb (is_none (s_value st)).

(* util/base.py:235-249, schema/containers.py:255: iterating over a value: the
   characters of a text, the keys of a dict. Simplification: an object that is
   none of these is not iterable. *)
Definition iter_data (d : data) : res (list data) :=
  match d with
  | DSeq l => Ok l
  | DMap l => Ok (map (fun kv => DVal (match fst kv with Some s => VText s | None => VNone end)) l)
  | DVal (VText s) => Ok (map (fun c => DVal (VText [c])) s)
  | DVal _ => Err TypeErr
  end.
(* util/base.py:249: key, value = item *)
Definition unpack (d : data) : res (data * data) :=
  match iter_data d with
  | Ok [a; b] => Ok (a, b)
  | Ok _ => Err ValueErr
  | Err x => Err x
  end.
(* util/base.py:235-249 to_pairs, item by item *)
Definition pairs_of (d : data) : res (list (res (data * data))) :=
  match d with
  | DMap l => Ok (map (fun kv => Ok (DVal (match fst kv with Some s => VText s | None => VNone end), snd kv)) l)
  | _ => rmap (map unpack) (iter_data d)
  end.
(* schema/containers.py:993: the key as a field name; None: no field can be
   named so. Lists and dicts do not hash. *)
Definition as_name (d : data) : res (option name) :=
  match d with
  | DVal (VText s) => Ok (Some (Some s))
  | DVal VNone => Ok (Some None)
  | DVal _ => Ok None
  | _ => Err TypeErr
  end.

(* containers.py:251-263 Sequence.set after del self[:]: what is collected *)
Fixpoint set_members (set : data -> record * res bool) (l : list data) : list record * res bool :=
  match l with
  | [] => ([], Ok true)
  | d :: l' =>
      match set d with
      | (_, Err x) => ([], Err x)
      | (e, Ok b) => match set_members set l' with
                     | (es, Ok b') => (e :: es, Ok (b && b'))
                     | (_, Err x) => ([], Err x)
                     end
      end
  end.
(* containers.py:987-1014 Dict.set after _reset.  A field: its blank element and
   its set *)
Notation setter := (record * (record -> data -> record * res bool))%type.
(* schema/containers.py:994: policy != 'duck' *)
Definition off_policy (own : policy) : bool := match own with Duck => false | _ => true end.
(* schema/containers.py:989-1014 *)
Fixpoint set_fields (own : policy) (fields : list (name * setter)) (items : list (name * record))
         (seen : list name) (converted : bool) (pairs : list (res (data * data)))
  : list (name * record) * res bool :=
  match pairs with
  | [] => (items, match own with
                  | Strict => if forallb (fun f => memb name_eqb (fst f) seen) fields then Ok converted else Err TypeErr
                  | _ => Ok converted
                  end)
  | Err x :: _ => (items, Err x)
  | Ok (k, d) :: rest =>
      match as_name k with
      | Err x => (items, Err x)
      | Ok o =>
          match (match o with Some n => option_map (pair n) (aget name_eqb n fields) | None => None end) with
          | None => if off_policy own then (items, Err KeyErr)
                    else set_fields own fields items seen converted rest
          | Some (n, (new, set)) =>
              let '(e, r) := set (match aget name_eqb n items with Some e => e | None => new end) d in
              let items := aset name_eqb n e items in
              match r with
              | Err x => (items, Err x)
              | Ok b => set_fields own fields items (n :: seen) (converted && b) rest
              end
          end
      end
  end.
(* element.set(d): scalars.py:53-94, containers.py:229-263, 978-1014.  A scalar
   given a dict or list sees an object: [object d].  An element that is not of
   the schema does not occur; TypeErr stands for it. *)
Section Objects.
Variable object : data -> pyval.
(* schema/scalars.py:53-72: the value a scalar is given *)
Definition plain (d : data) : pyval := match d with DVal v => v | _ => object d end.
(* schema/scalars.py:53-94, schema/containers.py:229-263, 978-1014 *)
Fixpoint nested_set (s : nested) (e : record) (d : data) {struct s} : record * res bool :=
  match s, e with
  | NScalar k, RScalar sub st =>
      let '(st', r) := scalar_set k st (plain d) in
      (RScalar (match r with Ok _ => marked k st' | Err _ => sub end) st', r)
  | NDict own fields, RDict items =>
      match pairs_of d with
      | Err x => (RDict items, Err x)
      | Ok pairs =>
          let '(items, r) :=
            set_fields own (map (fun f => (fst (fst f), (empty (snd f), nested_set (snd f)))) fields)
              (flat_map (fun f => if snd (fst f) : bool then [(fst (fst f), empty (snd f))] else []) fields)
              [] true pairs in
          (RDict items, r)
      end
  | NSeq c m, RSeq _ _ =>
      match iter_data d with
      | Err _ => (RSeq c [], Ok false)
      | Ok l => match set_members (nested_set m (empty m)) l with
                | (es, Ok b) => (RSeq c es, Ok b)
                | (_, Err TypeErr) => (RSeq c [], Ok false)
                | (_, Err x) => (RSeq c [], Err x)
                end
      end
  | _, _ => (e, Err TypeErr)
  end.
End Objects.

(* element.value: containers.py:389-391 Sequence, 716-721 MultiValue, 889-892
   Mapping *)
Fixpoint record_value (e : record) : data :=
  match e with
  | RScalar _ st => DVal (s_value st)
  | RDict items => DMap (map (fun kv => (fst kv, record_value (snd kv))) items)
  | RSeq OfMulti l => match l with [] => DVal VNone | x :: _ => record_value x end
  | RSeq _ l => DSeq (map record_value l)
  end.

(* util/base.py:13-21: repr of text, Python 3.3. [printable] is
   str.isprintable of a character beyond ASCII. *)
Definition hex_digit (n : N) : N := if (n <? 10)%N then (48 + n)%N else (87 + n)%N.
(* util/base.py:13-21: digits of an escape *)
Fixpoint hex_pad (w : nat) (n : N) : str :=
  match w with O => [] | S w' => hex_pad w' (n / 16)%N ++ [hex_digit (n mod 16)%N] end.
Section Repr.
Variable printable : N -> bool.
(* util/base.py:13-21: repr of one character *)
Definition repr_char (q c : N) : str :=
  (if (c =? q) || (c =? 92) then [92; c]
   else if c =? 9 then [92; 116]
   else if c =? 10 then [92; 110]
   else if c =? 13 then [92; 114]
   else if (c <? 32) || (c =? 127) then [92; 120] ++ hex_pad 2 c
   else if c <? 127 then [c]
   else if printable c then [c]
   else if c <? 256 then [92; 120] ++ hex_pad 2 c
   else if c <? 65536 then [92; 117] ++ hex_pad 4 c
   else [92; 85] ++ hex_pad 8 c)%N.
(* util/base.py:13-21: repr: the codes of the single and the double quote are
   39 and 34 *)
Definition repr_quote (s : str) : N := if memb N.eqb 39%N s && negb (memb N.eqb 34%N s) then 34%N else 39%N.
(* util/base.py:13-21: repr of text *)
Definition py_repr (s : str) : str :=
  let q := repr_quote s in q :: flat_map (repr_char q) s ++ [q].
(* util/base.py:13-21 decode_repr; scalars.py:199-203 *)
Definition show_text (sub : bool) (s : str) : str := lit "u" ++ (if sub then lit "u" else []) ++ py_repr s.
(* schema/containers.py:886: decode_repr(k) *)
Definition show_key (n : name) : str := match n with Some s => show_text false s | None => lit "uNone" end.
(* element.u: containers.py:393-398, 701-706, 879-887 *)
Fixpoint record_u (e : record) : str :=
  let show x := match x with RScalar sub st => show_text sub (s_u st) | _ => record_u x end in
  match e with
  | RScalar _ st => s_u st
  | RDict items => lit "{" ++ join (lit ", ") (map (fun kv => show_key (fst kv) ++ lit ": " ++ show (snd kv)) items) ++ lit "}"
  | RSeq OfMulti l => match l with [] => [] | x :: _ => record_u x end
  | RSeq _ l => lit "[" ++ join (lit ", ") (map show l) ++ lit "]"
  end.
(* base.py:346-353 a == b and a != b; None is an object without value and u *)
Definition record_eq (a : record) (b : option record) : bool :=
  match b with
  | None => false
  | Some b => data_eq (record_value a) (record_value b) && str_eqb (record_u a) (record_u b)
  end.
(* schema/base.py:352-353 *)
Definition record_ne (a : record) (b : option record) : bool := negb (record_eq a b).
End Repr.

(* is_empty of containers: schema/containers.py:278-280, 894-897 and 1220-1224;
   [sparse]: a mapping is a SparseDict *)
Definition container_is_empty (sparse : bool) (e : record) : bool :=
  match e with RSeq _ [] => true | RDict [] => sparse | _ => false end.
(* bool(element): scalars.py:134-136; dict and list by length, as
   MultiValue, schema/containers.py:731-735 *)
Definition record_bool (e : record) : bool :=
  match e with
  | RScalar _ st => scalar_bool st
  | RDict [] | RSeq _ [] => false
  | _ => true
  end.

(* MultiValue.value = v and .u = s (containers.py:708-712, 723-727): a member
   made from None is appended when there is none, then the attribute of the
   first one is assigned.  [new] is that member or the exception of making it. *)
Definition assign_first (new : res scalar) (set : scalar -> scalar) (l : list scalar) : list scalar * res unit :=
  match l with
  | x :: l' => (set x :: l', Ok tt)
  | [] => match new with Ok x => ([set x], Ok tt) | Err e => ([], Err e) end
  end.
(* schema/containers.py:726: self[0].value = value *)
Definition put_value (v : pyval) (st : scalar) : scalar := Scalar (s_raw st) v (s_u st).
(* schema/containers.py:711: self[0].u = value *)
Definition put_u (s : str) (st : scalar) : scalar := Scalar (s_raw st) (s_value st) s.
(* schema/containers.py:723-726 *)
Definition multi_set_value (k : kind) (v : pyval) (l : list scalar) : list scalar * res unit :=
  assign_first (scalar_new k (Some VNone)) (put_value v) l.
(* schema/containers.py:708-711 *)
Definition multi_set_u (k : kind) (s : str) (l : list scalar) : list scalar * res unit :=
  assign_first (scalar_new k (Some VNone)) (put_u s) l.
