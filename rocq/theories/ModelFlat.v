(* Model of flattening: flatten, flattened_name and set_flat
   (flatland/schema/base.py, containers.py, scalars.py) for trees of scalars,
   Dicts, SparseDicts, Compounds, Lists, Arrays and JoinedStrings.  Not here: Ref.
   raw is kept for scalars only. *)
From Verif Require Import PyBase PyList ModelUtil ModelSeq ModelMap ModelPaths ModelScalar ModelCompound.

(* schema/compound.py:113-126, 147-149, 157-159: what the compose of a Compound
   makes of the states of its children: the text, and whether the value is true.
   It does not raise here (C93 has the other case) and sees those children that
   are scalars. *)
Definition composer := list (name * scalar) -> str * bool.
(* schema/compound.py:246-294: the attributes of a JoinedString class; the
   members are scalars of type j_kind named j_child *)
Record joined := Joined { j_glue : str; j_how : splitter; j_prune : bool; j_child : name; j_kind : kind }.

(* Schemas.  A field of a mapping comes with a flag: does a new mapping hold the
   field?  Always for Dict; for SparseDict when minimum_fields is set and the
   field is not optional (containers.py:1141-1148).  Field names of one mapping
   are distinct (C19 treats the other case).  A Compound is a mapping with a
   composer, and holds all its fields.
   SList: prune_empty, maximum_set_flat_members, member_schema.  SArray is Array
   and MultiValue. *)
Inductive schema :=
| SScalar (n : name) (k : kind)
| SDict (n : name) (cp : option composer) (fields : list (bool * schema))
| SList (n : name) (prune : bool) (limit : Z) (member : schema)
| SArray (n : name) (prune : bool) (member : schema)
| SJoined (n : name) (j : joined).
(* schema/base.py:69: cls.name *)
Definition schema_name (s : schema) : name :=
  match s with SScalar n _ | SDict n _ _ | SList n _ _ _ | SArray n _ _ | SJoined n _ => n end.

(* schema/base.py:125-152: Elements, with their names *)
Inductive element :=
| EScalar (n : name) (st : scalar)
| EDict (n : name) (cp : option composer) (items : list (name * element))
| EList (n : name) (l : list element)
| EArray (n : name) (l : list element)
| EJoined (n : name) (j : joined) (l : list scalar).

(* cls(): base.py:130-152, containers.py:771-776, 1141-1148 *)
Fixpoint fresh (s : schema) : element :=
  match s with
  | SScalar n _ => EScalar n blank
  | SDict n cp fields =>
      EDict n cp (flat_map (fun f => if fst f : bool then [(schema_name (snd f), fresh (snd f))] else []) fields)
  | SList n _ _ _ => EList n []
  | SArray n _ _ => EArray n []
  | SJoined n j => EJoined n j []
  end.

(* ------------------------------ keys ------------------------------ *)
(* schema/base.py:743-754: the pairs given to set_flat *)
Definition flat_pairs := list (name * pyval).
(* schema/containers.py:565, 660, 680: value == u'' *)
Definition is_blank (v : pyval) : bool := py_eq v (VText []).
(* schema/containers.py:577, 675: text or None *)
Definition or_none (s : str) : name := match s with [] => None | _ => Some s end.
(* schema/containers.py:555-559, 669: $ : at the end, or before a newline at
   the end *)
Definition at_end (s : str) : bool := match s with [] => true | [c] => N.eqb c 10 | _ => false end.
(* schema/containers.py:555-559, 669-670: what (?:sep|$) leaves *)
Definition after_sep (sep s : str) : option str :=
  if starts_with sep s then Some (skipn (List.length sep) s)
  else if at_end s then Some s else None.
(* schema/containers.py:555-559: the length of the digits at the beginning *)
Fixpoint digit_run (s : str) : nat :=
  match s with c :: s' => if is_digit c then S (digit_run s') else O | [] => O end.
(* schema/containers.py:555-559: (\d+)(?:sep|$) : the longest run of digits
   that can be followed so *)
Fixpoint index_match (k : nat) (sep s : str) : option (str * str) :=
  match k with
  | O => None
  | S k' => match after_sep sep (skipn k s) with
            | Some r => Some (firstn k s, r)
            | None => index_match k' sep s
            end
  end.
(* containers.py:554-559 the regex of a List matched against a key; re_uescape
   makes a pattern for exactly the text it is given (C55) *)
Definition list_prefix (n : name) (sep : str) : str :=
  match n with Some ((_ :: _) as x) => x ++ sep | _ => [] end.
(* schema/containers.py:554-559, 567: regex.match(key) *)
Definition list_key (n : name) (sep key : str) : option (str * str) :=
  let p := list_prefix n sep in
  if starts_with p key
  then let r := skipn (List.length p) key in index_match (digit_run r) sep r
  else None.
(* containers.py:669-670, 675: the regex of an Array; what follows the match *)
Definition array_key (x sep key : str) : option str :=
  if starts_with x key then after_sep sep (skipn (List.length x) key) else None.

(* ------------------------------ List ------------------------------ *)
(* containers.py:564-578 the pairs of every index; a key None is no string for
   regex.match *)
Definition add_index (i : N) (p : name * pyval) (g : list (N * flat_pairs)) : list (N * flat_pairs) :=
  aset N.eqb i (match aget N.eqb i g with Some l => l ++ [p] | None => [p] end) g.
(* schema/containers.py:564-578 *)
Fixpoint collect (n : name) (sep : str) (prune : bool) (g : list (N * flat_pairs)) (pairs : flat_pairs)
  : res (list (N * flat_pairs)) :=
  match pairs with
  | [] => Ok g
  | (key, v) :: rest =>
      if is_blank v && prune then collect n sep prune g rest else
      match key with
      | None => Err TypeErr
      | Some k =>
          match list_key n sep k with
          | None => collect n sep prune g rest
          | Some (ds, r) =>
              match py_int ds with
              | Ok i => collect n sep prune (add_index (Z.to_N i) (or_none r, v) g) rest
              | Err TypeErr => collect n sep prune g rest
              | Err x => Err x
              end
          end
      end
  end.
(* schema/containers.py:586: sorted(indexes) *)
Fixpoint insert_index (i : N) (l : list N) : list N :=
  match l with [] => [i] | j :: l' => if (i <=? j)%N then i :: l else j :: insert_index i l' end.
(* schema/containers.py:586: sorted(indexes) *)
Definition sorted_indexes (g : list (N * flat_pairs)) : list N := fold_right insert_index [] (keys g).
(* schema/containers.py:595: max(indexes) *)
Fixpoint max_of (l : list N) : N := match l with [] => 0%N | i :: l' => N.max i (max_of l') end.
(* schema/containers.py:586-588: the indexes to build, with their pairs *)
Fixpoint up_to (offset limit : Z) (l : list N) : list N :=
  match l with
  | [] => []
  | i :: l' => if (offset =? limit)%Z then [] else i :: up_to (offset + 1) limit l'
  end.
(* schema/containers.py:583-601 *)
Definition list_plan (prune : bool) (limit : Z) (g : list (N * flat_pairs)) : list (option flat_pairs) :=
  if prune then map (fun i => aget N.eqb i g) (up_to 0 limit (sorted_indexes g))
  else map (fun i => aget N.eqb (N.of_nat i) g)
           (seq 0 (Z.to_nat (Z.min (Z.of_N (max_of (keys g)) + 1) limit))).
(* schema/containers.py:589-591, 597-601: append a new member for each, and
   set it *)
Fixpoint build (mk : element) (set : flat_pairs -> element * res unit) (plan : list (option flat_pairs))
  : list element * res unit :=
  match plan with
  | [] => ([], Ok tt)
  | None :: rest | Some [] :: rest => let '(l, r) := build mk set rest in (mk :: l, r)
  | Some ps :: rest =>
      let '(e, r) := set ps in
      match r with
      | Err x => ([e], Err x)
      | Ok _ => let '(l, r) := build mk set rest in (e :: l, r)
      end
  end.

(* ------------------------------ Array ------------------------------ *)
(* containers.py:658-683: the key the new member is set with; None: the pair is
   skipped *)
Definition truthy_name (n : name) : bool := match n with Some (_ :: _) => true | _ => false end.
(* schema/containers.py:657-683 *)
Definition array_pair (n child : name) (sep : str) (prune : bool) (p : name * pyval) : res (option (name * pyval)) :=
  let '(key, v) := p in
  match n with
  | Some ((_ :: _) as x) =>
      match key with
      | None => Err TypeErr
      | Some k =>
          match array_key x sep k with
          | None => Ok None
          | Some r =>
              let remainder := or_none r in
              if truthy_name child && negb (truthy_name remainder) then Ok None
              else if truthy_name remainder && negb (truthy_name child) then Ok None
              else if prune && is_blank v && name_eqb remainder child then Ok None
              else Ok (Some (remainder, v))
          end
      end
  | _ =>
      let child_prefix := match child with Some c => c | None => [] end in
      if prune && is_blank v && name_eqb key (Some child_prefix) then Ok None else
      let key := if name_eqb key (Some []) then None else key in
      if truthy_name child && negb (name_eqb key child) then Ok None
      else Ok (Some (key, v))
  end.
(* a member from each; from_flat (base.py:298-320) *)
Fixpoint array_members (make : name * pyval -> res (option (name * pyval)))
         (set : flat_pairs -> element * res unit) (pairs : flat_pairs) : list element * res unit :=
  match pairs with
  | [] => ([], Ok tt)
  | p :: rest =>
      match make p with
      | Err x => ([], Err x)
      | Ok None => array_members make set rest
      | Ok (Some q) =>
          let '(e, r) := set [q] in
          match r with
          | Err x => ([], Err x)
          | Ok _ => let '(l, r) := array_members make set rest in (e :: l, r)
          end
      end
  end.
(* schema/containers.py:654: issubclass(member_schema, Container) *)
Definition is_container (s : schema) : bool := match s with SScalar _ _ => false | _ => true end.

(* ------------------------------ set_flat ------------------------------ *)
(* scalars.py:123-127 *)
Fixpoint flat_first (n : name) (pairs : flat_pairs) : option pyval :=
  match pairs with
  | [] => None
  | (k, v) :: rest => if name_eqb k n then Some v else flat_first n rest
  end.
(* schema/compound.py:296-302: text is split, other values are no sequences
   (objects are taken to be none) *)
Definition joined_input (v : pyval) : joined_arg := match v with VText s => JText s | _ => JNotIterable end.
(* base.py:743-754 set_flat; _set_flat: scalars.py:123-127, containers.py:837-866
   (Mapping; Compound, compound.py:180-181), 548-601 (List), 647-683 (Array),
   compound.py:319-320 (JoinedString).  An element that is not of the
   schema does not occur; TypeErr stands for it.  Pairs are a list (a generator
   would be used up by the first field of a nameless mapping, 840-848). *)
Fixpoint set_flat (s : schema) (sep : str) (e : element) (pairs : flat_pairs) {struct s} : element * res unit :=
  match s, e with
  | SScalar _ k, EScalar m st =>
      let st := Scalar None (s_value st) (s_u st) in
      match flat_first m pairs with
      | Some v => let '(st, r) := scalar_set k st v in (EScalar m st, rmap (fun _ => tt) r)
      | None => (EScalar m st, Ok tt)
      end
  | SDict _ _ fields, EDict m cp items =>
      match (match m with None => Ok pairs | Some x => possibles (x ++ sep) pairs end) with
      | Err x => (e, Err x)
      | Ok [] => (e, Ok tt)
      | Ok ps =>
          let '(items, r) :=
            (fix go (fs : list (bool * schema)) (items : list (name * element)) : list (name * element) * res unit :=
               match fs with
               | [] => (items, Ok tt)
               | (_, f) :: fs' =>
                   match accumulate (schema_name f) ps with
                   | Err x => (items, Err x)
                   | Ok [] => go fs' items
                   | Ok acc =>
                       let old := match aget name_eqb (schema_name f) items with Some u => u | None => fresh f end in
                       let '(u, r) := set_flat f sep old acc in
                       let items := aset name_eqb (schema_name f) u items in
                       match r with Ok _ => go fs' items | Err x => (items, Err x) end
                   end
               end) fields items in
          (EDict m cp items, r)
      end
  | SList _ prune limit mem, EList m _ =>
      match collect m sep prune [] pairs with
      | Err x => (EList m [], Err x)
      | Ok [] => (EList m [], Ok tt)
      | Ok g => let '(l, r) := build (fresh mem) (set_flat mem sep (fresh mem)) (list_plan prune limit g) in
                (EList m l, r)
      end
  | SArray _ prune mem, EArray m _ =>
      if is_container mem then (EArray m [], Err AssertErr)
      else let '(l, r) := array_members (array_pair m (schema_name mem) sep prune)
                                        (set_flat mem (lit "_") (fresh mem)) pairs in
           (EArray m l, r)
  | SJoined _ j, EJoined m _ old =>
      match flat_first m pairs with
      | Some v => let '(l, r) := joined_set (j_glue j) (j_how j) (j_kind j) (j_prune j) old (joined_input v) in
                  (EJoined m j l, rmap (fun _ => tt) r)
      | None => (e, Ok tt)
      end
  | _, _ => (e, Err TypeErr)
  end.

(* ------------------------------ flatten ------------------------------ *)
(* base.py:627-649 flattened_name, for an element of a tree *)
Definition somes (l : list name) : list str := flat_map (fun n => match n with Some s => [s] | None => [] end) l.
(* schema/base.py:647-649 *)
Definition flattened_name (t : tree) (e : elem) (sep : str) : str :=
  join sep (somes (map (elem_name t) (path_to t e))).
(* base.py:651-699 flatten; deep is children_flattenable of e *)
Definition flatten {V} (fuel : nat) (t : tree) (flattenable : elem -> bool) (deep : bool) (e : elem)
           (sep : str) (value : elem -> V) : res (list (str * V)) :=
  let pair x := (flattened_name t x sep, value x) in
  let own := if flattenable e then [pair e] else [] in
  if deep then rmap (fun l => own ++ map pair (filter flattenable l)) (all_children t fuel e)
  else Ok own.

(* schema/base.py:69: element.name: the tree of an element *)
Definition element_name (e : element) : name :=
  match e with EScalar n _ | EDict n _ _ | EList n _ | EArray n _ | EJoined n _ _ => n end.
(* schema/containers.py:36-37: bool() of a dict or a list *)
Definition some_of {A} (l : list A) : bool := match l with [] => false | _ => true end.
(* schema/compound.py:113-126: the children that compose sees *)
Definition scalars_of (items : list (name * element)) : list (name * scalar) :=
  flat_map (fun kv => match snd kv with EScalar _ st => [(fst kv, st)] | _ => [] end) items.
(* schema/compound.py:147-149 *)
Definition composed (cp : composer) (items : list (name * element)) : str := fst (cp (scalars_of items)).
(* schema/base.py:402-405, schema/containers.py:274-276, 545-546, 809-812: the
   element with its children.  bool() of a Compound and of a JoinedString is
   that of a scalar (scalars.py:134-136). *)
Fixpoint tree_of (e : element) : tree :=
  match e with
  | EScalar n _ => Leaf n
  | EDict n cp items =>
      Map n (match cp with Some f => some_of (composed f items) && snd (f (scalars_of items)) | None => some_of items end)
          (map (fun kv => (fst kv, tree_of (snd kv))) items)
  | EList n l => Seq true n (some_of l) (map tree_of l)
  | EArray n l => Seq false n (some_of l) (map tree_of l)
  | EJoined n j l => Seq false n (some_of (joined_value (j_glue j) l)) (map (fun _ => Leaf (j_child j)) l)
  end.
(* schema/containers.py:545-546, 809-812: the child at an index *)
Definition member (e : element) (i : nat) : option element :=
  match e with
  | EScalar _ _ => None
  | EDict _ _ items => option_map snd (nth_error items i)
  | EList _ l | EArray _ l => nth_error l i
  | EJoined _ j l => option_map (EScalar (j_child j)) (nth_error l i)
  end.
(* schema/base.py:407-418: the element at a location *)
Fixpoint part (e : element) (p : loc) : option element :=
  match p with
  | [] => Some e
  | i :: q => match part e q with Some u => member u i | None => None end
  end.
(* schema/base.py:651: operator.attrgetter('u') on what is flattenable:
   scalars.py:49, base.py:125, containers.py:645, compound.py:293; a Compound is
   so as a Scalar *)
Definition own_text (e : element) : option str :=
  match e with
  | EScalar _ st => Some (s_u st)
  | EDict _ (Some f) items => Some (composed f items)
  | EJoined _ j l => Some (joined_value (j_glue j) l)
  | _ => None
  end.
(* schema/base.py:691, 698: flattenable, of the element at a location *)
Definition text_at (e : element) (x : elem) : bool :=
  match x with
  | Node p => match part e p with Some u => match own_text u with Some _ => true | None => false end | None => false end
  | SlotOf _ => false
  end.
(* schema/base.py:651: operator.attrgetter('u') *)
Definition u_at (e : element) (x : elem) : str :=
  match x with
  | Node p => match part e p with Some u => match own_text u with Some s => s | None => [] end | None => [] end
  | SlotOf _ => []
  end.
(* schema/base.py:126, schema/compound.py:294 *)
Definition children_flattenable (e : element) : bool := match e with EJoined _ _ _ => false | _ => true end.
(* schema/base.py:651-699: e.flatten(sep) for an element e without parent *)
Definition flatten_element (fuel : nat) (e : element) (sep : str) : res (list (str * str)) :=
  flatten fuel (tree_of e) (text_at e) (children_flattenable e) (Node []) sep (u_at e).
