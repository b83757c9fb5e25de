(* Model of validating the elements of ModelFlat: the elements of a tree, where
   they are, and what validate() of flatland/schema/base.py reads of them.

   Validators may look at the whole tree, and change nothing but messages (ModelAssign has
   others).  Children of a mapping come in the order of its items. *)
From Verif Require Import PyBase ModelScalar ModelValidate ModelMessage ModelValidators ModelReport ModelCompound ModelFlat.

(* schema/base.py:125-152: an element with its schema and the names on the way to it *)
Record node := Node { nd_way : list name; nd_schema : schema; nd_element : element }.
(* validation/base.py:17-36: a validator: its attributes and what its validate()
   makes of the element at a place of a tree *)
Record check := Check { ck_self : attrs; ck_says : node -> list nat -> res verdict }.
(* schema/base.py:71-83, containers.py:48-52: optional, descent_validators (of containers),
   validators; and what the messages about an element may mention *)
Record setting := Setting { st_optional : bool; st_down : list check; st_checks : list check; st_context : element -> context }.
(* schema/base.py:69-101: the attributes of the schemas of a tree; a schema is told by the
   names on the way to it, of fields and of members *)
Definition settings := list name -> setting.

(* schema/containers.py:900-911: field_schema_mapping[name] *)
Definition field_schema (fields : list (bool * schema)) (k : name) : option schema :=
  option_map snd (find (fun f => name_eqb (schema_name (snd f)) k) fields).
(* schema/base.py:403-405, containers.py:275-276, 545-546, 810-812 children; the members of a
   JoinedString are scalars *)
Definition child_nodes (nd : node) : list node :=
  let below n := nd_way nd ++ [n] in
  match nd_schema nd, nd_element nd with
  | SDict _ _ fields, EDict _ _ items =>
      flat_map (fun it => match field_schema fields (fst it) with Some f => [Node (below (fst it)) f (snd it)] | None => [] end) items
  | SList _ _ _ m, EList _ l | SArray _ _ m, EArray _ l => map (Node (below (schema_name m)) m) l
  | SJoined _ j, EJoined _ _ l => map (fun st => Node (below (j_child j)) (SScalar (j_child j) (j_kind j)) (EScalar (j_child j) st)) l
  | _, _ => []
  end.
(* schema/base.py:403-405: the element at a place: which child, and which of its children,
   and so on *)
Fixpoint node_at (nd : node) (p : list nat) : option node :=
  match p with
  | [] => Some nd
  | j :: p' => match nth_error (child_nodes nd) j with Some c => node_at c p' | None => None end
  end.

(* is_empty: base.py:763-766, scalars.py:212-215; containers.py:278-280 (sequences),
   894-897 (Dict), 1220-1224 (SparseDict); compound.py:190-193, for a Compound that has
   fields (ModelCustom has the other).  A SparseDict is a mapping that may be without some
   field. *)
Fixpoint element_is_empty (s : schema) (e : element) : bool :=
  match s, e with
  | SScalar _ k, EScalar _ st => scalar_is_empty k st
  | SDict _ (Some _) fields, EDict _ _ items =>
      forallb (fun it => match field_schema fields (fst it) with Some f => element_is_empty f (snd it) | None => true end) items
  | SDict _ None fields, EDict _ _ items =>
      negb (forallb fst fields) && match items with [] => true | _ => false end
  | SList _ _ _ _, EList _ [] | SArray _ _ _, EArray _ [] | SJoined _ _, EJoined _ _ [] => true
  | _, _ => false
  end.
(* schema/containers.py:48-52: isinstance(el, Container) *)
Definition node_container (nd : node) : bool := match nd_element nd with EScalar _ _ => false | _ => true end.
(* schema/base.py:890-929: validators as validate() asks them *)
Definition rules_of (ask : settings) (root : node) (p : list nat) (nd : node) (cs : list check) : list rule :=
  map (fun c => Rule (ck_self c) (fun _ => st_context (ask (nd_way nd)) (nd_element nd)) (fun _ => ck_says c root p)) cs.
(* schema/scalars.py:51, containers.py:48-52, 122-136: the validators asked on the way down *)
Definition rules_down (ask : settings) (root : node) (p : list nat) (nd : node) : list rule :=
  rules_of ask root p nd (if node_container nd then st_down (ask (nd_way nd)) else st_checks (ask (nd_way nd))).
(* schema/base.py:768-833: what validate() reads of the tree of an element.  [id_of] is
   the identity of the element at a place, [place_of] the place of an identity. *)
Definition form_of (id_of : list nat -> id) (place_of : id -> option (list nat)) (ask : settings) (root : node) : form :=
  let at_id {A} (none : A) (some : list nat -> node -> A) x :=
    match place_of x with Some p => match node_at root p with Some nd => some p nd | None => none end | None => none end in
  Form (at_id [] (fun p nd => map (fun j => id_of (p ++ [j])) (seq 0 (List.length (child_nodes nd)))))
       (at_id true (fun _ nd => element_is_empty (nd_schema nd) (nd_element nd)))
       (at_id false (fun _ nd => st_optional (ask (nd_way nd))))
       (at_id false (fun _ nd => node_container nd))
       (at_id None (fun p nd => Some (rules_down ask root p nd)))
       (at_id None (fun p nd => if node_container nd then Some (rules_of ask root p nd (st_checks (ask (nd_way nd)))) else None)).
(* validation/base.py:30-36: a validator that looks at its element only *)
Definition own (f : element -> res verdict) (root : node) (p : list nat) : res verdict :=
  match node_at root p with Some nd => f (nd_element nd) | None => Err AttributeErr end.
(* validation/scalars.py:7-25 Present(); .u of a JoinedString: compound.py:328-330; .u of a
   List, an Array or a Dict has brackets: containers.py:394-398, 880-887.  Compounds and
   MultiValues are not treated here and below (an error stands for the former). *)
Definition present_check : check :=
  Check present_cls (own (fun e => match e with
    | EScalar _ st => present (s_u st)
    | EJoined _ j l => present (joined_value (j_glue j) l)
    | EList _ _ | EArray _ _ | EDict _ None _ => present (lit "[]")
    | EDict _ (Some _) _ => Err AttributeErr end)).
(* validation/scalars.py:108-136 Converted(); the value of a List or Array is a list, of a
   Dict a dict, of a JoinedString a text: containers.py:390-391, 890-892,
   compound.py:323-325 *)
Definition converted_check : check :=
  Check converted_cls (own (fun e => match e with
    | EScalar _ st => converted (s_value st)
    | EJoined _ j l => converted (VText (joined_value (j_glue j) l))
    | EList _ _ | EArray _ _ | EDict _ None _ => converted (VText [])
    | EDict _ (Some _) _ => Err AttributeErr end)).
(* validation/containers.py:109-159 HasAtLeast(minimum=...); the value of a List or Array is a
   list with one entry for each member, that of a JoinedString a text; mappings have no
   member_schema *)
Definition has_at_least_check (minimum : Z) (member_label : pyval) : check :=
  let self := set_attr has_at_least_cls "minimum" (VInt minimum) in
  Check self (own (fun e => match e with
    | EList _ l | EArray _ l => has_at_least self (Some member_label) (QList (List.length l))
    | EJoined _ j l => has_at_least self (Some member_label) (QVal (VText (joined_value (j_glue j) l)))
    | _ => has_at_least self None (QVal VNone) end)).
(* validation/containers.py:7-106 NotDuplicated(comparator=...); [label] is the label of the
   container.  Places tell elements of one container apart. *)
Definition not_duplicated_check (comparator : node -> node -> res bool) (label : node -> pyval) : check :=
  Check not_duplicated_cls (fun root p =>
    match p with
    | [] => not_duplicated (fun _ _ => Ok false) None 0
    | _ =>
        match node_at root (removelast p) with
        | None => Err AttributeErr
        | Some container =>
            let children := child_nodes container in
            not_duplicated (fun a b => match nth_error children a, nth_error children b with
                                       | Some x, Some y => comparator x y
                                       | _, _ => Err AttributeErr end)
              (Some (seq 0 (List.length children), label container)) (last p 0)
        end
    end).
