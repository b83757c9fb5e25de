(* Specifications for mappings: which keys, which classes, what set() leaves
   behind. *)
From Verif Require Import PyBase ModelUtil ModelScalar ModelSeq ModelMap.

Section Shape.
Context {V M : Type} (cls : nat -> ecls V M) (isa : nat -> nat -> bool) (fields : list field).

(* fields that Dict.of accepts *)
Definition unique_fields : Prop := NoDup (map f_name fields) /\ fields <> [].
(* one member for each field: under its name, of its class, belonging to self *)
Definition member_of (s : mapst M) (f : field) (ke : name * nat) : Prop :=
  fst ke = f_name f
  /\ e_class (m_h s) (snd ke) = f_class f
  /\ e_parent (m_h s) (snd ke) = Some (m_self s)
  /\ snd ke < e_next (m_h s).
Definition dict_shape (s : mapst M) : Prop :=
  NoDup (keys (m_items s))
  /\ (forall k, In k (keys (m_items s)) <-> In k (map f_name fields))
  /\ NoDup (map snd (m_items s))
  /\ forall ke, In ke (m_items s) -> exists f, In f fields /\ member_of s f ke.

(* every member of a SparseDict belongs to a field of its name *)
Definition sparse_shape (s : mapst M) : Prop :=
  NoDup (keys (m_items s))
  /\ forall k e, In (k, e) (m_items s) ->
       e < e_next (m_h s) /\ e_parent (m_h s) e = Some (m_self s)
       /\ exists f, In f fields /\ f_name f = k /\ isa (e_class (m_h s) e) (f_class f) = true.
Definition required_present (s : mapst M) : Prop :=
  forall f, In f fields -> c_optional (cls (f_class f)) = false -> In (f_name f) (keys (m_items s)).

(* an instance is an instance of its own class *)
Definition isa_refl : Prop := forall c, isa c c = true.
(* a subclass of a required field's class is required too, and no element has
   its own optional attribute *)
Definition subclass_required : Prop :=
  forall f c, In f fields -> c_optional (cls (f_class f)) = false -> isa c (f_class f) = true ->
              c_optional (cls c) = false.
Definition class_optional (h : eheap M) : Prop :=
  forall e, e_optional h e = c_optional (cls (e_class h e)).

(* the elements an operation names exist *)
Definition args_exist (s : mapst M) (o : mop V) : Prop :=
  let ok (a : arg V) := match a with AElem e => e < e_next (m_h s) | AVal _ => True end in
  match o with
  | MSetItem _ a => ok a
  | MUpdate d kw => Forall (fun it => Forall (fun ka => ok (snd ka)) (it_items it)) d
                    /\ Forall (fun ka => ok (snd ka)) kw
  | _ => True
  end.
End Shape.

Section Runs.
Context {V M : Type} (cls : nat -> ecls V M) (isa : nat -> nat -> bool) (fields : list field)
        (own_name : name) (minf : minimum) (own : policy).
Definition run_dict (s : mapst M) (os : list (mop V)) : mapst M :=
  fold_left (fun s o => fst (dict_step cls isa fields own_name minf own s o)) os s.
Definition run_sparse (s : mapst M) (os : list (mop V)) : mapst M :=
  fold_left (fun s o => fst (sparse_step cls isa fields own_name minf own s o)) os s.
Fixpoint sparse_history (s : mapst M) (os : list (mop V)) : Prop :=
  match os with
  | [] => True
  | o :: r => args_exist s o
              /\ sparse_history (fst (sparse_step cls isa fields own_name minf own s o)) r
  end.
End Runs.

(* what the mapping holds under k *)
Definition content {M} (s : mapst M) (k : name) : option M :=
  option_map (e_con (m_h s)) (aget name_eqb k (m_items s)).
(* elements that existed before are as they were *)
Definition untouched {M} (h h' : eheap M) : Prop :=
  e_next h <= e_next h'
  /\ forall e, e < e_next h ->
       e_con h' e = e_con h e /\ e_parent h' e = e_parent h e
       /\ e_class h' e = e_class h e /\ e_optional h' e = e_optional h e.
(* same members; only the content of element e differs, now m *)
Definition only_content {M} (s s' : mapst M) (e : nat) (m : M) : Prop :=
  m_items s' = m_items s /\ m_self s' = m_self s
  /\ e_next (m_h s') = e_next (m_h s) /\ e_con (m_h s') e = m
  /\ forall i, e_parent (m_h s') i = e_parent (m_h s) i /\ e_class (m_h s') i = e_class (m_h s) i
      /\ e_optional (m_h s') i = e_optional (m_h s) i
      /\ (i <> e -> e_con (m_h s') i = e_con (m_h s) i).
(* same members and elements, whose content may differ *)
Definition same_members {M} (s s' : mapst M) : Prop :=
  m_items s' = m_items s /\ m_self s' = m_self s /\ e_next (m_h s') = e_next (m_h s)
  /\ forall i, e_parent (m_h s') i = e_parent (m_h s) i /\ e_class (m_h s') i = e_class (m_h s) i
      /\ e_optional (m_h s') i = e_optional (m_h s) i.
(* element.set(a) for an element of class c holding m *)
Definition assigned {V M} (cls : nat -> ecls V M) (h : eheap M) (c : nat) (m : M) (a : arg V) : M * res bool :=
  match a with AVal v => c_set (cls c) m v | AElem x => c_set_el (cls c) m (e_con h x) end.

(* running a list of assignments; those before the last answer normally *)
Section Assign.
Context {V M : Type} (setitem : mapst M -> name -> arg V -> mapst M * res unit).
Definition assign_all (s : mapst M) (l : list (name * arg V)) : mapst M :=
  fold_left (fun s ka => fst (setitem s (fst ka) (snd ka))) l s.
Definition all_answer (s : mapst M) (l : list (name * arg V)) : Prop :=
  forall l1 ka l2, l = l1 ++ ka :: l2 -> snd (setitem (assign_all s l1) (fst ka) (snd ka)) = Ok tt.
Inductive assigns (s : mapst M) (l : list (name * arg V)) (last : option exn) : mapst M -> res unit -> Prop :=
| as_done : all_answer s l -> last = None -> assigns s l last (assign_all s l) (Ok tt)
| as_broken x : all_answer s l -> last = Some x -> assigns s l last (assign_all s l) (Err x)
| as_raised d k a rest x : l = d ++ (k, a) :: rest -> all_answer s d ->
    snd (setitem (assign_all s d) k a) = Err x ->
    assigns s l last (assign_all s (d ++ [(k, a)])) (Err x).
End Assign.

(* ------------------------------------------------------------------ *)
(* Setting fields from key/value pairs *)
Section Setting.
Context {V M : Type} (cls : nat -> ecls V M) (fields : list field).

(* the values given for k, in order *)
Definition values_for (k : name) (l : list (name * V)) : list V :=
  map snd (filter (fun kv => name_eqb (fst kv) k) l).
(* an element of class c, holding m, after being set to each value in turn *)
Definition settled (c : nat) (m : M) (vs : list V) : M :=
  fold_left (fun m v => fst (c_set (cls c) m v)) vs m.
(* what set(v) answers on a field of class c after the pairs of d *)
Definition answer (c : nat) (k : name) (d : list (name * V)) (v : V) : res bool :=
  snd (c_set (cls c) (settled c (c_new (cls c)) (values_for k d)) v).
(* every field set from a blank state by the pairs of d; a field that starts
   absent is there only when named *)
Definition contents_after (starts : field -> bool) (d : list (name * V)) (s : mapst M) : Prop :=
  (forall f, In f fields ->
     content s (f_name f)
     = match starts f, values_for (f_name f) d with
       | false, [] => None
       | _, vs => Some (settled (f_class f) (c_new (cls (f_class f))) vs)
       end)
  /\ (forall k, ~ In k (map f_name fields) -> content s k = None).
Definition known (k : name) : Prop := In k (map f_name fields).
(* none of the pairs of d stops set() *)
Definition accepted (pol : policy) (d : list (name * V)) : Prop :=
  (forall kv, In kv d -> known (fst kv) \/ pol = Duck)
  /\ forall d1 d2 f v, d = d1 ++ (f_name f, v) :: d2 -> In f fields ->
       exists b, answer (f_class f) (f_name f) d1 v = Ok b.
Definition all_converted (d : list (name * V)) : Prop :=
  forall d1 d2 f v, d = d1 ++ (f_name f, v) :: d2 -> In f fields ->
    answer (f_class f) (f_name f) d1 v = Ok true.

(* the outcome of set() given the pairs l, after which the iteration ends with
   [last]: it stops at the first pair that cannot be taken *)
Inductive set_outcome (pol : policy) (l : list (name * V)) (last : option exn)
  : list (name * V) -> res bool -> Prop :=
| so_done b : last = None -> accepted pol l ->
    (pol = Strict -> forall f, In f fields -> In (f_name f) (map fst l)) ->
    (b = true <-> all_converted l) ->
    set_outcome pol l last l (Ok b)
| so_missing f : last = None -> accepted pol l -> pol = Strict ->
    In f fields -> ~ In (f_name f) (map fst l) ->
    set_outcome pol l last l (Err TypeErr)
| so_broken x : last = Some x -> accepted pol l -> set_outcome pol l last l (Err x)
| so_unknown d k v rest : l = d ++ (k, v) :: rest -> accepted pol d -> ~ known k -> pol <> Duck ->
    set_outcome pol l last d (Err KeyErr)
| so_raised d f v rest x : l = d ++ (f_name f, v) :: rest -> accepted pol d -> In f fields ->
    answer (f_class f) (f_name f) d v = Err x ->
    set_outcome pol l last (d ++ [(f_name f, v)]) (Err x).
End Setting.

(* ------------------------------------------------------------------ *)
(* set_flat: the pairs that reach the field named n of a mapping whose own
   prefix is p: those whose key starts with p then n, without the p *)
Definition own_prefix (own : name) (sep : str) : str :=
  match own with Some n => n ++ sep | None => [] end.
Definition routed {V} (p n : str) (pairs : list (name * V)) : list (name * V) :=
  flat_map (fun kv => match fst kv with
                      | Some key => if starts_with (p ++ n) key
                                    then [(Some (skipn (List.length p) key), snd kv)] else []
                      | None => []
                      end) pairs.
(* the class of the member under f, or the one it would be created with *)
Definition class_at {M} (s : mapst M) (f : field) : nat :=
  match aget name_eqb (f_name f) (m_items s) with
  | Some e => e_class (m_h s) e
  | None => f_class f
  end.
Definition text (n : name) : Prop := n <> None.

(* ------------------------------------------------------------------ *)
(* set_by_object: attribute a of the object goes to field f.  An omitted
   attribute is never used, a renamed one goes to the last name given for it,
   any other to the field of its own name. *)
Definition feeds (fs include omit : list name) (rename : list (name * name)) (a f : name) : Prop :=
  In f fs /\ ~ In a omit
  /\ ((exists before after, rename = before ++ (a, f) :: after /\ ~ In a (map fst after))
      \/ (a = f /\ ~ In a (map fst rename) /\ (include = [] \/ In a include))).

(* the pairs update_object assigns, last one for each attribute *)
Definition last_value {K A} (k : K) (l : list (K * A)) (v : A) : Prop :=
  exists before after, l = before ++ (k, v) :: after /\ ~ In k (map fst after).

(* ------------------------------------------------------------------ *)
(* Example classes: Integer (0), optional Integer (1) *)
Definition integer_class (optional : bool) : ecls pyval scalar :=
  Ecls blank optional (scalar_set (KInteger true))
    (fun st _ => scalar_set (KInteger true) st (VObj (Obj 0 (lit "<Integer>") true (Err TypeErr))))
    (fun st l => match l with (_, v) :: _ => (fst (scalar_set (KInteger true) st v), Ok tt) | [] => (st, Ok tt) end)
    (scalar_set_default (KInteger true) (Some (VInt 7)))
    (scalar_is_empty (KInteger true)) s_value.
Definition sample_classes (c : nat) : ecls pyval scalar := integer_class (Nat.eqb c 1).
Definition sample_fields : list field := [Field (Some (lit "a")) 0; Field (Some (lit "b")) 1].
(* object 0 is the mapping; object 1 an Integer holding 5, marked optional on
   the instance when [marked] *)
Definition sample_heap (marked : bool) : eheap scalar :=
  EHeap 2 (fun _ => None) (fun _ => 0) (fun i => marked && Nat.eqb i 1)
        (fun _ => fst (scalar_set (KInteger true) blank (VInt 5))).
Definition nm (s : string) : name := Some (lit s).
Definition seen_values (s : mapst scalar) : list (name * pyval) := pair_values sample_classes s.

(* outcomes of SparseDict calls *)
Definition removed {M} (s s' : mapst M) (k : name) : Prop :=
  m_h s' = m_h s /\ m_self s' = m_self s
  /\ forall k', aget name_eqb k' (m_items s') = if name_eqb k' k then None else aget name_eqb k' (m_items s).
(* element e is now under k and belongs to the mapping; nothing else differs *)
Definition stored {M} (s s' : mapst M) (k : name) (e : nat) : Prop :=
  m_self s' = m_self s /\ e_next (m_h s') = e_next (m_h s)
  /\ (forall k', aget name_eqb k' (m_items s') = if name_eqb k' k then Some e else aget name_eqb k' (m_items s))
  /\ e_parent (m_h s') e = Some (m_self s)
  /\ forall i, e_class (m_h s') i = e_class (m_h s) i /\ e_optional (m_h s') i = e_optional (m_h s) i
      /\ e_con (m_h s') i = e_con (m_h s) i /\ (i <> e -> e_parent (m_h s') i = e_parent (m_h s) i).
(* a new element of class c holding m is under k *)
Definition created {V M} (cls : nat -> ecls V M) (s s' : mapst M) (k : name) (c : nat) (m : M) : Prop :=
  m_self s' = m_self s /\ untouched (m_h s) (m_h s')
  /\ exists e, e_next (m_h s) <= e < e_next (m_h s')
     /\ (forall k', aget name_eqb k' (m_items s') = if name_eqb k' k then Some e else aget name_eqb k' (m_items s))
     /\ e_parent (m_h s') e = Some (m_self s) /\ e_class (m_h s') e = c /\ e_con (m_h s') e = m
     /\ e_optional (m_h s') e = c_optional (cls c).
(* a field is filled by its default in turn: all done, or stopped by one *)
Definition defaulted {V M} (cls : nat -> ecls V M) (fields : list field) (which : field -> bool)
           (before after : name -> option M) (start : field -> M) (r : res unit) : Prop :=
  let d f := c_default (cls (f_class f)) (start f) in
  match r with
  | Ok _ => forall f, In f fields ->
      if which f then after (f_name f) = Some (fst (d f)) /\ snd (d f) = Ok tt
      else after (f_name f) = before (f_name f)
  | Err x => exists f, In f fields /\ which f = true /\ snd (d f) = Err x
  end.

(* the set_flat call that reaches field f: on its member, or on a new one *)
Definition flat_start {V M} (cls : nat -> ecls V M) (s : mapst M) (f : field) : M :=
  match content s (f_name f) with Some m => m | None => c_new (cls (f_class f)) end.
Definition flat_call {V M} (cls : nat -> ecls V M) (s : mapst M) (f : field) (pairs : list (name * V)) : M * res unit :=
  c_set_flat (cls (class_at s f)) (flat_start cls s f) pairs.
Definition field_pairs {V} (own : name) (sep : str) (pairs : list (name * V)) (f : field) : list (name * V) :=
  match f_name f with Some n => routed (own_prefix own sep) n pairs | None => [] end.
