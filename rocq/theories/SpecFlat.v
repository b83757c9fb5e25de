(* What flattening and unflattening should do. *)
From Verif Require Import PyBase PyList ModelMap SpecScalar ModelPaths SpecPaths ModelScalar ModelCompound ModelFlat.

(* ---------------- keys ---------------- *)
Definition text_keys (ps : flat_pairs) : Prop := Forall (fun p => fst p <> None) ps.
(* a usable separator does not start with a digit *)
Definition separator (sep : str) : Prop := exists c r, sep = c :: r /\ is_digit c = false.
(* the element's own name and separator; nothing for a nameless one *)
Inductive prefixed (n : name) (sep : str) : str -> Prop :=
| prefix_name x : n = Some x -> x <> [] -> prefixed n sep (x ++ sep)
| prefix_none : n = None \/ n = Some [] -> prefixed n sep [].
(* the key of a List names index i, and then the rest *)
Inductive reads (n : name) (sep : str) : str -> N -> name -> Prop :=
| reads_last p ds i : prefixed n sep p -> ds <> [] -> numeral ds i -> reads n sep (p ++ ds) i None
| reads_bare p ds i : prefixed n sep p -> ds <> [] -> numeral ds i -> reads n sep (p ++ ds ++ sep) i None
| reads_more p ds i r : prefixed n sep p -> ds <> [] -> numeral ds i -> r <> [] ->
    reads n sep (p ++ ds ++ sep ++ r) i (Some r)
| reads_newline p ds i : prefixed n sep p -> ds <> [] -> numeral ds i -> sep <> [10%N] ->
    reads n sep (p ++ ds ++ [10%N]) i (Some [10%N]).
(* the pairs for index i, in order; pruning ignores empty texts *)
Inductive collects (n : name) (sep : str) (prune : bool) (i : N) : flat_pairs -> flat_pairs -> Prop :=
| collects_none : collects n sep prune i [] []
| collects_blank k ps l : prune = true -> collects n sep prune i ps l ->
    collects n sep prune i ((k, VText []) :: ps) l
| collects_other k v ps l : (forall r, ~ reads n sep k i r) -> collects n sep prune i ps l ->
    collects n sep prune i ((Some k, v) :: ps) l
| collects_take k v r ps l : reads n sep k i r -> (prune = true -> v <> VText []) ->
    collects n sep prune i ps l -> collects n sep prune i ((Some k, v) :: ps) ((r, v) :: l).
(* new members set from their pairs (None: left as they are), up to the first
   that raises *)
Inductive builds (m : schema) (sep : str) : list (option flat_pairs) -> list element -> res unit -> Prop :=
| builds_end : builds m sep [] [] (Ok tt)
| builds_fresh plan l r : builds m sep plan l r -> builds m sep (None :: plan) (fresh m :: l) r
| builds_set ps plan e l r : set_flat m sep (fresh m) ps = (e, Ok tt) -> builds m sep plan l r ->
    builds m sep (Some ps :: plan) (e :: l) r
| builds_raise ps plan e x : set_flat m sep (fresh m) ps = (e, Err x) ->
    builds m sep (Some ps :: plan) [e] (Err x).
(* the pairs for each of several indexes, None for those without *)
Definition gathers (n : name) (sep : str) (prune : bool) (pairs : flat_pairs) (i : N) (o : option flat_pairs) : Prop :=
  match o with
  | Some l => l <> [] /\ collects n sep prune i pairs l
  | None => collects n sep prune i pairs []
  end.

(* ---------------- elements of a schema ---------------- *)
Fixpoint is_of (s : schema) (e : element) : Prop :=
  match s, e with
  | SScalar n _, EScalar m _ => m = n
  | SDict n cp fields, EDict m cq items =>
      m = n /\ cq = cp /\ NoDup (map fst items)
      /\ (forall k, In k (map fst items) -> In k (map (fun f => schema_name (snd f)) fields))
      /\ (fix each (fs : list (bool * schema)) : Prop :=
            match fs with
            | [] => True
            | (there, f) :: fs' =>
                (forall u, In (schema_name f, u) items -> is_of f u)
                /\ (there = true -> In (schema_name f) (map fst items)) /\ each fs'
            end) fields
  | SList n _ _ mem, EList m l => m = n /\ Forall (is_of mem) l
  | SArray n _ mem, EArray m l => m = n /\ Forall (is_of mem) l
  | SJoined n j, EJoined m i _ => m = n /\ i = j
  | _, _ => False
  end.
(* fields have texts for names, and no two the same *)
Fixpoint named_fields (s : schema) : Prop :=
  match s with
  | SScalar _ _ | SJoined _ _ => True
  | SDict _ _ fields =>
      NoDup (map (fun f => schema_name (snd f)) fields)
      /\ (fix each (fs : list (bool * schema)) : Prop :=
            match fs with [] => True | (_, f) :: fs' => schema_name f <> None /\ named_fields f /\ each fs' end) fields
  | SList _ _ _ m | SArray _ _ m => named_fields m
  end.
Fixpoint no_arrays (s : schema) : Prop :=
  match s with
  | SScalar _ _ | SJoined _ _ => True
  | SDict _ _ fields =>
      (fix each (fs : list (bool * schema)) : Prop :=
         match fs with [] => True | (_, f) :: fs' => no_arrays f /\ each fs' end) fields
  | SList _ _ _ m => no_arrays m
  | SArray _ _ _ => False
  end.
(* every List holds at most maximum_set_flat_members *)
Fixpoint bounded (s : schema) (e : element) : Prop :=
  match s, e with
  | SDict _ _ fields, EDict _ _ items =>
      (fix each (fs : list (bool * schema)) : Prop :=
         match fs with
         | [] => True
         | (_, f) :: fs' => (forall u, In (schema_name f, u) items -> bounded f u) /\ each fs'
         end) fields
  | SList _ _ limit m, EList _ l => (Z.of_nat (List.length l) <= limit)%Z /\ Forall (bounded m) l
  | SArray _ _ m, EArray _ l => Forall (bounded m) l
  | _, _ => True
  end.
Fixpoint natural_limits (s : schema) : Prop :=
  match s with
  | SScalar _ _ | SJoined _ _ => True
  | SDict _ _ fields =>
      (fix each (fs : list (bool * schema)) : Prop :=
         match fs with [] => True | (_, f) :: fs' => natural_limits f /\ each fs' end) fields
  | SList _ _ limit m => (0 <= limit)%Z /\ natural_limits m
  | SArray _ _ m => natural_limits m
  end.

(* ---------------- which keys concern an element ---------------- *)
(* the keys an element takes notice of, whatever it holds *)
Definition concerns (sep : str) (s : schema) (k : str) : Prop :=
  match s with
  | SScalar n _ | SJoined n _ => n = Some k
  | SDict n _ fields =>
      exists there f x y, In (there, f) fields /\ schema_name f = Some x
      /\ k = (match n with Some o => o ++ sep ++ x ++ y | None => x ++ y end)
  | SList n _ _ _ => exists i r, reads n sep k i r
  | SArray n _ m =>
      is_container m = true
      \/ (exists x, n = Some x /\ x <> [] /\ (k = x \/ k = x ++ [10%N] \/ exists r, k = x ++ sep ++ r))
      \/ ((n = None \/ n = Some []) /\ (schema_name m = None \/ schema_name m = Some [] \/ schema_name m = Some k))
  end.
(* the keys a new element takes notice of: a field that a new mapping lacks
   comes into being for every key that starts with its name *)
Fixpoint matters (sep : str) (s : schema) (k : str) : Prop :=
  match s with
  | SDict n _ fields =>
      exists r, k = (match n with Some x => x ++ sep ++ r | None => r end)
      /\ (fix some (fs : list (bool * schema)) : Prop :=
            match fs with
            | [] => False
            | (there, f) :: fs' =>
                (exists x y, schema_name f = Some x /\ r = x ++ y /\ (there = true -> matters sep f r)) \/ some fs'
            end) fields
  | _ => concerns sep s k
  end.
(* qs is ps without some pairs that do not satisfy P *)
Inductive thinned (P : str -> Prop) : flat_pairs -> flat_pairs -> Prop :=
| thin_nil : thinned P [] []
| thin_keep p ps qs : thinned P ps qs -> thinned P (p :: ps) (p :: qs)
| thin_drop k v ps qs : ~ P k -> thinned P ps qs -> thinned P ((Some k, v) :: ps) qs.

(* ---------------- keys without a second spelling ---------------- *)
Definition ends_digit (s : str) : Prop := exists r c, s = r ++ [c] /\ is_digit c = true.
Definition starts_digit (s : str) : Prop := exists c r, s = c :: r /\ is_digit c = true.
(* numbers are written the plain way; no separator or newline at the end *)
Definition plain_key (sep k : str) : Prop :=
  (forall a ds b, k = a ++ ds ++ b -> ds <> [] -> Forall (fun c => is_digit c = true) ds ->
     ~ ends_digit a -> ~ starts_digit b -> plain_digits ds)
  /\ (forall r, k <> r ++ sep) /\ (forall r, k <> r ++ [10%N]).
Definition plain_keys (sep : str) (ps : flat_pairs) : Prop :=
  Forall (fun p => exists k, fst p = Some k /\ plain_key sep k) ps.
Definition digit_free (sep : str) : Prop := sep <> [] /\ Forall (fun c => is_digit c = false) sep.

(* ---------------- flattening ---------------- *)
(* the names from the root to a location *)
Definition own_name (n : name) : list str := match n with Some x => [x] | None => [] end.
Fixpoint names_to (t : tree) (p : list nat) : list str :=
  (match p with
   | [] => []
   | i :: q => names_to t q ++ match node_at t q with Some (Seq true _ _ _) => [dec_nat i] | _ => [] end
   end) ++ match node_at t p with Some u => own_name (tree_name u) | None => [] end.
Definition flattens {V} (t : tree) (flattenable : elem -> bool) (deep : bool) (e : elem) (sep : str)
           (value : elem -> V) (r : list (str * V)) : Prop :=
  exists f, forall fuel, (f <= fuel)%nat -> flatten fuel t flattenable deep e sep value = Ok r.
(* the states of those children of a mapping that are scalars, by key *)
Inductive scalar_children : list (name * element) -> list (name * scalar) -> Prop :=
| no_children : scalar_children [] []
| scalar_child k n st l r : scalar_children l r -> scalar_children ((k, EScalar n st) :: l) ((k, st) :: r)
| other_child k u l r : (forall n st, u <> EScalar n st) -> scalar_children l r -> scalar_children ((k, u) :: l) r.
(* what is flattened, and to what text: a scalar to its text, a Compound to what
   compose makes of its children, a JoinedString to the texts of its members
   with the separator between them *)
Inductive text_of : element -> str -> Prop :=
| text_of_scalar n st : text_of (EScalar n st) (s_u st)
| text_of_compound n f items sts w b : scalar_children items sts -> f sts = (w, b) -> text_of (EDict n (Some f) items) w
| text_of_joined n j l : text_of (EJoined n j l) (join (j_glue j) (map s_u l)).
(* a name that flattening can tell apart *)
Definition clear_name (sep : str) (n : name) : Prop :=
  forall x, n = Some x -> x <> [] /\ (forall c r, sep = c :: r -> ~ In c x) /\ forall y, x <> y ++ [10%N].
(* a tree whose scalars have different keys *)
Definition clear_tree (sep : str) (t : tree) : Prop :=
  proper t
  /\ (forall p u, node_at t p = Some u -> clear_name sep (tree_name u))
  /\ (forall p n b l k c, node_at t p = Some (Map n b l) -> In (k, c) l -> k <> None)
  /\ (forall p n b l c, node_at t p = Some (Seq false n b l) -> In c l -> exists m, c = Leaf m).
(* two members of one Array *)
Definition siblings (t : tree) (p q : list nat) : Prop :=
  exists i j r n b l, p = i :: r /\ q = j :: r /\ node_at t r = Some (Seq false n b l).
(* an Array and a member of it *)
Definition inside (t : tree) (p q : list nat) : Prop :=
  exists i n b l, q = i :: p /\ node_at t p = Some (Seq false n b l).

(* ---------------- round trip ---------------- *)
(* no name is empty, contains the first character of the separator or ends in
   a newline; the name of a field that a new mapping lacks does not start
   another field's; Arrays hold scalars; Compounds in a List have a name *)
Fixpoint clear_schema (sep : str) (s : schema) : Prop :=
  clear_name sep (schema_name s) /\
  match s with
  | SScalar _ _ => True
  | SJoined _ j => clear_name sep (j_child j)
  | SDict _ _ fields =>
      NoDup (map (fun f => schema_name (snd f)) fields)
      /\ (forall f g x y, In (false, f) fields -> In g fields -> schema_name f = Some x ->
            schema_name (snd g) = Some (x ++ y) -> y = [])
      /\ (fix each (fs : list (bool * schema)) : Prop :=
            match fs with [] => True | (_, f) :: fs' => schema_name f <> None /\ clear_schema sep f /\ each fs' end) fields
  | SList _ _ _ m => clear_schema sep m /\ (forall cp fs, m <> SDict None (Some cp) fs)
  | SArray _ _ m => clear_schema sep m /\ is_container m = false
  end.
(* the keys of the flattened pairs say where they belong *)
Definition shows (s : schema) : Prop :=
  match s with SScalar n _ | SArray n _ _ | SJoined n _ | SDict n (Some _) _ => n <> None | _ => True end.
(* some part of e is flattened; blank ones do not count when pruning *)
Definition shown (pruned : bool) (e : element) : Prop :=
  exists p u w, part e p = Some u /\ own_text u = Some w /\ (pruned = true -> w <> []).
(* What is kept by flattening and unflattening: every scalar and JoinedString
   reads its own text back (or, when blank under pruning, is as new); Lists are within their limit
   and drop no member; fields that a new mapping lacks show something. *)
Definition reads_back (pruned : bool) (k : kind) (st : scalar) : Prop :=
  if pruned && str_eqb (s_u st) [] then s_value st = VNone
  else exists raw b, scalar_set k blank (VText (s_u st)) = (Scalar raw (s_value st) (s_u st), Ok b).
Definition alike (a b : scalar) : Prop := s_value a = s_value b /\ s_u a = s_u b.
Definition splits_back (pruned : bool) (j : joined) (l : list scalar) : Prop :=
  let w := joined_value (j_glue j) l in
  if pruned && str_eqb w [] then l = []
  else exists l' b, joined_set (j_glue j) (j_how j) (j_kind j) (j_prune j) [] (JText w) = (l', Ok b) /\ Forall2 alike l l'.
Fixpoint kept (pruned : bool) (s : schema) (e : element) : Prop :=
  match s, e with
  | SScalar _ k, EScalar _ st => reads_back pruned k st
  | SJoined _ j, EJoined _ _ l => splits_back pruned j l
  | SDict _ _ fields, EDict _ _ items =>
      (fix each (fs : list (bool * schema)) : Prop :=
         match fs with
         | [] => True
         | (there, f) :: fs' =>
             (forall u, In (schema_name f, u) items -> kept pruned f u /\ (there = false -> shown pruned u))
             /\ each fs'
         end) fields
  | SList _ prune limit m, EList _ l =>
      (Z.of_nat (List.length l) <= limit)%Z
      /\ Forall (kept (pruned || prune) m) l
      /\ (if prune then Forall (shown (pruned || prune)) l
          else forall l' u, l = l' ++ [u] -> shown pruned u)
  | SArray _ prune m, EArray _ l =>
      Forall (kept (pruned || prune) m) l /\ Forall (shown (pruned || prune)) l
  | _, _ => False
  end.
(* the same names and values; mappings regardless of order, raw disregarded *)
Inductive same : element -> element -> Prop :=
| same_scalar n a b : s_value a = s_value b -> s_u a = s_u b -> same (EScalar n a) (EScalar n b)
| same_dict n cp l l' :
    (forall k, In k (map fst l) <-> In k (map fst l')) ->
    (forall k u u', In (k, u) l -> In (k, u') l' -> same u u') ->
    same (EDict n cp l) (EDict n cp l')
| same_list n l l' : Forall2 same l l' -> same (EList n l) (EList n l')
| same_array n l l' : Forall2 same l l' -> same (EArray n l) (EArray n l')
| same_joined n j l l' : Forall2 alike l l' -> same (EJoined n j l) (EJoined n j l').
Definition as_flat (l : list (str * str)) : flat_pairs := map (fun p => (Some (fst p), VText (snd p))) l.

(* ---------------- what each kind of element takes ---------------- *)
(* the pairs a mapping named n hands to its field named x *)
Definition below (n : name) (sep r : str) : str := match n with Some o => o ++ sep ++ r | None => r end.
Inductive routes (n : name) (sep x : str) : flat_pairs -> flat_pairs -> Prop :=
| routes_nil : routes n sep x [] []
| routes_take r v ps l : routes n sep x ps l ->
    routes n sep x ((Some (below n sep (x ++ r)), v) :: ps) ((Some (x ++ r), v) :: l)
| routes_skip k v ps l : (forall r, k <> below n sep (x ++ r)) -> routes n sep x ps l ->
    routes n sep x ((Some k, v) :: ps) l.
Definition settled (n : name) (sep : str) (ps : flat_pairs) (items items' : list (name * element)) (f : schema) : Prop :=
  exists x l, schema_name f = Some x /\ routes n sep x ps l /\
  match l with
  | [] => aget name_eqb (Some x) items' = aget name_eqb (Some x) items
  | _ => exists u,
      set_flat f sep (match aget name_eqb (Some x) items with Some u => u | None => fresh f end) l = (u, Ok tt)
      /\ aget name_eqb (Some x) items' = Some u
  end.
(* an Array named n of scalars named c gets a member from the pair: with the
   value, or as new *)
Inductive joins (n c : name) (sep : str) (prune : bool) : str -> pyval -> option pyval -> Prop :=
| joins_own x v : n = Some x -> c = None -> (prune = true -> v <> VText []) -> joins n c sep prune x v (Some v)
| joins_bare x v : n = Some x -> c = None -> (prune = true -> v <> VText []) -> joins n c sep prune (x ++ sep) v (Some v)
| joins_child x y v : n = Some x -> c = Some y -> (prune = true -> v <> VText []) ->
    joins n c sep prune (x ++ sep ++ y) v (Some v)
| joins_other x y r v : n = Some x -> c = Some y -> r <> y -> r <> [] -> joins n c sep prune (x ++ sep ++ r) v None
| joins_newline x y v : n = Some x -> c = Some y -> sep <> [10%N] -> joins n c sep prune (x ++ [10%N]) v None
| joins_named y v : n = None -> c = Some y -> (prune = true -> v <> VText []) -> joins n c sep prune y v (Some v)
| joins_empty v : n = None -> c = None -> (prune = true -> v <> VText []) -> joins n c sep prune [] v (Some v)
| joins_any k v : n = None -> c = None -> k <> [] -> joins n c sep prune k v None.
Inductive arranges (n c : name) (k : kind) (sep : str) (prune : bool) : flat_pairs -> list element -> res unit -> Prop :=
| arranges_nil : arranges n c k sep prune [] [] (Ok tt)
| arranges_skip x v ps l r : (forall o, ~ joins n c sep prune x v o) -> arranges n c k sep prune ps l r ->
    arranges n c k sep prune ((Some x, v) :: ps) l r
| arranges_new x v ps l r : joins n c sep prune x v None -> arranges n c k sep prune ps l r ->
    arranges n c k sep prune ((Some x, v) :: ps) (EScalar c blank :: l) r
| arranges_set x v st b ps l r : joins n c sep prune x v (Some v) -> scalar_set k blank v = (st, Ok b) ->
    arranges n c k sep prune ps l r -> arranges n c k sep prune ((Some x, v) :: ps) (EScalar c st :: l) r
| arranges_raise x v st e ps : joins n c sep prune x v (Some v) -> scalar_set k blank v = (st, Err e) ->
    arranges n c k sep prune ((Some x, v) :: ps) [] (Err e).

(* ---------------- samples ---------------- *)
Definition text (s : string) : name := Some (lit s).
Definition flat_of (l : list (string * string)) : flat_pairs := map (fun p => (text (fst p), VText (lit (snd p)))) l.
Definition line_schema : schema := SDict None None [(true, SScalar (text "x") (KInteger true)); (false, SArray (text "t") true (SScalar None (KString true)))].
Definition sample_schema : schema :=
  SDict (text "o") None [(true, SScalar (text "s") (KString true)); (true, SList (text "l") true 3 line_schema)].
Definition sample_pairs : flat_pairs :=
  flat_of [("o_l_7_x", "3"); ("o_s", "hi"); ("o_l_2_x", "-1"); ("o_l_2_t", "b"); ("p_s", "no"); ("o_l_2_t", "a"); ("o_l_5_x", "")]%string.
Definition plain_text (s : string) : scalar := Scalar (Some (VText (lit s))) (VText (lit s)) (lit s).
Definition sample_element : element :=
  EDict (text "o") None
    [(text "s", EScalar (text "s") (plain_text "hi"));
     (text "l", EList (text "l")
        [EDict None None [(text "x", EScalar (text "x") (Scalar (Some (VText (lit "-1"))) (VInt (-1)) (lit "-1")));
                     (text "t", EArray (text "t") [EScalar None (plain_text "b"); EScalar None (plain_text "a")])];
         EDict None None [(text "x", EScalar (text "x") (Scalar (Some (VText (lit "3"))) (VInt 3) (lit "3")))]])].
(* a Compound that writes its children with dashes, a JoinedString *)
Definition dashed : composer := fun l => let w := join (lit "-") (map (fun p => s_u (snd p)) l) in (w, negb (str_eqb w [])).
Definition month_fields : list (bool * schema) := [(true, SScalar (text "y") (KInteger true)); (true, SScalar (text "m") (KInteger true))].
Definition commas : joined := Joined (lit ",") Static true None (KString true).
Definition mixed_schema : schema :=
  SDict None None [(true, SJoined (text "t") commas); (true, SDict (text "d") (Some dashed) month_fields);
                   (true, SList (text "l") true 3 (SDict (text "d") (Some dashed) month_fields))].
Definition whole (z : Z) (s : string) : scalar := Scalar (Some (VText (lit s))) (VInt z) (lit s).
Definition month (y m : Z) (sy sm : string) : element :=
  EDict (text "d") (Some dashed) [(text "y", EScalar (text "y") (whole y sy)); (text "m", EScalar (text "m") (whole m sm))].
Definition mixed_element : element :=
  EDict None None [(text "t", EJoined (text "t") commas [plain_text "a"; plain_text "b"]); (text "d", month 2000 5 "2000" "5");
                   (text "l", EList (text "l") [month 1 2 "1" "2"])].
Definition mixed_pairs : list (string * string) :=
  [("t", "a,b"); ("d", "2000-5"); ("t", "a"); ("t", "b"); ("d_y", "2000"); ("d_m", "5"); ("l_0_d", "1-2"); ("l_0_d_y", "1"); ("l_0_d_m", "2")]%string.
