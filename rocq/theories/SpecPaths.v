(* What element lookup should do, stated over positions in a tree. *)
From Verif Require Import PyBase PyList ModelUtil ModelSeq ModelProps ModelDsl SpecScalar ModelPaths.

(* ---------------- trees ---------------- *)
(* the keys of a mapping are distinct and are the names of its children *)
Definition proper (t : tree) : Prop :=
  forall p n b l, node_at t p = Some (Map n b l) ->
  NoDup (map fst l) /\ forall k c, In (k, c) l -> tree_name c = k.
Definition exists_in (t : tree) (e : elem) : Prop :=
  match e with
  | Node p => node_at t p <> None
  | SlotOf [] => False
  | SlotOf (i :: q) => node_at t (i :: q) <> None /\ slotted t q = true
  end.
(* the index z of Python picks position i among n *)
Definition picks (n : nat) (z : Z) (i : nat) : Prop :=
  (i < n)%nat /\ (z = Z.of_nat i \/ z = Z.of_nat i - Z.of_nat n)%Z.
(* the text says the integer z *)
Definition says (s : str) (z : Z) : Prop := exists u, trimmed s u /\ integer_text u z.

(* one step down: by key, or by index *)
Inductive takes (t : tree) : elem -> name -> elem -> Prop :=
| take_key p n b l i x c :
    node_at t p = Some (Map n b l) -> nth_error l i = Some (x, c) ->
    takes t (Node p) x (Node (i :: p))
| take_index p sl n b l s z i :
    node_at t p = Some (Seq sl n b l) -> says s z -> picks (List.length l) z i ->
    takes t (Node p) (Some s) (Node (i :: p)).
Definition container (t : tree) (e : elem) : Prop :=
  exists p u, e = Node p /\ node_at t p = Some u /\ forall n, u <> Leaf n.
(* a step down that fails, and how *)
Inductive refuses (t : tree) : elem -> name -> exn -> Prop :=
| no_key p n b l x :
    node_at t p = Some (Map n b l) -> ~ In x (map fst l) -> refuses t (Node p) x KeyErr
| no_index p sl n b l s :
    node_at t p = Some (Seq sl n b l) ->
    (forall z i, says s z -> ~ picks (List.length l) z i) ->
    refuses t (Node p) (Some s) IndexErr
| no_name p sl n b l :
    node_at t p = Some (Seq sl n b l) -> refuses t (Node p) None TypeErr
| no_children p x : ~ container t (Node p) -> refuses t (Node p) x IndexErr
| no_slot p x : refuses t (SlotOf p) x NotImplErr.
Inductive takes_all (t : tree) : elem -> list name -> elem -> Prop :=
| takes_none e : takes_all t e [] e
| takes_more e x e' r e'' : takes t e x e' -> takes_all t e' r e'' -> takes_all t e (x :: r) e''.

(* the names and indexes that lead from the root to a location; arrays tells
   whether members of sequences without slots count *)
Inductive address (t : tree) (arrays : bool) : list nat -> list str -> Prop :=
| address_root : address t arrays [] []
| address_key q xs n b l i x c :
    address t arrays q xs -> node_at t q = Some (Map n b l) -> nth_error l i = Some (Some x, c) ->
    address t arrays (i :: q) (xs ++ [x])
| address_index q xs sl n b l i :
    address t arrays q xs -> node_at t q = Some (Seq sl n b l) -> (i < List.length l)%nat ->
    (sl = true \/ arrays = true) ->
    address t arrays (i :: q) (xs ++ [dec_nat i]).

(* a location every step to which has a name: no key on the way is None, and no
   Array is passed unless arrays *)
Fixpoint plain_way (t : tree) (arrays : bool) (p : list nat) : Prop :=
  match p with
  | [] => True
  | i :: q => plain_way t arrays q /\
              match node_at t q with
              | Some (Map _ _ l) => exists x c, nth_error l i = Some (Some x, c)
              | Some (Seq sl _ _ l) => (i < List.length l)%nat /\ (sl = true \/ arrays = true)
              | _ => False
              end
  end.
(* no name contains the separator *)
Definition sep_free (c : N) (xs : list str) : Prop := Forall (fun x => ~ In c x) xs.
(* where a path starts *)
Definition from_root (absolute : bool) (e : elem) : elem := if absolute then Node [] else e.
Definition with_root (absolute : bool) (xs : list name) : list (option name) :=
  (if absolute then [None] else []) ++ map Some xs.

(* ---------------- writing paths ---------------- *)
Definition special (c : N) : bool :=
  N.eqb c (ch "/") || N.eqb c (ch "[") || N.eqb c (ch "]") || N.eqb c (ch ".").
Definition escape (s : str) : str := flat_map (fun c => if special c then [backslash; c] else [c]) s.
(* a step: a key, ., .., an index, the k-th from the end, a slice with two or
   three numbers *)
Inductive step :=
| Dot | DotDot | Key (s : str) | Idx (i : nat) | FromEnd (k : positive)
| Cut2 (a b : option Z) | Cut3 (a b c : option Z).
Definition numtext (o : option Z) : str := match o with Some z => dec_z z | None => [] end.
Definition bracket (s : str) : str := ch "[" :: s ++ [ch "]"].
Definition step_text (s : step) : str :=
  match s with
  | Dot => [ch "."]
  | DotDot => [ch "."; ch "."]
  | Key x => escape x
  | Idx i => bracket (dec_nat i)
  | FromEnd k => bracket (dec_z (Zneg k))
  | Cut2 a b => bracket (numtext a ++ ch ":" :: numtext b)
  | Cut3 a b c => bracket (numtext a ++ ch ":" :: numtext b ++ ch ":" :: numtext c)
  end.
Definition slash_before (first : bool) (s : step) : str :=
  match s with Key _ | Dot | DotDot => if first then [] else [ch "/"] | _ => [] end.
Fixpoint body_text (first : bool) (l : list step) : str :=
  match l with [] => [] | s :: r => slash_before first s ++ step_text s ++ body_text false r end.
Definition path_text (absolute : bool) (l : list step) : str :=
  (if absolute then [ch "/"] else []) ++ body_text true l.
Definition ends_in_backslash (s : str) : bool :=
  match rev s with c :: _ => N.eqb c backslash | [] => false end.
(* a key can be written when it is not empty and, unless it comes last, does
   not end in a backslash; a slice can when its stop and step are not 0 *)
Definition nonzero (o : option Z) : Prop := o <> Some 0%Z.
Fixpoint writable (l : list step) : Prop :=
  match l with
  | [] => True
  | s :: r => match s with
              | Key x => x <> [] /\ (r <> [] -> ends_in_backslash x = false)
              | Dot | DotDot | Idx _ | FromEnd _ => True
              | Cut2 a b => nonzero b
              | Cut3 a b c => nonzero b /\ nonzero c
              end /\ writable r
  end.
Definition dotless (l : list step) : Prop := ~ In Dot l /\ ~ In DotDot l.
(* the steps that lead to a location, over any container *)
Inductive leads (t : tree) : list nat -> list step -> list nat -> Prop :=
| leads_here p : leads t p [] p
| leads_key p n b l i x c r q :
    node_at t p = Some (Map n b l) -> nth_error l i = Some (Some x, c) ->
    leads t (i :: p) r q -> leads t p (Key x :: r) q
| leads_index p sl n b l i r q :
    node_at t p = Some (Seq sl n b l) -> (i < List.length l)%nat ->
    leads t (i :: p) r q -> leads t p (Idx i :: r) q.

(* no key on the way to a location is None *)
Fixpoint named_way (t : tree) (p : list nat) : Prop :=
  match p with
  | [] => True
  | i :: q => named_way t q /\
              match node_at t q with
              | Some (Map _ _ l) => exists x c, nth_error l i = Some (Some x, c)
              | Some (Seq _ _ _ l) => (i < List.length l)%nat
              | _ => False
              end
  end.

(* ---------------- what a path selects ---------------- *)
Definition kids (t : tree) (e : elem) : list elem :=
  match e with
  | SlotOf _ => []
  | Node p => match node_at t p with
              | Some (Map _ _ l) => map (fun i => Node (i :: p)) (seq 0 (List.length l))
              | Some (Seq _ _ _ l) => map (fun i => Node (i :: p)) (seq 0 (List.length l))
              | _ => []
              end
  end.
(* l[i] for the positions i of a list, by themselves *)
Definition chosen {A} (l : list A) (ps : list nat) (r : list A) : Prop :=
  Forall2 (fun p x => nth_error l p = Some x) ps r.
(* the positions of l[a:b:c] *)
Definition python_slice {A} (l : list A) (a b c : option Z) (r : list A) : Prop :=
  exists ps, slice_positions (List.length l) (Slice a b c) = Ok ps /\ chosen l ps r.
(* the elements a list of steps selects from an element, in order; a key or an
   index that is missing selects nothing *)
Inductive selects (t : tree) : list step -> elem -> list elem -> Prop :=
| sel_end e : selects t [] e [e]
| sel_key x r e e' l : takes t e (Some x) e' -> selects t r e' l -> selects t (Key x :: r) e l
| sel_no_key x r e err : refuses t e (Some x) err -> err <> NotImplErr -> selects t (Key x :: r) e []
| sel_idx i r e e' l : takes t e (Some (dec_nat i)) e' -> selects t r e' l -> selects t (Idx i :: r) e l
| sel_no_idx i r e err : refuses t e (Some (dec_nat i)) err -> err <> NotImplErr -> selects t (Idx i :: r) e []
| sel_from_end k r e e' l :
    (Pos.to_nat k <= List.length (kids t e))%nat ->
    nth_error (kids t e) (List.length (kids t e) - Pos.to_nat k) = Some e' ->
    selects t r e' l -> selects t (FromEnd k :: r) e l
| sel_no_from_end k r e :
    (List.length (kids t e) < Pos.to_nat k)%nat -> selects t (FromEnd k :: r) e []
| sel_cut2 a b r e cs ls :
    python_slice (kids t e) a b None cs -> Forall2 (selects t r) cs ls ->
    selects t (Cut2 a b :: r) e (List.concat ls)
| sel_cut3 a b c r e cs ls :
    python_slice (kids t e) a b c cs -> Forall2 (selects t r) cs ls ->
    selects t (Cut3 a b c :: r) e (List.concat ls).

(* find, once its fuel suffices *)
Definition finds (c : cache) (t : tree) (e : elem) (path : str) (single strict : bool) (r : res answer) : Prop :=
  exists f, forall fuel, (f <= fuel)%nat -> snd (find fuel c t e path single strict) = r.

(* ---------------- walking with . and .. ---------------- *)
(* where steps without slices go, taken one by one: .. goes to the container, and
   stays at the root *)
Inductive ideal (t : tree) : list step -> list nat -> list nat -> Prop :=
| ideal_end p : ideal t [] p p
| ideal_up r p q : ideal t r (tl p) q -> ideal t (DotDot :: r) p q
| ideal_here r p q : ideal t r p q -> ideal t (Dot :: r) p q
| ideal_name x r p p' q : takes t (Node p) (Some x) (Node p') -> ideal t r p' q -> ideal t (Key x :: r) p q
| ideal_index i r p p' q : takes t (Node p) (Some (dec_nat i)) (Node p') -> ideal t r p' q -> ideal t (Idx i :: r) p q.
(* .. can be taken from p all the way: no container over p is a List or is
   false *)
Definition climbable (t : tree) (p : list nat) : Prop :=
  forall a i q, p = a ++ i :: q -> slotted t q = false /\ truthy t (Node q) = true.
(* ---------------- reaching ---------------- *)
(* evaluation of ops at e comes to e' with the operations r left *)
Inductive reaches (t : tree) : list op -> elem -> list op -> elem -> Prop :=
| reaches_here ops e : reaches t ops e ops e
| reaches_top r e r' e' : reaches t r (root t e) r' e' -> reaches t (TOP :: r) e r' e'
| reaches_up r e u r' e' :
    (parent t e = Some u /\ truthy t u = true
     \/ u = e /\ (parent t e = None \/ exists v, parent t e = Some v /\ truthy t v = false)) ->
    reaches t r u r' e' -> reaches t (UP :: r) e r' e'
| reaches_self r e r' e' : reaches t r e r' e' -> reaches t (HERE :: r) e r' e'
| reaches_name x r e u r' e' : takes t e x u -> reaches t r u r' e' -> reaches t (NAME x :: r) e r' e'
| reaches_slice s r e ps cs u r' e' :
    slice_positions (List.length (kids t e)) s = Ok ps -> chosen (kids t e) ps cs -> In u cs ->
    reaches t r u r' e' -> reaches t (SLICE s :: r) e r' e'.

(* evaluation cannot go on: a name or index that is missing, when strict; a name
   under a ListSlot; a slice with step 0 *)
Inductive stuck (t : tree) (strict : bool) : list op -> elem -> exn -> Prop :=
| stuck_missing x r e err : refuses t e x err -> err <> NotImplErr -> strict = true ->
    stuck t strict (NAME x :: r) e LookupErr
| stuck_slot x r e : refuses t e x NotImplErr -> stuck t strict (NAME x :: r) e NotImplErr
| stuck_slice s r e : sl_step s = Some 0%Z -> stuck t strict (SLICE s :: r) e ValueErr.

(* ---------------- traversal ---------------- *)
(* the descendants at depth k+1, left to right *)
Fixpoint generation (t : tree) (e : elem) (k : nat) : list elem :=
  match k with O => kids t e | S k => flat_map (kids t) (generation t e k) end.
Definition generations (t : tree) (e : elem) (n : nat) : list elem := flat_map (generation t e) (seq 0 n).

(* ---------------- lookups one after the other ---------------- *)
Inductive request := Request (t : tree) (e : elem) (path : str) (single strict : bool) (fuel : nat).
Definition serve (c : cache) (r : request) : cache :=
  match r with Request t e path single strict fuel => fst (find fuel c t e path single strict) end.
Definition after (l : list request) : cache := fold_left serve l [].
Definition path_of (r : request) : str := match r with Request _ _ p _ _ _ => p end.

(* ---------------- brackets in names ---------------- *)
Definition plain_char (c : N) : Prop := special c = false /\ c <> backslash.
Definition not_number (y : str) : Prop := exists c, In c y /\ is_digit c = false /\ c <> ch "-" /\ c <> ch ":".

(* ---------------- a sample ---------------- *)
Definition sample_tree : tree :=
  Map None true
    [ (Some (lit "a"), Leaf (Some (lit "a")));
      (Some (lit "d.x"), Map (Some (lit "d.x")) true [(Some (lit "k[]/"), Leaf (Some (lit "k[]/")))]);
      (Some (lit "l"), Seq true (Some (lit "l")) true
          [ Map None true [(Some (lit "s"), Leaf (Some (lit "s")))];
            Map None true [(Some (lit "s"), Leaf (Some (lit "s")))];
            Map None true [(Some (lit "s"), Leaf (Some (lit "s")))] ]);
      (Some (lit "arr"), Seq false (Some (lit "arr")) true [Leaf (Some (lit "m")); Leaf (Some (lit "m"))]) ].
