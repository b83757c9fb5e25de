(* Model of flatland/schema/compound.py: DateYYYYMMDD, JoinedString and the
   class initialisation of Compound.  Validation is in ModelValidate, set_flat
   of a Compound is Mapping's (C60). *)
From Verif Require Import PyBase PyList ModelScalar.

(* ------------------------------ DateYYYYMMDD ------------------------------ *)
(* schema/scalars.py:540, schema/compound.py:228: '%0wi' % z : zero padded to
   w, the sign included *)
Definition pad_z (w : nat) (z : Z) : str :=
  match z with
  | Zneg p => ch "-" :: dec_pad (w - 1) (Npos p)
  | _ => dec_pad w (Z.to_N z)
  end.
(* schema/scalars.py:540, schema/compound.py:228: the integer that '%i' makes
   of a value: TypeError unless it is a number; for other objects this is
   int(obj) *)
Definition pct_i (v : pyval) : res Z :=
  match v with
  | VInt z => Ok z
  | VBool b => Ok (if b then 1 else 0)%Z
  | VObj o => o_int o
  | _ => Err TypeErr
  end.
(* Integer.using(format='%0wi'): compound.py:208-215 *)
Definition padded_int (w : nat) : numtype :=
  NumType int_conv (nt_is int_type) (nt_neg int_type)
          (fun v => match v with VInt z => pad_z w z | _ => [] end).

(* schema/compound.py:198-217: A field of the compound: its name, type and
   optional flag *)
Record dfield := DField { df_name : name; df_kind : kind; df_optional : bool }.
(* compound.py:198-217 __compound_init__: fields given by the user come first;
   signed is Integer's default *)
Definition year_field (opt : bool) : dfield := DField (Some (lit "year")) (KNumber (padded_int 4) true) opt.
(* schema/compound.py:211-212 *)
Definition month_field (opt : bool) : dfield := DField (Some (lit "month")) (KNumber (padded_int 2) true) opt.
(* schema/compound.py:214-215 *)
Definition day_field (opt : bool) : dfield := DField (Some (lit "day")) (KNumber (padded_int 2) true) opt.
(* schema/compound.py:198-217 *)
Definition date_init (fields : list dfield) (optional : bool) : res (list dfield) :=
  if (4 <=? List.length fields)%nat then Err AssertErr
  else if (List.length fields =? 3)%nat then Ok fields
  else
    let fields := if (List.length fields =? 0)%nat then fields ++ [year_field optional] else fields in
    let fields := if (List.length fields =? 1)%nat then fields ++ [month_field optional] else fields in
    let fields := if (List.length fields =? 2)%nat then fields ++ [day_field optional] else fields in
    Ok fields.

(* schema/compound.py:225-227, 239-241: The children in the order of
   field_schema; their names are distinct *)
Record parts := Parts { p_y : scalar; p_m : scalar; p_d : scalar }.
(* schema/compound.py:225-227: the types of the children *)
Record kinds := Kinds { k_y : kind; k_m : kind; k_d : kind }.
(* schema/containers.py:771-776: the children of a new element *)
Definition blank_parts : parts := Parts blank blank blank.
(* compound.py:223-233 compose: text and value; strip_ is self.strip.  The
   format is Date.format (scalars.py:541) *)
Definition date_compose (strip_ : bool) (p : parts) : res (str * pyval) :=
  match bind (pct_i (s_value (p_y p))) (fun y =>
        bind (pct_i (s_value (p_m p))) (fun m =>
        bind (pct_i (s_value (p_d p))) (fun d =>
        let t := pad_z 4 y ++ lit "-" ++ pad_z 2 m ++ lit "-" ++ pad_z 2 d in
        rmap (fun v => (t, v)) (adapt (KTemporal TDate strip_) (VText t))))) with
  | Err AdaptErr | Err TypeErr => Ok ([], VNone)
  | r => r
  end.
(* compound.py:147-149, 157-159 *)
Definition date_u (strip_ : bool) (p : parts) : res str := rmap fst (date_compose strip_ p).
(* schema/compound.py:157-159 *)
Definition date_value (strip_ : bool) (p : parts) : res pyval := rmap snd (date_compose strip_ p).
(* schema/compound.py:239-244: set each child in turn, up to the first that
   raises *)
Definition set_parts (k : kinds) (p : parts) (y m d : pyval) : parts * res unit :=
  let '(sy, r) := scalar_set (k_y k) (p_y p) y in
  let p := Parts sy (p_m p) (p_d p) in
  match r with
  | Err e => (p, Err e)
  | Ok _ =>
      let '(sm, r) := scalar_set (k_m k) (p_m p) m in
      let p := Parts (p_y p) sm (p_d p) in
      match r with
      | Err e => (p, Err e)
      | Ok _ =>
          let '(sd, r) := scalar_set (k_d k) (p_d p) d in
          (Parts (p_y p) (p_m p) sd, rmap (fun _ => tt) r)
      end
  end.
(* compound.py:235-244 explode: None has no attribute year *)
Definition date_explode (strip_ : bool) (k : kinds) (p : parts) (v : pyval) : parts * res unit :=
  let '(p, r) :=
    match adapt (KTemporal TDate strip_) v with
    | Err e => (p, Err e)
    | Ok (VDate d) | Ok (VDateTime d _) =>
        set_parts k p (VInt (Z.of_N (d_y d))) (VInt (Z.of_N (d_m d))) (VInt (Z.of_N (d_d d)))
    | Ok _ => (p, Err AttributeErr)
    end in
  match r with
  | Err AdaptErr | Err TypeErr => set_parts k p VNone VNone VNone
  | _ => (p, r)
  end.
(* compound.py:167-178 set: explode returns None, so True; all exceptions but
   NotImplementedError are quashed *)
Definition date_set (strip_ : bool) (k : kinds) (p : parts) (v : pyval) : parts * res bool :=
  let '(p, r) := date_explode strip_ k p v in
  (p, match r with Ok _ => Ok true | Err NotImplErr => Err NotImplErr | Err _ => Ok false end).
(* compound.py:190-193 is_empty *)
Definition date_is_empty (k : kinds) (p : parts) : bool :=
  scalar_is_empty (k_y k) (p_y p) && scalar_is_empty (k_m k) (p_m p) && scalar_is_empty (k_d k) (p_d p).

(* ------------------------------ JoinedString ------------------------------ *)
(* schema/compound.py:296-306: What set is given: a list or tuple, another
   iterable (its items), text, or an object that is not iterable *)
Inductive joined_arg := JItems (l : list pyval) | JText (s : str) | JNotIterable.
(* schema/compound.py:271-286: separator or separator_regex; the latter as the
   function regex.split (None for groups that do not take part) *)
Inductive splitter := Static | Regex (split_ : str -> list pyval).
(* compound.py:297-306: the values; ''.split('') raises ValueError *)
Definition joined_values (sep : str) (how : splitter) (a : joined_arg) : res (list pyval) :=
  match a with
  | JItems l => Ok l
  | JNotIterable => Err TypeErr
  | JText s =>
      match how with
      | Regex f => Ok (f s)
      | Static => match sep with [] => Err ValueErr | _ => Ok (map VText (split sep s)) end
      end
  end.
(* compound.py:308-317 the members are scalars of type k *)
Fixpoint joined_members (k : kind) (prune : bool) (l : list pyval) : list scalar * res bool :=
  match l with
  | [] => ([], Ok true)
  | v :: l' =>
      if prune && negb (vtruth v) then joined_members k prune l'
      else match scalar_set k blank v with
           | (_, Err e) => ([], Err e)
           | (st, Ok b) => let '(sts, r) := joined_members k prune l' in (st :: sts, rmap (andb b) r)
           end
  end.
(* compound.py:296-317 set *)
Definition joined_set (sep : str) (how : splitter) (k : kind) (prune : bool) (old : list scalar) (a : joined_arg)
  : list scalar * res bool :=
  match joined_values sep how a with
  | Err e => (old, Err e)
  | Ok l => joined_members k prune l
  end.
(* compound.py:322-330 value and u *)
Definition joined_value (sep : str) (sts : list scalar) : str := join sep (map s_u sts).
(* compound.py:319-320, scalars.py:123-127 _set_flat with text values *)
Fixpoint joined_set_flat (nm : name) (sep : str) (how : splitter) (k : kind) (prune : bool) (old : list scalar)
         (pairs : list (name * joined_arg)) : list scalar * res unit :=
  match pairs with
  | [] => (old, Ok tt)
  | (key, a) :: rest =>
      if name_eqb key nm
      then let '(sts, r) := joined_set sep how k prune old a in (sts, rmap (fun _ => tt) r)
      else joined_set_flat nm sep how k prune old rest
  end.

(* ------------------------------ class initialisation ------------------------------ *)
(* compound.py:16, 25-71: _MetaCompound.__call__ without keywords and the
   wrapped __compound_init__.  Classes and threads are numbers.  The flag
   _compound_prepared is looked up in the class's own __dict__; the RLock is one
   for all classes.  The n-th run of the __compound_init__ of class c is
   [run c n]: its steps, and whether it returns or raises at the end.  A step is
   work without effect here, a call of an inherited (hence wrapped)
   __compound_init__, which marks cls prepared (68), or the construction of an
   element of a class, whose exception ends the run.  Each thread constructs
   elements of the classes on its list one after the other; exceptions are
   handled by the code that called. *)
Inductive work := Works | CallsInherited | Constructs (c : nat).
(* schema/compound.py:66-69 *)
Record init_run := Run { i_work : list work; i_ok : bool }.
(* schema/compound.py:41-59 *)
Inductive pc :=
| Start                       (* 41: is the class prepared? *)
| Acquire                     (* 43-44 *)
| Recheck                     (* 46 *)
| Initialising (w : list work) (ok : bool)   (* 47, 67 *)
| Marking                     (* 68 *)
| Release (ok : bool)         (* 49 *)
| Making.                     (* schema/compound.py:41-59: what can be observed: 53-59 *)
Inductive event :=
| InitBegins (t c : nat) | InitEnds (t c : nat) (ok : bool) | Makes (t c : nat) | Raises (t c : nat).
(* schema/compound.py:16, 19, 25-59 *)
Record cstate := CState {
  c_prepared : nat -> bool;
  c_lock : option (nat * nat);          (* owner, how often acquired *)
  c_begun : nat -> nat;                 (* runs so far, per class *)
  c_stack : nat -> list (nat * pc);     (* per thread: constructions under way, innermost first *)
  c_todo : nat -> list nat;             (* per thread: classes still to construct *)
  c_trace : list event                  (* latest first *) }.
(* schema/compound.py:16, 19: no class is prepared, the lock is free *)
Definition c_start (todo : nat -> list nat) : cstate :=
  CState (fun _ => false) None (fun _ => 0%nat) (fun _ => []) todo [].
(* schema/compound.py:68: a changed entry *)
Definition put {A} (f : nat -> A) (t : nat) (a : A) : nat -> A := fun u => if Nat.eqb u t then a else f u.
(* schema/compound.py:16, 44: RLock: acquire by t: None while another thread
   has it *)
Definition lock_acquire (t : nat) (l : option (nat * nat)) : option (nat * nat) :=
  match l with
  | None => Some (t, 1%nat)
  | Some (u, n) => if Nat.eqb u t then Some (t, S n) else None
  end.
(* schema/compound.py:16, 49: RLock *)
Definition lock_release (l : option (nat * nat)) : option (nat * nat) :=
  match l with
  | Some (t, S (S n)) => Some (t, S n)
  | _ => None
  end.
(* schema/compound.py:47, 67: an exception reaches the code that was
   constructing *)
Definition raised (stack : list (nat * pc)) : list (nat * pc) :=
  match stack with
  | (c, Initialising _ _) :: rest => (c, Initialising [] false) :: rest
  | s => s
  end.
(* schema/compound.py:25-59: thread t goes on *)
Definition goes (s : cstate) (t : nat) (stack : list (nat * pc)) : cstate :=
  CState (c_prepared s) (c_lock s) (c_begun s) (put (c_stack s) t stack) (c_todo s) (c_trace s).
(* schema/compound.py:25-59: an observation *)
Definition tells (s : cstate) (e : event) : cstate :=
  CState (c_prepared s) (c_lock s) (c_begun s) (c_stack s) (c_todo s) (e :: c_trace s).
(* schema/compound.py:44, 49: the lock changes *)
Definition locks (s : cstate) (l : option (nat * nat)) : cstate :=
  CState (c_prepared s) l (c_begun s) (c_stack s) (c_todo s) (c_trace s).
(* schema/compound.py:68: cls._compound_prepared = True *)
Definition prepares (s : cstate) (c : nat) : cstate :=
  CState (put (c_prepared s) c true) (c_lock s) (c_begun s) (c_stack s) (c_todo s) (c_trace s).
(* schema/compound.py:67: a run is counted *)
Definition begins (s : cstate) (c : nat) : cstate :=
  CState (c_prepared s) (c_lock s) (put (c_begun s) c (S (c_begun s c))) (c_stack s) (c_todo s) (c_trace s).
(* schema/compound.py:25-71: one step of thread t; it waits for the lock, and
   stays where it ends *)
Definition cstep (run : nat -> nat -> init_run) (s : cstate) (t : nat) : cstate :=
  match c_stack s t with
  | [] =>
      match c_todo s t with
      | [] => s
      | c :: todo => CState (c_prepared s) (c_lock s) (c_begun s) (put (c_stack s) t [(c, Start)])
                            (put (c_todo s) t todo) (c_trace s)
      end
  | (c, Start) :: rest => goes s t ((c, if c_prepared s c then Making else Acquire) :: rest)
  | (c, Acquire) :: rest =>
      match lock_acquire t (c_lock s) with
      | None => s
      | l => goes (locks s l) t ((c, Recheck) :: rest)
      end
  | (c, Recheck) :: rest =>
      if c_prepared s c then goes s t ((c, Release true) :: rest)
      else let r := run c (c_begun s c) in
           tells (goes (begins s c) t ((c, Initialising (i_work r) (i_ok r)) :: rest)) (InitBegins t c)
  | (c, Initialising (Works :: ws) ok) :: rest => goes s t ((c, Initialising ws ok) :: rest)
  | (c, Initialising (CallsInherited :: ws) ok) :: rest =>
      goes (prepares s c) t ((c, Initialising ws ok) :: rest)
  | (c, Initialising (Constructs c' :: ws) ok) :: rest =>
      goes s t ((c', Start) :: (c, Initialising ws ok) :: rest)
  | (c, Initialising [] ok) :: rest =>
      tells (goes s t ((c, if ok then Marking else Release false) :: rest)) (InitEnds t c ok)
  | (c, Marking) :: rest => goes (prepares s c) t ((c, Release true) :: rest)
  | (c, Release true) :: rest => goes (locks s (lock_release (c_lock s))) t ((c, Making) :: rest)
  | (c, Release false) :: rest =>
      tells (goes (locks s (lock_release (c_lock s))) t (raised rest)) (Raises t c)
  | (c, Making) :: rest => tells (goes s t rest) (Makes t c)
  end.
(* schema/compound.py:25-71: any interleaving *)
Definition crun (run : nat -> nat -> init_run) (s : cstate) (schedule : list nat) : cstate :=
  fold_left (cstep run) schedule s.

(* compound.py:25-59 one call with keywords kw by one thread: what it does, in
   order.  [has] says which names are attributes of the class, [prepared]
   whether the class is, [inits] whether __compound_init__ returns or raises;
   Sub kw' is the class cls.using( **kw').  The class used is the one made; an
   exception of __compound_init__ is passed on *)
Inductive maker {V} := Own | Sub (overrides : list (str * V)).
(* schema/compound.py:25-59 *)
Inductive act {V} := Inits (m : @maker V) (locked : bool) | Builds (m : @maker V) (kw : list (str * V)).
(* schema/compound.py:25-59 *)
Definition compound_call {V} (has : str -> bool) (prepared inits : bool) (kw : list (str * V))
  : list (@act V) * bool :=
  let overrides := filter (fun p => has (fst p)) kw in
  let kw := filter (fun p => negb (has (fst p))) kw in
  match overrides with
  | _ :: _ =>
      if inits then ([Inits (Sub overrides) false; Builds (Sub overrides) kw], true)
      else ([Inits (Sub overrides) false], false)
  | [] =>
      if prepared then ([Builds Own kw], true)
      else if inits then ([Inits Own true; Builds Own kw], true)
      else ([Inits Own true], false)
  end.
