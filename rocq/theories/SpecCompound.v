(* Specifications for compound elements. *)
From Verif Require Import PyBase ModelScalar SpecScalar ModelCompound.

(* ---------------- dates in three parts ---------------- *)
(* v is used as the number z *)
Inductive counts_as : pyval -> Z -> Prop :=
| ca_int z : counts_as (VInt z) z
| ca_true : counts_as (VBool true) 1
| ca_false : counts_as (VBool false) 0
| ca_obj o z : o_int o = Ok z -> counts_as (VObj o) z.
(* the parts hold the date d *)
Definition holds_date (p : parts) (d : date) : Prop :=
  real_date d
  /\ counts_as (s_value (p_y p)) (Z.of_N (d_y d))
  /\ counts_as (s_value (p_m p)) (Z.of_N (d_m d))
  /\ counts_as (s_value (p_d p)) (Z.of_N (d_d d)).
(* no object among the values makes int() fail with anything but TypeError *)
Definition calm (v : pyval) : Prop :=
  forall o e, v = VObj o -> o_int o = Err e -> e = TypeErr.
Definition calm_parts (p : parts) : Prop :=
  calm (s_value (p_y p)) /\ calm (s_value (p_m p)) /\ calm (s_value (p_d p)).
(* what a date field understands as the date d *)
Inductive means_date (strip_ : bool) : pyval -> date -> Prop :=
| md_date d : real_date d -> means_date strip_ (VDate d) d
| md_datetime d t : real_date d -> means_date strip_ (VDateTime d t) d
| md_text s s0 d : looked_at strip_ s s0 -> date_form field s0 d -> real_date d ->
    means_date strip_ (VText s) d.
(* a child type that takes the number z *)
Definition takes (k : kind) (z : Z) : Prop :=
  forall st, exists st', scalar_set k st (VInt z) = (st', Ok true) /\ counts_as (s_value st') z.
(* a child type that takes None *)
Definition clears (k : kind) : Prop :=
  forall st, exists st', scalar_set k st VNone = (st', Ok true) /\ s_value st' = VNone /\ s_u st' = [].
(* the state of a child after it was set to None *)
Definition emptied : scalar := Scalar (Some VNone) VNone [].
(* the integer z written with at least w characters, zeros in front *)
Definition padded (w : nat) (s : str) (z : Z) : Prop :=
  integer_text s z /\ Forall (fun c => 48 <= c <= 57 \/ c = 45)%N s
  /\ (w <= List.length s)%nat /\ (List.length s = w \/ canonical_int s z).
(* the fields of a date whose schema gives the first of them *)
Definition completed (given : list dfield) (optional : bool) (fields : list dfield) : Prop :=
  List.length fields = 3%nat
  /\ (exists rest, fields = given ++ rest
      /\ Forall (fun f => df_optional f = optional) rest)
  /\ (forall i f, nth_error fields i = Some f -> (List.length given <= i)%nat ->
        nth_error (map Some [lit "year"; lit "month"; lit "day"]) i = Some (df_name f)
        /\ df_kind f = KNumber (padded_int (if Nat.eqb i 0 then 4 else 2)) true).

(* the fields a date has when none are given *)
Definition default_kinds : kinds := Kinds (KNumber (padded_int 4) true) (KNumber (padded_int 2) true) (KNumber (padded_int 2) true).

(* ---------------- joined strings ---------------- *)
Definition occurs (sep s : str) : Prop := exists a b, s = a ++ sep ++ b.
(* the pieces of s: cut at the leftmost separator, again and again *)
Inductive pieces (sep : str) : str -> list str -> Prop :=
| pc_last s : ~ occurs sep s -> pieces sep s [s]
| pc_cut a r l :
    (forall a' b', a ++ sep ++ r = a' ++ sep ++ b' -> (List.length a <= List.length a')%nat) ->
    pieces sep r l -> pieces sep (a ++ sep ++ r) (a :: l).
Inductive joins (sep : str) : list str -> str -> Prop :=
| jn_nil : joins sep [] []
| jn_one s : joins sep [s] s
| jn_more a l s : l <> [] -> joins sep l s -> joins sep (a :: l) (a ++ sep ++ s).
(* the values that become members *)
Inductive kept_values (prune : bool) : list pyval -> list pyval -> Prop :=
| kv_nil : kept_values prune [] []
| kv_drop v l l' : prune = true -> ~ truthy v -> kept_values prune l l' -> kept_values prune (v :: l) l'
| kv_keep v l l' : prune = false \/ truthy v -> kept_values prune l l' -> kept_values prune (v :: l) (v :: l').
(* a fresh member set to v *)
Definition member_of (k : kind) (v : pyval) (st : scalar) (b : bool) : Prop :=
  scalar_set k blank v = (st, Ok b).
(* no character in common *)
Definition apart (sep s : str) : Prop := forall c, In c sep -> ~ In c s.
(* a member whose text reads back *)
Definition stable (k : kind) (st : scalar) : Prop :=
  exists st', scalar_set k blank (VText (s_u st)) = (st', Ok true) /\ s_value st' = s_value st /\ s_u st' = s_u st.
(* l and l' look the same from outside *)
Definition same_members (l l' : list scalar) : Prop :=
  map s_value l = map s_value l' /\ map s_u l = map s_u l'.

(* ---------------- class initialisation ---------------- *)
(* trace t, oldest event first *)
Definition before (tr : list event) (e : event) (P : event -> Prop) : Prop :=
  forall a b, tr = a ++ e :: b -> exists x, In x a /\ P x.
Definition ends_well (c : nat) (e : event) : Prop := exists t, e = InitEnds t c true.
(* initialisations nest, and only within one thread *)
Inductive nests : list event -> list (nat * nat) -> Prop :=
| ns_nil : nests [] []
| ns_begin tr st t c : nests tr st -> Forall (fun x => fst x = t) st ->
    nests (tr ++ [InitBegins t c]) ((t, c) :: st)
| ns_end tr st t c ok : nests tr ((t, c) :: st) -> nests (tr ++ [InitEnds t c ok]) st
| ns_makes tr st t c : nests tr st -> nests (tr ++ [Makes t c]) st
| ns_raises tr st t c : nests tr st -> nests (tr ++ [Raises t c]) st.
(* initialisers run to their end without calling an inherited one, and only
   construct classes that come earlier in some order *)
Definition proper (run : nat -> nat -> init_run) : Prop :=
  exists rank : nat -> nat, forall c n w, In w (i_work (run c n)) ->
    match w with
    | Works => True
    | CallsInherited => False
    | Constructs c' => (rank c' < rank c)%nat
    end.
Definition thread_of (e : event) : nat :=
  match e with InitBegins t _ | InitEnds t _ _ | Makes t _ | Raises t _ => t end.
(* all threads have finished *)
Definition finished (s : cstate) : Prop := forall t, c_stack s t = [] /\ c_todo s t = [].
(* What one thread is seen to do, oldest first: the initialisations it has
   open, what must come next, and the classes it was asked to construct that
   are settled (made or raised) *)
Inductive mood := Free | Failing | MustMake (c : nat) | MustRaise (c : nat).
Definition settle (c : nat) (opened settled : list nat) : list nat :=
  match opened with [] => settled ++ [c] | _ => settled end.
Inductive does (t : nat) : list event -> list nat -> mood -> list nat -> Prop :=
| do_nil : does t [] [] Free []
| do_begin l o s c : does t l o Free s -> does t (l ++ [InitBegins t c]) (c :: o) Free s
| do_end_ok l o s c : does t l (c :: o) Free s -> does t (l ++ [InitEnds t c true]) o (MustMake c) s
| do_end_bad l o s c m : does t l (c :: o) m s -> m = Free \/ m = Failing ->
    does t (l ++ [InitEnds t c false]) o (MustRaise c) s
| do_make l o s c m : does t l o m s -> m = Free \/ m = MustMake c ->
    does t (l ++ [Makes t c]) o Free (settle c o s)
| do_raise l o s c : does t l o (MustRaise c) s ->
    does t (l ++ [Raises t c]) o (match o with [] => Free | _ => Failing end) (settle c o s).
Definition thread_log (t : nat) (tr : list event) : list event := filter (fun e => Nat.eqb (thread_of e) t) tr.
