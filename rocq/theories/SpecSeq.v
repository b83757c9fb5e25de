(* Specifications for sequences: numbering, back references, and the plain
   Python list a sequence stands for. *)
From Verif Require Import PyBase PyList ModelScalar ModelSeq.

(* every member sits in a slot of this list that is named after its position;
   parents lead from the member to the slot to the list *)
Definition list_ok {M} (q : seqst M) : Prop :=
  NoDup (q_items q)
  /\ forall i s, nth_error (q_items q) i = Some s ->
       h_name (q_h q) s = dec_nat i
       /\ h_parent (q_h q) s = Some (q_self q)
       /\ h_parent (q_h q) (h_elem (q_h q) s) = Some s.
Definition array_ok {M} (q : seqst M) : Prop :=
  forall e, In e (q_items q) -> h_parent (q_h q) e = Some (q_self q).

(* an existing element that is not a member of the list nor one of its slots *)
Definition loose {M} (q : seqst M) (e : nat) : Prop :=
  e < h_next (q_h q) /\ ~ In e (q_items q)
  /\ forall s, In s (q_items q) -> h_elem (q_h q) s <> e.
Definition arg_elems {V} (l : list (arg V)) : list nat :=
  flat_map (fun a => match a with AElem e => [e] | AVal _ => [] end) l.
Definition loose_all {V M} (q : seqst M) (l : list (arg V)) : Prop :=
  NoDup (arg_elems l) /\ forall e, In e (arg_elems l) -> loose q e.
(* the calls for which a List keeps its numbering *)
Definition list_call {V M} (q : seqst M) (o : op V M) : Prop :=
  match o with
  | Append a | Insert _ a => loose_all q [a]
  | Extend it | SetSlice _ it => loose_all q (it_items it)
  | SortBroken _ _ | IAdd _ | IMul _ => False
  | _ => True
  end.
(* the calls for which an Array's members keep pointing to it *)
Definition array_call {V M} (q : seqst M) (o : op V M) : Prop :=
  match o with
  | Append a | Insert _ a => forall e, a = AElem e -> e < h_next (q_h q)
  | Extend it | SetSlice _ it => forall e, In (AElem e) (it_items it) -> e < h_next (q_h q)
  | SetItem _ (AElem e) => h_parent (q_h q) e = Some (q_self q) /\ e < h_next (q_h q)
  | IAdd es => forall e, In e es -> h_parent (q_h q) e = Some (q_self q) /\ e < h_next (q_h q)
  | _ => True
  end.
(* the objects of a sequence exist, and its slots are not used as members *)
Definition list_bounded {M} (q : seqst M) : Prop :=
  (forall s, In s (q_items q) -> s < h_next (q_h q) /\ h_elem (q_h q) s < h_next (q_h q))
  /\ forall s s', In s (q_items q) -> In s' (q_items q) -> h_elem (q_h q) s <> s'.
Definition array_bounded {M} (q : seqst M) : Prop :=
  forall e, In e (q_items q) -> e < h_next (q_h q).
(* elements given to an Array exist *)
Definition array_args {V M} (q : seqst M) (o : op V M) : Prop :=
  match o with
  | Append a | Insert _ a | SetItem _ a => forall e, a = AElem e -> e < h_next (q_h q)
  | Extend it | SetSlice _ it => forall e, In (AElem e) (it_items it) -> e < h_next (q_h q)
  | _ => True
  end.
Fixpoint list_history {V M} (sch : mschema V M) (q : seqst M) (os : list (op V M)) : Prop :=
  match os with
  | [] => True
  | o :: r => list_call q o /\ list_history sch (fst (l_step sch q o)) r
  end.
Fixpoint array_history {V M} (sch : mschema V M) (q : seqst M) (os : list (op V M)) : Prop :=
  match os with
  | [] => True
  | o :: r => array_call q o /\ array_history sch (fst (a_step sch q o)) r
  end.
Definition run_list {V M} (sch : mschema V M) (q : seqst M) (os : list (op V M)) : seqst M :=
  fold_left (fun q o => fst (l_step sch q o)) os q.
Definition run_array {V M} (sch : mschema V M) (q : seqst M) (os : list (op V M)) : seqst M :=
  fold_left (fun q o => fst (a_step sch q o)) os q.
(* a list just constructed *)
Definition fresh_seq {M} (q : seqst M) : Prop := q_items q = [] /\ q_self q < h_next (q_h q).

(* ------------------------------------------------------------------ *)
(* The plain list of member contents, and what each call does to it.  [con]
   reads the content of an existing element. *)
Definition list_values {M} (q : seqst M) : list M :=
  map (fun s => h_con (q_h q) (h_elem (q_h q) s)) (q_items q).
Definition array_values {M} (q : seqst M) : list M := map (h_con (q_h q)) (q_items q).

Section Plain.
Context {V M : Type} (sch : mschema V M) (con : nat -> M).
(* the member made from an argument *)
Definition wrap (a : arg V) : res M :=
  match a with
  | AElem e => Ok (con e)
  | AVal v => let '(m, r) := ms_set sch (ms_new sch) v in rmap (fun _ => m) r
  end.
(* the members made before the first exception, and that exception *)
Fixpoint wrap_all (l : list (arg V)) (last : option exn) : list M * option exn :=
  match l with
  | [] => ([], last)
  | a :: l' => match wrap a with
               | Err x => ([], Some x)
               | Ok m => let '(ms, x) := wrap_all l' last in (m :: ms, x)
               end
  end.
Definition finish (x : option exn) : res (out M) := match x with None => Ok RNone | Some e => Err e end.
(* members made by set(), whether all converted, and the exception if any *)
Fixpoint set_all (l : list V) (last : option exn) : list M * bool * option exn :=
  match l with
  | [] => ([], true, last)
  | v :: l' => let '(m, r) := ms_set sch (ms_new sch) v in
               match r with
               | Err x => ([], true, Some x)
               | Ok b => let '(ms, c, x) := set_all l' last in (m :: ms, b && c, x)
               end
  end.
(* members made by filling with blank ones and changing each in place *)
Fixpoint fill_all (fs : list (M -> M * res unit)) : list M * option exn :=
  match fs with
  | [] => ([], None)
  | f :: fs' => let '(m, r) := f (ms_new sch) in
                match r with
                | Err x => ([m], Some x)
                | Ok _ => let '(ms, x) := fill_all fs' in (m :: ms, x)
                end
  end.
Definition pure (r : res (list M)) (l : list M) : list M * res (out M) :=
  match r with Ok l' => (l', Ok RNone) | Err x => (l, Err x) end.
Definition set_plain (it : iterable V) : list M * res (out M) :=
  let '(ms, c, x) := set_all (it_items it) (it_end it) in
  match x with
  | Some TypeErr => ([], Ok (RBool false))
  | Some e => ([], Err e)
  | None => (ms, Ok (RBool c))
  end.

(* in_place says what self[i] = a does to the member there *)
Definition plain_op (in_place : M -> arg V -> M * res unit) (l : list M) (o : op V M)
  : list M * res (out M) :=
  match o with
  | Append a => let '(ms, x) := wrap_all [a] None in (l ++ ms, finish x)
  | Extend it => let '(ms, x) := wrap_all (it_items it) (it_end it) in (l ++ ms, finish x)
  | Insert i a => match wrap a with
                  | Ok m => (pl_insert l i m, Ok RNone)
                  | Err x => (l, Err x)
                  end
  | SetItem i a => match pl_get l i with
                   | Err x => (l, Err x)
                   | Ok m => let '(m', r) := in_place m a in
                             match pl_set l i m' with
                             | Ok l' => (l', rmap (fun _ => RNone) r)
                             | Err x => (l, Err x)
                             end
                   end
  | SetSlice s it => let '(ms, x) := wrap_all (it_items it) (it_end it) in
                     match x with Some e => (l, Err e) | None => pure (pl_setslice l s ms) l end
  | DelItem i => pure (pl_del l i) l
  | DelSlice s => pure (pl_delslice l s) l
  | Pop i => match pl_pop l i with Ok (m, l') => (l', Ok (RItem m)) | Err x => (l, Err x) end
  | Remove a => match wrap a with
                | Ok m => pure (pl_remove (fun y => ms_eq sch y m) l) l
                | Err x => (l, Err x)
                end
  | Index a => (l, match wrap a with
                   | Ok m => rmap RNat (pl_index (fun y => ms_eq sch y m) l) | Err x => Err x end)
  | Count a => (l, match wrap a with
                   | Ok m => Ok (RNat (pl_count (fun y => ms_eq sch y m) l)) | Err x => Err x end)
  | Contains a => (l, match wrap a with
                      | Ok m => Ok (RBool (pl_contains (fun y => ms_eq sch y m) l)) | Err x => Err x end)
  | Reverse => (rev l, Ok RNone)
  | Sort k r => pure (pl_sort k r l) l
  | SetIt it => set_plain it
  | SetDefault d =>
      match d with
      | DNone | DUnspecified => (l, Ok RNone)
      | DInt z => let '(ms, x) := fill_all (repeat (ms_default sch) (Z.to_nat z)) in (ms, finish x)
      | DIter it => let '(ms, r) := set_plain it in (ms, rmap (fun _ => RNone) r)
      end
  | SetFlat fs => let '(ms, x) := fill_all fs in (ms, finish x)
  | SortBroken _ _ | IAdd _ | IMul _ => (l, Ok RNone)   (* not list semantics *)
  end.
End Plain.
Definition out_map {A B} (f : A -> B) (o : out A) : out B :=
  match o with RNone => RNone | RBool b => RBool b | RNat n => RNat n | RItem a => RItem (f a) end.
(* what self[i] = a does to the member of a List: it is set in place *)
Definition list_in_place {V M} (sch : mschema V M) (con : nat -> M) (m : M) (a : arg V) : M * res unit :=
  let '(m', r) := match a with
                  | AVal v => ms_set sch m v
                  | AElem e => ms_set_el sch m (con e)
                  end in (m', rmap (fun _ => tt) r).
(* An Array replaces the member instead; its set_default extends with the
   default, and a member whose set_flat raised is not kept. *)
Definition plain_array_op {V M} (sch : mschema V M) (con : nat -> M) (l : list M) (o : op V M)
  : list M * res (out M) :=
  match o with
  | SetItem i a => match wrap sch con a with
                   | Err x => (l, Err x)
                   | Ok m => pure (pl_set l i m) l
                   end
  | SetDefault d =>
      match d with
      | DNone | DUnspecified => (l, Ok RNone)
      | DInt _ => ([], Err TypeErr)
      | DIter it => let '(ms, x) := wrap_all sch con (map AVal (it_items it)) (it_end it) in (ms, finish x)
      end
  | SetFlat fs =>
      let '(ms, x) := fill_all sch fs in
      (match x with None => ms | Some _ => removelast ms end, finish x)
  | _ => plain_op sch con (fun m _ => (m, Ok tt)) l o
  end.
(* calls with Python list semantics *)
Definition listlike {V M} (o : op V M) : Prop :=
  match o with SortBroken _ _ | IAdd _ | IMul _ => False | _ => True end.

(* List.of(Integer) as an instance: base.py:346-350 equality; int() of an
   element is a TypeError, which Integer turns into a failed conversion *)
Definition integers : mschema pyval scalar :=
  MSchema _ _ blank (scalar_set (KInteger true))
    (fun st _ => scalar_set (KInteger true) st (VObj (Obj 0 (lit "<Integer>") true (Err TypeErr))))
    (scalar_set_default (KInteger true) (Some (VInt 7)))
    (fun x y => py_eq (s_value x) (s_value y) && str_eqb (s_u x) (s_u y)).
(* an empty list object 0, one foreign element (object 1) holding 5, and an
   element (object 2) holding 6 that belongs to something else (object 3) *)
Definition sample : seqst scalar :=
  let five := fst (scalar_set (KInteger true) blank (VInt 5)) in
  let six := fst (scalar_set (KInteger true) blank (VInt 6)) in
  Seq (Heap 4 (fun i => if Nat.eqb i 2 then Some 3 else None) (fun _ => []) (fun i => i)
            (fun i => if Nat.eqb i 2 then six else five)) 0 [].
(* values read from a list state *)
Definition values_of (q : seqst scalar) : list pyval := map s_value (list_values q).
Definition list_ops : list (op pyval scalar) :=
  [Append (AVal (VText (lit "1"))); Extend (Iter [AVal (VInt 2); AElem 1] (Some ValueErr));
   Insert (-5) (AVal (VInt 0)); SetItem (-1) (AVal (VInt 9));
   SetSlice (Slice (Some 1) (Some 2) None)%Z (Iter [AVal (VInt 3); AVal (VInt 4)] None);
   Pop 0; Remove (AVal (VInt 2)); DelItem 7; Reverse].
Definition array_ops : list (op pyval scalar) :=
  [SetDefault (DIter (Iter [VInt 3; VText (lit "x")] None)); SetItem 1 (AVal (VInt 8)); Append (AElem 1);
   Append (AElem 1); SetSlice (Slice (Some 0) (Some 1) None)%Z (Iter [AVal (VInt 4); AElem 2] None);
   Index (AVal (VInt 5)); Sort (fun m => match s_value m with VInt z => Ok z | _ => Err TypeErr end) true].
