(* Computed attributes, labels, views and deferred modules. *)
From Verif Require Import PyBase ModelDesc SpecDesc.
From Verif Require ProofDesc.
From Coq Require Import Sorted.

(* ---- C77: computed attributes under any history of reads, assignments and deletions ---- *)
Theorem C77_assignable V (fget : nat -> list (str * V) -> res V) a n ops o :
  let o' := fold_left (attr_step fget Assignable a n) ops o in
  read fget Assignable a n o' =
  match fold_left after ops (aget str_eqb n (o_dict o)) with
  | Some v => (o', Ok v)
  | None => (Obj (o_dict o') (S (o_calls o')), fget (o_calls o') (o_dict o'))
  end.
Proof. exact (@ProofDesc.assignable_history V fget a n ops o). Qed.
Print Assumptions C77_assignable.
Theorem C77_calls V (fget : nat -> list (str * V) -> res V) a n ops o :
  o_calls (fold_left (attr_step fget Assignable a n) ops o) = misses (aget str_eqb n (o_dict o)) ops + o_calls o.
Proof. exact (@ProofDesc.history_calls V fget a n ops o). Qed.
Print Assumptions C77_calls.
Theorem C77_cloner V (fget : nat -> list (str * V) -> res V) a n ops o :
  let o' := fold_left (attr_step fget Cloner a n) ops o in
  read fget Cloner a n o' =
  (o', match fold_left after ops (aget str_eqb n (o_dict o)) with Some v => Ok v | None => Err AttributeErr end).
Proof. exact (@ProofDesc.cloner_history V fget a n ops o). Qed.
Print Assumptions C77_cloner.
Theorem C77_lazy_first V (fget : nat -> list (str * V) -> res V) a o : aget str_eqb a (o_dict o) = None ->
  read fget Lazy a a o =
  match fget (o_calls o) (o_dict o) with
  | Ok v => (Obj (aset str_eqb a v (o_dict o)) (S (o_calls o)), Ok v)
  | Err x => (Obj (o_dict o) (S (o_calls o)), Err x)
  end.
Proof. exact (@ProofDesc.lazy_first V fget a o). Qed.
Print Assumptions C77_lazy_first.
Theorem C77_lazy_once V (fget : nat -> list (str * V) -> res V) a o o1 v : read fget Lazy a a o = (o1, Ok v) ->
  forall n, fold_left (attr_step fget Lazy a a) (repeat ARead n) o1 = o1 /\ read fget Lazy a a o1 = (o1, Ok v) /\
  o_calls o1 = match aget str_eqb a (o_dict o) with Some _ => o_calls o | None => S (o_calls o) end.
Proof. exact (@ProofDesc.lazy_once V fget a o o1 v). Qed.
Print Assumptions C77_lazy_once.
Theorem C77_lazy_assigned V (fget : nat -> list (str * V) -> res V) a n v o :
  read fget Lazy a n (assign Lazy a n v o) = (assign Lazy a n v o, Ok v).
Proof. exact (@ProofDesc.lazy_assigned V fget a n v o). Qed.
Print Assumptions C77_lazy_assigned.
Theorem C77_delete_present V d a n (o : obj V) v : aget str_eqb (match d with Lazy => a | _ => n end) (o_dict o) = Some v ->
  snd (delete d a n o) = Ok tt /\
  (forall k, aget str_eqb k (o_dict (fst (delete d a n o))) =
     if str_eqb k (match d with Lazy => a | _ => n end) then None else aget str_eqb k (o_dict o)) /\
  o_calls (fst (delete d a n o)) = o_calls o.
Proof. exact (@ProofDesc.delete_present V d a n o v). Qed.
Print Assumptions C77_delete_present.
Theorem C77_delete_absent V d a n (o : obj V) : aget str_eqb (match d with Lazy => a | _ => n end) (o_dict o) = None ->
  delete d a n o = (o, Err AttributeErr).
Proof. exact (@ProofDesc.delete_absent V d a n o). Qed.
Print Assumptions C77_delete_absent.
Theorem C77_others V (fget : nat -> list (str * V) -> res V) d a n ops o k : k <> n -> (d = Lazy -> k <> a) ->
  aget str_eqb k (o_dict (fold_left (attr_step fget d a n) ops o)) = aget str_eqb k (o_dict o).
Proof. exact (@ProofDesc.history_other V fget d a n ops o k). Qed.
Print Assumptions C77_others.
Example C77_history :
  let f := fun (c : nat) (_ : list (str * nat)) => if c =? 0 then Err ValueErr else Ok (c + 10) in
  let o := Obj [] 0 in
  map (fun ops => snd (read f Lazy (lit "x") (lit "x") (fold_left (attr_step f Lazy (lit "x") (lit "x")) ops o)))
    [[]; [ARead]; [ARead; ARead; ARead]; [AAssign 5]; [ARead; ARead; ADelete]] =
    [Err ValueErr; Ok 11; Ok 11; Ok 5; Ok 12] /\
  map (fun ops => snd (read f Assignable (lit "x") (lit "x") (fold_left (attr_step f Assignable (lit "x") (lit "x")) ops o)))
    [[]; [ARead]; [ARead; ARead; ARead]; [AAssign 5]; [ARead; AAssign 6; ADelete]] =
    [Err ValueErr; Ok 11; Ok 13; Ok 5; Ok 11].
Proof. split; reflexivity. Qed.
(* under another name than the function's the result is not found again *)
Theorem C77_renamed_refuted : exists (f : nat -> list (str * nat) -> res nat) a n o o1 o2,
  read f Lazy a n o = (o1, Ok 1) /\ read f Lazy a n o1 = (o2, Ok 2).
Proof.
  exists (fun c _ => Ok (S c)), (lit "x"), (lit "y"), (Obj [] 0). eexists. eexists. split; reflexivity.
Qed.
Print Assumptions C77_renamed_refuted.

(* ---- C78: labels, defaults and views ---- *)
Theorem C78_label mro own :
  elem_label mro own =
  first_given [aget str_eqb (lit "label") own; first_some (map c_label mro);
               aget str_eqb (lit "name") own; first_some (map c_name mro)] None.
Proof. exact (@ProofDesc.label_order mro own). Qed.
Print Assumptions C78_label.
Theorem C78_class_label mro :
  class_label mro = first_given [first_some (map c_label mro); first_some (map c_name mro)] None.
Proof. exact (@ProofDesc.class_label_order mro). Qed.
Print Assumptions C78_class_label.
(* the nearest class along the MRO *)
Theorem C78_nearest A (l : list (option A)) :
  (forall x, first_some l = Some x <-> exists n, nth_error l n = Some (Some x) /\ forall m, m < n -> nth_error l m = Some None) /\
  (first_some l = None <-> forall o, In o l -> o = None).
Proof. exact (@ProofDesc.first_some_spec A l). Qed.
Print Assumptions C78_nearest.
Theorem C78_default E V (f : E -> res V) (default : V) e :
  default_value (Some f) default e = f e /\ default_value None default e = Ok default.
Proof. exact (conj eq_refl eq_refl). Qed.
Print Assumptions C78_default.
Theorem C78_view V (attr : str -> res V) item :
  (view_contains attr item = Ok true <-> exists v, attr item = Ok v) /\
  (view_contains attr item = Ok false <-> attr item = Err AttributeErr) /\
  (forall v, view_item attr item = Ok v <-> attr item = Ok v) /\
  (forall x, x <> AttributeErr -> attr item = Err x -> view_contains attr item = Err x /\ view_item attr item = Err x) /\
  (attr item = Err AttributeErr -> view_item attr item = Err KeyErr).
Proof. exact (@ProofDesc.view_spec V attr item). Qed.
Print Assumptions C78_view.
Theorem C78_adict V (own : str -> option V) d a :
  adict_attr own d a =
  match first_given [option_map Some (own a); option_map Some (aget str_eqb a d)] None with
  | Some v => Ok v | None => Err AttributeErr
  end.
Proof. exact (@ProofDesc.adict_spec V own d a). Qed.
Print Assumptions C78_adict.
Example C78_labels :
  let named := ClassDict None (Some (Some (lit "n"))) in
  let labelled := ClassDict (Some (Some (lit "l"))) None in
  elem_label [named; labelled] [] = Some (lit "l") /\ elem_label [named] [] = Some (lit "n") /\
  elem_label [named] [(lit "name", Some (lit "m"))] = Some (lit "m") /\ elem_label [] [] = None /\
  elem_label [labelled] [(lit "label", Some (lit "k"))] = Some (lit "k") /\
  class_label [named; labelled] = Some (lit "l") /\ class_label [named] = Some (lit "n").
Proof. repeat split; reflexivity. Qed.
(* a key named like a method of dict cannot be read as an attribute *)
Theorem C78_adict_refuted : exists (own : str -> option nat) d a v, aget str_eqb a d = Some v /\ adict_attr own d a <> Ok v.
Proof.
  exists (fun k => if str_eqb k (lit "items") then Some 7 else None), [(lit "items", 1)], (lit "items"), 1.
  split; [reflexivity | discriminate].
Qed.
Print Assumptions C78_adict_refuted.

(* ---- C79: modules loaded on first access ---- *)
Theorem C79_reads T load attr inherited (basics attributes late : list (str * T)) table fuel ks k : tidy table ->
  let d := d_reads load attr inherited (S fuel) ks (new_deferred basics attributes late table) in
  snd (d_read load attr inherited (S fuel) k d) = expected load attr inherited (initial basics attributes late) table k /\
  NoDup (filter (fun s => match load s with Ok _ => true | Err _ => false end) (d_loaded d)) /\
  (forall s, In s (d_loaded d) -> exists k, In k ks /\ (s = k \/ owner table k = Some s)).
Proof. exact (@ProofDesc.deferred_reads T load attr inherited basics attributes late table fuel ks k). Qed.
Print Assumptions C79_reads.
Theorem C79_start T (basics attributes late : list (str * T)) k :
  aget str_eqb k (initial basics attributes late) =
  first_given [option_map Some (aget str_eqb k (rev late)); option_map Some (aget str_eqb k (rev attributes))] (aget str_eqb k basics).
Proof. exact (@ProofDesc.initial_get T basics attributes late k). Qed.
Print Assumptions C79_start.
Theorem C79_dir T (d : deferred T) :
  StronglySorted before (d_dir d) /\
  (forall k, In k (d_dir d) <-> (In k (d_all d) \/ In k (map fst (d_dict d))) /\ starts_with (lit "_deferred_module") k = false).
Proof. exact (@ProofDesc.dir_spec T d). Qed.
Print Assumptions C79_dir.
Theorem C79_all T (basics attributes late : list (str * T)) table k :
  In k (d_all (new_deferred basics attributes late table)) <-> In k (map fst table) \/ In k (flat_map snd table).
Proof. exact (@ProofDesc.all_spec T basics attributes late table k). Qed.
Print Assumptions C79_all.
(* the tables of flatland/__init__.py:5-46 and flatland/util/__init__.py:5-33 *)
Definition flatland_table : list (str * list str) :=
  [(lit "exc", [lit "AdaptationError"]);
   (lit "schema", map lit ["Array"; "Boolean"; "Compound"; "Constrained"; "Container"; "Date"; "DateTime"; "DateYYYYMMDD"; "Decimal";
      "Dict"; "Element"; "Enum"; "Float"; "Form"; "Integer"; "JoinedString"; "List"; "Long"; "Mapping"; "MultiValue"; "Number";
      "Properties"; "Ref"; "Scalar"; "Sequence"; "Skip"; "SkipAll"; "SkipAllFalse"; "SparseDict"; "String"; "Time"; "Unevaluated";
      "Unset"]%string);
   (lit "signals", []); (lit "util", map lit ["Unspecified"; "class_cloner"]%string); (lit "validation", [])].
Definition util_table : list (str * list str) :=
  [(lit "base", map lit ["Maybe"; "Unspecified"; "adict"; "as_mapping"; "assignable_class_property"; "assignable_property";
      "autodocument_from_superclasses"; "class_cloner"; "decorator"; "decode_repr"; "format_argspec_plus"; "keyslice_pairs";
      "lazy_property"; "luhn10"; "named_int_factory"; "re_ucompile"; "re_uescape"; "symbol"; "threading"; "to_pairs"]%string);
   (lit "deferred", [lit "deferred_module"])].
Example C79_tables_tidy : tidy flatland_table /\ tidy util_table.
Proof. split; intros s H; cbn [map fst flatland_table util_table In] in H; repeat (destruct H as [<- | H]; [vm_compute; reflexivity |]); destruct H. Qed.
Example C79_flatland :
  let load := fun s => if str_eqb s (lit "exc") then Err ValueErr else Ok s in
  let attr := fun (m k : str) => if str_eqb k (lit "Unset") then Err AttributeErr else Ok (m ++ lit "." ++ k) in
  let d0 := new_deferred [] [(lit "__version__", lit "dev")] [(lit "_deferred_module__pushed_up", [])] flatland_table in
  let d := d_reads load attr (fun _ => None) 1 [lit "Skip"; lit "exc"; lit "Form"; lit "schema"; lit "exc"] d0 in
  map (fun k => snd (d_read load attr (fun _ => None) 1 (lit k) d)) ["Skip"; "util"; "Unset"; "AdaptationError"; "__version__"; "x"]%string =
    [Ok (lit "schema.Skip"); Ok (lit "util"); Err AttributeErr; Err ValueErr; Ok (lit "dev"); Err AttributeErr] /\
  d_loaded d = [lit "exc"; lit "exc"; lit "schema"] /\
  firstn 4 (d_dir d) = map lit ["AdaptationError"; "Array"; "Boolean"; "Compound"]%string /\
  List.length (d_dir d) = 42.
Proof. cbv zeta. split; [| split; [| split]]; vm_compute; reflexivity. Qed.
(* a submodule listed as a member of itself cannot be loaded *)
Theorem C79_own_name_refuted : exists table : list (str * list str), forall fuel,
  d_read (T := nat) (fun _ => Ok 1) (fun m _ => Ok m) (fun _ => None) fuel (lit "a") (new_deferred [] [] [] table) =
  (new_deferred [] [] [] table, Err RuntimeErr).
Proof.
  exists [(lit "a", [lit "a"])]. intros fuel.
  exact (ProofDesc.own_name_loops nat _ _ _ (lit "a") (new_deferred [] [] [] [(lit "a", [lit "a"])]) fuel eq_refl eq_refl eq_refl).
Qed.
Print Assumptions C79_own_name_refuted.
