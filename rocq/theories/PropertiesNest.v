(* Properties of nested elements.  [object] is how a scalar sees a dict or list
   given to it; [printable] is str.isprintable beyond ASCII. *)
From Verif Require Import PyBase ModelUtil ModelMap ModelScalar ModelNest SpecScalar SpecNest.
From Verif Require SpecText ProofText ProofNest ProofNest2 ProofNest3 ProofNest4 ProofNest5 ProofNest6.
From Coq Require Import Permutation.

(* for the examples *)
Definition no_object (_ : data) : pyval := VNone.
Definition all_printable (_ : N) : bool := true.
Definition text (s : string) : data := DVal (VText (lit s)).
Definition int (z : Z) : data := DVal (VInt z).
Definition key (s : string) : name := Some (lit s).
(* Dict.of(String.named('a'), List.named('b').of(Dict.of(Integer.named('n')))) *)
Definition form : nested :=
  NDict Subset [((key "a", true), NScalar (KString true));
                ((key "b", true), NSeq OfList (NDict Subset [((key "n", true), NScalar (KInteger true))]))].
Definition form_data : data :=
  DMap [(key "a", text " x "); (key "b", DSeq [DMap [(key "n", text "1")]; DMap []])].
(* SparseDict.of(String.named('a'), String.named('b')) *)
Definition sparse : nested :=
  NDict Subset [((key "a", false), NScalar (KString true)); ((key "b", false), NScalar (KString true))].

(* ---- C71: an element can be set to its own value ---- *)
Theorem C71_own_value object s : proper s -> forall e, settled s e -> forall e0, fits s e0 ->
  exists e', nested_set object s e0 (record_value e) = (e', Ok true) /\ same e' e.
Proof. exact (@ProofNest2.settled_round object s). Qed.
Print Assumptions C71_own_value.
Theorem C71_success_settles object s : proper s -> steady s -> forall e0 d e, fits s e0 ->
  nested_set object s e0 d = (e, Ok true) -> settled s e.
Proof. exact (@ProofNest3.set_settles object s). Qed.
Print Assumptions C71_success_settles.
Theorem C71_new_settled s : proper s -> steady s -> settled s (empty s).
Proof. exact (@ProofNest3.empty_settled s). Qed.
Print Assumptions C71_new_settled.
Theorem C71_set_again object s : proper s -> steady s -> forall e0 d e, fits s e0 ->
  nested_set object s e0 d = (e, Ok true) ->
  forall e1, fits s e1 -> exists e', nested_set object s e1 (record_value e) = (e', Ok true) /\ same e' e.
Proof. exact (@ProofNest3.set_round object s). Qed.
Print Assumptions C71_set_again.
Theorem C71_library_scalars k : standard k -> adapt k VNone = Ok VNone -> steady (NScalar k).
Proof. exact (@ProofNest3.standard_steady k). Qed.
Print Assumptions C71_library_scalars.
Theorem C71_integers sg : standard (KInteger sg).
Proof. exact (@ProofNest3.integer_standard sg). Qed.
Print Assumptions C71_integers.
(* what an element held before does not matter *)
Theorem C71_forgets object s e1 e2 d : fits s e1 -> fits s e2 ->
  snd (nested_set object s e1 d) = snd (nested_set object s e2 d) /\
  (forall b, snd (nested_set object s e1 d) = Ok b -> fst (nested_set object s e1 d) = fst (nested_set object s e2 d)).
Proof. exact (@ProofNest.set_forgets object s e1 e2 d). Qed.
Print Assumptions C71_forgets.
Example C71_form_steady : proper form /\ steady form.
Proof.
  unfold form. split.
  - apply proper_dict; [constructor; [intros [H | []]; discriminate H | constructor; [intros [] | constructor]] |].
    constructor; [apply proper_scalar |]. constructor; [| constructor]. apply proper_seq, proper_dict.
    + constructor; [intros [] | constructor].
    + constructor; [apply proper_scalar | constructor].
  - apply steady_dict; [discriminate |]. constructor; [apply ProofNest3.standard_steady; [exact I | reflexivity] |].
    constructor; [| constructor]. apply steady_seq; [discriminate |]. apply steady_dict; [discriminate |].
    constructor; [apply ProofNest3.standard_steady; [apply ProofNest3.integer_standard | reflexivity] | constructor].
Qed.
Example C71_form_set :
  let '(e, r) := nested_set no_object form (empty form) form_data in
  r = Ok true /\
  record_value e = DMap [(key "a", text "x"); (key "b", DSeq [DMap [(key "n", int 1)]; DMap [(key "n", DVal VNone)]])] /\
  snd (nested_set no_object form (empty form) (record_value e)) = Ok true /\
  record_u all_printable e = lit "{u'a': u'x', u'b': [{u'n': u'1'}, {u'n': u''}]}".
Proof. cbv zeta. split; [| split; [| split]]; vm_compute; reflexivity. Qed.
(* A Boolean that was never set holds None, which set turns into False; an Enum
   refuses None; a MultiValue has the value of its first member. *)
Theorem C71_unset_boolean_refuted : exists s e, s = NDict Subset [((key "a", true), NScalar KBool)] /\ e = empty s /\
  record_value e = DMap [(key "a", DVal VNone)] /\
  record_value (fst (nested_set no_object s e (record_value e))) = DMap [(key "a", DVal (VBool false))].
Proof. eexists. eexists. split; [reflexivity | split; [reflexivity | split; vm_compute; reflexivity]]. Qed.
Print Assumptions C71_unset_boolean_refuted.
Theorem C71_unset_enum_refuted : exists s e,
  s = NDict Subset [((key "a", true), NScalar (KEnum (KString true) [VText (lit "x")]))] /\ e = empty s /\
  snd (nested_set no_object s e (record_value e)) = Ok false.
Proof. eexists. eexists. split; [reflexivity | split; vm_compute; reflexivity]. Qed.
Print Assumptions C71_unset_enum_refuted.
Theorem C71_multivalue_refuted : exists s e, s = NSeq OfMulti (NScalar (KString true)) /\
  nested_set no_object s (empty s) (DSeq [text "xy"; text "z"]) = (e, Ok true) /\
  record_value e = text "xy" /\
  (exists m1 m2, fst (nested_set no_object s e (record_value e)) = RSeq OfMulti [m1; m2] /\
     record_value m1 = text "x" /\ record_value m2 = text "y").
Proof. eexists. eexists. split; [reflexivity | split; [reflexivity | split; [reflexivity | eexists; eexists; repeat split]]]. Qed.
Print Assumptions C71_multivalue_refuted.

(* ---- C72: == ---- *)
Theorem C72_reflexive printable a : keyed a -> record_eq printable a (Some a) = true.
Proof. exact (@ProofNest5.eq_refl' printable a). Qed.
Print Assumptions C72_reflexive.
Theorem C72_symmetric printable a b : keyed a -> keyed b ->
  record_eq printable a (Some b) = true -> record_eq printable b (Some a) = true.
Proof. exact (@ProofNest5.eq_sym' printable a b). Qed.
Print Assumptions C72_symmetric.
Theorem C72_transitive printable a b c : keyed a -> keyed b -> keyed c ->
  record_eq printable a (Some b) = true -> record_eq printable b (Some c) = true -> record_eq printable a (Some c) = true.
Proof. exact (@ProofNest5.eq_trans' printable a b c). Qed.
Print Assumptions C72_transitive.
Theorem C72_value_and_text printable a b :
  record_eq printable a (Some b) = true <->
  data_eq (record_value a) (record_value b) = true /\ record_u printable a = record_u printable b.
Proof. exact (@ProofNest5.eq_iff printable a b). Qed.
Print Assumptions C72_value_and_text.
Theorem C72_equal_values :
  (forall v w, data_eq (DVal v) (DVal w) = true <-> equal_values v w) /\
  (forall l m, data_eq (DSeq l) (DSeq m) = true <-> Forall2 (fun x y => data_eq x y = true) l m) /\
  (forall v l, data_eq (DVal v) (DSeq l) = false /\ data_eq (DSeq l) (DVal v) = false) /\
  (forall v l, data_eq (DVal v) (DMap l) = false /\ data_eq (DMap l) (DVal v) = false) /\
  (forall l m, data_eq (DSeq l) (DMap m) = false /\ data_eq (DMap m) (DSeq l) = false).
Proof. exact ProofNest5.data_eq_cases. Qed.
Print Assumptions C72_equal_values.
Theorem C72_equal_dicts l m : NoDup (map fst l) -> NoDup (map fst m) ->
  (data_eq (DMap l) (DMap m) = true <->
   (forall n, In n (map fst l) <-> In n (map fst m)) /\
   (forall n x y, In (n, x) l -> In (n, y) m -> data_eq x y = true)).
Proof. exact (@ProofNest5.map_eq_iff l m). Qed.
Print Assumptions C72_equal_dicts.
Theorem C72_not_an_element printable a : record_eq printable a None = false.
Proof. exact eq_refl. Qed.
Print Assumptions C72_not_an_element.
Theorem C72_not_equal printable a b : record_ne printable a b = true <-> record_eq printable a b <> true.
Proof. exact (@ProofNest5.ne_iff printable a b). Qed.
Print Assumptions C72_not_equal.
Theorem C72_scalars printable sub st sub' st' :
  record_eq printable (RScalar sub st) (Some (RScalar sub' st')) = true <->
  equal_values (s_value st) (s_value st') /\ s_u st = s_u st'.
Proof. exact (@ProofNest5.scalar_eq printable sub st sub' st'). Qed.
Print Assumptions C72_scalars.
(* member by member.  The mark: inside containers the text of a String without
   strip shows as uu'...', so it differs from the same text of other scalars. *)
Theorem C72_sequences printable c c' l m : clean (RSeq c l) -> clean (RSeq c' m) ->
  (record_eq printable (RSeq c l) (Some (RSeq c' m)) = true <->
   Forall2 (fun x y => record_eq printable x (Some y) = true /\ mark x = mark y) l m).
Proof. exact (@ProofNest5.seq_eq printable c c' l m). Qed.
Print Assumptions C72_sequences.
Theorem C72_mappings printable l m : clean (RDict l) -> clean (RDict m) -> NoDup (map fst l) ->
  (record_eq printable (RDict l) (Some (RDict m)) = true <->
   Forall2 (fun x y => fst x = fst y /\ record_eq printable (snd x) (Some (snd y)) = true /\ mark (snd x) = mark (snd y)) l m).
Proof. exact (@ProofNest5.dict_eq printable l m). Qed.
Print Assumptions C72_mappings.
Theorem C72_kinds_differ printable a b : clean a -> clean b -> record_eq printable a (Some b) = true ->
  match a, b with RScalar _ _, RScalar _ _ | RDict _, RDict _ | RSeq _ _, RSeq _ _ => True | _, _ => False end.
Proof. exact (@ProofNest5.kinds_differ printable a b). Qed.
Print Assumptions C72_kinds_differ.
Definition sample : record := fst (nested_set no_object form (empty form) form_data).
Example C72_sample : keyed sample /\ clean sample /\ record_eq all_printable sample (Some sample) = true
  /\ record_eq all_printable sample (Some (fst (nested_set no_object form (empty form) (DMap [])))) = false.
Proof.
  split; [| split; [| split; vm_compute; reflexivity]].
  - vm_compute. repeat (constructor; cbn); intuition congruence.
  - vm_compute. repeat (constructor; try discriminate; cbn).
Qed.
(* A SparseDict is not equal to one with the same items in another order, and a
   List of String(strip=False) not to a List of String of equal members. *)
Theorem C72_order_refuted : exists a b,
  nested_set no_object sparse (empty sparse) (DMap [(key "a", text "x"); (key "b", text "y")]) = (a, Ok true) /\
  nested_set no_object sparse (empty sparse) (DMap [(key "b", text "y"); (key "a", text "x")]) = (b, Ok true) /\
  data_eq (record_value a) (record_value b) = true /\ record_eq all_printable a (Some b) = false.
Proof. eexists. eexists. repeat split; vm_compute; reflexivity. Qed.
Print Assumptions C72_order_refuted.
Theorem C72_members_refuted : exists x y,
  nested_set no_object (NScalar (KString true)) (empty (NScalar (KString true))) (text "x") = (x, Ok true) /\
  nested_set no_object (NScalar (KString false)) (empty (NScalar (KString false))) (text "x") = (y, Ok true) /\
  record_eq all_printable x (Some y) = true /\
  record_eq all_printable (RSeq OfList [x]) (Some (RSeq OfList [y])) = false.
Proof. eexists. eexists. repeat split; vm_compute; reflexivity. Qed.
Print Assumptions C72_members_refuted.

(* ---- C73: the text of containers ---- *)
Theorem C73_unambiguous printable a b : clean a -> clean b -> is_scalar a = false -> is_scalar b = false ->
  (record_u printable a = record_u printable b <-> outline_of a = outline_of b).
Proof. exact (@ProofNest4.container_text printable a b). Qed.
Print Assumptions C73_unambiguous.
(* the text is a Python literal of the names, positions and texts *)
Theorem C73_denotes printable e : clean e -> is_scalar e = false ->
  SpecText.denotes (outline_of e) (record_u printable e).
Proof. exact (@ProofText.text_denotes printable e). Qed.
Print Assumptions C73_denotes.
Theorem C73_repr_reads_back printable s t x y : unicode s -> unicode t ->
  py_repr printable s ++ x = py_repr printable t ++ y -> s = t /\ x = y.
Proof. exact (@ProofNest4.py_repr_prefix printable s t x y). Qed.
Print Assumptions C73_repr_reads_back.
Example C73_texts :
  record_u all_printable sample = lit "{u'a': u'x', u'b': [{u'n': u'1'}, {u'n': u''}]}" /\
  py_repr all_printable (lit "it's") = [34%N] ++ lit "it's" ++ [34%N] /\
  py_repr all_printable (lit "'" ++ [34%N]) = lit "'\'" ++ [34%N] ++ lit "'" /\
  py_repr all_printable [34%N] = lit "'" ++ [34%N] ++ lit "'" /\
  py_repr all_printable [9; 10; 13; 92; 7; 127]%N = lit "'\t\n\r\\\x07\x7f'" /\
  py_repr (fun _ => false) [233; 8364; 128512]%N = lit "'\xe9\u20ac\U0001f600'" /\
  py_repr all_printable [233; 32; 126]%N = lit "'" ++ [233; 32; 126]%N ++ lit "'" /\
  record_u all_printable (RDict [(None, RScalar false blank)]) = lit "{uNone: u''}" /\
  record_u all_printable (fst (nested_set no_object (NSeq OfArray (NScalar (KEnum (KString false) [VText (lit "x")])))
     (RSeq OfArray []) (DSeq [text "x"]))) = lit "[uu'x']".
Proof. repeat split; vm_compute; reflexivity. Qed.
(* the text of a MultiValue is that of its first member only *)
Theorem C73_multivalue_refuted : exists x y,
  record_u all_printable (RSeq OfMulti [x]) = record_u all_printable (RSeq OfMulti [x; y]) /\
  outline_of (RSeq OfMulti [x]) <> outline_of (RSeq OfMulti [x; y]).
Proof. exists (RScalar false blank), (RScalar false blank). split; [reflexivity | discriminate]. Qed.
Print Assumptions C73_multivalue_refuted.

(* ---- C74: MultiValue, emptiness, truth ---- *)
Theorem C74_first printable x l b :
  record_value (RSeq OfMulti (x :: l)) = record_value x /\
  record_u printable (RSeq OfMulti (x :: l)) = record_u printable x /\
  record_eq printable (RSeq OfMulti (x :: l)) b = record_eq printable x b.
Proof. exact (conj eq_refl (conj eq_refl eq_refl)). Qed.
Print Assumptions C74_first.
Theorem C74_none printable : record_value (RSeq OfMulti []) = DVal VNone /\ record_u printable (RSeq OfMulti []) = [].
Proof. exact (conj eq_refl eq_refl). Qed.
Print Assumptions C74_none.
Theorem C74_assign_value k v x l : multi_set_value k v (x :: l) = (Scalar (s_raw x) v (s_u x) :: l, Ok tt).
Proof. exact (@ProofNest6.multi_value_present k v x l). Qed.
Print Assumptions C74_assign_value.
Theorem C74_assign_u k s x l : multi_set_u k s (x :: l) = (Scalar (s_raw x) (s_value x) s :: l, Ok tt).
Proof. exact (@ProofNest6.multi_u_present k s x l). Qed.
Print Assumptions C74_assign_u.
Theorem C74_assign_absent k v s :
  match adapt k VNone with
  | Ok n => multi_set_value k v [] = ([Scalar (Some VNone) v (match n with VNone => [] | _ => serialize k n end)], Ok tt) /\
            multi_set_u k s [] = ([Scalar (Some VNone) n s], Ok tt)
  | Err AdaptErr => multi_set_value k v [] = ([Scalar (Some VNone) v []], Ok tt) /\
                    multi_set_u k s [] = ([Scalar (Some VNone) VNone s], Ok tt)
  | Err x => multi_set_value k v [] = ([], Err x) /\ multi_set_u k s [] = ([], Err x)
  end.
Proof. exact (@ProofNest6.multi_absent k v s). Qed.
Print Assumptions C74_assign_absent.
Theorem C74_emptiness sparse c l items sub st :
  (container_is_empty sparse (RSeq c l) = true <-> l = []) /\
  (container_is_empty sparse (RDict items) = true <-> sparse = true /\ items = []) /\
  (record_bool (RSeq c l) = true <-> l <> []) /\ (record_bool (RDict items) = true <-> items <> []) /\
  (record_bool (RScalar sub st) = true <-> s_u st <> [] /\ vtruth (s_value st) = true).
Proof. exact (@ProofNest6.emptiness sparse c l items sub st). Qed.
Print Assumptions C74_emptiness.
Example C74_multi :
  multi_set_value KBool (VInt 3) [] = ([Scalar (Some VNone) (VInt 3) []], Ok tt) /\
  multi_set_u (KInteger true) (lit "7") [] = ([Scalar (Some VNone) VNone (lit "7")], Ok tt) /\
  snd (multi_set_u (KConstrained (KString true) (fun _ => Err LookupErr)) [] []) = Err LookupErr.
Proof. repeat split; vm_compute; reflexivity. Qed.

(* ---- C75: what set does to the members ---- *)
Theorem C75_dict object own fields items0 l : NoDup (map fname fields) ->
  let result := pair_result object own fields in
  exists items,
    nested_set object (NDict own fields) (RDict items0) (DMap l) =
      (RDict items,
       match verdict (map result l) with
       | Err x => Err x
       | Ok b => match own with
                 | Strict => if forallb (fun f => memb name_eqb (fname f) (map fst l)) fields then Ok b else Err TypeErr
                 | _ => Ok b
                 end
       end) /\
    map fst items =
      mentions (map fname (filter held fields))
        (filter (fun n => existsb (fun f => name_eqb n (fname f)) fields) (map fst (tried result l))) /\
    (forall f, In f fields ->
       aget name_eqb (fname f) items =
       match held f, given (fname f) (tried result l) with
       | false, [] => None
       | _, ds => Some (fold_left (fun e d => fst (nested_set object (fschema f) e d)) ds (empty (fschema f)))
       end).
Proof. exact (@ProofNest2.dict_set_spec object own fields items0 l). Qed.
Print Assumptions C75_dict.
Theorem C75_last_wins object own fields items0 l e b : NoDup (map fname fields) ->
  nested_set object (NDict own fields) (RDict items0) (DMap l) = (e, Ok b) ->
  exists items, e = RDict items /\
    forall f, In f fields ->
      aget name_eqb (fname f) items =
      match rev (given (fname f) l) with
      | d :: _ => Some (fst (nested_set object (fschema f) (empty (fschema f)) d))
      | [] => if held f then Some (empty (fschema f)) else None
      end.
Proof. exact (@ProofNest2.dict_set_last object own fields items0 l e b). Qed.
Print Assumptions C75_last_wins.
Theorem C75_pairs object own fields e l :
  nested_set object (NDict own fields) e (DSeq (map (fun kv => DSeq [key_data (fst kv); snd kv]) l)) =
  nested_set object (NDict own fields) e (DMap l).
Proof. exact (@ProofNest6.pairs_as_dict' object own fields e l). Qed.
Print Assumptions C75_pairs.
Theorem C75_faulty_pair object own fields items0 l bad x rest : NoDup (map fname fields) -> faulty own bad x ->
  snd (nested_set object (NDict own fields) (RDict items0)
         (DSeq (map (fun kv => DSeq [key_data (fst kv); snd kv]) l ++ bad :: rest))) =
  match verdict (map (pair_result object own fields) l) with Err y => Err y | Ok _ => Err x end.
Proof. exact (@ProofNest6.bad_pair object own fields items0 l bad x rest). Qed.
Print Assumptions C75_faulty_pair.
Theorem C75_sequence object c m l0 l :
  nested_set object (NSeq c m) (RSeq c l0) (DSeq l) =
  match verdict (map (fun d => snd (nested_set object m (empty m) d)) l) with
  | Ok b => (RSeq c (map (fun d => fst (nested_set object m (empty m) d)) l), Ok b)
  | Err TypeErr => (RSeq c [], Ok false)
  | Err x => (RSeq c [], Err x)
  end.
Proof. exact (@ProofNest6.seq_set' object c m l0 l). Qed.
Print Assumptions C75_sequence.
Theorem C75_not_iterable object own fields items0 c m l0 v : is_text v = false ->
  nested_set object (NDict own fields) (RDict items0) (DVal v) = (RDict items0, Err TypeErr) /\
  nested_set object (NSeq c m) (RSeq c l0) (DVal v) = (RSeq c [], Ok false).
Proof.
  exact (fun H => conj (@ProofNest6.dict_not_iterable object own fields items0 v H)
                       (@ProofNest6.seq_not_iterable object c m l0 v H)).
Qed.
Print Assumptions C75_not_iterable.
Theorem C75_characters_and_keys object c m e s l :
  nested_set object (NSeq c m) e (DVal (VText s)) = nested_set object (NSeq c m) e (DSeq (map (fun x => DVal (VText [x])) s)) /\
  nested_set object (NSeq c m) e (DMap l) = nested_set object (NSeq c m) e (DSeq (map (fun kv => key_data (fst kv)) l)).
Proof. exact (conj (@ProofNest6.seq_of_text object c m e s) (@ProofNest6.seq_of_dict object c m e l)). Qed.
Print Assumptions C75_characters_and_keys.
Theorem C75_scalar object k sub st v b e : nested_set object (NScalar k) (RScalar sub st) (DVal v) = (e, Ok b) ->
  scalar_set k st v = (match e with RScalar _ st' => st' | _ => st end, Ok b) /\
  is_scalar e = true /\ (mark e = true <-> verbatim k /\ record_value e <> DVal VNone).
Proof. exact (@ProofNest6.scalar_state object k sub st v b e). Qed.
Print Assumptions C75_scalar.
Theorem C75_scalar_raises object k sub st v x e : nested_set object (NScalar k) (RScalar sub st) (DVal v) = (e, Err x) ->
  e = RScalar sub (fst (scalar_set k st v)) /\ snd (scalar_set k st v) = Err x.
Proof. exact (@ProofNest6.scalar_raises object k sub st v x e). Qed.
Print Assumptions C75_scalar_raises.
Theorem C75_scalar_object object k sub st d : (forall v, d <> DVal v) ->
  nested_set object (NScalar k) (RScalar sub st) d = nested_set object (NScalar k) (RScalar sub st) (DVal (object d)).
Proof. exact (@ProofNest6.scalar_object object k sub st d). Qed.
Print Assumptions C75_scalar_object.
(* a new element holds new elements *)
Theorem C75_new own fields c m : NoDup (map fname fields) ->
  (exists items, empty (NDict own fields) = RDict items /\ map fst items = map fname (filter held fields) /\
     forall f, In f fields -> held f = true -> aget name_eqb (fname f) items = Some (empty (fschema f))) /\
  empty (NSeq c m) = RSeq c [].
Proof. exact (@ProofNest6.new_members own fields c m). Qed.
Print Assumptions C75_new.
Example C75_cases :
  snd (nested_set no_object form (empty form) (DMap [(key "a", text "x"); (key "z", text "x")])) = Err KeyErr /\
  snd (nested_set no_object (NDict Strict [((key "a", true), NScalar KBool)]) (RDict []) (DMap [])) = Err TypeErr /\
  snd (nested_set no_object (NDict Duck [((key "a", true), NScalar KBool)]) (RDict [])
         (DSeq [DSeq [int 1; int 2]; DVal (VText (lit "a1"))])) = Ok true /\
  snd (nested_set no_object form (empty form) (text "xy")) = Err ValueErr /\
  faulty Subset (int 1) TypeErr /\ faulty Subset (DSeq [int 1; int 2]) KeyErr /\
  snd (nested_set no_object (NSeq OfList (NScalar (KInteger true))) (RSeq OfList []) (text "12x")) = Ok false /\
  snd (nested_set no_object (NSeq OfList form) (RSeq OfList []) (DSeq [int 1])) = Ok false /\
  snd (nested_set no_object (NSeq OfList form) (RSeq OfList []) (DSeq [DMap [(key "z", int 1)]])) = Err KeyErr.
Proof. repeat split; try (vm_compute; reflexivity); constructor; try discriminate; reflexivity. Qed.
