(* Properties of scalar elements: C08-C14, C58, C59. *)
From Verif Require Import PyBase PyBaseFacts ModelScalar SpecScalar ProofScalar ProofScalar2 ProofScalar3.

(* ------------------------------------------------------------------ *)
(* C08: what set() leaves behind, by the outcome of adapt() *)
Theorem C08_contract : forall k st v,
  let '(st', r) := scalar_set k st v in
  s_raw st' = Some v
  /\ match adapt k v with
     | Ok n => r = Ok true /\ s_value st' = n
               /\ s_u st' = (match n with VNone => [] | _ => serialize k n end)
     | Err AdaptErr => r = Ok false /\ s_value st' = VNone
               /\ s_u st' = (match v with VNone => [] | _ => vtext v end)
     | Err e => r = Err e /\ s_value st' = s_value st /\ s_u st' = s_u st
     end.
Proof. exact set_contract. Qed.
Print Assumptions C08_contract.
Theorem C08_never_raises : forall k st v, tame k v ->
  exists st' b, scalar_set k st v = (st', Ok b).
Proof. exact set_never_raises. Qed.
Print Assumptions C08_never_raises.
(* every builtin type is tame on every value but an object with an odd int() *)
Theorem C08_builtin_tame : forall k v,
  match k with
  | KString _ | KBoolean _ _ _ _ | KTemporal _ _ => True
  | KNumber nt _ => nt = int_type /\ forall o, v <> VObj o
  | _ => False
  end -> tame k v.
Proof. exact builtin_tame. Qed.
Print Assumptions C08_builtin_tame.
(* a class with its own adapt, and Scalar itself *)
Theorem C08_custom : forall own st v,
  (forall n, own v = Ok n ->
     scalar_set (KCustom own) st v = (Scalar (Some v) n (match n with VNone => [] | _ => vtext n end), Ok true))
  /\ (own v = Err AdaptErr ->
     scalar_set (KCustom own) st v = (Scalar (Some v) VNone (match v with VNone => [] | _ => vtext v end), Ok false))
  /\ (forall e, own v = Err e -> e <> AdaptErr ->
     scalar_set (KCustom own) st v = (Scalar (Some v) (s_value st) (s_u st), Err e)).
Proof. exact custom_set. Qed.
Print Assumptions C08_custom.
Theorem C08_abstract : forall st v,
  scalar_set KAbstract st v = (Scalar (Some v) (s_value st) (s_u st), Err NotImplErr).
Proof. exact abstract_set. Qed.
Print Assumptions C08_abstract.
Theorem C08_independent : forall k st1 st2 v,
  snd (scalar_set k st1 v) = snd (scalar_set k st2 v)
  /\ (forall b, snd (scalar_set k st1 v) = Ok b -> scalar_set k st1 v = scalar_set k st2 v).
Proof. exact set_independent. Qed.
Print Assumptions C08_independent.
Example C08_witness :
  let k := KEnum (KInteger false) [VInt 1; VInt 2] in
  tame k (VText (lit " 2 "))
  /\ scalar_set k blank (VText (lit " 2 ")) = (Scalar (Some (VText (lit " 2 "))) (VInt 2) (lit "2"), Ok true)
  /\ scalar_set k (Scalar None (VInt 2) (lit "2")) (VText (lit " x "))
     = (Scalar (Some (VText (lit " x "))) VNone (lit " x "), Ok false)
  /\ scalar_set (KInteger true) (Scalar None (VInt 2) (lit "2")) (VObj (Obj 0 [] true (Err RuntimeErr)))
     = (Scalar (Some (VObj (Obj 0 [] true (Err RuntimeErr)))) (VInt 2) (lit "2"), Err RuntimeErr).
Proof.
  repeat split; try reflexivity.
  - intros w e [->|[s ->]]; cbn; destruct (py_int _) eqn:E; cbn; try easy; intros [= <-]; apply py_int_err in E; auto.
  - right. intros w n H. destruct w; cbn in H; try easy; try (injection H as <-; eexists; reflexivity).
    + destruct (py_int s); cbn in H; [|easy]. injection H as <-; eexists; reflexivity.
    + destruct (o_int o); cbn in H; [|easy]. injection H as <-; eexists; reflexivity.
Qed.

(* ------------------------------------------------------------------ *)
(* C09: a value that is written out without loss reads back *)
Theorem C09_roundtrip : forall k st v st' st2,
  scalar_set k st v = (st', Ok true) -> s_value st' <> VNone -> real_val v ->
  lossless k (s_value st') -> sound_texts k ->
  scalar_set k st2 (VText (s_u st')) = (Scalar (Some (VText (s_u st'))) (s_value st') (s_u st'), Ok true).
Proof. exact roundtrip. Qed.
Print Assumptions C09_roundtrip.
(* String, Integer, Boolean and their wrappers: every value but None *)
Theorem C09_roundtrip_exact : forall k st v st' st2,
  scalar_set k st v = (st', Ok true) -> s_value st' <> VNone -> real_val v -> exact_type k -> sound_texts k ->
  scalar_set k st2 (VText (s_u st')) = (Scalar (Some (VText (s_u st'))) (s_value st') (s_u st'), Ok true).
Proof. exact roundtrip_exact. Qed.
Print Assumptions C09_roundtrip_exact.
(* text set on a temporal field always reads back *)
Theorem C09_roundtrip_temporal_text : forall t b st s st' st2,
  scalar_set (KTemporal t b) st (VText s) = (st', Ok true) ->
  scalar_set (KTemporal t b) st2 (VText (s_u st')) = (Scalar (Some (VText (s_u st'))) (s_value st') (s_u st'), Ok true).
Proof. exact roundtrip_temporal_text. Qed.
Print Assumptions C09_roundtrip_temporal_text.
(* None, a datetime in a Date and fractions of a second do not *)
Theorem C09_none_refuted : exists k v st',
  scalar_set k blank v = (st', Ok true)
  /\ s_value (fst (scalar_set k blank (VText (s_u st')))) <> s_value st'.
Proof. exists (KString true), VNone. eexists. split; [reflexivity|]. discriminate. Qed.
Print Assumptions C09_none_refuted.
Theorem C09_none_integer_refuted : exists k v st',
  scalar_set k blank v = (st', Ok true) /\ snd (scalar_set k blank (VText (s_u st'))) = Ok false.
Proof. exists (KInteger true), VNone. eexists. split; reflexivity. Qed.
Print Assumptions C09_none_integer_refuted.
Theorem C09_datetime_in_date_refuted : exists v st', real_val v
  /\ scalar_set (KTemporal TDate true) blank v = (st', Ok true)
  /\ s_value (fst (scalar_set (KTemporal TDate true) blank (VText (s_u st')))) <> s_value st'.
Proof.
  exists (VDateTime (Date 2009 10 10) (Time 8 17 30 0)). eexists. split; [|split; [reflexivity|discriminate]].
  split; [now apply date_ok_iff|now apply time_ok_iff].
Qed.
Print Assumptions C09_datetime_in_date_refuted.
Theorem C09_fraction_refuted : exists v st', real_val v
  /\ scalar_set (KTemporal TTime true) blank v = (st', Ok true)
  /\ s_value (fst (scalar_set (KTemporal TTime true) blank (VText (s_u st')))) <> s_value st'.
Proof.
  exists (VTime (Time 8 17 30 5)). eexists. split; [|split; [reflexivity|discriminate]].
  now apply time_ok_iff.
Qed.
Print Assumptions C09_fraction_refuted.
Example C09_witness :
  let k := KConstrained (KTemporal TDateTime true) (fun _ => Ok true) in
  let st' := fst (scalar_set k blank (VText (lit " 2008-02-29 23:59:59 "))) in
  s_u st' = lit "2008-02-29 23:59:59" /\ lossless k (s_value st')
  /\ exact_type (KEnum KBool [VBool true]) /\ sound_texts (KEnum KBool [VBool true])
  /\ s_u (fst (scalar_set (KEnum KBool [VBool true]) blank (VText (lit "on")))) = lit "1".
Proof.
  cbv zeta. split; [reflexivity|]. split; [|split; [easy|split; [|reflexivity]]].
  - eexists _, _. split; reflexivity.
  - split; [discriminate|]. simpl. intuition discriminate.
Qed.

(* ------------------------------------------------------------------ *)
(* C10 *)
Theorem C10_integer_text : forall signed st s,
  let '(st', r) := scalar_set (KInteger signed) st (VText s) in
  exists b, r = Ok b
  /\ (b = true <-> exists t z, trimmed s t /\ integer_text t z /\ (signed = true \/ (0 <= z)%Z))
  /\ (forall t z, trimmed s t -> integer_text t z -> b = true ->
        s_value st' = VInt z /\ canonical_int (s_u st') z)
  /\ (b = false -> s_value st' = VNone /\ s_u st' = s).
Proof. exact integer_text_canonical. Qed.
Print Assumptions C10_integer_text.
(* a text denotes at most one number *)
Theorem C10_unambiguous : forall s t t' z z',
  trimmed s t -> trimmed s t' -> integer_text t z -> integer_text t' z' -> t = t' /\ z = z'.
Proof. exact integer_text_fun. Qed.
Print Assumptions C10_unambiguous.
(* native values: ints and bools by number, None stays, dates are refused *)
Theorem C10_native : forall signed st v,
  (forall s, v <> VText s) -> (forall o, v <> VObj o) ->
  scalar_set (KInteger signed) st v =
  match vnum v with
  | Some z => if negb signed && (z <? 0)%Z
              then (Scalar (Some v) VNone (vtext v), Ok false)
              else (Scalar (Some v) (VInt z) (dec_z z), Ok true)
  | None => match v with
            | VNone => (Scalar (Some v) VNone [], Ok true)
            | _ => (Scalar (Some v) VNone (vtext v), Ok false)
            end
  end.
Proof. exact integer_values. Qed.
Print Assumptions C10_native.
Theorem C10_never_negative : forall signed vs,
  (forall z, s_value (scalar_sets (KInteger signed) blank vs) = VInt z -> signed = true \/ (0 <= z)%Z)
  /\ ((exists z, s_value (scalar_sets (KInteger signed) blank vs) = VInt z)
      \/ s_value (scalar_sets (KInteger signed) blank vs) = VNone).
Proof. exact integer_history_blank. Qed.
Print Assumptions C10_never_negative.
Example C10_witness :
  scalar_set (KInteger true) blank (VText (lit " -012"))
    = (Scalar (Some (VText (lit " -012"))) (VInt (-12)) (lit "-12"), Ok true)
  /\ scalar_set (KInteger true) blank (VText [0x664; 0x32]%N)   (* Arabic 4, ASCII 2 *)
    = (Scalar (Some (VText [0x664; 0x32]%N)) (VInt 42) (lit "42"), Ok true)
  /\ snd (scalar_set (KInteger true) blank (VText (lit "1.5"))) = Ok false
  /\ snd (scalar_set (KInteger true) blank (VText (lit "- 1"))) = Ok false
  /\ snd (scalar_set (KInteger false) blank (VText (lit "-1"))) = Ok false
  /\ trimmed (lit " -012") (lit "-012") /\ integer_text (lit "-012") (-12).
Proof.
  repeat split; try reflexivity.
  - apply trimmed_eq. reflexivity.
  - apply (it_minus (lit "012") 12); [easy|]. apply numeral_iff. reflexivity.
Qed.

(* ------------------------------------------------------------------ *)
(* C11 *)
Theorem C11_text : forall tr ts fa fs st s,
  let '(st', r) := scalar_set (KBoolean tr ts fa fs) st (VText s) in
  (s = tr \/ In s ts -> r = Ok true /\ s_value st' = VBool true /\ s_u st' = tr)
  /\ (~ (s = tr \/ In s ts) -> s = fa \/ In s fs -> r = Ok true /\ s_value st' = VBool false /\ s_u st' = fa)
  /\ (~ (s = tr \/ In s ts) -> ~ (s = fa \/ In s fs) -> r = Ok false /\ s_value st' = VNone /\ s_u st' = s).
Proof. exact boolean_text. Qed.
Print Assumptions C11_text.
Theorem C11_other : forall tr ts fa fs st v, is_text v = false ->
  (truthy v -> scalar_set (KBoolean tr ts fa fs) st v = (Scalar (Some v) (VBool true) tr, Ok true))
  /\ (~ truthy v -> scalar_set (KBoolean tr ts fa fs) st v = (Scalar (Some v) (VBool false) fa, Ok true)).
Proof. exact boolean_other. Qed.
Print Assumptions C11_other.
(* the vocabulary of the default Boolean *)
Theorem C11_default : forall st s,
  let '(st', r) := scalar_set KBool st (VText s) in
  (s_value st' = VBool true <-> In s (map lit ["on"; "true"; "True"; "1"]%string))
  /\ (s_value st' = VBool false <-> In s (map lit ["off"; "false"; "False"; "0"; ""]%string))
  /\ (r = Ok false <-> ~ In s (map lit ["on"; "true"; "True"; "1"; "off"; "false"; "False"; "0"; ""]%string))
  /\ (s_value st' = VBool true -> s_u st' = lit "1") /\ (s_value st' = VBool false -> s_u st' = [])
  /\ (r = Ok false -> s_u st' = s).
Proof. exact boolean_default. Qed.
Print Assumptions C11_default.
Example C11_witness :
  snd (scalar_set KBool blank (VText (lit "TRUE"))) = Ok false
  /\ s_value (fst (scalar_set KBool blank VNone)) = VBool false
  /\ s_value (fst (scalar_set (KBoolean (lit "y") [] (lit "n") []) blank (VText (lit "n")))) = VBool false
  /\ s_value (fst (scalar_set (KBoolean (lit "y") [] (lit "n") []) blank (VInt 3))) = VBool true.
Proof. repeat split. Qed.

(* ------------------------------------------------------------------ *)
(* C12 *)
Theorem C12_constrained_history : forall c valid vs,
  s_value (scalar_sets (KConstrained c valid) blank vs) = VNone
  \/ valid (s_value (scalar_sets (KConstrained c valid) blank vs)) = Ok true.
Proof. exact constrained_history_blank. Qed.
Print Assumptions C12_constrained_history.
Theorem C12_enum_history : forall c vals vs,
  s_value (scalar_sets (KEnum c vals) blank vs) = VNone
  \/ (exists x, In x vals /\ equal_values (s_value (scalar_sets (KEnum c vals) blank vs)) x).
Proof. exact enum_history_blank. Qed.
Print Assumptions C12_enum_history.
(* set on the wrapper is set on the wrapped type followed by the check *)
Theorem C12_constrained_accept : forall c valid st v n,
  snd (scalar_set c blank v) = Ok true -> s_value (fst (scalar_set c blank v)) = n ->
  (valid n = Ok true -> scalar_set (KConstrained c valid) st v = (fst (scalar_set c blank v), Ok true))
  /\ (valid n = Ok false -> scalar_set (KConstrained c valid) st v
        = (Scalar (Some v) VNone (match v with VNone => [] | _ => vtext v end), Ok false))
  /\ (forall e, valid n = Err e -> e <> AdaptErr -> snd (scalar_set (KConstrained c valid) st v) = Err e).
Proof. exact constrained_accept. Qed.
Print Assumptions C12_constrained_accept.
Theorem C12_constrained_refuse : forall c valid st v,
  snd (scalar_set c blank v) = Ok false ->
  scalar_set (KConstrained c valid) st v = (fst (scalar_set c blank v), Ok false).
Proof. exact constrained_refuse. Qed.
Print Assumptions C12_constrained_refuse.
Theorem C12_enum_accept : forall c vals st v n,
  snd (scalar_set c blank v) = Ok true -> s_value (fst (scalar_set c blank v)) = n ->
  ((exists x, In x vals /\ equal_values n x) -> scalar_set (KEnum c vals) st v = (fst (scalar_set c blank v), Ok true))
  /\ (~ (exists x, In x vals /\ equal_values n x) -> scalar_set (KEnum c vals) st v
        = (Scalar (Some v) VNone (match v with VNone => [] | _ => vtext v end), Ok false)).
Proof. exact enum_accept. Qed.
Print Assumptions C12_enum_accept.
Theorem C12_enum_refuse : forall c vals st v,
  snd (scalar_set c blank v) = Ok false ->
  scalar_set (KEnum c vals) st v = (fst (scalar_set c blank v), Ok false).
Proof. exact enum_refuse. Qed.
Print Assumptions C12_enum_refuse.
(* Enum of strings: each valid value is accepted as it is *)
Theorem C12_enum_string : forall strip_ vals st s,
  In (VText s) vals -> (strip_ = true -> outer_clean s) ->
  scalar_set (KEnum (KString strip_) vals) st (VText s) = (Scalar (Some (VText s)) (VText s) s, Ok true).
Proof. exact enum_string. Qed.
Print Assumptions C12_enum_string.
Example C12_witness :
  let k := KEnum (KInteger true) [VInt 1; VBool true; VInt 3] in
  s_value (scalar_sets k blank [VText (lit "3"); VInt 7]) = VNone
  /\ s_value (scalar_sets k blank [VInt 7; VText (lit "3")]) = VInt 3
  /\ scalar_set (KConstrained (KInteger true) (fun v => match v with VNone => Err TypeErr | _ => Ok true end))
       (Scalar None (VInt 3) (lit "3")) VNone = (Scalar (Some VNone) (VInt 3) (lit "3"), Err TypeErr)
  /\ scalar_set (KEnum (KString true) [VText (lit "a")]) blank VNone = (Scalar (Some VNone) VNone [], Ok false).
Proof. repeat split. Qed.

(* ------------------------------------------------------------------ *)
(* C13 *)
Theorem C13_string : forall st v, v <> VNone ->
  (exists t, trimmed (vtext v) t /\ scalar_set (KString true) st v = (Scalar (Some v) (VText t) t, Ok true))
  /\ scalar_set (KString false) st v = (Scalar (Some v) (VText (vtext v)) (vtext v), Ok true).
Proof. exact string_set. Qed.
Print Assumptions C13_string.
Theorem C13_none : forall b st, scalar_set (KString b) st VNone = (Scalar (Some VNone) VNone [], Ok true).
Proof. exact string_none. Qed.
Print Assumptions C13_none.
(* trimming is a function and normalising again changes nothing *)
(* the text of a value, and which characters are white space *)
Theorem C13_text : forall v, real_val v -> text_form v (vtext v).
Proof. exact vtext_form. Qed.
Print Assumptions C13_text.
Theorem C13_spaces : forall c, is_space c = true <-> In c unicode_spaces.
Proof. exact space_iff. Qed.
Print Assumptions C13_spaces.
Theorem C13_trimmed_unique : forall s t t', trimmed s t -> trimmed s t' -> t = t'.
Proof. exact trimmed_fun. Qed.
Print Assumptions C13_trimmed_unique.
Theorem C13_trimmed_idempotent : forall s t, trimmed s t -> trimmed t t.
Proof. exact trimmed_idem. Qed.
Print Assumptions C13_trimmed_idempotent.
Example C13_witness :
  scalar_set (KString true) blank (VText (9 :: lit " a b" ++ [0x3000; 10])%N)
    = (Scalar (Some (VText (9 :: lit " a b" ++ [0x3000; 10])%N)) (VText (lit "a b")) (lit "a b"), Ok true)
  /\ scalar_set (KString false) blank (VText (lit " a "))
    = (Scalar (Some (VText (lit " a "))) (VText (lit " a ")) (lit " a "), Ok true).
Proof. repeat split. Qed.

(* ------------------------------------------------------------------ *)
(* C14: text *)
Theorem C14_text : forall t st el s,
  let '(el', r) := scalar_set (KTemporal t st) el (VText s) in
  exists b, r = Ok b
  /\ (b = true <-> exists s0 v, looked_at st s s0 /\ temporal_text field t s0 v)
  /\ (forall s0 v, looked_at st s s0 -> temporal_text field t s0 v ->
        s_value el' = v /\ temporal_text ascii_field t (s_u el') v)
  /\ (b = false -> s_value el' = VNone /\ s_u el' = s).
Proof. exact temporal_set_text. Qed.
Print Assumptions C14_text.
(* native values *)
Theorem C14_native : forall t st el v, real_val v -> is_text v = false -> v <> VNone ->
  (instance_of t v -> exists u, scalar_set (KTemporal t st) el v = (Scalar (Some v) v u, Ok true) /\ shown t v u)
  /\ (~ instance_of t v -> scalar_set (KTemporal t st) el v = (Scalar (Some v) VNone (vtext v), Ok false)).
Proof. exact temporal_set_native. Qed.
Print Assumptions C14_native.
Theorem C14_none : forall t b st,
  scalar_set (KTemporal t b) st VNone = (Scalar (Some VNone) VNone [], Ok true).
Proof. exact temporal_none. Qed.
Print Assumptions C14_none.
(* a date has exactly one canonical text *)
Theorem C14_canonical_unique : forall t v s s',
  temporal_text ascii_field t s v -> temporal_text ascii_field t s' v -> s = s'.
Proof. exact temporal_text_unique. Qed.
Print Assumptions C14_canonical_unique.
Example C14_witness :
  scalar_set (KTemporal TDate true) blank (VText (lit " 2000-02-29 "))
    = (Scalar (Some (VText (lit " 2000-02-29 "))) (VDate (Date 2000 2 29)) (lit "2000-02-29"), Ok true)
  /\ snd (scalar_set (KTemporal TDate true) blank (VText (lit "1900-02-29"))) = Ok false
  /\ snd (scalar_set (KTemporal TDate true) blank (VText (lit "0000-01-01"))) = Ok false
  /\ snd (scalar_set (KTemporal TDate true) blank (VText (lit "2000-2-29"))) = Ok false
  /\ snd (scalar_set (KTemporal TTime false) blank (VText (lit " 23:59:59"))) = Ok false
  /\ snd (scalar_set (KTemporal TTime false) blank (VText (lit "23:59:59" ++ [10%N]))) = Ok true
  /\ snd (scalar_set (KTemporal TTime false) blank (VText (lit "24:00:00"))) = Ok false
  /\ scalar_set (KTemporal TDateTime true) blank (VText (lit "2000-02-29 01:02:03"))
    = (Scalar (Some (VText (lit "2000-02-29 01:02:03"))) (VDateTime (Date 2000 2 29) (Time 1 2 3 0)) (lit "2000-02-29 01:02:03"), Ok true).
Proof. repeat split. Qed.

(* ------------------------------------------------------------------ *)
(* C58 *)
Theorem C58_truth : forall st, scalar_bool st = true <-> s_u st <> [] /\ truthy (s_value st).
Proof. exact bool_iff. Qed.
Print Assumptions C58_truth.
Theorem C58_empty : forall k st, (forall b, k <> KString b) ->
  (scalar_is_empty k st = true <-> s_value st = VNone /\ s_u st = []).
Proof. exact empty_iff. Qed.
Print Assumptions C58_empty.
Theorem C58_empty_string : forall b st,
  scalar_is_empty (KString b) st = true <-> ~ truthy (s_value st) /\ s_u st = [].
Proof. exact empty_string. Qed.
Print Assumptions C58_empty_string.
Theorem C58_string_after_set : forall b st v, v <> VNone ->
  let st' := fst (scalar_set (KString b) st v) in
  (scalar_is_empty (KString b) st' = true <-> (if b then all_space (vtext v) else vtext v = []))
  /\ (scalar_bool st' = negb (scalar_is_empty (KString b) st')).
Proof. exact empty_set_string. Qed.
Print Assumptions C58_string_after_set.
Theorem C58_string_none : forall b st,
  scalar_is_empty (KString b) (fst (scalar_set (KString b) st VNone)) = true
  /\ scalar_bool (fst (scalar_set (KString b) st VNone)) = false.
Proof. exact empty_set_none. Qed.
Print Assumptions C58_string_none.
Theorem C58_other_after_set : forall k st v,
  (exists sg, k = KInteger sg) \/ (exists t b, k = KTemporal t b) -> real_val v -> tame k v ->
  (scalar_is_empty k (fst (scalar_set k st v)) = true
   <-> v = VNone \/ snd (scalar_set k st v) = Ok false /\ vtext v = []).
Proof. exact empty_set_other. Qed.
Print Assumptions C58_other_after_set.
(* finding: a Time holding midnight is not empty but false *)
Theorem C58_midnight_refuted : exists st', scalar_set (KTemporal TTime true) blank (VText (lit "00:00:00")) = (st', Ok true)
  /\ scalar_is_empty (KTemporal TTime true) st' = false /\ scalar_bool st' = false.
Proof. eexists. split; [reflexivity|]. split; reflexivity. Qed.
Print Assumptions C58_midnight_refuted.
Example C58_witness :
  scalar_bool (fst (scalar_set (KInteger true) blank (VInt 0))) = false
  /\ scalar_is_empty (KInteger true) (fst (scalar_set (KInteger true) blank (VInt 0))) = false
  /\ scalar_is_empty (KInteger true) (fst (scalar_set (KInteger true) blank (VText []))) = true
  /\ scalar_is_empty (KString true) (fst (scalar_set (KString true) blank (VText (lit " ")))) = true
  /\ scalar_is_empty (KString false) (fst (scalar_set (KString false) blank (VText (lit " ")))) = false.
Proof. repeat split. Qed.

(* ------------------------------------------------------------------ *)
(* C59 *)
Theorem C59_flat_first_pair : forall k nm st pairs v, first_pair nm pairs v ->
  let '(st1, r1) := scalar_set_flat k (Some nm) st pairs in
  let '(st2, r2) := scalar_set k st v in
  st1 = st2 /\ r1 = match r2 with Ok _ => Ok tt | Err e => Err e end.
Proof. exact flat_some. Qed.
Print Assumptions C59_flat_first_pair.
Theorem C59_flat_absent : forall k nm st pairs,
  (forall n, nm = Some n -> ~ In n (map fst pairs)) ->
  scalar_set_flat k nm st pairs = (Scalar None (s_value st) (s_u st), Ok tt).
Proof. exact flat_none. Qed.
Print Assumptions C59_flat_absent.
Theorem C59_default : forall k st d,
  scalar_set_default k None st = (st, Ok tt)
  /\ let '(st1, r1) := scalar_set_default k (Some d) st in
     let '(st2, r2) := scalar_set k st d in
     st1 = st2 /\ r1 = match r2 with Ok _ => Ok tt | Err e => Err e end.
Proof. exact default_spec. Qed.
Print Assumptions C59_default.
Theorem C59_new : forall k v, scalar_new k None = Ok (Scalar None VNone [])
  /\ scalar_new k (Some v) = match snd (scalar_set k blank v) with
                             | Ok _ => Ok (fst (scalar_set k blank v)) | Err e => Err e end.
Proof. exact new_spec. Qed.
Print Assumptions C59_new.
Example C59_witness :
  let pairs := [(lit "a_b", VText (lit "0")); (lit "a", VText (lit "1")); (lit "a", VText (lit "2"))] in
  first_pair (lit "a") pairs (VText (lit "1"))
  /\ s_value (fst (scalar_set_flat (KInteger true) (Some (lit "a")) blank pairs)) = VInt 1
  /\ scalar_set_flat (KInteger true) None (Scalar (Some VNone) (VInt 5) (lit "5")) pairs
     = (Scalar None (VInt 5) (lit "5"), Ok tt).
Proof.
  split; [|split; reflexivity]. apply (fp (lit "a") [(lit "a_b", VText (lit "0"))]).
  simpl. intros [H|[]]. discriminate.
Qed.
