(* C49 (bounds), C50 (duplicates), C51 (phone numbers), C68 (simple validators),
   C69 (equal fields). *)
From Verif Require Import PyBase ModelUtil SpecUtil ProofUtil ModelScalar SpecScalar ModelMessage SpecMessage ModelValidators SpecValidators
  ModelNetwork SpecNetwork ProofMessage ProofValidators ProofValidators2 ProofNetwork ProofNetwork2.
Local Open Scope string_scope.
Local Open Scope list_scope.

(* C49 *)

Theorem C49_shorter : forall x label n u errors, plain x label -> exists self,
  new_shorter_than (Some (VInt n)) [] = Ok self
  /\ judged (report self x errors (shorter_than self u)) errors (Z.of_nat (List.length u) <= n)%Z
       (label ++ lit " may not exceed " ++ dec_z n ++ lit " characters.").
Proof. exact @shorter_default. Qed.
Print Assumptions C49_shorter.

Theorem C49_longer : forall x label n u errors, plain x label -> exists self,
  new_longer_than (Some (VInt n)) [] = Ok self
  /\ judged (report self x errors (longer_than self u)) errors (n <= Z.of_nat (List.length u))%Z
       (label ++ lit " must be at least " ++ dec_z n ++ lit " characters.").
Proof. exact @longer_default. Qed.
Print Assumptions C49_longer.

Theorem C49_length_between : forall x label lo hi u errors, plain x label -> exists self,
  new_length_between (Some (VInt lo)) (Some (VInt hi)) [] = Ok self
  /\ judged (report self x errors (length_between self u)) errors (lo <= Z.of_nat (List.length u) <= hi)%Z
       (label ++ lit " must be between " ++ dec_z lo ++ lit " and " ++ dec_z hi ++ lit " characters long.").
Proof. exact @length_between_default. Qed.
Print Assumptions C49_length_between.

Theorem C49_shorter_any : forall self n u, getattr self (lit "maxlength") = Ok (Plain (VInt n)) ->
  shorter_than self u = Ok (if (Z.of_nat (List.length u) <=? n)%Z then Pass else Fail (lit "exceeded") []).
Proof. exact @shorter_decides. Qed.
Print Assumptions C49_shorter_any.

Theorem C49_longer_any : forall self n u, getattr self (lit "minlength") = Ok (Plain (VInt n)) ->
  longer_than self u = Ok (if (n <=? Z.of_nat (List.length u))%Z then Pass else Fail (lit "short") []).
Proof. exact @longer_decides. Qed.
Print Assumptions C49_longer_any.

Theorem C49_length_between_any : forall self lo hi u, getattr self (lit "minlength") = Ok (Plain (VInt lo)) ->
  getattr self (lit "maxlength") = Ok (Plain (VInt hi)) ->
  length_between self u = Ok (if (lo <=? Z.of_nat (List.length u))%Z && (Z.of_nat (List.length u) <=? hi)%Z
                              then Pass else Fail (lit "breached") []).
Proof. exact @length_between_decides. Qed.
Print Assumptions C49_length_between_any.

Theorem C49_lengths_given : forall v w, (forall self, new_shorter_than None [(lit "maxlength", Plain v)] = Ok self -> getattr self (lit "maxlength") = Ok (Plain v))
  /\ (forall self, new_longer_than None [(lit "minlength", Plain v)] = Ok self -> getattr self (lit "minlength") = Ok (Plain v))
  /\ (forall self, new_length_between None (Some w) [(lit "minlength", Plain v)] = Ok self ->
        getattr self (lit "minlength") = Ok (Plain v) /\ getattr self (lit "maxlength") = Ok (Plain w))
  /\ (forall self, new_length_between (Some v) None [(lit "maxlength", Plain w)] = Ok self ->
        getattr self (lit "minlength") = Ok (Plain v) /\ getattr self (lit "maxlength") = Ok (Plain w)).
Proof. exact @lengths_given. Qed.
Print Assumptions C49_lengths_given.

Theorem C49_lengths_unset : (forall self, new_shorter_than None [] = Ok self -> getattr self (lit "maxlength") = Ok (Plain (VInt 0)))
  /\ (forall self, new_longer_than None [] = Ok self -> getattr self (lit "minlength") = Ok (Plain (VInt 0)))
  /\ (forall self, new_length_between None None [] = Ok self ->
        getattr self (lit "minlength") = Ok (Plain (VInt 0)) /\ getattr self (lit "maxlength") = Ok (Plain (VInt 0))).
Proof. exact @lengths_unset. Qed.
Print Assumptions C49_lengths_unset.

Theorem C49_less : forall x label v b errors, plain x label -> comparable v b -> exists self, new_less_than b [] = Ok self
  /\ judged (report self x errors (less_than self v)) errors (less v b) (label ++ lit " must be less than " ++ vtext b ++ lit ".").
Proof. exact @less_default. Qed.
Print Assumptions C49_less.

Theorem C49_greater : forall x label v b errors, plain x label -> comparable v b -> exists self, new_greater_than b [] = Ok self
  /\ judged (report self x errors (greater_than self v)) errors (less b v) (label ++ lit " must be greater than " ++ vtext b ++ lit ".").
Proof. exact @greater_than_default. Qed.
Print Assumptions C49_greater.

Theorem C49_at_most : forall x label v b errors, plain x label -> comparable v b -> exists self, new_at_most b [] = Ok self
  /\ judged (report self x errors (at_most self v)) errors (~ less b v) (label ++ lit " must be less than or equal to " ++ vtext b ++ lit ".").
Proof. exact @at_most_default. Qed.
Print Assumptions C49_at_most.

Theorem C49_at_least : forall x label v b errors, plain x label -> comparable v b -> exists self, new_at_least b [] = Ok self
  /\ judged (report self x errors (at_least self v)) errors (~ less v b) (label ++ lit " must be greater than or equal to " ++ vtext b ++ lit ".").
Proof. exact @at_least_default. Qed.
Print Assumptions C49_at_least.

Theorem C49_between : forall x label v lo hi errors, plain x label -> comparable lo v -> comparable v hi ->
  (exists self, new_between lo hi [] = Ok self
   /\ judged (report self x errors (between self v)) errors (~ less v lo /\ ~ less hi v)
        (label ++ lit " must be in the range " ++ vtext lo ++ lit " to " ++ vtext hi ++ lit "."))
  /\ (exists self, new_between lo hi [(lit "inclusive", Plain (VBool false))] = Ok self
   /\ judged (report self x errors (between self v)) errors (less lo v /\ less v hi)
        (label ++ lit " must be greater than " ++ vtext lo ++ lit " and less than " ++ vtext hi ++ lit ".")).
Proof. exact @between_default. Qed.
Print Assumptions C49_between.

Theorem C49_less_any : forall self v b, getattr self (lit "boundary") = Ok (Plain b) ->
  (comparable v b -> exists r : bool, less_than self v = Ok (if r then Pass else Fail (lit "failure") []) /\ (r = true <-> less v b))
  /\ (~ comparable v b -> less_than self v = Err TypeErr).
Proof. exact @less_decides. Qed.
Print Assumptions C49_less_any.

Theorem C49_greater_any : forall self v b, getattr self (lit "boundary") = Ok (Plain b) ->
  (comparable v b -> exists r : bool, greater_than self v = Ok (if r then Pass else Fail (lit "failure") []) /\ (r = true <-> less b v))
  /\ (~ comparable v b -> greater_than self v = Err TypeErr).
Proof. exact @greater_decides. Qed.
Print Assumptions C49_greater_any.

Theorem C49_at_most_any : forall self v b, getattr self (lit "maximum") = Ok (Plain b) ->
  (comparable v b -> exists r : bool, at_most self v = Ok (if r then Pass else Fail (lit "failure") []) /\ (r = true <-> ~ less b v))
  /\ (~ comparable v b -> at_most self v = Err TypeErr).
Proof. exact @at_most_decides. Qed.
Print Assumptions C49_at_most_any.

Theorem C49_at_least_any : forall self v b, getattr self (lit "minimum") = Ok (Plain b) ->
  (comparable v b -> exists r : bool, at_least self v = Ok (if r then Pass else Fail (lit "failure") []) /\ (r = true <-> ~ less v b))
  /\ (~ comparable v b -> at_least self v = Err TypeErr).
Proof. exact @at_least_decides. Qed.
Print Assumptions C49_at_least_any.

Theorem C49_between_inclusive : forall self v lo hi i, getattr self (lit "minimum") = Ok (Plain lo) -> getattr self (lit "maximum") = Ok (Plain hi) ->
  getattr self (lit "inclusive") = Ok (Plain i) -> truthy i ->
  (comparable lo v -> comparable v hi ->
   exists r : bool, between self v = Ok (if r then Pass else Fail (lit "failure_inclusive") []) /\ (r = true <-> ~ less v lo /\ ~ less hi v))
  /\ (~ comparable lo v -> between self v = Err TypeErr)
  /\ (comparable lo v -> less v lo -> between self v = Ok (Fail (lit "failure_inclusive") [])).
Proof. exact @between_inclusive. Qed.
Print Assumptions C49_between_inclusive.

Theorem C49_between_exclusive : forall self v lo hi i, getattr self (lit "minimum") = Ok (Plain lo) -> getattr self (lit "maximum") = Ok (Plain hi) ->
  getattr self (lit "inclusive") = Ok (Plain i) -> ~ truthy i ->
  (comparable lo v -> comparable v hi ->
   exists r : bool, between self v = Ok (if r then Pass else Fail (lit "failure_exclusive") []) /\ (r = true <-> less lo v /\ less v hi))
  /\ (~ comparable lo v -> between self v = Err TypeErr)
  /\ (comparable lo v -> ~ less lo v -> between self v = Ok (Fail (lit "failure_exclusive") [])).
Proof. exact @between_exclusive. Qed.
Print Assumptions C49_between_exclusive.

Theorem C49_bounds_by_keyword : forall b kw k a, In (k, a) kw ->
  (k = lit "boundary" -> new_less_than b kw = Err TypeErr /\ new_greater_than b kw = Err TypeErr)
  /\ (k = lit "maximum" -> new_at_most b kw = Err TypeErr) /\ (k = lit "minimum" -> new_at_least b kw = Err TypeErr)
  /\ (k = lit "minimum" \/ k = lit "maximum" -> forall c, new_between b c kw = Err TypeErr).
Proof. exact @bounds_by_keyword. Qed.
Print Assumptions C49_bounds_by_keyword.

Theorem C49_has_at_least : forall x label child m n errors, plain x label -> exists self,
  new_validator has_at_least_cls [(lit "minimum", Plain (VInt m))] = Ok self
  /\ judged (report self x errors (has_at_least self (Some child) (QList n))) errors (m <= Z.of_nat n)%Z
       (label ++ lit " must contain at least "
        ++ if (m =? 1)%Z then lit "one " ++ vtext child else dec_z m ++ lit " " ++ vtext child ++ lit "s").
Proof. exact @has_at_least_default. Qed.
Print Assumptions C49_has_at_least.

Theorem C49_has_at_most : forall x label child m n errors, plain x label -> exists self,
  new_validator has_at_most_cls [(lit "maximum", Plain (VInt m))] = Ok self
  /\ judged (report self x errors (has_at_most self (Some child) (QList n))) errors (n = 0%nat \/ Z.of_nat n <= m)%Z
       (label ++ lit " must contain at most "
        ++ if (m =? 1)%Z then lit "one " ++ vtext child else dec_z m ++ lit " " ++ vtext child ++ lit "s").
Proof. exact @has_at_most_default. Qed.
Print Assumptions C49_has_at_most.

Theorem C49_has_between : forall x label child lo hi n errors, plain x label -> (0 <= lo <= hi)%Z -> exists self,
  new_has_between (between_kw lo hi) = Ok self
  /\ judged (report self x errors (has_between self (Some child) (QList n))) errors (lo <= Z.of_nat n <= hi)%Z
       (label ++ lit " must contain " ++
        if (lo =? hi)%Z
        then lit "exactly " ++ (if (lo =? 1)%Z then lit "one " ++ vtext child else dec_z lo ++ lit " " ++ vtext child ++ lit "s")
        else lit "at least " ++ dec_z lo ++ lit " and at most " ++ dec_z hi ++ lit " " ++ vtext child
             ++ (if (hi =? 1)%Z then [] else lit "s")).
Proof. exact @has_between_default. Qed.
Print Assumptions C49_has_between.

Theorem C49_has_at_least_any : forall self child m n, getattr self (lit "minimum") = Ok (Plain (VInt m)) ->
  has_at_least self (Some child) (QList n)
  = Ok (if (m <=? Z.of_nat n)%Z then Pass else Fail (lit "failure") [(lit "child_label", child)]).
Proof. exact @has_at_least_decides. Qed.
Print Assumptions C49_has_at_least_any.

Theorem C49_has_at_most_any : forall self child m n, getattr self (lit "maximum") = Ok (Plain (VInt m)) ->
  has_at_most self (Some child) (QList n)
  = Ok (if (Nat.eqb n 0) || (Z.of_nat n <=? m)%Z then Pass else Fail (lit "failure") [(lit "child_label", child)]).
Proof. exact @has_at_most_decides. Qed.
Print Assumptions C49_has_at_most_any.

Theorem C49_has_between_any : forall self child lo hi n, getattr self (lit "minimum") = Ok (Plain (VInt lo)) ->
  getattr self (lit "maximum") = Ok (Plain (VInt hi)) ->
  has_between self (Some child) (QList n)
  = Ok (if (lo <=? Z.of_nat n)%Z && (Z.of_nat n <=? hi)%Z then Pass
        else Fail (if (lo =? hi)%Z then lit "exact" else lit "range") [(lit "child_label", child)]).
Proof. exact @has_between_decides. Qed.
Print Assumptions C49_has_between_any.

Theorem C49_has_between_new : forall lo hi, ((0 <= lo <= hi)%Z -> new_has_between (between_kw lo hi) = new_validator has_between_cls (between_kw lo hi))
  /\ (~ (0 <= lo <= hi)%Z -> new_has_between (between_kw lo hi) = Err TypeErr).
Proof. exact @has_between_new. Qed.
Print Assumptions C49_has_between_new.

Theorem C49_sizes_unset : (forall self, new_validator has_at_least_cls [] = Ok self -> getattr self (lit "minimum") = Ok (Plain (VInt 1)))
  /\ (forall self, new_validator has_at_most_cls [] = Ok self -> getattr self (lit "maximum") = Ok (Plain (VInt 1)))
  /\ (forall self, new_has_between [] = Ok self -> getattr self (lit "minimum") = Ok (Plain (VInt 1)) /\ getattr self (lit "maximum") = Ok (Plain (VInt 1))).
Proof. exact @sizes_unset. Qed.
Print Assumptions C49_sizes_unset.

Theorem C49_has_at_least_none : forall self child m, getattr self (lit "minimum") = Ok (Plain (VInt m)) ->
  has_at_least self (Some child) (QVal VNone)
  = Ok (if (m =? 0)%Z then Pass else Fail (lit "failure") [(lit "child_label", child)]).
Proof. exact @has_at_least_unset. Qed.
Print Assumptions C49_has_at_least_none.

Theorem C49_has_at_most_none : forall self child m, getattr self (lit "maximum") = Ok (Plain m) ->
  has_at_most self (Some child) (QVal VNone) = Ok Pass.
Proof. exact @has_at_most_unset. Qed.
Print Assumptions C49_has_at_most_none.

Theorem C49_has_between_none : forall self child lo hi, getattr self (lit "minimum") = Ok (Plain (VInt lo)) ->
  getattr self (lit "maximum") = Ok (Plain (VInt hi)) ->
  has_between self (Some child) (QVal VNone) = has_between self (Some child) (QList 0).
Proof. exact @has_between_unset. Qed.
Print Assumptions C49_has_between_none.

Theorem C49_no_schema : forall self q, has_at_least self None q = Err AssertErr /\ has_at_most self None q = Err AssertErr /\ has_between self None q = Err AssertErr.
Proof. exact @sizes_need_schema. Qed.
Print Assumptions C49_no_schema.

Theorem C49_text_counted : forall self child m s, getattr self (lit "minimum") = Ok (Plain (VInt m)) ->
  has_at_least self (Some child) (QVal (VText s)) = has_at_least self (Some child) (QList (List.length s)).
Proof. exact @text_counted. Qed.
Print Assumptions C49_text_counted.

Theorem C49_number_uncounted : forall self child m z, getattr self (lit "minimum") = Ok (Plain (VInt m)) -> m <> 0%Z ->
  has_at_least self (Some child) (QVal (VInt z)) = Err TypeErr.
Proof. exact @number_uncounted. Qed.
Print Assumptions C49_number_uncounted.

(* sample: an element labelled Name, no state, no translation *)
Example C49_plain : plain (labelled "Name" (VInt 3)) (lit "Name").
Proof.
  assert (U : forall F, untranslated (@nowhere F)) by (intros F; repeat split; [now left|repeat constructor]).
  split; [reflexivity|]. split; [apply U|]. split; [apply U|]. right. split; [now intros f|reflexivity].
Qed.

Example C49_case : exists self, new_shorter_than (Some (VInt 3)) [] = Ok self
  /\ report self (labelled "Name" VNone) [] (shorter_than self (lit "abc")) = ([], Ok true)
  /\ report self (labelled "Name" VNone) [] (shorter_than self (lit "abcd")) = ([lit "Name may not exceed 3 characters."], Ok false).
Proof. eexists. split; [reflexivity|]. vm_compute. split; reflexivity. Qed.
Example C49_between_case : exists self, new_between (VInt 1) (VInt 3) [] = Ok self
  /\ report self (labelled "Age" (VInt 3)) [] (between self (VInt 3)) = ([], Ok true)
  /\ report self (labelled "Age" (VInt 3)) [] (between self (VInt 4)) = ([lit "Age must be in the range 1 to 3."], Ok false).
Proof. eexists. split; [reflexivity|]. vm_compute. split; reflexivity. Qed.
Example C49_dates : comparable (VDate (Date 1999 12 31)) (VDate (Date 2000 1 1)) /\ less (VDate (Date 1999 12 31)) (VDate (Date 2000 1 1)).
Proof. split; [apply cp_date|apply ls_date; left; reflexivity]. Qed.
Example C49_sizes : exists self, new_has_between (between_kw 1 2) = Ok self
  /\ report self (labelled "Pets" VNone) [] (has_between self (Some (VText (lit "pet"))) (QList 2)) = ([], Ok true)
  /\ report self (labelled "Pets" VNone) [] (has_between self (Some (VText (lit "pet"))) (QList 3))
     = ([lit "Pets must contain at least 1 and at most 2 pets"], Ok false).
Proof. eexists. split; [reflexivity|]. vm_compute. split; reflexivity. Qed.
(* a value that was not adapted is None, which has no order *)
Theorem C49_none_refuted : exists self, new_at_least (VInt 1) [] = Ok self /\ at_least self VNone = Err TypeErr.
Proof. eexists. split; reflexivity. Qed.
Print Assumptions C49_none_refuted.

(* C50 *)

Theorem C50_each : forall op el before after label same, ~ In el before -> decides op el before same ->
  (Forall (fun s => ~ same s) before -> not_duplicated op (Some (before ++ el :: after, label)) el = Ok Pass)
  /\ (Exists same before ->
      not_duplicated op (Some (before ++ el :: after, label)) el = Ok (repeated (S (List.length before)) label)).
Proof. exact @dup_iff. Qed.
Print Assumptions C50_each.

Theorem C50_all : forall op same l label, NoDup l -> (forall e s, In e l -> In s l -> exists b, op e s = Ok b /\ (b = true <-> same e s)) ->
  ((forall e, In e l -> not_duplicated op (Some (l, label)) e = Ok Pass) <-> ForallOrdPairs (fun s e => ~ same e s) l).
Proof. exact @dup_all. Qed.
Print Assumptions C50_all.

Theorem C50_message : forall op x label container el before after same errors, plain x label ->
  ~ In el before -> decides op el before same ->
  exists self, new_validator not_duplicated_cls [] = Ok self
  /\ judged (report self x errors (not_duplicated op (Some (before ++ el :: after, container)) el)) errors
       (Forall (fun s => ~ same s) before)
       (label ++ lit " may not be repeated within " ++ vtext container ++ lit ".").
Proof. exact @not_duplicated_default. Qed.
Print Assumptions C50_message.

Theorem C50_raises : forall op el a s b label e, ~ In el (a ++ [s]) -> Forall (fun s => op el s = Ok false) a -> op el s = Err e ->
  not_duplicated op (Some (a ++ s :: b, label)) el = Err e.
Proof. exact @dup_raises. Qed.
Print Assumptions C50_raises.

Theorem C50_orphan : forall op el, not_duplicated op None el = Err TypeErr.
Proof. exact @not_duplicated_orphan. Qed.
Print Assumptions C50_orphan.

Theorem C50_unlisted : forall op el l label same, ~ In el l -> decides op el l same ->
  (Forall (fun s => ~ same s) l -> not_duplicated op (Some (l, label)) el = Ok Pass)
  /\ (Exists same l -> not_duplicated op (Some (l, label)) el = Ok (repeated 0 label)).
Proof. exact @dup_stray. Qed.
Print Assumptions C50_unlisted.

(* four members, the third repeats the first *)
Example C50_case :
  let value n := nth n [7; 8; 7; 9] 0 in
  let op a b := Ok (Nat.eqb (value a) (value b)) in
  map (not_duplicated op (Some ([0; 1; 2; 3], VText (lit "Pets")))) [0; 1; 2; 3]
  = [Ok Pass; Ok Pass; Ok (repeated 3 (VText (lit "Pets"))); Ok Pass].
Proof. vm_compute. reflexivity. Qed.
Example C50_decides : let op (a b : nat) := Ok (Nat.eqb (Nat.modulo a 2) (Nat.modulo b 2)) in
  decides op 4 [1; 2; 3] (fun s => Nat.modulo s 2 = 0).
Proof. cbv zeta. repeat constructor; eexists; (split; [reflexivity|]); cbn; split; easy. Qed.

(* C51 *)

Theorem C51_cases : forall ext k st s ds, phone_subject st = VText s -> number_digits s ds ->
  ((List.length ds < 10)%nat -> phone ext k st = (st, Ok (Fail (lit "invalid") [])))
  /\ ((List.length ds = 10%nat \/ ((10 <= List.length ds)%nat /\ ext = ExtStrip)) ->
      exists line, dial (firstn 10 ds) line
      /\ phone ext k st = (fst (scalar_set k st (VText line)), rmap (fun _ => Pass) (snd (scalar_set k st (VText line)))))
  /\ ((10 < List.length ds)%nat -> ext = ExtNone -> phone ext k st = (st, Ok (Fail (lit "noext") [])))
  /\ ((10 < List.length ds)%nat -> ext = ExtKeep -> phone ext k st = (st, Err TypeErr)).
Proof. exact @phone_cases. Qed.
Print Assumptions C51_cases.

Theorem C51_string : forall ext sp st s ds, phone_subject st = VText s -> number_digits s ds ->
  (List.length ds = 10%nat \/ ((10 <= List.length ds)%nat /\ ext = ExtStrip)) ->
  exists line, dial (firstn 10 ds) line
  /\ phone ext (KString sp) st = (Scalar (Some (VText line)) (VText line) line, Ok Pass)
  /\ phone ext (KString sp) (Scalar (Some (VText line)) (VText line) line) = (Scalar (Some (VText line)) (VText line) line, Ok Pass).
Proof. exact @phone_string. Qed.
Print Assumptions C51_string.

Theorem C51_messages : forall ext x label k st s ds errors, plain x label -> phone_subject st = VText s -> number_digits s ds ->
  ((List.length ds < 10)%nat ->
    exists errors', report phone_cls x errors (snd (phone ext k st)) = (errors', Ok false)
    /\ records errors (lit "The " ++ label ++ lit " is not valid.") errors')
  /\ ((10 < List.length ds)%nat -> ext = ExtNone ->
    exists errors', report phone_cls x errors (snd (phone ext k st)) = (errors', Ok false)
    /\ records errors (label ++ lit " must be a ten-digit phone number without extension.") errors').
Proof. exact @phone_messages. Qed.
Print Assumptions C51_messages.

Theorem C51_not_text : forall ext k st, (forall s, phone_subject st <> VText s) -> phone ext k st = (st, Err TypeErr).
Proof. exact @phone_not_text. Qed.
Print Assumptions C51_not_text.

Theorem C51_digits : forall s, exists ds, number_digits s ds.
Proof. exact @number_digits_total. Qed.
Print Assumptions C51_digits.

Theorem C51_digits_unique : forall s ds es, number_digits s ds -> number_digits s es -> ds = es.
Proof. exact @number_digits_fun. Qed.
Print Assumptions C51_digits_unique.

Example C51_case : number_digits (lit "+ 503-555 0199 x") [5; 0; 3; 5; 5; 5; 0; 1; 9; 9]%N
  /\ phone ExtNone (KString true) (Scalar None VNone (lit "503-555 0199 x"))
     = (Scalar (Some (VText (lit "(503) 555-0199"))) (VText (lit "(503) 555-0199")) (lit "(503) 555-0199"), Ok Pass).
Proof.
  split; [|vm_compute; reflexivity]. apply (nd_ascii _ (lit "5035550199")).
  - cbn [lit]. repeat first [apply dc_other; [reflexivity|]|apply dc_digit; [eexists; reflexivity|]]. constructor.
  - cbn [lit]. repeat (constructor; [vm_compute; split; discriminate|]). constructor.
  - cbn [lit]. repeat (constructor; [reflexivity|]). constructor.
Qed.
(* more than ten digits when extensions are to be kept: always TypeError *)
Theorem C51_extension_refuted : exists st, phone ExtKeep (KString true) st = (st, Err TypeErr).
Proof. exists (Scalar None VNone (lit "503-555-0199 ext 22")). vm_compute. reflexivity. Qed.
Print Assumptions C51_extension_refuted.
(* ten digits that are not all ASCII: a leading zero is lost and the number refused *)
Theorem C51_leading_zero_refuted : exists s, List.length (filter is_digit s) = 10
  /\ snd (phone ExtNone (KString true) (Scalar None VNone s)) = Ok (Fail (lit "invalid") []).
Proof. exists (lit "012345678" ++ [1641%N]). vm_compute. split; reflexivity. Qed.
Print Assumptions C51_leading_zero_refuted.

(* C68 *)

Theorem C68_present : forall x label u errors, plain x label ->
  judged (report present_cls x errors (present u)) errors (u <> []) (label ++ lit " may not be blank.").
Proof. exact @present_judged. Qed.
Print Assumptions C68_present.

Theorem C68_is_true : forall x label v errors, plain x label ->
  judged (report is_true_cls x errors (is_true v)) errors (truthy v) (label ++ lit " must be True.").
Proof. exact @is_true_judged. Qed.
Print Assumptions C68_is_true.

Theorem C68_is_false : forall x label v errors, plain x label ->
  judged (report is_false_cls x errors (is_false v)) errors (~ truthy v) (label ++ lit " must be False.").
Proof. exact @is_false_judged. Qed.
Print Assumptions C68_is_false.

Theorem C68_value_in : forall x label v options errors, plain x label -> offers (x_element x) (lit "value") v ->
  judged (report value_in_cls x errors (value_in options v)) errors (exists o, In o options /\ equal_values v o)
         (vtext v ++ lit " is not a valid value for " ++ label ++ lit ".").
Proof. exact @value_in_judged. Qed.
Print Assumptions C68_value_in.

Theorem C68_converted : forall x label v errors, plain x label ->
  judged (report converted_cls x errors (converted v)) errors (v <> VNone) (label ++ lit " is not correct.").
Proof. exact @converted_judged. Qed.
Print Assumptions C68_converted.

Theorem C68_luhn : forall x label errors v ds, plain x label -> digit_list ds -> number v (decimal_value ds) -> exists f0, forall f, (f0 <= f)%nat ->
  judged (report luhn_cls x errors (luhn f v)) errors (luhn_valid ds) (lit "The " ++ label ++ lit " was not entered correctly.").
Proof. exact @luhn_judged. Qed.
Print Assumptions C68_luhn.

Theorem C68_luhn_other : forall f, luhn f VNone = Ok (Fail (lit "invalid") [])
  /\ (forall s, s <> [] -> ~ In (ch "%") s -> luhn f (VText s) = Err TypeErr)
  /\ (forall s, In (ch "%") s -> luhn f (VText s) = Err NotImplErr)
  /\ (forall v, (forall n, ~ number v n) -> (forall s, v <> VText s) -> (forall o, v <> VObj o) -> truthy v -> luhn f v = Err TypeErr)
  /\ (forall o, truthy (VObj o) -> luhn f (VObj o) = Err NotImplErr)
  /\ (forall v, (forall n, ~ number v n) -> v <> VNone -> ~ truthy v -> luhn f v = Ok Pass).
Proof. exact @luhn_other. Qed.
Print Assumptions C68_luhn_other.

Theorem C68_nxx : forall st n, number (s_value st) n ->
  ((200 <= n)%Z /\ ~ In n blocked_nxx -> nanp_nxx st = (Scalar (s_raw st) (s_value st) (vtext (s_value st)), Ok Pass))
  /\ (~ ((200 <= n)%Z /\ ~ In n blocked_nxx) -> nanp_nxx st = (st, Ok Quiet)).
Proof. exact @nxx_number. Qed.
Print Assumptions C68_nxx.

Theorem C68_nxx_silent : forall st n self x errors, number (s_value st) n -> ~ ((200 <= n)%Z /\ ~ In n blocked_nxx) ->
  report self x errors (snd (nanp_nxx st)) = (errors, Ok false).
Proof. exact @nxx_silent. Qed.
Print Assumptions C68_nxx_silent.

Theorem C68_nxx_none : forall st, s_value st = VNone -> nanp_nxx st = (st, Ok Quiet).
Proof. exact @nxx_none. Qed.
Print Assumptions C68_nxx_none.

Theorem C68_nxx_other : forall st, s_value st <> VNone -> (forall n, ~ number (s_value st) n) -> nanp_nxx st = (st, Err TypeErr).
Proof. exact @nxx_other. Qed.
Print Assumptions C68_nxx_other.

Theorem C68_npa_nxx : forall find_one npa nxx, (forall a b, find_one npa = Ok a -> find_one nxx = Ok b -> nanp_npa_nxx find_one npa nxx = Err AttributeErr)
  /\ (forall e, find_one npa = Err e -> nanp_npa_nxx find_one npa nxx = Err e)
  /\ (forall a e, find_one npa = Ok a -> find_one nxx = Err e -> nanp_npa_nxx find_one npa nxx = Err e).
Proof. exact @npa_nxx_spec. Qed.
Print Assumptions C68_npa_nxx.

(* sample: an element labelled Name, no state, no translation *)
Example C68_plain : plain (labelled "Name" (VInt 3)) (lit "Name").
Proof.
  assert (U : forall F, untranslated (@nowhere F)) by (intros F; repeat split; [now left|repeat constructor]).
  split; [reflexivity|]. split; [apply U|]. split; [apply U|]. right. split; [now intros f|reflexivity].
Qed.

Example C68_offers : offers (x_element (labelled "Name" (VInt 3))) (lit "value") (VInt 3).
Proof. right. split; [now intros f|reflexivity]. Qed.
Example C68_case : report value_in_cls (labelled "Size" (VInt 3)) [] (value_in [VInt 1; VInt 2] (VInt 3))
  = ([lit "3 is not a valid value for Size."], Ok false)
  /\ report present_cls (labelled "Size" VNone) [lit "a"] (present []) = ([lit "a"; lit "Size may not be blank."], Ok false).
Proof. vm_compute. split; reflexivity. Qed.
Example C68_luhn_case : digit_list [7; 9; 9; 2; 7; 3; 9; 8; 7; 1; 3]%Z /\ luhn 50 (VInt 79927398713) = Ok Pass
  /\ luhn 50 (VInt 79927398712) = Ok (Fail (lit "invalid") []).
Proof. split; [repeat (constructor; [lia|]); constructor|]. vm_compute. split; reflexivity. Qed.
Example C68_nxx_case : map (fun z => snd (nanp_nxx (Scalar None (VInt z) []))) [199; 200; 555; 556]%Z = [Ok Quiet; Ok Pass; Ok Quiet; Ok Pass].
Proof. vm_compute. reflexivity. Qed.
(* NANPnpa_nxx never gives a verdict *)
Theorem C68_npa_nxx_refuted : forall find_one npa nxx v, nanp_npa_nxx find_one npa nxx <> Ok v.
Proof. intros find_one npa nxx v. unfold nanp_npa_nxx. destruct (find_one npa), (find_one nxx); discriminate. Qed.
Print Assumptions C68_npa_nxx_refuted.

(* C69 *)

Theorem C69_values_and_texts : forall find_one paths e els, Forall2 (fun p e => find_one p = Ok e) paths (e :: els) ->
  (exists b : bool, map_equal MValue find_one paths = Ok (if b then Pass else unequal (e :: els) e)
     /\ (b = true <-> Forall (fun f => equal_values (fd_value f) (fd_value e)) els))
  /\ (exists b : bool, map_equal MU find_one paths = Ok (if b then Pass else unequal (e :: els) e)
     /\ (b = true <-> Forall (fun f => fd_u f = fd_u e) els)).
Proof. exact @map_equal_value_u. Qed.
Print Assumptions C69_values_and_texts.

Theorem C69_transform : forall t find_one paths e els v vs, Forall2 (fun p e => find_one p = Ok e) paths (e :: els) ->
  transformed t e (Ok v) -> Forall2 (fun e v => transformed t e (Ok v)) els vs ->
  exists b : bool, map_equal t find_one paths = Ok (if b then Pass else unequal (e :: els) e)
  /\ (b = true <-> Forall (fun w => equal_values w v) vs).
Proof. exact @map_equal_transformed. Qed.
Print Assumptions C69_transform.

Theorem C69_message : forall x label errors t find_one paths e els v vs, plain x label ->
  Forall2 (fun p e => find_one p = Ok e) paths (e :: els) ->
  transformed t e (Ok v) -> Forall2 (fun e v => transformed t e (Ok v)) els vs ->
  judged (report map_equal_cls x errors (map_equal t find_one paths)) errors (Forall (fun w => equal_values w v) vs)
    (join (lit ", ") (map fd_label (removelast (e :: els))) ++ lit " and " ++ fd_label (last (e :: els) e) ++ lit " do not match.").
Proof. exact @map_equal_transformed_message. Qed.
Print Assumptions C69_message.

Theorem C69_find_raises : forall t find_one l a r e bs, Forall2 (fun p e => find_one p = Ok e) l bs -> find_one a = Err e ->
  map_equal t find_one (l ++ a :: r) = Err e.
Proof. exact @map_equal_find_raises. Qed.
Print Assumptions C69_find_raises.

Theorem C69_transform_raises : forall t find_one paths a e b vs v0 x, Forall2 (fun p e => find_one p = Ok e) paths (a ++ e :: b) ->
  Forall2 (fun e v => transformed t e (Ok v)) a vs -> Forall (fun v => equal_values v v0) (tl vs) -> (forall w, hd_error vs = Some w -> w = v0) ->
  transformed t e (Err x) -> map_equal t find_one paths = Err x.
Proof. exact @map_equal_transformed_raises. Qed.
Print Assumptions C69_transform_raises.

Theorem C69_new : forall cls paths, ((2 <= List.length paths)%nat -> map_equal_paths cls paths = Ok paths)
  /\ (List.length paths = 1%nat -> map_equal_paths cls paths = Err AssertErr)
  /\ (paths = [] -> cls <> [] -> map_equal_paths cls paths = Ok cls)
  /\ (paths = [] -> cls = [] -> map_equal_paths cls paths = Err AssertErr).
Proof. exact @map_equal_new. Qed.
Print Assumptions C69_new.

Theorem C69_no_transform_refuted : forall find_one paths e els, Forall2 (fun p e => find_one p = Ok e) paths (e :: els) ->
  map_equal MDefault find_one paths = Err TypeErr.
Proof. exact @map_equal_no_transform. Qed.
Print Assumptions C69_no_transform_refuted.

(* sample: an element labelled Name, no state, no translation *)
Example C69_plain : plain (labelled "Name" (VInt 3)) (lit "Name").
Proof.
  assert (U : forall F, untranslated (@nowhere F)) by (intros F; repeat split; [now left|repeat constructor]).
  split; [reflexivity|]. split; [apply U|]. split; [apply U|]. right. split; [now intros f|reflexivity].
Qed.

Example C69_case :
  let find k := if str_eqb k (lit "a") then Ok (Found (VInt 1) (lit "1") (lit "A"))
                else if str_eqb k (lit "b") then Ok (Found (VBool true) (lit "True") (lit "B"))
                else Ok (Found (VInt 2) (lit "1") (lit "C")) in
  map_equal MValue find [lit "a"; lit "b"] = Ok Pass
  /\ map_equal MU find [lit "a"; lit "c"] = Ok Pass
  /\ report map_equal_cls (labelled "Form" VNone) [] (map_equal MValue find [lit "a"; lit "b"; lit "c"])
     = ([lit "A, B and C do not match."], Ok false).
Proof. vm_compute. repeat split. Qed.
Example C69_fun_case :
  let longer (e : found) := if (1 <? List.length (fd_u e))%nat then Ok (VBool true) else if str_eqb (fd_u e) [] then Err ValueErr else Ok (VInt 0) in
  let find k := Ok (Found VNone k k) in
  map_equal (MFun longer) find [lit "aa"; lit "bcd"] = Ok Pass /\ map_equal (MFun longer) find [lit "a"; lit "bcd"] = Ok (unequal [Found VNone (lit "a") (lit "a"); Found VNone (lit "bcd") (lit "bcd")] (Found VNone (lit "a") (lit "a")))
  /\ map_equal (MFun longer) find [lit "aa"; []] = Err ValueErr.
Proof. vm_compute. repeat split. Qed.
