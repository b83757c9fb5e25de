(* C102: what a validated form reports. *)
From Verif Require Import PyBase ModelScalar ModelValidate ModelMessage SpecMessage ModelValidators ModelReport SpecValidate SpecReport ProofReport.
Local Open Scope string_scope.
Local Open Scope list_scope.

(* C102 *)

Theorem C102_report : forall f fuel errors V root errors' V' b, validate_form f fuel errors V root = (errors', V', Ok b) ->
  (forall x, reachable (f_children f) root x -> exists d md u mu,
     passes f true x d md /\ passes f false x u mu /\ noted (errors x) (md ++ mu) (errors' x) /\ settles d u (V' x))
  /\ (forall x, ~ reachable (f_children f) root x -> errors' x = errors x /\ V' x = V x)
  /\ (b = true <-> forall x d md u mu, reachable (f_children f) root x -> passes f true x d md -> passes f false x u mu -> fine d /\ fine u).
Proof. exact @report_form. Qed.
Print Assumptions C102_report.

Theorem C102_one_account : forall f down x o ms o' ms', passes f down x o ms -> passes f down x o' ms' -> o = o' /\ ms = ms'.
Proof. exact @passes_fun. Qed.
Print Assumptions C102_one_account.

Theorem C102_passed : forall f fuel errors V root errors' V', validate_form f fuel errors V root = (errors', V', Ok true) ->
  (forall x, errors' x = errors x) /\ forall x, reachable (f_children f) root x -> V' x <> Invalid.
Proof. exact @report_good. Qed.
Print Assumptions C102_passed.

Theorem C102_failed : forall f fuel errors V root errors' V', validate_form f fuel errors V root = (errors', V', Ok false) ->
  exists x down ms, reachable (f_children f) root x /\ passes f down x (Some false) ms /\ V' x = Invalid /\ incl ms (errors' x).
Proof. exact @report_bad. Qed.
Print Assumptions C102_failed.

Theorem C102_again : forall f fuel errors V root errors' V' b, validate_form f fuel errors V root = (errors', V', Ok b) ->
  exists errors2 V2, validate_form f fuel errors' V' root = (errors2, V2, Ok b) /\ forall x, errors2 x = errors' x /\ V2 x = V' x.
Proof. exact @report_again. Qed.
Print Assumptions C102_again.

Theorem C102_fresh : forall f fuel errors V errors2 V2 root,
  snd (validate_form f fuel errors V root) = snd (validate_form f fuel errors2 V2 root).
Proof. exact @report_blind. Qed.
Print Assumptions C102_fresh.

Theorem C102_raises : forall f fuel errors V root errors' V' e, validate_form f fuel errors V root = (errors', V', Err e) ->
  e = OutOfFuel \/ exists x (down : bool) rs before r after, reachable (f_children f) root x /\ (if down then f_down f x else f_up f x) = Some rs
    /\ rs = before ++ r :: after /\ Forall (fun r => says r x true []) before /\ trips r x e.
Proof. exact @report_raises. Qed.
Print Assumptions C102_raises.

Theorem C102_ends : forall f (U : list id) errors V root, In root U -> (forall x, In x U -> incl (f_children f x) U) ->
  exists F errors' V' r, (forall fuel, F <= fuel -> validate_form f fuel errors V root = (errors', V', r))
    /\ forall e, r = Err e -> exists x (down : bool) before q after, In x U /\ (if down then f_down f x else f_up f x) = Some (before ++ q :: after)
         /\ Forall (fun r => says r x true []) before /\ trips q x e.
Proof. exact @report_ends. Qed.
Print Assumptions C102_ends.

Theorem C102_alone : forall f errors V el errors' V' v, validate_alone f errors V el = (errors', V', Ok v) ->
  exists d md u mu, passes f true el d md /\ passes f false el u mu /\ noted (errors el) (md ++ mu) (errors' el) /\ last_word d u v /\ V' el = v
    /\ forall x, x <> el -> errors' x = errors x /\ V' x = V x.
Proof. exact @report_alone. Qed.
Print Assumptions C102_alone.

(* the form of SpecReport: a blank name, a short nickname, and a complaint about the whole *)
Example C102_case :
  let '(errors, V, r) := validate_form sample 9 (fun x => if Nat.eqb x 2 then [lit "old"] else []) (fun _ => Uneval) 0 in
  r = Ok false /\ errors 0 = [lit "All must differ."] /\ errors 1 = [lit "Name may not be blank."] /\ errors 2 = [lit "old"; lit "Nick must be at least 3 characters."]
  /\ V 0 = Invalid /\ V 1 = Invalid /\ V 2 = Invalid.
Proof. vm_compute. repeat split. Qed.
(* validated again, each message still appears once *)
Example C102_again_case :
  let '(errors, V, _) := validate_form sample 9 (fun _ => []) (fun _ => Uneval) 0 in
  let '(errors', _, r) := validate_form sample 9 errors V 0 in r = Ok false /\ errors' 0 = errors 0 /\ errors' 2 = errors 2 /\ errors 1 = [lit "Name may not be blank."].
Proof. vm_compute. repeat split. Qed.
(* a template that names a field nobody has: the exception *)
Example C102_raises_case :
  let bad := Rule [(lit "missing", text "%(nobody)s")] (fun _ => labelled "Name" VNone) (fun _ => present []) in
  trips bad 0 KeyErr /\ snd (validate_form (Form (fun _ => []) (fun _ => true) (fun _ => false) (fun _ => false) (fun _ => Some [bad]) (fun _ => None)) 3 (fun _ => []) (fun _ => Uneval) 0) = Err KeyErr.
Proof. split; [|vm_compute; reflexivity]. now apply (tr_message _ _ _ (lit "missing") [] (text "%(nobody)s")). Qed.
(* one element by itself: the way up has the last word, though the way down failed *)
Example C102_alone_case :
  let ok := Rule [] (fun _ => labelled "Name" VNone) (fun _ => Ok Pass) in
  let f := Form (fun _ => []) (fun _ => false) (fun _ => false) (fun _ => false) (fun _ => Some [sample_name]) (fun _ => Some [ok]) in
  let '(errors, V, r) := validate_alone f (fun _ => []) (fun _ => Uneval) 0 in
  let '(_, W, q) := validate_form f 3 (fun _ => []) (fun _ => Uneval) 0 in
  errors 0 = [lit "Name may not be blank."] /\ r = Ok Valid /\ V 0 = Valid /\ q = Ok false /\ W 0 = Invalid.
Proof. vm_compute. repeat split. Qed.
