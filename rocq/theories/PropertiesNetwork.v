(* C52 (email addresses), C53 (card numbers), C70 (URLs). *)
From Verif Require Import PyBase ModelUtil SpecUtil ProofUtil ModelScalar SpecScalar ModelMessage SpecMessage ModelValidators SpecValidators
  ModelNetwork SpecNetwork ProofMessage ProofValidators ProofValidators2 ProofNetwork ProofNetwork2.
Local Open Scope string_scope.
Local Open Scope list_scope.

(* C52 *)

Theorem C52_default : forall to_ascii x label errors u, (forall s e, to_ascii s = Err e -> e = ValueErr) -> plain x label ->
  exists self, new_validator email_cls [] = Ok self
  /\ judged (report self x errors (email to_ascii None domain_match self u)) errors
       (address to_ascii (fun _ => True) domain_form true u) (label ++ lit " is not a valid email address.").
Proof. exact @email_default. Qed.
Print Assumptions C52_default.

Theorem C52_any : forall to_ascii local_ok dom_ok self nl u (local domain : str -> Prop), (forall s e, to_ascii s = Err e -> e = ValueErr) ->
  (forall s, local s <-> (forall f, local_ok = Some f -> f s = true)) -> (forall s, domain s <-> dom_ok s = true) ->
  getattr self (lit "non_local") = Ok nl ->
  exists b : bool, email to_ascii local_ok dom_ok self u = Ok (if b then Pass else Fail (lit "invalid") [])
  /\ (b = true <-> address to_ascii local domain (attr_truth nl) u).
Proof. exact @email_iff. Qed.
Print Assumptions C52_any.

Theorem C52_domain : forall d, domain_match d = true <-> domain_form d.
Proof. exact @domain_match_iff. Qed.
Print Assumptions C52_domain.

Theorem C52_ascii_name : forall to_ascii d, (forall s e, to_ascii s = Err e -> e = ValueErr) ->
  (exists h, idna to_ascii d = Ok h /\ ascii_name to_ascii d h) \/ (idna to_ascii d = Err ValueErr /\ forall h, ~ ascii_name to_ascii d h).
Proof. exact @idna_iff. Qed.
Print Assumptions C52_ascii_name.

(* sample: an element labelled Name, no state, no translation *)
Example C52_plain : plain (labelled "Name" (VInt 3)) (lit "Name").
Proof.
  assert (U : forall F, untranslated (@nowhere F)) by (intros F; repeat split; [now left|repeat constructor]).
  split; [reflexivity|]. split; [apply U|]. split; [apply U|]. right. split; [now intros f|reflexivity].
Qed.

Example C52_case :
  let run u := email (fun _ => Err ValueErr) None domain_match email_cls (lit u) in
  map run ["me@example.com"; "me@localhost"; "a@b@c.de"; " @b.de"; "x@-.d-"; "x@b..de"; "x@b.de."]
  = map (fun b : bool => Ok (if b then Pass else Fail (lit "invalid") [])) [true; false; false; false; true; false; false].
Proof. vm_compute. reflexivity. Qed.
(* a domain that ends in a newline is accepted *)
Theorem C52_newline_refuted : exists u, In 10%N u /\ email (fun _ => Err ValueErr) None domain_match email_cls u = Ok Pass.
Proof. exists (lit "me@example.com" ++ [10%N]). split; [apply in_or_app; right; now left|vm_compute; reflexivity]. Qed.
Print Assumptions C52_newline_refuted.

(* C53 *)

Theorem C53_type : forall z, exists o, card_type (VInt z) = Ok o /\ (forall c, o = Some c <-> issued z c).
Proof. exact @card_type_iff. Qed.
Print Assumptions C53_type.

Theorem C53_text : forall v, exists groups sizes, grouping (List.length (vtext v)) sizes
  /\ Forall2 (fun g n => List.length g = n) groups sizes /\ List.concat groups = vtext v /\ pretty v = join (lit "-") groups.
Proof. exact @pretty_spec. Qed.
Print Assumptions C53_text.

Theorem C53_read : forall s, ((15 <= List.length s)%nat /\ Forall card_char s ->
     (forall t n, card_digits s t -> t <> [] -> numeral t n -> from_string s = Some (Ok (Z.of_N n)))
     /\ (card_digits s [] -> from_string s = Some (Err ValueErr)))
  /\ (~ ((15 <= List.length s)%nat /\ Forall card_char s) -> from_string s = None).
Proof. exact @from_string_spec. Qed.
Print Assumptions C53_read.

Theorem C53_digits : forall s, exists t n, card_digits s t /\ numeral t n.
Proof. exact @card_digits_total. Qed.
Print Assumptions C53_digits.

Theorem C53_set_text : forall st s, (forall t n, (15 <= List.length s)%nat -> Forall card_char s -> card_digits s t -> t <> [] -> numeral t n ->
     card_set st (VText s) = (Scalar (Some (VText s)) (VInt (Z.of_N n)) (pretty (VInt (Z.of_N n))), Ok true))
  /\ ((15 <= List.length s)%nat -> Forall card_char s -> card_digits s [] ->
     card_set st (VText s) = (Scalar (Some (VText s)) (s_value st) (s_u st), Err ValueErr))
  /\ (~ ((15 <= List.length s)%nat /\ Forall card_char s) ->
     card_set st (VText s) = (Scalar (Some (VText s)) VNone s, Ok false)).
Proof. exact @card_set_text. Qed.
Print Assumptions C53_set_text.

Theorem C53_set_other : forall st, card_set st VNone = (Scalar (Some VNone) VNone [], Ok true)
  /\ (forall v z, number v z -> card_set st v = (Scalar (Some v) v (pretty v), Ok true))
  /\ (forall v, v <> VNone -> (forall z, ~ number v z) -> (forall s, v <> VText s) ->
      card_set st v = (Scalar (Some v) VNone (vtext v), Ok false)).
Proof. exact @card_set_other. Qed.
Print Assumptions C53_set_other.

Theorem C53_round_trip : forall st n, (10 ^ 12 <= n < 10 ^ 13 \/ 10 ^ 14 <= n)%N <->
  s_value (fst (card_set st (VText (pretty (VInt (Z.of_N n)))))) = VInt (Z.of_N n)
  /\ snd (card_set st (VText (pretty (VInt (Z.of_N n))))) = Ok true.
Proof. exact @card_round_trip. Qed.
Print Assumptions C53_round_trip.

Theorem C53_round_trip_text : forall st n, (10 ^ 12 <= n < 10 ^ 13 \/ 10 ^ 14 <= n)%N ->
  s_u (fst (card_set st (VText (pretty (VInt (Z.of_N n)))))) = pretty (VInt (Z.of_N n)).
Proof. exact @card_text_repeats. Qed.
Print Assumptions C53_round_trip_text.

Theorem C53_accepted : forall accepted z, ((exists c, issued z c /\ In c accepted) -> accepted_type accepted (VInt z) = Ok Pass)
  /\ (~ (exists c, issued z c /\ In c accepted) -> accepted_type accepted (VInt z) = Ok (Fail (lit "not_accepted") [])).
Proof. exact @accepted_spec. Qed.
Print Assumptions C53_accepted.

Theorem C53_accepted_number : forall accepted v, (forall z, ~ number v z) -> accepted_type accepted v = Err AssertErr.
Proof. exact @accepted_not_number. Qed.
Print Assumptions C53_accepted_number.

Theorem C53_invalid : forall x label errors accepted st fuel, plain x label ->
  (s_u st = [] -> exists errors', card_validate fuel accepted x errors st = (errors', Ok false)
     /\ records errors (label ++ lit " may not be blank.") errors')
  /\ (s_u st <> [] -> s_value st = VNone -> exists errors', card_validate fuel accepted x errors st = (errors', Ok false)
     /\ records errors (label ++ lit " is not correct.") errors').
Proof. exact @card_invalid. Qed.
Print Assumptions C53_invalid.

Theorem C53_validate : forall x label errors accepted st z ds, plain x label -> s_u st <> [] -> s_value st = VInt z ->
  digit_list ds -> z = decimal_value ds -> exists f0, forall fuel, (f0 <= fuel)%nat ->
  (luhn_valid ds -> (exists c, issued z c /\ In c accepted) -> card_validate fuel accepted x errors st = (errors, Ok true))
  /\ (~ luhn_valid ds -> exists errors', card_validate fuel accepted x errors st = (errors', Ok false)
      /\ records errors (lit "The " ++ label ++ lit " was not entered correctly.") errors')
  /\ (luhn_valid ds -> ~ (exists c, issued z c /\ In c accepted) -> card_validate fuel accepted x errors st = (errors, Err TypeErr)).
Proof. exact @card_judged. Qed.
Print Assumptions C53_validate.

(* sample: an element labelled Name, no state, no translation *)
Example C53_plain : plain (labelled "Name" (VInt 3)) (lit "Name").
Proof.
  assert (U : forall F, untranslated (@nowhere F)) by (intros F; repeat split; [now left|repeat constructor]).
  split; [reflexivity|]. split; [apply U|]. split; [apply U|]. right. split; [now intros f|reflexivity].
Qed.

Example C53_case : card_set blank (VText (lit " 4111 1111-1111 1111"))
  = (Scalar (Some (VText (lit " 4111 1111-1111 1111"))) (VInt 4111111111111111) (lit "4111-1111-1111-1111"), Ok true)
  /\ issued 4111111111111111 Visa /\ issued 378282246310005 Amex.
Proof. split; [vm_compute; reflexivity|]. split; [apply is_visa; lia|apply is_amex; lia]. Qed.
Example C53_validate_case :
  let st := fst (card_set blank (VInt 4111111111111111)) in
  card_validate 50 [Visa] (labelled "Card" VNone) [] st = ([], Ok true)
  /\ card_validate 50 [Visa] (labelled "Card" VNone) [] (fst (card_set blank (VInt 4111111111111112)))
     = ([lit "The Card was not entered correctly."], Ok false).
Proof. vm_compute. split; reflexivity. Qed.
(* numbers that do not come back: shown as text too short to be read, or without their sign *)
Theorem C53_short_refuted : exists z, (0 <= z)%Z /\ s_value (fst (card_set blank (VText (pretty (VInt z))))) = VNone.
Proof. exists 42%Z. split; [lia|vm_compute; reflexivity]. Qed.
Print Assumptions C53_short_refuted.
Theorem C53_sign_refuted : exists z, (z < 0)%Z /\ s_value (fst (card_set blank (VText (pretty (VInt z))))) = VInt (- z).
Proof. exists (-4111111111111111)%Z. split; [lia|vm_compute; reflexivity]. Qed.
Print Assumptions C53_sign_refuted.
(* a Visa number of thirteen digits is not recognised *)
Theorem C53_short_visa_refuted : exists z, (4 * 10 ^ 12 <= z < 5 * 10 ^ 12)%Z /\ card_type (VInt z) = Ok None.
Proof. exists 4222222222222%Z. split; [lia|vm_compute; reflexivity]. Qed.
Print Assumptions C53_short_visa_refuted.
(* fifteen blanks raise ValueError out of set *)
Theorem C53_blank_refuted : exists s, card_set blank (VText s) = (Scalar (Some (VText s)) VNone [], Err ValueErr).
Proof. exists (repeat 32%N 15). vm_compute. reflexivity. Qed.
Print Assumptions C53_blank_refuted.
(* a good number of a type not accepted raises instead of giving a message *)
Theorem C53_type_raises_refuted : exists fuel st, snd (card_set blank (s_value st)) = Ok true
  /\ card_validate fuel [Visa] (labelled "Card" VNone) [] st = ([], Err TypeErr).
Proof. exists 50, (fst (card_set blank (VInt 378282246310005))). vm_compute. split; reflexivity. Qed.
Print Assumptions C53_type_raises_refuted.

(* C70 *)

Theorem C70_url : forall parse schemes parts s r, parse (strip s) = Ok r ->
  (good_scheme schemes r -> allowed_parts parts r -> url_valid parse schemes parts (VText s) = Ok Pass)
  /\ (~ good_scheme schemes r -> url_valid parse schemes parts (VText s) = Ok (Fail (lit "blocked_scheme") []))
  /\ (good_scheme schemes r -> ~ allowed_parts parts r ->
      url_valid parse schemes parts (VText s) = Ok (Fail (lit "blocked_part") [])).
Proof. exact @url_accepts. Qed.
Print Assumptions C70_url.

Theorem C70_url_bad : forall parse schemes parts, (forall s e, parse (strip s) = Err e -> url_valid parse schemes parts (VText s) = Ok (Fail (lit "bad_format") []))
  /\ (forall v, (forall s, v <> VText s) -> url_valid parse schemes parts v = Ok (Fail (lit "bad_format") [])).
Proof. exact @url_bad. Qed.
Print Assumptions C70_url_bad.

Theorem C70_url_message : forall x label errors key r, plain x label -> In key [lit "bad_format"; lit "blocked_scheme"; lit "blocked_part"] ->
  r = Ok (Fail key []) -> exists errors', report url_cls x errors r = (errors', Ok false)
  /\ records errors (label ++ lit " is not a valid URL.") errors'.
Proof. exact @url_message. Qed.
Print Assumptions C70_url_message.

Theorem C70_http_entry : forall parse parts required forbidden, http_valid parse parts required forbidden VNone = Ok Pass
  /\ (forall v get, v <> VNone -> parse v = Ok get -> http_valid parse parts required forbidden v = http_loop required forbidden get parts)
  /\ (forall v e, v <> VNone -> parse v = Err e -> http_valid parse parts required forbidden v = Err e).
Proof. exact @http_entry. Qed.
Print Assumptions C70_http_entry.

Theorem C70_http_pass : forall required forbidden get, NoDup (map fst required) -> NoDup (map fst forbidden) ->
  forall parts, (forall p, In p parts -> exists v, get p = Ok v) ->
  (http_loop required forbidden get parts = Ok Pass <-> Forall (satisfied required forbidden get) parts).
Proof. exact @http_iff. Qed.
Print Assumptions C70_http_pass.
Theorem C70_http_first_failure : forall required forbidden get, NoDup (map fst required) -> NoDup (map fst forbidden) ->
  forall a p rest, Forall (satisfied required forbidden get) a ->
    (get p = Err ValueErr -> http_loop required forbidden get (a ++ p :: rest) = Ok (Fail (lit "bad_format") []))
    /\ (forall e, get p = Err e -> e <> ValueErr -> http_loop required forbidden get (a ++ p :: rest) = Err e)
    /\ (forall v, get p = Ok v -> ~ required_met required p v ->
        http_loop required forbidden get (a ++ p :: rest) = Ok (Fail (lit "required_part") []))
    /\ (forall v, get p = Ok v -> required_met required p v -> ~ forbidden_met forbidden p v ->
        http_loop required forbidden get (a ++ p :: rest) = Ok (Fail (lit "forbidden_part") [])).
Proof. exact @http_first. Qed.
Print Assumptions C70_http_first_failure.

Theorem C70_http_default : forall parse v get vals, v <> VNone -> parse v = Ok get ->
  Forall2 (fun p x => get p = Ok x) http_parts vals ->
  exists scheme user pass host rest, vals = scheme :: user :: pass :: host :: rest
  /\ (http_valid parse http_parts http_required http_forbidden v = Ok Pass
      <-> (user = None \/ user = Some []) /\ (pass = None \/ pass = Some []) /\ host <> None).
Proof. exact @http_default. Qed.
Print Assumptions C70_http_default.

Theorem C70_http_schema : forall get v, get (lit "schema") = Ok v ->
  (http_loop http_required http_forbidden get [lit "schema"] = Ok Pass <-> v = Some (lit "http") \/ v = Some (lit "https")).
Proof. exact @http_schema. Qed.
Print Assumptions C70_http_schema.

Theorem C70_http_message : forall x label errors key r, plain x label -> In key [lit "bad_format"; lit "required_part"; lit "forbidden_part"] ->
  r = Ok (Fail key []) -> exists errors', report http_cls x errors r = (errors', Ok false)
  /\ records errors (label ++ lit " is not a valid URL.") errors'.
Proof. exact @http_message. Qed.
Print Assumptions C70_http_message.

Theorem C70_canonical : forall parse unparse parts st, (parts = [] -> canonicalize parse unparse parts st = (st, Ok Pass))
  /\ (forall e, parts <> [] -> parse (s_value st) = Err e -> canonicalize parse unparse parts st = (st, Ok (Fail (lit "bad_format") [])))
  /\ (forall r, parts <> [] -> parse (s_value st) = Ok r -> Forall (fun p => In p (map lit url_parts)) parts ->
      exists l, emptied parts r l /\ canonicalize parse unparse parts st = (Scalar (s_raw st) (unparse l) (s_u st), Ok Pass))
  /\ (forall r, parse (s_value st) = Ok r -> ~ Forall (fun p => In p (map lit url_parts)) parts ->
      canonicalize parse unparse parts st = (st, Err ValueErr)).
Proof. exact @canonicalize_spec. Qed.
Print Assumptions C70_canonical.

Theorem C70_canonical_message : forall x label errors, plain x label -> exists errors',
  report canon_cls x errors (Ok (Fail (lit "bad_format") [])) = (errors', Ok false)
  /\ records errors (label ++ lit " is not a valid URL.") errors'.
Proof. exact @canon_message. Qed.
Print Assumptions C70_canonical_message.

(* sample: an element labelled Name, no state, no translation *)
Example C70_plain : plain (labelled "Name" (VInt 3)) (lit "Name").
Proof.
  assert (U : forall F, untranslated (@nowhere F)) by (intros F; repeat split; [now left|repeat constructor]).
  split; [reflexivity|]. split; [apply U|]. split; [apply U|]. right. split; [now intros f|reflexivity].
Qed.

Example C70_case :
  let parse (s : str) := Ok (Url (lit "http") (lit "h") (lit "/p") [] [] (lit "frag")) in
  url_valid parse None (map lit url_parts) (VText (lit "x")) = Ok Pass
  /\ url_valid parse (Some [lit "ftp"]) (map lit url_parts) (VText (lit "x")) = Ok (Fail (lit "blocked_scheme") [])
  /\ url_valid parse None [lit "scheme"; lit "netloc"; lit "path"] (VText (lit "x")) = Ok (Fail (lit "blocked_part") [])
  /\ canonicalize (fun _ => parse []) (fun l => VText (List.concat l)) [lit "fragment"] (Scalar None (VText (lit "x")) (lit "x"))
     = (Scalar None (VText (lit "httph/p")) (lit "x"), Ok Pass).
Proof. vm_compute. repeat split. Qed.
Example C70_http_case :
  let run s u h := http_valid (fun _ => Ok (sample_parts s u h)) http_parts http_required http_forbidden (VText (lit "x")) in
  run (Some (lit "http")) None (Some (lit "h")) = Ok Pass
  /\ run (Some (lit "http")) (Some (lit "me")) (Some (lit "h")) = Ok (Fail (lit "forbidden_part") [])
  /\ run (Some (lit "http")) None None = Ok (Fail (lit "required_part") []).
Proof. vm_compute. repeat split. Qed.
(* the scheme is never looked at *)
Theorem C70_http_scheme_refuted : exists get, get (lit "scheme") = Ok (Some (lit "gopher"))
  /\ http_valid (fun _ => Ok get) http_parts http_required http_forbidden (VText (lit "x")) = Ok Pass.
Proof. exists (sample_parts (Some (lit "gopher")) None (Some (lit "h"))). vm_compute. split; reflexivity. Qed.
Print Assumptions C70_http_scheme_refuted.
(* the text shown keeps the parts that the value lost *)
Theorem C70_canonical_text_refuted : exists parse unparse parts st v,
  canonicalize parse unparse parts st = (Scalar None (VText v) (s_u st), Ok Pass) /\ v <> s_u st.
Proof.
  exists (fun _ => Ok (Url (lit "http") (lit "h") (lit "/p") [] [] (lit "frag"))), (fun l => VText (List.concat l)),
    [lit "fragment"], (Scalar None (VText (lit "x")) (lit "x")), (lit "httph/p").
  split; [vm_compute; reflexivity|discriminate].
Qed.
Print Assumptions C70_canonical_text_refuted.
