(* What the validators of lengths, bounds and sizes should say of the fields of a form. *)
From Verif Require Import PyBase ModelUtil SpecUtil ModelScalar SpecScalar ModelMessage SpecMessage ModelValidators SpecValidators ModelNetwork SpecNetwork ModelReport SpecReport ModelCompound ModelFlat SpecFlat ModelCheck SpecCheck SpecTwin ModelBounds.

(* the value and the text of a scalar or a JoinedString *)
Inductive bears (e : element) (v : pyval) (u : str) : Prop :=
| rd_scalar n st : e = EScalar n st -> v = s_value st -> u = s_u st -> bears e v u
| rd_joined n j l : e = EJoined n j l -> v = VText (joined_value (j_glue j) l) -> u = joined_value (j_glue j) l -> bears e v u.
(* a validator, the value v and the text u of an element called label: whether it lets the
   element pass, and what it says if not *)
Inductive wants (label : str) (v : pyval) (u : str) : check -> bool -> str -> Prop :=
| wa_converted ok : (ok = true <-> v <> VNone) -> wants label v u converted_check ok (label ++ lit " is not correct.")
| wa_present ok : (ok = true <-> u <> []) -> wants label v u present_check ok (label ++ lit " may not be blank.")
| wa_true ok : (ok = true <-> truthy v) -> wants label v u is_true_check ok (label ++ lit " must be True.")
| wa_false ok : (ok = true <-> ~ truthy v) -> wants label v u is_false_check ok (label ++ lit " must be False.")
| wa_shorter n c ok : shorter_than_check n = Ok c -> (ok = true <-> (Z.of_nat (List.length u) <= n)%Z) ->
    wants label v u c ok (label ++ lit " may not exceed " ++ dec_z n ++ lit " characters.")
| wa_longer n c ok : longer_than_check n = Ok c -> (ok = true <-> (n <= Z.of_nat (List.length u))%Z) ->
    wants label v u c ok (label ++ lit " must be at least " ++ dec_z n ++ lit " characters.")
| wa_lengths lo hi c ok : length_between_check lo hi = Ok c -> (ok = true <-> (lo <= Z.of_nat (List.length u) <= hi)%Z) ->
    wants label v u c ok (label ++ lit " must be between " ++ dec_z lo ++ lit " and " ++ dec_z hi ++ lit " characters long.")
| wa_less b c ok : less_than_check b = Ok c -> comparable v b -> (ok = true <-> less v b) ->
    wants label v u c ok (label ++ lit " must be less than " ++ vtext b ++ lit ".")
| wa_at_most b c ok : at_most_check b = Ok c -> comparable v b -> (ok = true <-> ~ less b v) ->
    wants label v u c ok (label ++ lit " must be less than or equal to " ++ vtext b ++ lit ".")
| wa_greater b c ok : greater_than_check b = Ok c -> comparable v b -> (ok = true <-> less b v) ->
    wants label v u c ok (label ++ lit " must be greater than " ++ vtext b ++ lit ".")
| wa_at_least b c ok : at_least_check b = Ok c -> comparable v b -> (ok = true <-> ~ less v b) ->
    wants label v u c ok (label ++ lit " must be greater than or equal to " ++ vtext b ++ lit ".")
| wa_between lo hi c ok : between_check lo hi = Ok c -> comparable lo v -> comparable v hi -> (ok = true <-> ~ less v lo /\ ~ less hi v) ->
    wants label v u c ok (label ++ lit " must be in the range " ++ vtext lo ++ lit " to " ++ vtext hi ++ lit ".")
| wa_email to_ascii ok : (forall s e, to_ascii s = Err e -> e = ValueErr) -> (ok = true <-> address to_ascii (fun _ => True) domain_form true u) ->
    wants label v u (email_check to_ascii) ok (label ++ lit " is not a valid email address.")
| wa_url parse schemes parts ok : (ok = true <-> exists s r, v = VText s /\ parse (strip s) = Ok r /\ good_scheme schemes r /\ allowed_parts parts r) ->
    wants label v u (url_check parse schemes parts) ok (label ++ lit " is not a valid URL.")
| wa_http_none parse : v = VNone -> wants label v u (http_check parse) true (label ++ lit " is not a valid URL.")
| wa_http parse get part ok : v <> VNone -> parse v = Ok get -> (forall p, get p = Ok (part p)) ->
    (ok = true <-> (part (lit "username") = None \/ part (lit "username") = Some []) /\ (part (lit "password") = None \/ part (lit "password") = Some []) /\ part (lit "hostname") <> None) ->
    wants label v u (http_check parse) ok (label ++ lit " is not a valid URL.")
| wa_http_unread parse get : v <> VNone -> parse v = Ok get -> (forall p, get p = Err ValueErr \/ exists o, get p = Ok o) ->
    (exists p, In p (map lit ["scheme"; "username"; "password"; "hostname"; "port"; "path"; "params"; "query"; "fragment"]%string) /\ get p = Err ValueErr) ->
    wants label v u (http_check parse) false (label ++ lit " is not a valid URL.")
| wa_luhn ds fuel ok : digit_list ds -> SpecValidators.number v (decimal_value ds) -> (decimal_value ds < 2 ^ Z.of_nat fuel)%Z -> (ok = true <-> luhn_valid ds) ->
    wants label v u (luhn_check fuel) ok (lit "The " ++ label ++ lit " was not entered correctly.")
| wa_luhn_none fuel : v = VNone -> wants label v u (luhn_check fuel) false (lit "The " ++ label ++ lit " was not entered correctly.").
(* several in turn: the first that does not let the element pass speaks *)
Inductive in_turn (label : str) (v : pyval) (u : str) : list check -> option str -> Prop :=
| se_none : in_turn label v u [] None
| se_this c cs m : wants label v u c false m -> in_turn label v u (c :: cs) (Some m)
| se_next c cs m o : wants label v u c true m -> in_turn label v u cs o -> in_turn label v u (c :: cs) o.
(* the value and the text of a new scalar that was sent nothing, or something *)
Definition now_holds (k : kind) (o : option pyval) (v : pyval) (u : str) : Prop :=
  match o with
  | None => v = VNone /\ u = []
  | Some x => v = s_value (fst (scalar_set k blank x)) /\ u = s_u (fst (scalar_set k blank x))
  end.
(* it has no value *)
Definition unfilled (k : kind) (v : pyval) (u : str) : Prop :=
  u = [] /\ match k with KString _ => ~ truthy v | _ => v = VNone end.
(* a field that was sent o is fine: it may be left out and was, or meets all conditions *)
Definition welcome (optional : bool) (label : str) (cs : list check) (k : kind) (o : option pyval) : Prop :=
  exists v u, now_holds k o v u /\ (optional = true /\ unfilled k v u \/ in_turn label v u cs None).
(* and is not, and says so *)
Definition unwelcome (optional : bool) (label : str) (cs : list check) (k : kind) (o : option pyval) (m : str) : Prop :=
  exists v u, now_holds k o v u /\ ~ (optional = true /\ unfilled k v u) /\ in_turn label v u cs (Some m).
(* sample: a name that may not be blank nor exceed five characters, an age of at least 18 *)
Definition entry_fields : list (str * kind) := [(lit "name", KString true); (lit "age", KInteger true)].
Definition entry_checks (f : str) : list check :=
  if str_eqb f (lit "name") then present_check :: match shorter_than_check 5 with Ok c => [c] | Err _ => [] end
  else converted_check :: match at_least_check (VInt 18) with Ok c => [c] | Err _ => [] end.
Definition entry_ask : settings := fun way =>
  match way with
  | [Some f] => Setting false [] (entry_checks f) (fun _ => sample_context f)
  | _ => Setting false [] [] (fun _ => sample_context (lit "Form"))
  end.
Definition entry_sent (nick age : str) : flat_pairs := [(Some (lit "name"), VText nick); (Some (lit "age"), VText age)].
