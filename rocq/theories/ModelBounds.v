(* Model of the validators of lengths, bounds, sizes, addresses and numbers as validators of the elements of
   a tree (ModelCheck): which of the element they read.

   An error stands for the elements they are not treated for here: for texts and values
   these are mappings, Lists and Arrays. *)
From Verif Require Import PyBase ModelScalar ModelMessage ModelValidators ModelNetwork ModelCompound ModelFlat ModelCheck.

(* validation/scalars.py:180-181, 229-230, 288-290, network.py:73-75: validators that read element.u; .u of a
   JoinedString: schema/compound.py:328-330 *)
Definition on_text (self : attrs) (f : str -> res verdict) : check :=
  Check self (own (fun e => match e with
    | EScalar _ st => f (s_u st)
    | EJoined _ j l => f (joined_value (j_glue j) l)
    | _ => Err AttributeErr end)).
(* validation/scalars.py:41-42, 60-61, 97-98, 327-328, 365-366, 403-404, 441-442, 503-509,
   network.py:164-168, 257-261, number.py:79-81: validators that read element.value; .value of a JoinedString: schema/compound.py:323-325 *)
Definition on_value (self : attrs) (f : pyval -> res verdict) : check :=
  Check self (own (fun e => match e with
    | EScalar _ st => f (s_value st)
    | EJoined _ j l => f (VText (joined_value (j_glue j) l))
    | _ => Err AttributeErr end)).
(* validation/containers.py:200-205, 278-283: validators that count element.value and read
   element.member_schema; mappings and scalars have none of the latter *)
Definition on_members (self : attrs) (f : option pyval -> qvalue -> res verdict) (member_label : pyval) : check :=
  Check self (own (fun e => match e with
    | EList _ l | EArray _ l => f (Some member_label) (QList (List.length l))
    | EJoined _ j l => f (Some member_label) (QVal (VText (joined_value (j_glue j) l)))
    | _ => f None (QVal VNone) end)).

(* validation/scalars.py:175-183 ShorterThan(n) *)
Definition shorter_than_check (n : Z) : res check := rmap (fun self => on_text self (shorter_than self)) (new_shorter_than (Some (VInt n)) []).
(* validation/scalars.py:224-232 LongerThan(n) *)
Definition longer_than_check (n : Z) : res check := rmap (fun self => on_text self (longer_than self)) (new_longer_than (Some (VInt n)) []).
(* validation/scalars.py:281-292 LengthBetween(lo, hi) *)
Definition length_between_check (lo hi : Z) : res check := rmap (fun self => on_text self (length_between self)) (new_length_between (Some (VInt lo)) (Some (VInt hi)) []).
(* validation/scalars.py:323-330 ValueLessThan(b) *)
Definition less_than_check (b : pyval) : res check := rmap (fun self => on_value self (less_than self)) (new_less_than b []).
(* validation/scalars.py:361-368 ValueAtMost(b) *)
Definition at_most_check (b : pyval) : res check := rmap (fun self => on_value self (at_most self)) (new_at_most b []).
(* validation/scalars.py:399-406 ValueGreaterThan(b) *)
Definition greater_than_check (b : pyval) : res check := rmap (fun self => on_value self (greater_than self)) (new_greater_than b []).
(* validation/scalars.py:437-444 ValueAtLeast(b) *)
Definition at_least_check (b : pyval) : res check := rmap (fun self => on_value self (at_least self)) (new_at_least b []).
(* validation/scalars.py:498-510 ValueBetween(lo, hi), inclusive *)
Definition between_check (lo hi : pyval) : res check := rmap (fun self => on_value self (between self)) (new_between lo hi []).
(* validation/scalars.py:36-44 IsTrue() *)
Definition is_true_check : check := on_value is_true_cls is_true.
(* validation/scalars.py:55-63 IsFalse() *)
Definition is_false_check : check := on_value is_false_cls is_false.
(* validation/scalars.py:93-105 ValueIn(options) *)
Definition value_in_check (options : list pyval) : check := on_value value_in_cls (value_in options).
(* validation/containers.py:193-208 HasAtMost(maximum=m) *)
Definition has_at_most_check (m : Z) (member_label : pyval) : res check :=
  rmap (fun self => on_members self (has_at_most self) member_label) (new_validator has_at_most_cls [(lit "maximum", Plain (VInt m))]).
(* validation/containers.py:257-289 HasBetween(minimum=lo, maximum=hi) *)
Definition has_between_check (lo hi : Z) (member_label : pyval) : res check :=
  rmap (fun self => on_members self (has_between self) member_label) (new_has_between [(lit "minimum", Plain (VInt lo)); (lit "maximum", Plain (VInt hi))]).
(* validation/network.py:64-106 IsEmail(); [to_ascii] is the IDNA encoder (ModelNetwork) *)
Definition email_check (to_ascii : str -> res str) : check := on_text email_cls (email to_ascii None domain_match email_cls).
(* validation/network.py:160-188 URLValidator(allowed_schemes=..., allowed_parts=...); [parse] is
   urlparse *)
Definition url_check (parse : str -> res url) (schemes : option (list str)) (parts : list str) : check := on_value url_cls (url_valid parse schemes parts).
(* validation/network.py:247-284 HTTPURLValidator(); [parse] gives the parts of an URL (ModelNetwork) *)
Definition http_check (parse : pyval -> res (str -> res name)) : check := on_value http_cls (http_valid parse http_parts http_required http_forbidden).
(* validation/number.py:74-87 Luhn10(); [fuel] bounds the rounds of the loop *)
Definition luhn_check (fuel : nat) : check := on_value luhn_cls (luhn fuel).
