(* Model of flatland/validation/network.py and flatland/ext/creditcard.py *)
From Verif Require Import PyBase ModelUtil ModelScalar ModelMessage ModelValidators.

(* ------------------------------------------------------------------ *)
(* network.py:15-106 IsEmail *)
(* validation/network.py:64-66 *)
Definition email_cls : attrs :=
  [(lit "invalid", text "%(label)s is not a valid email address."); (lit "non_local", Plain (VBool true))].
(* validation/network.py:89: decode(ascii) *)
Definition is_ascii (s : str) : bool := forallb (fun c => c <? 128)%N s.
(* validation/network.py:87-91: domain.encode('idna').decode('ascii')
   (UnicodeError is a ValueError). ASCII names are only checked: no label but
   the last is empty, none has 64 characters or more. Other names go through
   [to_ascii], a parameter: nameprep, punycode. *)
Definition idna (to_ascii : str -> res str) (s : str) : res str :=
  match s with
  | [] => Ok []
  | _ =>
      if is_ascii s then
        let labels := split (lit ".") s in
        if forallb (fun l => (0 <? List.length l) && (List.length l <? 64))%nat (removelast labels)
           && (List.length (last labels []) <? 64)%nat
        then Ok s else Err ValueErr
      else bind (to_ascii s) (fun t => if is_ascii t then Ok t else Err ValueErr)
  end.
(* validation/network.py:70-71: [a-z0-9\-] with IGNORECASE, on ASCII text *)
Definition domain_char (c : N) : bool :=
  ((97 <=? c) && (c <=? 122) || (65 <=? c) && (c <=? 90) || ascii_digit c || (c =? ch "-"))%N.
(* validation/network.py:70-71: ^(?:[a-z0-9\-]+\.)*[a-z0-9\-]+$ : $ also
   matches before a final newline *)
Definition drop_newline (s : str) : str :=
  match rev s with c :: r => if (c =? 10)%N then rev r else s | [] => s end.
(* validation/network.py:70-71, 96: domain_pattern.match *)
Definition domain_match (s : str) : bool :=
  forallb (fun l => negb (str_eqb l []) && forallb domain_char l) (split (lit ".") (drop_newline s)).
(* validation/network.py:79: isspace() *)
Definition is_space_str (s : str) : bool := negb (str_eqb s []) && forallb is_space s.
(* [local_ok]: local_part_pattern.match, None without pattern; [dom_ok]:
   domain_pattern.match, by default [domain_match] *)
(* validation/network.py:73-106 validate *)
Definition email (to_ascii : str -> res str) (local_ok : option (str -> bool)) (dom_ok : str -> bool)
           (self : attrs) (u : str) : res verdict :=
  match split (lit "@") u with
  | [local; domain] =>
      if str_eqb local [] || is_space_str local then fails "invalid"
      else if match local_ok with Some f => negb (f local) | None => false end then fails "invalid"
      else match idna to_ascii domain with
           | Err ValueErr => fails "invalid"
           | Err e => Err e
           | Ok domain =>
               if (253 <? List.length domain)%nat then fails "invalid"
               else if negb (dom_ok domain) then fails "invalid"
               else
                 let labels := split (lit ".") domain in
                 bind (getattr self (lit "non_local")) (fun non_local =>
                 if (List.length labels =? 1)%nat && attr_truth non_local then fails "invalid"
                 else if negb (forallb (fun l => List.length l <? 64)%nat labels) then fails "invalid"
                 else Ok Pass)
           end
  | _ => fails "invalid"
  end.

(* ------------------------------------------------------------------ *)
(* network.py:109-188 URLValidator.  urlparse.urlparse is a parameter: it gives
   the six parts. *)
Record url := Url { r_scheme : str; r_netloc : str; r_path : str; r_params : str; r_query : str; r_fragment : str }.
(* validation/network.py:110 _url_parts *)
Definition url_parts : list string := ["scheme"; "netloc"; "path"; "params"; "query"; "fragment"]%string.
(* validation/network.py:184-186, 331: the six parts in the order of _url_parts *)
Definition url_list (r : url) : list str := [r_scheme r; r_netloc r; r_path r; r_params r; r_query r; r_fragment r].
(* validation/network.py:160-162 *)
Definition url_cls : attrs :=
  [(lit "bad_format", text "%(label)s is not a valid URL."); (lit "blocked_scheme", text "%(label)s is not a valid URL.");
   (lit "blocked_part", text "%(label)s is not a valid URL.")].
(* [schemes] None: ('*',) *)
(* validation/network.py:164-188: validate, and the defaults of its attributes *)
Definition url_valid (parse : str -> res url) (schemes : option (list str)) (parts : list str) (v : pyval) : res verdict :=
  match v with
  | VText s =>
      match parse (strip s) with
      | Err _ => fails "bad_format"
      | Ok r =>
          if str_eqb (r_scheme r) [] then fails "blocked_scheme"
          else if match schemes with Some l => negb (memb str_eqb (r_scheme r) l) | None => false end
               then fails "blocked_scheme"
          else if existsb (fun p => negb (memb str_eqb (fst p) parts) && negb (str_eqb (snd p) []))
                          (combine (map lit url_parts) (url_list r))
               then fails "blocked_part"
          else Ok Pass
      end
  | _ => fails "bad_format"       (* None; other objects have no strip() *)
  end.

(* network.py:191-284 HTTPURLValidator.  The parsed URL is given by its
   attributes: None, text (the port through str()) or an exception. *)
Inductive demand := Always | OneOf (l : list str).
(* validation/network.py:247-249 *)
Definition http_cls : attrs :=
  [(lit "bad_format", text "%(label)s is not a valid URL."); (lit "required_part", text "%(label)s is not a valid URL.");
   (lit "forbidden_part", text "%(label)s is not a valid URL.")].
(* validation/network.py:251-252 all_parts *)
Definition http_parts : list str :=
  map lit ["scheme"; "username"; "password"; "hostname"; "port"; "path"; "params"; "query"; "fragment"]%string.
(* validation/network.py:253 required_parts: schema is not the name of a part *)
Definition http_required : list (str * demand) := [(lit "schema", OneOf [lit "http"; lit "https"]); (lit "hostname", Always)].
(* validation/network.py:254 forbidden_parts *)
Definition http_forbidden : list (str * demand) := [(lit "username", Always); (lit "password", Always)].
(* validation/network.py:270, 277: get(part) *)
Definition get_demand (l : list (str * demand)) (k : str) : option demand :=
  option_map snd (find (fun p => str_eqb k (fst p)) l).
(* validation/network.py:275, 282: value in ... *)
Definition in_names (v : name) (l : list str) : bool := match v with Some s => memb str_eqb s l | None => false end.
(* validation/network.py:279: bool(value) *)
Definition name_truth (v : name) : bool := match v with Some (_ :: _) => true | _ => false end.
(* validation/network.py:263-284 *)
Fixpoint http_loop (required forbidden : list (str * demand)) (get : str -> res name) (parts : list str) : res verdict :=
  match parts with
  | [] => Ok Pass
  | part :: rest =>
      match get part with
      | Err ValueErr => fails "bad_format"
      | Err e => Err e
      | Ok value =>
          if match get_demand required part with
             | Some Always => match value with None => true | Some _ => false end
             | Some (OneOf []) | None => false
             | Some (OneOf l) => negb (in_names value l)
             end
          then fails "required_part"
          else if match get_demand forbidden part with
                  | Some Always => name_truth value
                  | Some (OneOf []) | None => false
                  | Some (OneOf l) => in_names value l
                  end
          then fails "forbidden_part"
          else http_loop required forbidden get rest
      end
  end.
(* [parse v] is urlparse(v), outside the try *)
(* validation/network.py:257-284 validate *)
Definition http_valid (parse : pyval -> res (str -> res name)) (parts : list str) (required forbidden : list (str * demand))
           (v : pyval) : res verdict :=
  match v with
  | VNone => Ok Pass
  | _ => bind (parse v) (fun get => http_loop required forbidden get parts)
  end.

(* network.py:287-338 URLCanonicalizer.  [parse] as above but for every value;
   [unparse] is urlunparse.  `element.value = ` leaves raw and u. *)
(* validation/network.py:318 *)
Definition canon_cls : attrs := [(lit "bad_format", text "%(label)s is not a valid URL.")].
(* validation/network.py:333: _url_parts.index(part) *)
Definition part_index (p : str) : res nat :=
  (fix go (l : list string) (i : nat) :=
     match l with
     | [] => Err ValueErr
     | q :: l' => if str_eqb p (lit q) then Ok i else go l' (S i)
     end) url_parts 0%nat.
(* validation/network.py:334-335 *)
Fixpoint clear_at (i : nat) (l : list str) : list str :=
  match l, i with
  | [], _ => []
  | _ :: l', O => [] :: l'
  | x :: l', S j => x :: clear_at j l'
  end.
(* validation/network.py:332-335 *)
Fixpoint discard (ps : list str) (r : list str) : res (list str) :=
  match ps with
  | [] => Ok r
  | p :: rest => bind (part_index p) (fun i => discard rest (clear_at i r))
  end.
(* validation/network.py:323-338 validate *)
Definition canonicalize (parse : pyval -> res url) (unparse : list str -> pyval) (parts : list str) (st : scalar)
  : scalar * res verdict :=
  match parts with
  | [] => (st, Ok Pass)
  | _ =>
      match parse (s_value st) with
      | Err _ => (st, fails "bad_format")
      | Ok r => match discard parts (url_list r) with
                | Err e => (st, Err e)
                | Ok l => (Scalar (s_raw st) (unparse l) (s_u st), Ok Pass)
                end
      end
  end.

(* ------------------------------------------------------------------ *)
(* ext/creditcard.py *)
(* ext/creditcard.py:13-16 *)
Inductive card := Visa | MasterCard | Amex | Discover.
(* ext/creditcard.py:13-16: equality of the labels *)
Definition card_eqb (a b : card) : bool :=
  match a, b with
  | Visa, Visa | MasterCard, MasterCard | Amex, Amex | Discover, Discover => true
  | _, _ => false
  end.
(* ext/creditcard.py:79-98 _card_type, on str(number), whose characters
   are ASCII. \d{3}? is a non-greedy "exactly three", so that Visa means
   sixteen digits. *)
Definition digits_only (n : nat) (s : str) : bool := (List.length s =? n)%nat && forallb ascii_digit s.
(* ext/creditcard.py:79 *)
Definition re_visa (s : str) : bool :=
  match s with c :: r => (c =? ch "4")%N && digits_only 15 r | _ => false end.
(* ext/creditcard.py:80 *)
Definition re_mc (s : str) : bool :=
  match s with
  | c :: d :: r => (c =? ch "5")%N && ((ch "1" <=? d) && (d <=? ch "5"))%N && digits_only 14 r
  | _ => false
  end.
(* ext/creditcard.py:81 *)
Definition re_amex (s : str) : bool :=
  match s with
  | c :: d :: r => (c =? ch "3")%N && ((d =? ch "4") || (d =? ch "7"))%N && digits_only 13 r
  | _ => false
  end.
(* ext/creditcard.py:82 *)
Definition re_disc (s : str) : bool := starts_with (lit "6011") s && digits_only 12 (skipn 4 s).
(* ext/creditcard.py:84-98 _card_type *)
Definition card_type (v : pyval) : res (option card) :=
  match vnum v with
  | None => Err AssertErr
  | Some _ =>
      let s := vtext v in
      Ok (if re_visa s then Some Visa else if re_mc s then Some MasterCard
          else if re_amex s then Some Amex else if re_disc s then Some Discover else None)
  end.
(* 100-114 _from_string of text: None when it does not match _re_filler *)
(* ext/creditcard.py:101 *)
Definition filler_char (c : N) : bool := ascii_digit c || is_space c || (c =? ch "-")%N.
(* ext/creditcard.py:103-114 _from_string *)
Definition from_string (s : str) : option (res Z) :=
  if (15 <=? List.length s)%nat && forallb filler_char s
  then Some (py_int (filter ascii_digit s)) else None.
(* ext/creditcard.py:116-129 _pretty_print *)
Definition pretty (v : pyval) : str :=
  let s := vtext v in
  let cut a n := firstn n (skipn a s) in
  let dash := lit "-" in
  match List.length s with
  | 16 => cut 0 4 ++ dash ++ cut 4 4 ++ dash ++ cut 8 4 ++ dash ++ cut 12 4
  | 15 => cut 0 4 ++ dash ++ cut 4 6 ++ dash ++ cut 10 5
  | 13 => cut 0 4 ++ dash ++ cut 4 3 ++ dash ++ cut 7 3 ++ dash ++ cut 10 3
  | _ => s
  end%nat.
(* ext/creditcard.py:32-43 adapt *)
Definition card_adapt (v : pyval) : res pyval :=
  match v with
  | VNone => Ok VNone
  | VInt _ | VBool _ => Ok v
  | VText s => match from_string s with
               | Some r => rmap VInt r
               | None => Err AdaptErr
               end
  | _ => Err AdaptErr
  end.
(* schema/scalars.py:53-94 Scalar.set with ext/creditcard.py:32-49 adapt and
   serialize *)
Definition card_set (st : scalar) (v : pyval) : scalar * res bool :=
  match card_adapt v with
  | Ok n => (Scalar (Some v) n (if is_none n then [] else pretty n), Ok true)
  | Err AdaptErr => (Scalar (Some v) VNone (if is_none v then [] else vtext v), Ok false)
  | Err e => (Scalar (Some v) (s_value st) (s_u st), Err e)
  end.
(* ext/creditcard.py:57-77 AcceptedType; not_accepted is a function of
   the class body, a bound method on the instance, called with one argument
   too many *)
Definition accepted_cls : attrs := [(lit "not_accepted", Call (Err TypeErr))].
(* ext/creditcard.py:72-77 validate *)
Definition accepted_type (accepted : list card) (v : pyval) : res verdict :=
  rmap (fun t => match t with
                 | Some c => if memb card_eqb c accepted then Pass else Fail (lit "not_accepted") []
                 | None => Fail (lit "not_accepted") []
                 end) (card_type v).
(* 22-30 the validators of a card number, one after the other until one fails
   (schema/base.py:918-929) *)
(* schema/base.py:918-929 *)
Fixpoint chain (x : context) (errors : list str) (l : list (attrs * res verdict)) : list str * res bool :=
  match l with
  | [] => (errors, Ok true)
  | (cls, r) :: rest =>
      match report cls x errors r with
      | (errors, Ok true) => chain x errors rest
      | other => other
      end
  end.
(* ext/creditcard.py:22-30 __init__ *)
Definition card_validate (fuel : nat) (accepted : list card) (x : context) (errors : list str) (st : scalar)
  : list str * res bool :=
  chain x errors [(present_cls, present (s_u st)); (converted_cls, converted (s_value st));
                  (luhn_cls, luhn fuel (s_value st)); (accepted_cls, accepted_type accepted (s_value st))].
