(* Specifications for addresses, URLs and card numbers. *)
From Verif Require Import PyBase ModelUtil ModelScalar SpecScalar ModelMessage SpecMessage ModelValidators SpecValidators ModelNetwork.

(* ---------------- email addresses ---------------- *)
(* s is the pieces, joined by the character c which none of them contains *)
Definition cut (c : N) (s : str) (l : list str) : Prop :=
  l <> [] /\ Forall (fun p => ~ In c p) l /\ s = join [c] l.
Definition ascii (s : str) : Prop := Forall (fun c => c < 128)%N s.
(* the ASCII form of a domain name, if it has one *)
Inductive ascii_name (to_ascii : str -> res str) (d : str) : str -> Prop :=
| an_ascii ls l : ascii d -> cut (ch ".") d (ls ++ [l]) ->
    Forall (fun p => 0 < List.length p < 64)%nat ls -> (List.length l < 64)%nat -> ascii_name to_ascii d d
| an_other h : ~ ascii d -> to_ascii d = Ok h -> ascii h -> ascii_name to_ascii d h.
(* a character of a domain name *)
Definition name_char (c : N) : Prop :=
  (ch "a" <= c <= ch "z" \/ ch "A" <= c <= ch "Z" \/ ch "0" <= c <= ch "9" \/ c = ch "-")%N.
Definition name_part (s : str) : Prop := s <> [] /\ Forall name_char s.
(* names joined by dots, and possibly a newline *)
Definition domain_form (d : str) : Prop :=
  exists ls newline, d = join (lit ".") ls ++ newline /\ ls <> [] /\ Forall name_part ls /\ (newline = [] \/ newline = [10%N]).
(* an email address: [local] and [domain] say which parts are allowed *)
Definition address (to_ascii : str -> res str) (local domain : str -> Prop) (dotted : bool) (u : str) : Prop :=
  exists l d h, u = l ++ ch "@" :: d /\ ~ In (ch "@") l /\ ~ In (ch "@") d
  /\ (exists c, In c l /\ is_space c = false) /\ local l
  /\ ascii_name to_ascii d h /\ (List.length h <= 253)%nat /\ domain h
  /\ (dotted = true -> In (ch ".") h)
  /\ (forall ls, cut (ch ".") h ls -> Forall (fun p => List.length p < 64)%nat ls).

(* ---------------- URLs ---------------- *)
Definition parts_of (r : url) : list (str * str) :=
  [(lit "scheme", r_scheme r); (lit "netloc", r_netloc r); (lit "path", r_path r);
   (lit "params", r_params r); (lit "query", r_query r); (lit "fragment", r_fragment r)].
Definition good_scheme (schemes : option (list str)) (r : url) : Prop :=
  r_scheme r <> [] /\ (forall l, schemes = Some l -> In (r_scheme r) l).
Definition allowed_parts (parts : list str) (r : url) : Prop :=
  forall k v, In (k, v) (parts_of r) -> In k parts \/ v = [].
(* a required part is there; a forbidden part is absent or empty *)
Definition meets (d : demand) (v : name) : Prop :=
  match d with Always => v <> None | OneOf l => l = [] \/ exists s, v = Some s /\ In s l end.
Definition avoids (d : demand) (v : name) : Prop :=
  match d with Always => v = None \/ v = Some [] | OneOf l => forall s, v = Some s -> ~ In s l end.
Definition required_met (required : list (str * demand)) (p : str) (v : name) : Prop := forall d, In (p, d) required -> meets d v.
Definition forbidden_met (forbidden : list (str * demand)) (p : str) (v : name) : Prop := forall d, In (p, d) forbidden -> avoids d v.
Definition satisfied (required forbidden : list (str * demand)) (get : str -> res name) (p : str) : Prop :=
  exists v, get p = Ok v /\ required_met required p v /\ forbidden_met forbidden p v.
(* sample: a URL with these parts *)
Definition sample_parts (scheme user host : name) (k : str) : res name :=
  if str_eqb k (lit "scheme") then Ok scheme else if str_eqb k (lit "username") then Ok user
  else if str_eqb k (lit "hostname") then Ok host else Ok None.
(* the URL after some of its parts were emptied *)
Definition emptied (parts : list str) (r : url) (l : list str) : Prop :=
  List.length l = 6%nat /\
  forall i k v, nth_error (parts_of r) i = Some (k, v) ->
    (In k parts -> nth_error l i = Some []) /\ (~ In k parts -> nth_error l i = Some v).

(* ---------------- card numbers ---------------- *)
(* the issuers' ranges *)
Inductive issued : Z -> card -> Prop :=
| is_visa z : (4 * 10 ^ 15 <= z < 5 * 10 ^ 15)%Z -> issued z Visa
| is_master z : (51 * 10 ^ 14 <= z < 56 * 10 ^ 14)%Z -> issued z MasterCard
| is_amex z : (34 * 10 ^ 13 <= z < 35 * 10 ^ 13 \/ 37 * 10 ^ 13 <= z < 38 * 10 ^ 13)%Z -> issued z Amex
| is_discover z : (6011 * 10 ^ 12 <= z < 6012 * 10 ^ 12)%Z -> issued z Discover.
(* how a number of so many characters is grouped *)
Inductive grouping : nat -> list nat -> Prop :=
| gr_16 : grouping 16 [4; 4; 4; 4]%nat
| gr_15 : grouping 15 [4; 6; 5]%nat
| gr_13 : grouping 13 [4; 3; 3; 3]%nat
| gr_other n : ~ In n [13; 15; 16]%nat -> grouping n [n].
(* characters allowed in a card number; its digits *)
Definition card_char (c : N) : Prop := (ch "0" <= c <= ch "9")%N \/ is_space c = true \/ c = ch "-".
Inductive card_digits : str -> str -> Prop :=
| cd_nil : card_digits [] []
| cd_digit c s t : (ch "0" <= c <= ch "9")%N -> card_digits s t -> card_digits (c :: s) (c :: t)
| cd_other c s t : ~ (ch "0" <= c <= ch "9")%N -> card_digits s t -> card_digits (c :: s) t.
