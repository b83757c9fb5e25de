(* Model of Float and Decimal elements: flatland/schema/scalars.py:218-311,
   with the floats and decimals of Python 3.3 they rest on.  A decimal's limits
   on exponents (10^18) and the digits of a NaN are left out. *)
From Verif Require Import PyBase ModelScalar.
Local Open Scope Z_scope.

(* ------------------------------------------------------------------ *)
(* Python float(), called at scalars.py:248, and the format at
   scalars.py:269: p/q rounded to the nearest integer, a tie to the even one
   *)
Definition round_even (p q : Z) : Z :=
  let d := p / q in
  let r := p mod q in
  if 2 * r <? q then d else if q <? 2 * r then d + 1
  else if Z.even d then d else d + 1.

(* scalars.py:296: float (IEEE 754 binary64): (-1)^neg * m * 2^e, infinities,
   NaN *)
Inductive flt := Fin (neg : bool) (m e : Z) | FInf (neg : bool) | FNan.
(* scalars.py:306: decimal.Decimal: (-1)^neg * c * 10^x, infinities, quiet and
   signaling NaN *)
Inductive decimal := DNum (neg : bool) (c x : Z) | DInf (neg : bool) | DNan (signaling : bool).

(* Python float(), called at scalars.py:248: floor(log2(p/q)) for positive p
   and q *)
Definition ilog2 (p q : Z) : Z :=
  let k := Z.log2 p - Z.log2 q in
  if (if 0 <=? k then q * 2 ^ k <=? p else q <=? p * 2 ^ (- k)) then k else k - 1.
(* Python float(), called at scalars.py:248: the float nearest to p/q (53
   digits, exponents from -1074 to 971) *)
Definition nearest (neg : bool) (p q : Z) : flt :=
  if p =? 0 then Fin neg 0 (-1074) else
  let e := Z.max (-1074) (ilog2 p q - 52) in
  let m := if 0 <=? e then round_even p (q * 2 ^ e) else round_even (p * 2 ^ (- e)) q in
  let '(m, e) := if m =? 2 ^ 53 then (2 ^ 52, e + 1) else (m, e) in
  if 971 <? e then FInf neg else Fin neg m e.

(* ------------------------------------------------------------------ *)
(* Python, called at scalars.py:248. The syntax of float(text) and
   Decimal(text), of text without outer white space. All decimal digits of
   Unicode are taken. *)
Fixpoint span_digits (s : str) : str * str :=
  match s with
  | [] => ([], [])
  | c :: r => if is_digit c then let '(a, b) := span_digits r in (c :: a, b) else ([], s)
  end.
(* Python float() and Decimal(), called at scalars.py:248: case is ignored *)
Definition lower (c : N) : N := if ((65 <=? c) && (c <=? 90))%N then (c + 32)%N else c.
(* Python float() and Decimal(), called at scalars.py:248: inf, infinity, nan *)
Definition is_word (w : string) (s : str) : bool := str_eqb (map lower s) (lit w).
(* Python float() and Decimal(), called at scalars.py:248: digits as an integer *)
Definition number (d : str) : Z := match digits_val 0 d with Some n => Z.of_N n | None => 0 end.
(* Python float() and Decimal(), called at scalars.py:248: the digits after e
   *)
Definition exponent (s : str) : option Z :=
  let go d := match d with [] => None | _ => option_map Z.of_N (digits_val 0 d) end in
  match s with
  | 45%N :: d => option_map Z.opp (go d)
  | 43%N :: d => go d
  | d => go d
  end.
(* Python float() and Decimal(), called at scalars.py:248: digits, point, exponent *)
Definition parse_number (neg : bool) (s : str) : option decimal :=
  let '(a, r) := span_digits s in
  let '(b, r) := match r with 46%N :: r' => span_digits r' | _ => ([], r) end in
  match a ++ b with
  | [] => None
  | d =>
      let c := number d in
      let x := - Z.of_nat (List.length b) in
      match r with
      | [] => Some (DNum neg c x)
      | k :: t => if (lower k =? 101)%N then option_map (fun z => DNum neg c (x + z)) (exponent t) else None
      end
  end.
(* Python, called at scalars.py:248: Decimal takes snan, and digits after nan
   *)
Definition parse_nan (decimals : bool) (s : str) : option decimal :=
  if decimals then
    let '(sig, r) := match s with
                     | c :: r => if (lower c =? 115)%N then (true, r) else (false, s)
                     | [] => (false, s)
                     end in
    if is_word "nan" (firstn 3 r) && forallb is_digit (skipn 3 r) then Some (DNan sig) else None
  else if is_word "nan" s then Some (DNan false) else None.
(* Python float() and Decimal(), called at scalars.py:248: without sign *)
Definition parse_unsigned (decimals neg : bool) (s : str) : option decimal :=
  if is_word "inf" s || is_word "infinity" s then Some (DInf neg)
  else match parse_nan decimals s with
       | Some d => Some d
       | None => parse_number neg s
       end.
(* Python float() and Decimal(), called at scalars.py:248 *)
Definition parse (decimals : bool) (s : str) : option decimal :=
  match s with
  | 45%N :: r => parse_unsigned decimals true r
  | 43%N :: r => parse_unsigned decimals false r
  | _ => parse_unsigned decimals false s
  end.

(* ------------------------------------------------------------------ *)
(* the argument of scalars.py:53,235. What is set: None, text, int, float,
   Decimal, or an object neither float() nor Decimal() takes (so no bytes);
   the last three come with their str(). *)
Inductive num_in :=
| NNone | NText (s : str) | NInt (z : Z) | NFloat (f : flt) (shown : str)
| NDec (d : decimal) (shown : str) | NOther (shown : str).
(* six.text_type(value) as in scalars.py:76-84 *)
Definition num_text (v : num_in) : str :=
  match v with
  | NNone => [] | NText s => s | NInt z => dec_z z
  | NFloat _ s | NDec _ s | NOther s => s
  end.

(* scalars.py:248,269: float(d): signaling NaN is ValueError *)
Definition dec_to_float (d : decimal) : res flt :=
  match d with
  | DNum neg c x => Ok (if 0 <=? x then nearest neg (c * 10 ^ x) 1 else nearest neg c (10 ^ (- x)))
  | DInf neg => Ok (FInf neg)
  | DNan false => Ok FNan
  | DNan true => Err ValueErr
  end.
(* scalars.py:248,296: float(v); an int that is too large is OverflowError *)
Definition to_float (v : num_in) : res flt :=
  match v with
  | NText s => match parse false s with Some d => dec_to_float d | None => Err ValueErr end
  | NInt z => match nearest (z <? 0) (Z.abs z) 1 with FInf _ => Err ArithErr | f => Ok f end
  | NFloat f _ => Ok f
  | NDec d _ => dec_to_float d
  | NNone | NOther _ => Err TypeErr
  end.
(* Python Decimal(), called at scalars.py:248: float.as_integer_ratio(),
   without sign *)
Definition ratio (m e : Z) : Z * Z :=
  if 0 <=? e then (m * 2 ^ e, 1)
  else let g := Z.gcd m (2 ^ (- e)) in (m / g, 2 ^ (- e) / g).
(* scalars.py:248,306: decimal.Decimal(v), exact: n / 2^k is n * 5^k * 10^-k;
   text that is no number is InvalidOperation *)
Definition to_decimal (v : num_in) : res decimal :=
  match v with
  | NText s => match parse true s with Some d => Ok d | None => Err ArithErr end
  | NInt z => Ok (DNum (z <? 0) (Z.abs z) 0)
  | NFloat (Fin neg m e) _ =>
      let '(n, d) := ratio m e in
      let k := Z.log2 d in
      Ok (DNum neg (n * 5 ^ k) (- k))
  | NFloat (FInf neg) _ => Ok (DInf neg)
  | NFloat FNan _ => Ok (DNan false)
  | NDec d _ => Ok d
  | NNone | NOther _ => Err TypeErr
  end.
(* scalars.py:253: x < 0; with a decimal NaN it is InvalidOperation *)
Definition float_neg (f : flt) : res bool :=
  Ok (match f with Fin neg m _ => neg && (0 <? m) | FInf neg => neg | FNan => false end).
(* scalars.py:253 of a Decimal *)
Definition decimal_neg (d : decimal) : res bool :=
  match d with
  | DNum neg c _ => Ok (neg && (0 <? c))
  | DInf neg => Ok neg
  | DNan _ => Err ArithErr
  end.
(* scalars.py:269,299,309: '%f' % x: six places, correctly rounded *)
Definition sign_text (neg : bool) : str := if neg then lit "-" else [].
(* scalars.py:269,299,309: six places *)
Definition fixed6 (f : flt) : str :=
  match f with
  | Fin neg m e =>
      let n := if 0 <=? e then m * 2 ^ e * 1000000 else round_even (m * 1000000) (2 ^ (- e)) in
      sign_text neg ++ dec (Z.to_N (n / 1000000)) ++ lit "." ++ dec_pad 6 (Z.to_N (n mod 1000000))
  | FInf neg => sign_text neg ++ lit "inf"
  | FNan => lit "nan"
  end.

(* scalars.py:235-255 Number.adapt; None stands for None *)
Definition number_adapt {V} (conv : num_in -> res V) (is_neg : V -> res bool) (signed : bool) (v : num_in)
  : res (option V) :=
  match v with
  | NNone => Ok None
  | _ =>
      let v := match v with NText s => NText (strip s) | _ => v end in
      bind (adaptation true (conv v)) (fun native =>
      if signed then Ok (Some native)
      else bind (is_neg native) (fun neg => if neg then Err AdaptErr else Ok (Some native)))
  end.
(* scalars.py:71-94: an element: raw (None: Unset), value, u *)
Record num_elem V := NumElem { n_raw : option num_in; n_value : option V; n_u : str }.
Arguments NumElem {V}. Arguments n_raw {V}. Arguments n_value {V}. Arguments n_u {V}.
(* scalars.py:53-94 set, with 257-270 serialize: [show] is format % value, the
   value always being of type_ *)
Definition number_set {V} (adapt : num_in -> res (option V)) (show : V -> res str) (st : num_elem V) (v : num_in)
  : num_elem V * res bool :=
  match adapt v with
  | Ok None => (NumElem (Some v) None [], Ok true)
  | Ok (Some n) =>
      match show n with
      | Ok u => (NumElem (Some v) (Some n) u, Ok true)
      | Err e => (NumElem (Some v) (Some n) (n_u st), Err e)
      end
  | Err AdaptErr => (NumElem (Some v) None (num_text v), Ok false)
  | Err e => (NumElem (Some v) (n_value st) (n_u st), Err e)
  end.
(* scalars.py:293-300 Float: type_ = float, format = '%f' *)
Definition float_set (signed : bool) : num_elem flt -> num_in -> num_elem flt * res bool :=
  number_set (number_adapt to_float float_neg signed) (fun f => Ok (fixed6 f)).
(* scalars.py:303-310 Decimal: type_ = Decimal, format = '%f', which goes
   through float() *)
Definition decimal_set (signed : bool) : num_elem decimal -> num_in -> num_elem decimal * res bool :=
  number_set (number_adapt to_decimal decimal_neg signed) (fun d => rmap fixed6 (dec_to_float d)).
