(* Specification for Float and Decimal: the syntax of numbers, nearest floats,
   texts of six places. *)
From Verif Require Import PyBase ModelScalar SpecScalar ModelNumber.
Local Open Scope Z_scope.

(* ---------------- syntax ---------------- *)
(* digits with at most one point among them, at least one digit *)
Inductive mantissa : str -> Z -> Z -> Prop :=
| ma_whole a c : a <> [] -> numeral a c -> mantissa a (Z.of_N c) 0
| ma_point a b c : a ++ b <> [] -> numeral (a ++ b) c ->
    mantissa (a ++ lit "." ++ b) (Z.of_N c) (- Z.of_nat (List.length b)).
(* s denotes c * 10^x *)
Inductive number_text : str -> Z -> Z -> Prop :=
| nt_plain s c x : mantissa s c x -> number_text s c x
| nt_exp s c x k t z : mantissa s c x -> k = ch "e" \/ k = ch "E" -> integer_text t z ->
    number_text (s ++ k :: t) c (x + z).
(* s is the word w, in any case *)
Definition spells (w : string) (s : str) : Prop :=
  Forall2 (fun c d => c = d \/ (c + 32 = d)%N /\ (65 <= c <= 90)%N) s (lit w).
Inductive signed_by : bool -> str -> Prop :=
| sb_none : signed_by false [] | sb_plus : signed_by false (lit "+") | sb_minus : signed_by true (lit "-").
Inductive literal (decimals : bool) : str -> decimal -> Prop :=
| li_num sg neg s c x : signed_by neg sg -> number_text s c x -> literal decimals (sg ++ s) (DNum neg c x)
| li_inf sg neg s : signed_by neg sg -> spells "inf" s \/ spells "infinity" s -> literal decimals (sg ++ s) (DInf neg)
| li_nan sg neg s : signed_by neg sg -> spells "nan" s -> literal decimals (sg ++ s) (DNan false)
| li_diag sg neg s d : decimals = true -> signed_by neg sg -> spells "nan" s -> Forall (fun c => exists v, digit c v) d ->
    literal decimals (sg ++ s ++ d) (DNan false)
| li_snan sg neg s d : decimals = true -> signed_by neg sg -> spells "snan" s -> Forall (fun c => exists v, digit c v) d ->
    literal decimals (sg ++ s ++ d) (DNan true).

(* ---------------- floats ---------------- *)
(* the finite floats of IEEE 754 binary64, without sign: m * 2^e *)
Definition is_float (m e : Z) : Prop :=
  0 <= m < 2 ^ 53 /\ -1074 <= e <= 971 /\ (2 ^ 52 <= m \/ e = -1074).
Definition real_float (f : flt) : Prop := match f with Fin _ m e => is_float m e | _ => True end.
(* all are whole multiples of the smallest, 2^-1074 *)
Definition units (m e : Z) : Z := m * 2 ^ (e + 1074).
(* the distance from p/q, in multiples of 2^-1074/q *)
Definition off (p q : Z) (u : Z) : Z := Z.abs (u * q - p * 2 ^ 1074).
(* f is p/q rounded: no float is nearer, of two equally near the one with even
   m; from half way past the largest float on, infinity *)
Inductive rounded (neg : bool) (p q : Z) : flt -> Prop :=
| ro_fin m e : is_float m e -> p < q * ((2 ^ 54 - 1) * 2 ^ 970) ->
    (forall m' e', is_float m' e' -> off p q (units m e) <= off p q (units m' e')) ->
    (forall m' e', is_float m' e' -> units m' e' <> units m e -> off p q (units m e) = off p q (units m' e') -> Z.even m = true) ->
    rounded neg p q (Fin neg m e)
| ro_inf : q * ((2 ^ 54 - 1) * 2 ^ 970) <= p -> rounded neg p q (FInf neg).
(* the float of a decimal *)
Inductive float_of : decimal -> flt -> Prop :=
| fo_whole neg c x f : 0 <= x -> rounded neg (c * 10 ^ x) 1 f -> float_of (DNum neg c x) f
| fo_part neg c x f : x < 0 -> rounded neg c (10 ^ (- x)) f -> float_of (DNum neg c x) f
| fo_inf neg : float_of (DInf neg) (FInf neg)
| fo_nan : float_of (DNan false) FNan.
Definition below_zero (f : flt) : Prop :=
  match f with Fin neg m _ => neg = true /\ 0 < m | FInf neg => neg = true | FNan => False end.

(* ---------------- texts of six places ---------------- *)
(* n millionths nearest to m * 2^e, of two the even *)
Definition millionths (m e n : Z) : Prop :=
  2 * Z.abs (units m e * 1000000 - n * 2 ^ 1074) <= 2 ^ 1074
  /\ (2 * Z.abs (units m e * 1000000 - n * 2 ^ 1074) = 2 ^ 1074 -> Z.even n = true).
(* ASCII, no needless zero in front, six digits after the point *)
Inductive six_places : str -> Z -> Prop :=
| sp a b w r : canonical_int a w -> 0 <= w -> ascii_field 6%nat b r -> six_places (a ++ lit "." ++ b) (w * 1000000 + Z.of_N r).
Inductive float_text : flt -> str -> Prop :=
| ft_fin (neg : bool) m e n s (sg : str) : millionths m e n -> six_places s n -> sg = (if neg then lit "-" else []) ->
    float_text (Fin neg m e) (sg ++ s)
| ft_inf : float_text (FInf false) (lit "inf")
| ft_neg_inf : float_text (FInf true) (lit "-inf")
| ft_nan : float_text FNan (lit "nan").

(* ---------------- what is set ---------------- *)
Definition real_num (v : num_in) : Prop :=
  match v with
  | NFloat f _ => real_float f
  | NDec (DNum _ c _) _ => 0 <= c
  | _ => True
  end.
(* unicode(v) *)
Inductive said : num_in -> str -> Prop :=
| sa_text s : said (NText s) s
| sa_int z u : canonical_int u z -> said (NInt z) u
| sa_float f s : said (NFloat f s) s
| sa_dec d s : said (NDec d s) s
| sa_other s : said (NOther s) s.
(* the float v stands for *)
Inductive as_float : num_in -> flt -> Prop :=
| af_text s t d f : trimmed s t -> literal false t d -> float_of d f -> as_float (NText s) f
| af_int z m e : rounded (z <? 0) (Z.abs z) 1 (Fin (z <? 0) m e) -> as_float (NInt z) (Fin (z <? 0) m e)
| af_float f s : as_float (NFloat f s) f
| af_dec d s f : float_of d f -> as_float (NDec d s) f.
(* m * 2^e is c * 10^x and x <= 0 is as large as can be *)
Definition written_out (m e c x : Z) : Prop :=
  x <= 0 /\ units m e * 10 ^ (- x) = c * 2 ^ 1074
  /\ forall c' x', x' <= 0 -> units m e * 10 ^ (- x') = c' * 2 ^ 1074 -> x' <= x.
(* the decimal v stands for *)
Inductive as_decimal : num_in -> decimal -> Prop :=
| ad_text s t d : trimmed s t -> literal true t d -> as_decimal (NText s) d
| ad_int z c : 0 <= c -> z = c -> as_decimal (NInt z) (DNum false c 0)
| ad_neg z c : 0 < c -> z = - c -> as_decimal (NInt z) (DNum true c 0)
| ad_float neg m e s c x : written_out m e c x -> as_decimal (NFloat (Fin neg m e) s) (DNum neg c x)
| ad_inf neg s : as_decimal (NFloat (FInf neg) s) (DInf neg)
| ad_nan s : as_decimal (NFloat FNan s) (DNan false)
| ad_dec d s : as_decimal (NDec d s) d.
Definition negative_decimal (d : decimal) : Prop :=
  match d with DNum neg c _ => neg = true /\ 0 < c | DInf neg => neg = true | DNan _ => False end.
