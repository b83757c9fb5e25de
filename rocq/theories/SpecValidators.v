(* Specifications for the validators. *)
From Verif Require Import PyBase ModelUtil ModelScalar SpecScalar ModelMessage SpecMessage ModelValidators.

(* A validator lets pass exactly what is ok; otherwise it returns False and
   records the message. *)
Definition judged (r : list str * res bool) (errors : list str) (ok : Prop) (message : str) : Prop :=
  (ok -> r = (errors, Ok true))
  /\ (~ ok -> exists errors', r = (errors', Ok false) /\ records errors message errors').

(* ---------------- order of values ---------------- *)
Inductive number : pyval -> Z -> Prop :=
| nb_int z : number (VInt z) z
| nb_true : number (VBool true) 1
| nb_false : number (VBool false) 0.
(* dictionary order of texts, by code point *)
Inductive lex : str -> str -> Prop :=
| lx_nil c s : lex [] (c :: s)
| lx_less c d s t : (c < d)%N -> lex (c :: s) (d :: t)
| lx_same c s t : lex s t -> lex (c :: s) (c :: t).
Definition earlier_date (a b : date) : Prop :=
  (d_y a < d_y b \/ (d_y a = d_y b /\ (d_m a < d_m b \/ (d_m a = d_m b /\ d_d a < d_d b))))%N.
Definition earlier_time (a b : time) : Prop :=
  (t_h a < t_h b \/ (t_h a = t_h b /\ (t_m a < t_m b \/ (t_m a = t_m b /\
   (t_s a < t_s b \/ (t_s a = t_s b /\ t_us a < t_us b))))))%N.
Inductive less : pyval -> pyval -> Prop :=
| ls_number a b x y : number a x -> number b y -> (x < y)%Z -> less a b
| ls_text s t : lex s t -> less (VText s) (VText t)
| ls_date a b : earlier_date a b -> less (VDate a) (VDate b)
| ls_datetime a t b u : earlier_date a b \/ (a = b /\ earlier_time t u) -> less (VDateTime a t) (VDateTime b u)
| ls_time t u : earlier_time t u -> less (VTime t) (VTime u).
(* values that have an order *)
Inductive comparable : pyval -> pyval -> Prop :=
| cp_number a b x y : number a x -> number b y -> comparable a b
| cp_text s t : comparable (VText s) (VText t)
| cp_date a b : comparable (VDate a) (VDate b)
| cp_datetime a t b u : comparable (VDateTime a t) (VDateTime b u)
| cp_time t u : comparable (VTime t) (VTime u).

(* ---------------- sequences ---------------- *)
(* op says which elements el is a duplicate of, and does not raise *)
Definition decides (op : nat -> nat -> res bool) (el : nat) (l : list nat) (same : nat -> Prop) : Prop :=
  Forall (fun s => exists b, op el s = Ok b /\ (b = true <-> same s)) l.

(* ---------------- phone numbers ---------------- *)
(* the digit characters of a text *)
Inductive digit_chars : str -> str -> Prop :=
| dc_nil : digit_chars [] []
| dc_digit c s t : (exists d, digit_val c = Some d) -> digit_chars s t -> digit_chars (c :: s) (c :: t)
| dc_other c s t : digit_val c = None -> digit_chars s t -> digit_chars (c :: s) t.
(* the number the text gives, as digits: leading zeros are lost when not all
   digits are ASCII *)
Inductive number_digits (s : str) : list N -> Prop :=
| nd_ascii t ds : digit_chars s t -> Forall (fun c => 48 <= c <= 57)%N t -> Forall2 (fun c d => digit_val c = Some d) t ds ->
    number_digits s ds
| nd_other t zeros ds : digit_chars s t -> ~ Forall (fun c => 48 <= c <= 57)%N t ->
    Forall2 (fun c d => digit_val c = Some d) t (zeros ++ ds) -> Forall (fun d => d = 0%N) zeros ->
    (ds = [0%N] \/ exists d r, ds = d :: r /\ d <> 0%N) -> number_digits s ds.
(* (ddd) ddd-dddd *)
Definition dial (ds : list N) (s : str) : Prop :=
  exists a b c d e f g h i j, ds = [a; b; c; d; e; f; g; h; i; j]
  /\ s = lit "(" ++ [48 + a; 48 + b; 48 + c]%N ++ lit ") " ++ [48 + d; 48 + e; 48 + f]%N
         ++ lit "-" ++ [48 + g; 48 + h; 48 + i; 48 + j]%N.

(* ---------------- reports ---------------- *)
Definition between_kw (lo hi : Z) : attrs := [(lit "minimum", Plain (VInt lo)); (lit "maximum", Plain (VInt hi))].
(* found a second time at this position *)
Definition repeated (position : nat) (label : pyval) : verdict :=
  Fail (lit "failure") [(lit "position", VInt (Z.of_nat position)); (lit "container_label", label)].
(* the labels of the elements that do not match *)
Definition unequal (els : list found) (e : found) : verdict :=
  Fail (lit "unequal") [(lit "labels", VText (join (lit ", ") (map fd_label (removelast els))));
                        (lit "last_label", VText (fd_label (last els e)))].
(* what a phone element holds *)
Definition phone_subject (st : scalar) : pyval := if is_none (s_value st) then VText (s_u st) else s_value st.
(* numbers that are no exchange codes *)
Definition blocked_nxx : list Z := [311; 411; 511; 611; 711; 811; 911; 555; 990; 959; 958; 950; 700; 976]%Z.
(* what the transform of a MapEqual, ValuesEqual, UnisEqual gives for an element *)
Inductive transformed : transform -> found -> res pyval -> Prop :=
| tf_none e : transformed MDefault e (Err TypeErr)
| tf_value e : transformed MValue e (Ok (fd_value e))
| tf_text e : transformed MU e (Ok (VText (fd_u e)))
| tf_fun f e r : f e = r -> transformed (MFun f) e r.
