(* Specifications for scalars: integer numerals, the calendar, trimming. *)
From Verif Require Import PyBase ModelScalar.

(* ---------------- text ---------------- *)
(* the white space of Unicode 6.1 *)
Definition unicode_spaces : list N := map Z.to_N
  [9; 10; 11; 12; 13; 28; 29; 30; 31; 32; 133; 160; 5760; 6158; 8192; 8193; 8194; 8195; 8196; 8197; 8198; 8199; 8200; 8201;
   8202; 8232; 8233; 8239; 8287; 12288]%Z.
Definition all_space (s : str) : Prop := Forall (fun c => is_space c = true) s.
Definition outer_clean (s : str) : Prop :=
  (forall c r, s = c :: r -> is_space c = false)
  /\ (forall c r, s = r ++ [c] -> is_space c = false).
(* t is s without its outer whitespace *)
Definition trimmed (s t : str) : Prop :=
  exists l r, s = l ++ t ++ r /\ all_space l /\ all_space r /\ outer_clean t.

(* ---------------- numerals ---------------- *)
(* c is the decimal digit d of some script *)
Definition unicode_zeros : list N := map Z.to_N
  [48; 1632; 1776; 1984; 2406; 2534; 2662; 2790; 2918; 3046; 3174; 3302; 3430; 3664; 3792; 3872; 4160; 4240; 6112; 6160;
   6470; 6608; 6784; 6800; 6992; 7088; 7232; 7248; 42528; 43216; 43264; 43472; 43600; 44016; 65296; 66720; 69734; 69872;
   69942; 70096; 71360; 120782; 120792; 120802; 120812; 120822]%Z.
Definition digit (c d : N) : Prop := exists z, In z unicode_zeros /\ (d < 10)%N /\ c = (z + d)%N.
(* digits least significant first *)
Fixpoint positional (ds : list N) : N :=
  match ds with [] => 0 | d :: r => d + 10 * positional r end%N.
Definition numeral (s : str) (n : N) : Prop :=
  exists ds, Forall2 digit s ds /\ n = positional (rev ds).
(* an optional sign and one or more digits *)
Inductive integer_text : str -> Z -> Prop :=
| it_plain s n : s <> [] -> numeral s n -> integer_text s (Z.of_N n)
| it_plus s n : s <> [] -> numeral s n -> integer_text (43%N :: s) (Z.of_N n)
| it_minus s n : s <> [] -> numeral s n -> integer_text (45%N :: s) (- Z.of_N n).

(* ---------------- calendar ---------------- *)
Definition leap_year (y : N) : Prop :=
  (N.divide 4 y /\ (~ N.divide 100 y \/ N.divide 400 y))%N.
Inductive month_length (y : N) : N -> N -> Prop :=
| ml31 m : In m [1; 3; 5; 7; 8; 10; 12]%N -> month_length y m 31
| ml30 m : In m [4; 6; 9; 11]%N -> month_length y m 30
| ml28 : ~ leap_year y -> month_length y 2 28
| ml29 : leap_year y -> month_length y 2 29.
Definition real_date (d : date) : Prop :=
  (1 <= d_y d <= 9999)%N /\ exists n, month_length (d_y d) (d_m d) n /\ (1 <= d_d d <= n)%N.
Definition real_time (t : time) : Prop :=
  (t_h t <= 23 /\ t_m t <= 59 /\ t_s t <= 59 /\ t_us t <= 999999)%N.
(* a Python value only holds real dates and times *)
Definition real_val (v : pyval) : Prop :=
  match v with
  | VDate d => real_date d
  | VDateTime d t => real_date d /\ real_time t
  | VTime t => real_time t
  | _ => True
  end.

(* exactly w digits denoting n *)
Definition field (w : nat) (s : str) (n : N) : Prop :=
  List.length s = w /\ numeral s n.
(* the same in ASCII *)
Definition ascii_field (w : nat) (s : str) (n : N) : Prop :=
  field w s n /\ Forall (fun c => 48 <= c <= 57)%N s.

Definition dash := lit "-".
Definition colon := lit ":".
Inductive date_form (f : nat -> str -> N -> Prop) : str -> date -> Prop :=
| df y m d a b c : f 4 a y -> f 2 b m -> f 2 c d ->
    date_form f (a ++ dash ++ b ++ dash ++ c) (Date y m d).
Inductive time_form (f : nat -> str -> N -> Prop) : str -> time -> Prop :=
| tf h m s a b c : f 2 a h -> f 2 b m -> f 2 c s ->
    time_form f (a ++ colon ++ b ++ colon ++ c) (Time h m s 0).
(* text in the format of the type, denoting real values *)
Inductive temporal_text (f : nat -> str -> N -> Prop) : tkind -> str -> pyval -> Prop :=
| tt_date s d : date_form f s d -> real_date d -> temporal_text f TDate s (VDate d)
| tt_time s t : time_form f s t -> real_time t -> temporal_text f TTime s (VTime t)
| tt_datetime s1 s2 d t : date_form f s1 d -> time_form f s2 t -> real_date d -> real_time t ->
    temporal_text f TDateTime (s1 ++ lit " " ++ s2) (VDateTime d t).

(* the values a scalar type writes out without loss *)
Fixpoint lossless (k : kind) (n : pyval) : Prop :=
  match k with
  | KString _ | KBoolean _ _ _ _ => True
  | KNumber nt _ => nt_is nt n = true /\ nt_conv nt (VText (strip (nt_format nt n))) = Ok n
  | KTemporal TDate _ => exists d, n = VDate d
  | KTemporal TTime _ => exists t, n = VTime t /\ t_us t = 0%N
  | KTemporal TDateTime _ => exists d t, n = VDateTime d t /\ t_us t = 0%N
  | KConstrained c _ | KEnum c _ => lossless c n
  | KCustom own => own (VText (vtext n)) = Ok n
  end.
(* a Boolean's canonical texts must be told apart *)
Fixpoint sound_texts (k : kind) : Prop :=
  match k with
  | KBoolean tr ts fa _ => fa <> tr /\ ~ In fa ts
  | KConstrained c _ | KEnum c _ => sound_texts c
  | _ => True
  end.
(* no user function of the schema raises on v *)
Fixpoint tame (k : kind) (v : pyval) : Prop :=
  match k with
  | KNumber nt signed =>
      (forall w e, (w = v \/ exists s, w = VText s) -> nt_conv nt w = Err e ->
         e = ValueErr \/ e = TypeErr \/ e = ArithErr \/ e = AdaptErr)
      /\ (signed = true \/ forall w n, nt_conv nt w = Ok n -> exists b, nt_neg nt n = Ok b)
  | KConstrained c valid => tame c v /\ forall n, exists b, valid n = Ok b
  | KEnum c _ => tame c v
  | KCustom own => forall e, own v = Err e -> e = AdaptErr
  | _ => True
  end.
(* the way Python writes an integer: ASCII, no plus sign, no superfluous zero *)
Definition plain_digits (s : str) : Prop :=
  Forall (fun c => 48 <= c <= 57)%N s /\ (s = [48%N] \/ hd 48%N s <> 48%N).
Definition canonical_int (s : str) (z : Z) : Prop :=
  integer_text s z
  /\ ((0 <= z)%Z /\ plain_digits s \/ (z < 0)%Z /\ exists t, s = 45%N :: t /\ plain_digits t).

(* the text a Temporal looks at: outer whitespace is dropped when strip is on;
   when it is off one final newline is still tolerated *)
Definition looked_at (strip_ : bool) (s s0 : str) : Prop :=
  if strip_ then trimmed s s0 else s = s0 \/ s = s0 ++ [10%N].
Definition instance_of (t : tkind) (v : pyval) : Prop :=
  match t with
  | TDate => (exists d, v = VDate d) \/ (exists d x, v = VDateTime d x)
  | TTime => exists x, v = VTime x
  | TDateTime => exists d x, v = VDateTime d x
  end.
(* the canonical text of a native value; fractions of a second are dropped *)
Definition whole (t : time) : time := Time (t_h t) (t_m t) (t_s t) 0.
Inductive shown (t : tkind) : pyval -> str -> Prop :=
| sh_date d u : t = TDate -> date_form ascii_field u d -> shown t (VDate d) u
| sh_date_dt d x u : t = TDate -> date_form ascii_field u d -> shown t (VDateTime d x) u
| sh_time x u : t = TTime -> time_form ascii_field u (whole x) -> shown t (VTime x) u
| sh_dt d x u1 u2 : t = TDateTime -> date_form ascii_field u1 d ->
    time_form ascii_field u2 (whole x) -> shown t (VDateTime d x) (u1 ++ lit " " ++ u2).

(* Python's == on the modelled values: the same value, equal numbers (True is
   1), or the same object *)
Inductive equal_values : pyval -> pyval -> Prop :=
| ev_same v : equal_values v v
| ev_num a b z : vnum a = Some z -> vnum b = Some z -> equal_values a b
| ev_obj x y : o_id x = o_id y -> equal_values (VObj x) (VObj y).

(* values Python treats as true *)
Inductive truthy : pyval -> Prop :=
| tr_bool : truthy (VBool true)
| tr_int z : z <> 0%Z -> truthy (VInt z)
| tr_text s : s <> [] -> truthy (VText s)
| tr_date d : truthy (VDate d)
| tr_datetime d t : truthy (VDateTime d t)
| tr_time t : t <> Time 0 0 0 0 -> truthy (VTime t)
| tr_obj o : o_truth o = true -> truthy (VObj o).

(* the value of the first pair whose key is the element's name *)
Inductive first_pair (nm : str) : list (str * pyval) -> pyval -> Prop :=
| fp before v after : ~ In nm (map fst before) -> first_pair nm (before ++ (nm, v) :: after) v.

(* the scalar types whose values all read back: no condition on the value *)
Fixpoint exact_type (k : kind) : Prop :=
  match k with
  | KString _ => True
  | KNumber nt _ => nt = int_type
  | KBoolean _ _ _ _ => True
  | KTemporal _ _ => False
  | KConstrained c _ | KEnum c _ => exact_type c
  | KCustom _ => False
  end.

(* the text of a value; fractions of a second are shown when there are any *)
Inductive clock_text : time -> str -> Prop :=
| ct_whole t u : t_us t = 0%N -> time_form ascii_field u (whole t) -> clock_text t u
| ct_fraction t u f : t_us t <> 0%N -> time_form ascii_field u (whole t) -> ascii_field 6 f (t_us t) ->
    clock_text t (u ++ lit "." ++ f).
Inductive text_form : pyval -> str -> Prop :=
| tx_none : text_form VNone (lit "None")
| tx_true : text_form (VBool true) (lit "True")
| tx_false : text_form (VBool false) (lit "False")
| tx_int z u : canonical_int u z -> text_form (VInt z) u
| tx_text s : text_form (VText s) s
| tx_date d u : date_form ascii_field u d -> text_form (VDate d) u
| tx_time t u : clock_text t u -> text_form (VTime t) u
| tx_datetime d t u v : date_form ascii_field u d -> clock_text t v -> text_form (VDateTime d t) (u ++ lit " " ++ v)
| tx_obj o : text_form (VObj o) (o_text o).
