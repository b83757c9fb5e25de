(* Basic Python data: text, exceptions, decimal numbers, slices.
   Text is a list of Unicode code points (Python 3 `str`). *)
From Coq Require Export List Arith NArith ZArith Bool Lia String Ascii.
From Coq Require Export ZifyBool ZifyNat ZifyN.
Export ListNotations.
Open Scope list_scope.

Definition chr := N.
Definition str := list N.

(* A literal: Coq string constants as code point lists (ASCII only). *)
Definition lit (s : string) : str := map N_of_ascii (list_ascii_of_string s).
Definition ch (a : ascii) : N := N_of_ascii a.

(* The exception classes the modelled code raises or catches. *)
Inductive exn : Type :=
| TypeErr | KeyErr | IndexErr | ValueErr | LookupErr | AttributeErr
| RuntimeErr | NotImplErr | AssertErr | AdaptErr | ArithErr | OutOfFuel.

(* Outcome of a Python call: a value or a raised exception. *)
Inductive res (A : Type) : Type := Ok (a : A) | Err (e : exn).
Arguments Ok {A}. Arguments Err {A}.

Definition bind {A B} (r : res A) (f : A -> res B) : res B :=
  match r with Ok a => f a | Err e => Err e end.

Definition rmap {A B} (f : A -> B) (r : res A) : res B :=
  match r with Ok a => Ok (f a) | Err e => Err e end.

(* ------------------------------------------------------------------ *)
(* Equality of text *)

Fixpoint str_eqb (a b : str) : bool :=
  match a, b with
  | [], [] => true
  | x :: a', y :: b' => N.eqb x y && str_eqb a' b'
  | _, _ => false
  end.

(* Optional names: Python None or text. *)
Definition name := option str.
Definition name_eqb (a b : name) : bool :=
  match a, b with
  | None, None => true
  | Some x, Some y => str_eqb x y
  | _, _ => false
  end.

Definition memb {A} (eqb : A -> A -> bool) (x : A) (l : list A) : bool :=
  existsb (eqb x) l.

(* ------------------------------------------------------------------ *)
(* str methods *)

(* s.startswith(p) *)
Fixpoint starts_with (p s : str) : bool :=
  match p, s with
  | [], _ => true
  | x :: p', y :: s' => N.eqb x y && starts_with p' s'
  | _ :: _, [] => false
  end.

(* sep.join(parts) *)
Fixpoint join (sep : str) (parts : list str) : str :=
  match parts with
  | [] => []
  | [x] => x
  | x :: rest => x ++ sep ++ join sep rest
  end.

(* s.split(sep), for non-empty sep: leftmost, non-overlapping.
   [skip] counts characters of a separator still to be consumed;
   [cur] is the current piece, reversed. *)
Fixpoint split_go (sep s : str) (skip : nat) (cur : str) : list str :=
  match s with
  | [] => [rev cur]
  | c :: s' =>
      match skip with
      | S k => split_go sep s' k cur
      | O => if starts_with sep s
             then rev cur :: split_go sep s' (List.length sep - 1) []
             else split_go sep s' 0 (c :: cur)
      end
  end.
Definition split (sep s : str) : list str := split_go sep s 0 [].

(* Unicode White_Space as used by str.strip / str.isspace (Python 3.3). *)
Definition is_space (c : N) : bool :=
  ((0x09 <=? c) && (c <=? 0x0d) || (0x1c <=? c) && (c <=? 0x20)
   || (c =? 0x85) || (c =? 0xa0) || (c =? 0x1680) || (c =? 0x180e)
   || (0x2000 <=? c) && (c <=? 0x200a)
   || (c =? 0x2028) || (c =? 0x2029) || (c =? 0x202f)
   || (c =? 0x205f) || (c =? 0x3000))%N.

Fixpoint lstrip_by (f : N -> bool) (s : str) : str :=
  match s with
  | [] => []
  | c :: s' => if f c then lstrip_by f s' else s
  end.
Definition rstrip_by (f : N -> bool) (s : str) : str :=
  rev (lstrip_by f (rev s)).
(* s.strip() *)
Definition strip (s : str) : str := rstrip_by is_space (lstrip_by is_space s).

(* s.replace(c, r) for a one-character c *)
Definition replace1 (c : N) (r : str) (s : str) : str :=
  flat_map (fun x => if N.eqb x c then r else [x]) s.

(* ------------------------------------------------------------------ *)
(* Decimal digits.  Unicode category Nd (the class \d and int() accept):
   each block is ten consecutive code points starting at a zero. *)
Definition nd_zeros : list N :=
  [0x30;0x660;0x6F0;0x7C0;0x966;0x9E6;0xA66;0xAE6;0xB66;0xBE6;0xC66;0xCE6;
   0xD66;0xE50;0xED0;0xF20;0x1040;0x1090;0x17E0;0x1810;0x1946;0x19D0;0x1A80;
   0x1A90;0x1B50;0x1BB0;0x1C40;0x1C50;0xA620;0xA8D0;0xA900;0xA9D0;0xAA50;
   0xABF0;0xFF10;0x104A0;0x11066;0x110F0;0x11136;0x111D0;0x116C0;
   0x1D7CE;0x1D7D8;0x1D7E2;0x1D7EC;0x1D7F6]%N.

Fixpoint digit_in (zs : list N) (c : N) : option N :=
  match zs with
  | [] => None
  | z :: zs' => if ((z <=? c) && (c <? z + 10))%N then Some (c - z)%N
                else digit_in zs' c
  end.
(* unicodedata.decimal(c): the digit value of c, if c is a decimal digit *)
Definition digit_val (c : N) : option N := digit_in nd_zeros c.
Definition is_digit (c : N) : bool :=
  match digit_val c with Some _ => true | None => false end.

(* value of a run of digits, most significant first *)
Fixpoint digits_val (acc : N) (s : str) : option N :=
  match s with
  | [] => Some acc
  | c :: s' => match digit_val c with
               | Some d => digits_val (10 * acc + d)%N s'
               | None => None
               end
  end.

(* int(text): surrounding whitespace, optional sign, at least one digit;
   anything else is ValueError. *)
Definition int_unsigned (s : str) : res Z :=
  match s with
  | [] => Err ValueErr
  | _ => match digits_val 0 s with
         | Some n => Ok (Z.of_N n)
         | None => Err ValueErr
         end
  end.
Definition py_int (s : str) : res Z :=
  match strip s with
  | 45%N :: s' => rmap Z.opp (int_unsigned s')   (* - *)
  | 43%N :: s' => int_unsigned s'                (* + *)
  | s' => int_unsigned s'
  end.

(* str(n) for a natural number *)
Fixpoint dec_aux (fuel : nat) (n : N) : str :=
  match fuel with
  | O => []
  | S f => if (n <? 10)%N then [(48 + n)%N]
           else dec_aux f (n / 10)%N ++ [(48 + n mod 10)%N]
  end.
Definition dec (n : N) : str := dec_aux (S (N.size_nat n)) n.
(* str(z), '%i' % z *)
Definition dec_z (z : Z) : str :=
  match z with
  | Z0 => dec 0
  | Zpos p => dec (Npos p)
  | Zneg p => 45%N :: dec (Npos p)
  end.
Definition dec_nat (n : nat) : str := dec (N.of_nat n).

(* '%0wi' % n for n >= 0: left-pad with zeros to width w *)
Definition pad0 (w : nat) (s : str) : str :=
  repeat 48%N (w - List.length s) ++ s.
Definition dec_pad (w : nat) (n : N) : str := pad0 w (dec n).

(* ------------------------------------------------------------------ *)
(* Python sequence indexing and slicing *)

(* list index normalisation: l[i]; None stands for IndexError *)
Definition norm_index (len : nat) (i : Z) : option nat :=
  let l := Z.of_nat len in
  let j := if (i <? 0)%Z then (i + l)%Z else i in
  if ((0 <=? j) && (j <? l))%Z then Some (Z.to_nat j) else None.

(* list.insert index clamping *)
Definition insert_pos (len : nat) (i : Z) : nat :=
  let l := Z.of_nat len in
  let j := if (i <? 0)%Z then Z.max 0 (i + l) else Z.min i l in
  Z.to_nat j.

(* slice(start, stop, step).indices(len) (CPython PySlice_GetIndicesEx);
   step 0 is ValueError. *)
Record slice := Slice { sl_start : option Z; sl_stop : option Z;
                        sl_step : option Z }.

Definition clampZ (lo hi x : Z) : Z := Z.max lo (Z.min hi x).

Definition slice_indices (len : nat) (s : slice) : res (Z * Z * Z) :=
  let n := Z.of_nat len in
  let step := match sl_step s with None => 1%Z | Some k => k end in
  if (step =? 0)%Z then Err ValueErr else
  let neg := (step <? 0)%Z in
  let lo := if neg then (-1)%Z else 0%Z in
  let hi := if neg then (n - 1)%Z else n in
  let fix_ x := clampZ lo hi (if (x <? 0)%Z then x + n else x)%Z in
  let start := match sl_start s with
               | None => if neg then (n - 1)%Z else 0%Z
               | Some x => fix_ x end in
  let stop := match sl_stop s with
              | None => if neg then (-1)%Z else n
              | Some x => fix_ x end in
  Ok (start, stop, step).

(* number of indices visited by range(start, stop, step) *)
Definition range_len (start stop step : Z) : nat :=
  if (0 <? step)%Z
  then Z.to_nat ((stop - start + step - 1) / step)
  else Z.to_nat ((start - stop - step - 1) / (- step)).

Definition range (start stop step : Z) : list Z :=
  map (fun k => (start + Z.of_nat k * step)%Z)
      (seq 0 (range_len start stop step)).

(* the positions selected by l[s] *)
Definition slice_positions (len : nat) (s : slice) : res (list nat) :=
  rmap (fun t => let '(start, stop, step) := t in
                 map Z.to_nat (range start stop step))
       (slice_indices len s).

Definition pick {A} (l : list A) (ps : list nat) : list A :=
  flat_map (fun p => match nth_error l p with Some x => [x] | None => [] end) ps.

(* l[s] *)
Definition get_slice {A} (l : list A) (s : slice) : res (list A) :=
  rmap (pick l) (slice_positions (List.length l) s).

(* ------------------------------------------------------------------ *)
(* Dictionaries as association lists.  Update keeps the position of an
   existing key and appends a new one. *)

Section Assoc.
  Context {K V : Type} (eqb : K -> K -> bool).
  Fixpoint aget (k : K) (m : list (K * V)) : option V :=
    match m with
    | [] => None
    | (k', v) :: m' => if eqb k k' then Some v else aget k m'
    end.
  Fixpoint aset (k : K) (v : V) (m : list (K * V)) : list (K * V) :=
    match m with
    | [] => [(k, v)]
    | (k', v') :: m' => if eqb k k' then (k', v) :: m'
                        else (k', v') :: aset k v m'
    end.
  Fixpoint adel (k : K) (m : list (K * V)) : list (K * V) :=
    match m with
    | [] => []
    | (k', v') :: m' => if eqb k k' then adel k m' else (k', v') :: adel k m'
    end.
  Definition ahas (k : K) (m : list (K * V)) : bool :=
    match aget k m with Some _ => true | None => false end.
End Assoc.
Definition keys {K V} (m : list (K * V)) : list K := map fst m.
