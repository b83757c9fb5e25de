(* Specifications for flatland/util, independent of the model. *)
From Verif Require Import PyBase.

(* --- Luhn --- decimal digit strings, most significant first *)
Definition digit_list (ds : list Z) : Prop := Forall (fun d => (0 <= d < 10)%Z) ds.
Definition decimal_value (ds : list Z) : Z :=
  fold_left (fun acc d => (10 * acc + d)%Z) ds 0%Z.
(* what a digit contributes when its place is doubled *)
Definition doubled (d : Z) : Z := if (2 * d <? 10)%Z then (2 * d)%Z else (2 * d - 9)%Z.
(* digits listed least significant first; the second, fourth, ... doubled *)
Fixpoint luhn_weights (rds : list Z) : Z :=
  match rds with
  | [] => 0
  | [d] => d
  | d :: e :: rest => d + doubled e + luhn_weights rest
  end%Z.
Definition luhn_valid (ds : list Z) : Prop :=
  (luhn_weights (rev ds) mod 10 = 0)%Z.

(* replace the digit at position i *)
Definition replaced (ds : list Z) (i : nat) (d : Z) : list Z :=
  firstn i ds ++ d :: skipn (S i) ds.

(* --- key slicing --- *)
Section Keyslice.
  Context {K V : Type}.
  (* the last target given for k, if any *)
  Definition renamed_to (rename : list (K * K)) (k new : K) : Prop :=
    exists before after, rename = before ++ (k, new) :: after
                         /\ ~ In k (map fst after).
  Definition not_renamed (rename : list (K * K)) (k : K) : Prop :=
    ~ In k (map fst rename).

  (* the pair with (mapped) key k comes out under key out *)
  Inductive emitted (include omit : list K) (rename : list (K * K))
    : K -> K -> Prop :=
  | em_rename k new : renamed_to rename k new ->
      emitted include omit rename k new
  | em_include k : not_renamed rename k -> In k include ->
      emitted include omit rename k k
  | em_omit k : not_renamed rename k -> include = [] -> ~ In k omit ->
      emitted include omit rename k k.

  Inductive sliced (include omit : list K) (rename : list (K * K))
            (f : K -> K) : list (K * V) -> list (K * V) -> Prop :=
  | sl_nil : sliced include omit rename f [] []
  | sl_emit k k' v rest out :
      emitted include omit rename (f k) k' ->
      sliced include omit rename f rest out ->
      sliced include omit rename f ((k, v) :: rest) ((k', v) :: out)
  | sl_drop k v rest out :
      (forall k', ~ emitted include omit rename (f k) k') ->
      sliced include omit rename f rest out ->
      sliced include omit rename f ((k, v) :: rest) out.
End Keyslice.

(* --- regular expression literals: how Python's sre reads a pattern that
   uses only literal characters and escapes.  A backslash followed by 0 is an
   octal escape of up to two more octal digits; a backslash followed by any
   character that is not an ASCII letter or digit is that character; an
   unescaped ASCII letter or digit stands for itself; anything else is not a
   plain literal (None). *)
Definition is_alnum (c : N) : bool :=
  ((48 <=? c) && (c <=? 57) || (65 <=? c) && (c <=? 90)
   || (97 <=? c) && (c <=? 122))%N.
Definition octal (c : N) : option N :=
  if ((48 <=? c) && (c <=? 55))%N then Some (c - 48)%N else None.

Fixpoint read_literal (s : str) : option str :=
  match s with
  | [] => Some []
  | c :: s1 =>
      if (c =? 92)%N then
        match s1 with
        | [] => None
        | d :: s2 =>
            if (d =? 48)%N then
              match s2 with
              | e :: s3 =>
                  match octal e with
                  | Some ve =>
                      match s3 with
                      | f :: s4 =>
                          match octal f with
                          | Some vf => option_map (cons (8 * ve + vf)%N) (read_literal s4)
                          | None => option_map (cons ve) (read_literal s3)
                          end
                      | [] => Some [ve]
                      end
                  | None => option_map (cons 0%N) (read_literal s2)
                  end
              | [] => Some [0%N]
              end
            else if is_alnum d then None
            else option_map (cons d) (read_literal s2)
        end
      else if is_alnum c then option_map (cons c) (read_literal s1)
      else None
  end.

(* --- Kleene's three-valued logic as min / max over 0 < 1 < 2 --- *)
Inductive tri := T0 | TH | T1.
Definition tri_num (t : tri) : Z := match t with T0 => 0 | TH => 1 | T1 => 2 end.
