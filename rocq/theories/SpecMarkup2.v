(* What can go wrong with the settings of a markup generator: formats for ids
   and settings that are missing (out/generic.py:47-48,183-212,254-272). *)
From Verif Require Import PyBase ModelMarkup SpecMarkup.

(* a format is a sequence of characters, of %% and of %s *)
Inductive fpiece := FChar (c : N) | FPercent | FHole.
Definition written1 (p : fpiece) : str := match p with FChar c => [c] | FPercent => lit "%%" | FHole => lit "%s" end.
Definition filled1 (arg : str) (p : fpiece) : str := match p with FChar c => [c] | FPercent => lit "%" | FHole => arg end.
Definition written (ps : list fpiece) : str := List.concat (map written1 ps).
Definition filled_with (arg : str) (ps : list fpiece) : str := List.concat (map (filled1 arg) ps).
Definition plain_piece (p : fpiece) : Prop := match p with FChar c => c <> ch "%" | _ => True end.
Fixpoint holes (ps : list fpiece) : nat :=
  match ps with [] => 0 | FHole :: r => S (holes r) | _ :: r => holes r end.

(* what becomes of the attribute made by formatting raw *)
Definition formatted (raw : str) (f : option mv) (out : res str) : Prop :=
  match f with
  | None => out = Err KeyErr
  | Some v =>
      (forall t, ~ value_is v t) /\ out = Err TypeErr
      \/ exists t, value_is v t /\ forall ps, Forall plain_piece ps -> t = written ps ->
         out = (if Nat.eqb (holes ps) 1 then Ok (filled_with raw ps) else Err TypeErr)
  end.
(* the tag says neither yes nor no for this switch *)
Definition undecided (key : string) (a : attrs) : Prop :=
  ~ exists v, get key a = Some v /\ (says_yes v \/ says_no v).
(* the element's name goes into the id as it is *)
Definition named_id (tag : str) (a : attrs) (b : option belement) (nm : str) : Prop :=
  (exists el, b = Some el /\ b_name el = nm) /\ nm <> []
  /\ ~ (tag = lit "input" /\ type_is a ["checkbox"; "radio"]%string).
