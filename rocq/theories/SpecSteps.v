(* What comes of flat data that is set more than once. *)
From Verif Require Import PyBase ModelMap ModelScalar ModelFlat SpecFlat.

(* every key of ps is a key of qs *)
Definition named_again (ps qs : flat_pairs) : Prop := forall k, In k (map fst ps) -> In k (map fst qs).
(* No scalar and no JoinedString is named by both, and of no List or Array do
   both have keys that begin with its name. *)
Fixpoint parted (sep : str) (s : schema) (ps qs : flat_pairs) : Prop :=
  match s with
  | SScalar n _ | SJoined n _ => ~ (In n (map fst ps) /\ In n (map fst qs))
  | SDict n _ fields =>
      (fix each (fs : list (bool * schema)) : Prop :=
         match fs with
         | [] => True
         | (_, f) :: fs' =>
             (forall x lp lq, schema_name f = Some x -> routes n sep x ps lp -> routes n sep x qs lq ->
                lp = [] \/ lq = [] \/ parted sep f lp lq)
             /\ each fs'
         end) fields
  | SList _ _ _ _ | SArray _ _ _ => False
  end.

(* ---------------- samples ---------------- *)
Definition first_step : flat_pairs := flat_of [("o_s", "hi")]%string.
Definition second_step : flat_pairs := flat_of [("o_l_0_x", "3"); ("o_l_1_x", "4")]%string.
(* what raises when it is converted *)
Definition broken : pyval := VObj (Obj 0 (lit "broken") true (Err RuntimeErr)).
