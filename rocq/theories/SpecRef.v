(* What references are expected to do, stated apart from the model. *)
From Verif Require Import PyBase ModelUtil ModelScalar ModelRef.

Definition not_ref (n : node) : Prop := match n with OfRef _ _ _ => False | _ => True end.
(* From element i one gets to element t, which is no Ref, through Refs whose
   .writable are ws.  A Ref leads to the target it remembers, else to the one
   its path leads to now. *)
Inductive leads (find : nat -> res nat) (h : heap) : nat -> list writable -> nat -> Prop :=
| leads_end t n : nth_error h t = Some n -> not_ref n -> leads find h t [] t
| leads_on i w c raw j ws t :
    nth_error h i = Some (OfRef w c raw) ->
    match c with Some j' => j' = j | None => find i = Ok j end ->
    leads find h j ws t -> leads find h i (w :: ws) t.
(* the same, but a path on the way fails *)
Inductive fails (find : nat -> res nat) (h : heap) : nat -> exn -> nat -> Prop :=
| fails_here i w raw x : nth_error h i = Some (OfRef w None raw) -> find i = Err x -> fails find h i x 0
| fails_on i w c raw j x n :
    nth_error h i = Some (OfRef w c raw) ->
    match c with Some j' => j' = j | None => find i = Ok j end ->
    fails find h j x n -> fails find h i x (S n).
(* all Refs of a set lead into the set *)
Definition circular (find : nat -> res nat) (h : heap) (P : nat -> Prop) : Prop :=
  forall i, P i -> exists w c raw j, nth_error h i = Some (OfRef w c raw) /\
    match c with Some j' => j' = j | None => find i = Ok j end /\ P j.
(* nothing changed except that Refs may now remember where their path leads *)
Definition settles (find : nat -> res nat) (h h' : heap) : Prop :=
  Forall2 (fun x y => x = y \/ exists w raw j, x = OfRef w None raw /\ y = OfRef w (Some j) raw)  h h' /\
  (forall i w raw j, nth_error h i = Some (OfRef w None raw) -> nth_error h' i = Some (OfRef w (Some j) raw) -> find i = Ok j).
(* the first Ref on the way that does not simply pass an assignment on *)
Fixpoint decision (ws : list writable) : writable :=
  match ws with [] => WYes | WYes :: ws' => decision ws' | w :: _ => w end.
(* no path is looked at any more *)
Definition pinned (h : heap) (i : nat) (ws : list writable) (t : nat) : Prop := forall find, leads find h i ws t.
(* the value and text of an element that is no Ref *)
Definition node_value (n : node) : pyval := match n with OfScalar _ st => s_value st | OfContainer v _ => v | OfRef _ _ _ => VNone end.
Definition node_u (n : node) : str := match n with OfScalar _ st => s_u st | OfContainer _ u => u | OfRef _ _ _ => [] end.
