(* C88 (validators that raise). *)
From Verif Require Import PyBase PyBaseFacts ModelValidate SpecValidate ModelRaise SpecRaise ProofRaise.

(* a sample: 0 with children 1 and 2; the validators of an element say its
   answer, or raise KeyError *)
Definition family (down : id -> list (option vres)) : rworld nat (option vres) :=
  RWorld (World (fun _ x => match x with 0 => [1; 2] | _ => [] end) (fun _ _ => false) (fun _ _ => false) (fun _ => false)
                (fun _ x => Some (down x)) (fun _ _ => None)
                (fun v s _ _ => (s + 1, match v with Some r => r | None => VRTrue end)) (fun _ => true) (fun _ s _ _ => s + 10))
         (fun v s _ _ => match v with None => Some (s + 100, KeyErr) | Some _ => None end).
Definition sample : rworld nat (option vres) :=
  family (fun x => match x with 1 => [Some VRTrue; None; Some VRTrue] | _ => [Some VRTrue] end).
Definition fresh : id -> vstat := fun _ => Uneval.

Theorem C88_as_before : forall (S val : Type) (wr : rworld S val), forall fuel s V root, validate (r_world wr) fuel s V root = match validate_r (calm wr) fuel s V root with (st, Ok b) => Ok (b, st) | (_, Err e) => Err e end.
Proof. exact @validate_calm. Qed.
Print Assumptions C88_as_before.

Theorem C88_as_before_flat : forall (S val : Type) (wr : rworld S val), forall s V el, validate_flat_r (calm wr) s V el = let '(v, s', V', ev) := validate_flat (r_world wr) s V el in (Ok v, s', V', ev).
Proof. exact @flat_calm. Qed.
Print Assumptions C88_as_before_flat.

Theorem C88_until_then : forall (S val : Type) (wr : rworld S val), forall fuel s V root, validate_r wr fuel s V root = validate_r (calm wr) fuel s V root
    \/ exists st e, validate_r wr fuel s V root = (st, Err e) /\ cut_short wr st e (fst (validate_r (calm wr) fuel s V root)).
Proof. exact @validate_breaks. Qed.
Print Assumptions C88_until_then.

Theorem C88_until_then_flat : forall (S val : Type) (wr : rworld S val), forall s V el, validate_flat_r wr s V el = validate_flat_r (calm wr) s V el
    \/ exists e s' V' ev fn s1 s2 r rest, validate_flat_r wr s V el = (Err e, s', V', ev)
       /\ r_raise wr fn s1 V' el = Some (s', e) /\ w_run (r_world wr) fn s1 V' el = (s2, r)
       /\ snd (validate_flat_r (calm wr) s V el) = ev ++ ERun fn el r :: rest.
Proof. exact @flat_breaks. Qed.
Print Assumptions C88_until_then_flat.

Theorem C88_markings : forall (S val : Type) (wr : rworld S val), forall fuel s V root st r, validate_r wr fuel s V root = (st, r) -> marked V (evals (vs_trace st)) (vs_V st).
Proof. exact @validate_marks. Qed.
Print Assumptions C88_markings.

Theorem C88_exceptions : forall (S val : Type) (wr : rworld S val), forall fuel s V root st e, validate_r wr fuel s V root = (st, Err e) -> e = OutOfFuel \/ comes_from wr st e.
Proof. exact @validate_why. Qed.
Print Assumptions C88_exceptions.

Theorem C88_ends : forall (S val : Type) (wr : rworld S val), forall (U : list id) s V root, (forall s x, In x U -> incl (w_children (r_world wr) s x) U) -> In root U ->
    (forall fn s1 V1 el s2 e, r_raise wr fn s1 V1 el = Some (s2, e) -> e <> OutOfFuel) ->
    exists F, forall fuel, F <= fuel -> snd (validate_r wr fuel s V root) <> Err OutOfFuel.
Proof. exact @validate_r_ends. Qed.
Print Assumptions C88_ends.

(* the second validator of 1 raises: 0 is marked, 1 and 2 are not; of the three calls only two were made *)
Example C88_case :
  let '(st, r) := validate_r sample 10 0 fresh 0 in
  r = Err KeyErr /\ map (vs_V st) [0; 1; 2] = [Valid; Uneval; Uneval] /\ vs_s st = 122
  /\ vs_trace st = [ERun (Some VRTrue) 0 VRTrue; ESent (Some (Some VRTrue)) 0 VRTrue; EEval 0 true OTrue; EKids 0 [1; 2];
                    ERun (Some VRTrue) 1 VRTrue; ESent (Some (Some VRTrue)) 1 VRTrue]
  /\ cut_short sample st KeyErr (fst (validate_r (calm sample) 10 0 fresh 0)).
Proof.
  repeat (split; [reflexivity|]). exists None, 1, 22, 23, VRTrue. eexists. repeat (split; [reflexivity|]). reflexivity.
Qed.
Example C88_falsy : let '(st, r) := validate_r (family (fun _ => [Some VRFalsy])) 10 0 fresh 0 in r = Err TypeErr /\ vs_V st 0 = Invalid.
Proof. split; reflexivity. Qed.
Example C88_hypotheses : (forall s x, In x [0; 1; 2] -> incl (w_children (r_world sample) s x) [0; 1; 2])
  /\ (forall fn s1 V1 el s2 e, r_raise sample fn s1 V1 el = Some (s2, e) -> e <> OutOfFuel).
Proof.
  split.
  - intros s x Hx y Hy. cbn in Hx. destruct Hx as [<-|[<-|[<-|[]]]]; cbn in *; tauto.
  - intros [v|] s1 V1 el s2 e; cbn; [discriminate|]. now intros [= _ <-].
Qed.
