(* Specification for validators that raise. *)
From Verif Require Import PyBase ModelValidate ModelRaise.

(* the same elements and validators, when nothing is raised *)
Definition calm {S val} (wr : rworld S val) : rworld S val := RWorld (r_world wr) (fun _ _ _ _ => None).

(* what the marking of an element becomes with an evaluation: on the way down it
   is replaced, on the way up it can only get worse than valid *)
Inductive remarks : vstat -> bool -> outcome -> vstat -> Prop :=
| rm_down_none v : remarks v true OUneval Uneval
| rm_down_good v o : o <> OUneval -> o_bool o = true -> remarks v true o Valid
| rm_down_bad v o : o_bool o = false -> remarks v true o Invalid
| rm_up_none v : remarks v false OUneval v
| rm_up_stays o : remarks Invalid false o Invalid
| rm_up_good v o : v <> Invalid -> o <> OUneval -> o_bool o = true -> remarks v false o Valid
| rm_up_bad v o : v <> Invalid -> o_bool o = false -> remarks v false o Invalid.
(* the markings after the evaluations, one after the other *)
Inductive marked : (id -> vstat) -> list (id * bool * outcome) -> (id -> vstat) -> Prop :=
| mk_nil V V' : (forall x, V' x = V x) -> marked V [] V'
| mk_cons V x d o V1 l V' : remarks (V x) d o (V1 x) -> (forall y, y <> x -> V1 y = V y) -> marked V1 l V' ->
    marked V ((x, d, o) :: l) V'.

(* validation ended in state [st] with the exception [e] of a validator; [st']
   is where it would have got without, the events up to then being the same *)
Definition cut_short {S val} (wr : rworld S val) (st : vstate S val) (e : exn) (st' : vstate S val) : Prop :=
  exists fn el s1 s2 r rest, r_raise wr fn s1 (vs_V st) el = Some (vs_s st, e) /\ w_run (r_world wr) fn s1 (vs_V st) el = (s2, r)
    /\ vs_trace st' = vs_trace st ++ ERun fn el r :: rest.
(* where an exception comes from: True & object, right after the evaluation
   that gave the object, or a validator *)
Definition comes_from {S val} (wr : rworld S val) (st : vstate S val) (e : exn) : Prop :=
  (e = TypeErr /\ exists tr el d, vs_trace st = tr ++ [EEval el d OFalsyObj])
  \/ exists fn s1 el, r_raise wr fn s1 (vs_V st) el = Some (vs_s st, e).
