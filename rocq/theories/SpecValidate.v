(* Specifications for validation: graphs, breadth-first order, the validator
   chain protocol. *)
From Verif Require Import PyBase.

Section Graph.
  Context {A : Type} (kids : A -> list A).
  (* a walk of n edges *)
  Inductive walk : nat -> A -> A -> Prop :=
  | walk_0 x : walk 0 x x
  | walk_S n x y z : walk n x y -> In z (kids y) -> walk (S n) x z.
  Definition reachable (x y : A) : Prop := exists n, walk n x y.

  (* D lists exactly the nodes reachable from root, each once, root first, by
     non-decreasing distance from root, siblings in child order: if y is listed before z
     and z is a child of some listed node p, then y is root or was already a
     child of p or of a node listed before p *)
  Record breadth_first (root : A) (D : list A) : Prop := {
    bf_nodup : NoDup D;
    bf_reach : forall x, In x D <-> reachable root x;
    bf_head : exists rest, D = root :: rest;
    bf_dist : forall D1 y D2 z D3 n, D = D1 ++ y :: D2 ++ z :: D3 ->
        walk n root z -> exists m, m <= n /\ walk m root y;
    bf_siblings : forall D1 p D2 l1 z l2 y,
        D = D1 ++ p :: D2 -> kids p = l1 ++ z :: l2 ->
        (exists E1 E2 E3, D = E1 ++ y :: E2 ++ z :: E3) ->
        y = root \/ In y l1 \/ (exists q, In q D1 /\ In y (kids q)) }.
End Graph.

(* The validator chain protocol, over the results of the validators that were
   actually run. *)
From Verif Require Import ModelValidate.

Inductive stops : vres -> outcome -> Prop :=
| st_none : stops VRNone OFalse              (* None fails *)
| st_false : stops VRFalse OFalse            (* a false value fails *)
| st_falsy : stops VRFalsy OFalsyObj
| st_skip : stops VRSkip OTrue               (* Skip passes *)
| st_skipall : stops VRSkipAll OSkipAll      (* passes, skips children *)
| st_skipallfalse : stops VRSkipAllFalse OSkipAllFalse. (* fails, skips children *)
Inductive continues : vres -> Prop :=
| co_true : continues VRTrue | co_truthy : continues VRTruthy.

Inductive chain_protocol {val} : list val -> list (val * vres) -> outcome -> Prop :=
| cp_end : chain_protocol [] [] OTrue
| cp_stop v r vs o : stops r o -> chain_protocol (v :: vs) [(v, r)] o
| cp_next v r vs runs o : continues r -> chain_protocol vs runs o ->
    chain_protocol (v :: vs) ((v, r) :: runs) o.

(* the runs happen one after the other from state s to s', each followed by
   exactly one notification when somebody listens *)
Inductive threaded {S val} (w : world S val) (V : id -> vstat) (el : id)
  : S -> list (val * vres) -> S -> list (event val) -> Prop :=
| th_nil s : threaded w V el s [] s []
| th_quiet s v r s1 runs s' ev :
    w_run w v s V el = (s1, r) -> w_receivers w s1 = false ->
    threaded w V el s1 runs s' ev ->
    threaded w V el s ((v, r) :: runs) s' (ERun v el r :: ev)
| th_sent s v r s1 runs s' ev :
    w_run w v s V el = (s1, r) -> w_receivers w s1 = true ->
    threaded w V el (w_notify w (Some v) s1 el r) runs s' ev ->
    threaded w V el s ((v, r) :: runs) s' (ERun v el r :: ESent (Some v) el r :: ev).

(* static children: visited = reachable without passing a skipped element *)
Definition skipped {val} (tr : list (event val)) (x : id) : Prop :=
  In (x, true, OSkipAll) (evals tr) \/ In (x, true, OSkipAllFalse) (evals tr).

Inductive unskipped_walk {val} (ch : id -> list id) (tr : list (event val)) : id -> id -> Prop :=
| uw_refl x : unskipped_walk ch tr x x
| uw_step x y z : unskipped_walk ch tr x y -> ~ skipped tr y -> In z (ch y) ->
    unskipped_walk ch tr x z.
