(* C91 (validators and receivers that assign .valid, and raise). *)
From Verif Require Import PyBase PyBaseFacts ModelValidate SpecValidate ModelRaise SpecRaise ModelAssign SpecAssign ProofAssign ProofAssign2.

(* a sample: 0 with children 1 and 2.  A validator assigns .valid of an element,
   or nothing, and answers; down and up give the validators; a receiver raises
   KeyError when it hears of Skip *)
Notation markings := (id -> vstat).
Definition action : Type := option (id * vstat) * res vres.
Definition family (down up : id -> option (list action)) : aworld markings action :=
  AWorld (fun _ x => match x with 0 => [1; 2] | _ => [] end) (fun _ _ => false) (fun _ _ => false) (fun x => Nat.eqb x 0)
         (fun _ x => down x) (fun _ x => up x) (fun s x => s x) (fun s x v => upd s x v)
         (fun a s _ => (match fst a with Some (x, v) => upd s x v | None => s end, snd a))
         (fun _ => true) (fun _ s _ r => (s, match r with VRSkip => Some KeyErr | _ => None end)).
Definition fresh : markings := fun _ => Uneval.
Definition says (r : vres) : action := (None, Ok r).
Definition marking (x : id) (v : vstat) (r : vres) : action := (Some (x, v), Ok r).
(* 1 marks its parent invalid on the way down; the parent then fails *)
Definition tattler := family (fun x => match x with 1 => Some [marking 0 Invalid VRTrue] | 2 => Some [says VRTrue] | _ => Some [] end)
                             (fun x => match x with 0 => Some [says VRFalse] | _ => None end).
(* 0 marks its child invalid on the way down *)
Definition prejudging := family (fun x => match x with 0 => Some [marking 1 Invalid VRTrue] | _ => Some [says VRTrue] end) (fun _ => None).

Theorem C91_as_before : forall (S val : Type) (wr : rworld S val), forall fuel s V root, let '(a, r) := validate_a (onlookers wr) fuel (s, V) root in let '(b, r') := validate_r wr fuel s V root in
    r = r' /\ as_s a = (vs_s b, vs_V b) /\ happened (as_trace a) = vs_trace b.
Proof. exact @onlookers_same. Qed.
Print Assumptions C91_as_before.

Theorem C91_as_before_flat : forall (S val : Type) (wr : rworld S val), forall s V el, let '(r, s', ev) := validate_flat_a (onlookers wr) (s, V) el in
    (r, fst s', snd s', happened ev) = validate_flat_r wr s V el.
Proof. exact @onlookers_flat. Qed.
Print Assumptions C91_as_before_flat.

Theorem C91_history : forall (S val : Type) (w : aworld S val), forall fuel s root st r, validate_a w fuel s root = (st, r) ->
    match r with
    | Ok _ => history w s (as_trace st) (as_s st)
    | Err e => (e = OutOfFuel /\ history w s (as_trace st) (as_s st)) \/ broken w s (as_trace st) (as_s st) e
    end.
Proof. exact @validate_history. Qed.
Print Assumptions C91_history.

Theorem C91_verdict : forall (S val : Type) (w : aworld S val), forall fuel s root st b, validate_a w fuel s root = (st, Ok b) ->
    (b = true <-> forall x, ~ In (AMark x Invalid) (as_trace st)).
Proof. exact @validate_verdict_a. Qed.
Print Assumptions C91_verdict.

Theorem C91_order : forall (S val : Type) (w : aworld S val), forall fuel s root st b, validate_a w fuel s root = (st, Ok b) ->
    exists D, breadth_first (kids_of (happened (as_trace st))) root D
      /\ map fst (evals (happened (as_trace st))) = map (fun x => (x, true)) D ++ map (fun x => (x, false)) (rev D).
Proof. exact @validate_order_a. Qed.
Print Assumptions C91_order.

Theorem C91_children : forall (S val : Type) (w : aworld S val), forall fuel s root st b x o, validate_a w fuel s root = (st, Ok b) -> In (x, true, o) (evals (happened (as_trace st))) ->
    match o with
    | OSkipAll | OSkipAllFalse => kids_of (happened (as_trace st)) x = []
    | _ => exists s', kids_of (happened (as_trace st)) x = a_children w s' x
    end.
Proof. exact @validate_kids_a. Qed.
Print Assumptions C91_children.

Theorem C91_chain : forall (S val : Type) (w : aworld S val), forall vs s el s' r ev, validate_element_a w vs s el = (s', r, ev) ->
    (a_is_empty w s el = true /\ a_optional w s el = true /\ s' = s /\ r = Ok OTrue /\ ev = [])
    \/ ((a_is_empty w s el && a_optional w s el)%bool = false /\ vs = [] /\
        let answer := if a_is_empty w s el then VRFalse else VRTrue in
        let told := if a_receivers w s then a_notify w None s el answer else (s, None) in
        ev = (if a_receivers w s then [AEv (ESent None el answer)] else []) /\ s' = fst told
        /\ r = match snd told with None => Ok (if a_is_empty w s el then OFalse else OTrue) | Some e => Err e end)
    \/ ((a_is_empty w s el && a_optional w s el)%bool = false /\ vs <> [] /\
        match r with Ok o => chain_protocol vs (calls ev) o | Err e => interrupted w vs el s' e (calls ev) end).
Proof. exact @element_protocol_a. Qed.
Print Assumptions C91_chain.

Theorem C91_direction : forall (S val : Type) (w : aworld S val), forall d s el, validate_pass_a w d s el =
    match (if d then a_down w s el else a_up w s el) with
    | None => (s, Ok OUneval, [])
    | Some vs => if d && a_container w el && (match vs with [] => true | _ => false end) then (s, Ok OUneval, []) else validate_element_a w vs s el
    end.
Proof. exact @pass_direction_a. Qed.
Print Assumptions C91_direction.

Theorem C91_spared : forall (S val : Type) (w : aworld S val), forall fuel s root st b x, assigns w -> spares w x -> validate_a w fuel s root = (st, Ok b) ->
    remarked x (a_valid w s x) (evals (happened (as_trace st))) (a_valid w (as_s st) x).
Proof. exact @validate_spared. Qed.
Print Assumptions C91_spared.

Theorem C91_flat : forall (S val : Type) (w : aworld S val), forall s el, match validate_flat_a w s el with
    | (Ok v, s', tr) => exists ev1 s1 d v1 ev2 s2 u, history w s ev1 s1 /\ gives d v1 /\ history w (a_mark w s1 el v1) ev2 s2
        /\ evals (happened (ev1 ++ ev2)) = [] /\ v = a_valid w s' el
        /\ ((u = OUneval /\ s' = s2 /\ tr = ev1 ++ [AEv (EEval el true d); AMark el v1] ++ ev2 ++ [AEv (EEval el false u)])
            \/ (u <> OUneval /\ exists v2, gives u v2 /\ s' = a_mark w s2 el v2
                 /\ tr = ev1 ++ [AEv (EEval el true d); AMark el v1] ++ ev2 ++ [AEv (EEval el false u); AMark el v2]))
    | (Err e, s', tr) => broken w s tr s' e
    end.
Proof. exact @flat_a. Qed.
Print Assumptions C91_flat.

Theorem C91_ends : forall (S val : Type) (w : aworld S val), forall (U : list id) s root, pythonic w -> (forall s x, In x U -> incl (a_children w s x) U) -> In root U ->
    exists F st r, r <> Err OutOfFuel /\ forall fuel, F <= fuel -> validate_a w fuel s root = (st, r).
Proof. exact @validate_ends_a. Qed.
Print Assumptions C91_ends.

(* the verdict is true although the validator of the root failed, and the root
   is marked invalid *)
Theorem C91_failure_refuted : ~ (forall (S val : Type) (w : aworld S val) fuel s root st x d o,
  assigns w -> validate_a w fuel s root = (st, Ok true) -> In (x, d, o) (evals (happened (as_trace st))) ->
  o_bool o = true /\ a_valid w (as_s st) x <> Invalid).
Proof.
  intros H. destruct (validate_a tattler 10 fresh 0) as [st r] eqn:E.
  assert (r = Ok true /\ In (0, false, OFalse) (evals (happened (as_trace st)))) as [-> I0] by (vm_compute in E; injection E as <- <-; split; [easy|cbn; tauto]).
  assert (A : assigns tattler) by (intros s el v x; reflexivity). now destruct (H _ _ tattler 10 fresh 0 st 0 false OFalse A E I0).
Qed.
Print Assumptions C91_failure_refuted.
(* the marking of the child is overwritten on the way down *)
Example C91_overwritten : let '(st, r) := validate_a prejudging 10 fresh 0 in r = Ok true /\ map (as_s st) [0; 1; 2] = [Valid; Valid; Valid]
  /\ In (ERun (marking 1 Invalid VRTrue) 0 VRTrue) (happened (as_trace st)).
Proof. vm_compute. split; [reflexivity|]. split; [reflexivity|]. now left. Qed.
Example C91_tattler : let '(st, r) := validate_a tattler 10 fresh 0 in r = Ok true /\ map (as_s st) [0; 1; 2] = [Invalid; Valid; Valid]
  /\ map fst (evals (happened (as_trace st))) = [(0, true); (1, true); (2, true); (2, false); (1, false); (0, false)].
Proof. vm_compute. repeat split. Qed.
(* a receiver that raises: 1 keeps its marking, and the event was sent *)
Example C91_receiver : let '(st, r) := validate_a (family (fun x => Some [says (if Nat.eqb x 1 then VRSkip else VRTrue)]) (fun _ => None)) 10 fresh 0 in
  r = Err KeyErr /\ map (as_s st) [0; 1; 2] = [Valid; Uneval; Uneval] /\ last (as_trace st) (AMark 0 Uneval) = AEv (ESent (Some (says VRSkip)) 1 VRSkip).
Proof. vm_compute. repeat split. Qed.
(* every validator marks 0 invalid and answers *)
Definition shy : aworld markings vres :=
  AWorld (fun _ x => match x with 0 => [1; 2] | _ => [] end) (fun _ _ => false) (fun _ _ => false) (fun _ => true)
         (fun _ x => match x with 0 => Some [] | _ => Some [VRTrue] end) (fun _ x => match x with 2 => Some [VRFalse] | _ => None end)
         (fun s x => s x) (fun s x v => upd s x v) (fun r s _ => (upd s 0 Invalid, Ok r)) (fun _ => false) (fun _ s _ _ => (s, None)).
Example C91_hypotheses : assigns shy /\ spares shy 2 /\ pythonic shy /\ (forall s x, In x [0; 1; 2] -> incl (a_children shy s x) [0; 1; 2])
  /\ let '(st, r) := validate_a shy 10 fresh 0 in r = Ok false /\ map (as_s st) [0; 1; 2] = [Invalid; Valid; Invalid].
Proof.
  split; [now intros s el v x|]. split; [split; [intros fn s el s1 r [= <- _]; reflexivity|intros fn s el r s1 e [= <- _]; reflexivity]|].
  split; [split; discriminate|]. split; [|now vm_compute].
  intros s x Hx y Hy. cbn in Hx. destruct Hx as [<-|[<-|[<-|[]]]]; cbn in *; tauto.
Qed.
