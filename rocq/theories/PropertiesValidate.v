(* Properties of validation: C01-C07. *)
From Verif Require Import PyBase PyBaseFacts ModelValidate SpecValidate ProofValidate ProofValidate2 ProofValidate3.

(* ------------------------------------------------------------------ *)
(* A concrete graph for the examples: 0 -> [1;2], 1 -> [3], 2 -> [3;0] (a
   cycle), 3 -> [].  Every validator returns a fixed result; [dn] and [up] give
   the validator lists; somebody listens for notifications. *)
Definition demo (dn up : id -> option (list vres)) : world unit vres :=
  World (fun _ x => match x with 0 => [1; 2] | 1 => [3] | 2 => [3; 0] | _ => [] end)
        (fun _ _ => false) (fun _ _ => false) (fun x => negb (x =? 3))
        (fun _ x => dn x) (fun _ x => up x)
        (fun v s _ _ => (s, v)) (fun _ => true) (fun _ s _ _ => s).
Definition all_pass := demo (fun _ => Some []) (fun _ => Some [VRTrue]).
Definition two_skips :=
  demo (fun x => match x with 1 | 2 => Some [VRTrue; VRSkipAll; VRFalse] | _ => Some [] end)
       (fun x => match x with 2 => Some [VRNone] | _ => None end).
Definition V0 : id -> vstat := fun _ => Uneval.

(* C01: the verdict is true exactly when every visited element ends with a
   true .valid, and exactly when no single evaluation failed. *)
Theorem C01_verdict : forall (S val : Type) (w : world S val) fuel s V root b st,
  validate w fuel s V root = Ok (b, st) ->
  (b = true <-> forall x d o, In (x, d, o) (evals (vs_trace st)) ->
                v_bool (vs_V st x) = true)
  /\ (b = true <-> forall x d o, In (x, d, o) (evals (vs_trace st)) -> o_bool o = true).
Proof. exact @validate_verdict. Qed.
Print Assumptions C01_verdict.

(* C01: how every .valid ends: a visited element is Invalid iff one of its two
   evaluations failed, Unevaluated iff neither gave a verdict; an element that
   was not visited keeps its marking. *)
Theorem C01_markings : forall (S val : Type) (w : world S val) fuel s V root b st,
  validate w fuel s V root = Ok (b, st) ->
  forall x,
    (exists d u, In (x, true, d) (evals (vs_trace st))
       /\ In (x, false, u) (evals (vs_trace st))
       /\ (vs_V st x = Invalid <-> o_bool d = false \/ o_bool u = false)
       /\ (vs_V st x = Uneval <-> d = OUneval /\ u = OUneval))
    \/ ((forall d o, ~ In (x, d, o) (evals (vs_trace st))) /\ vs_V st x = V x).
Proof. exact @validate_markings_iff. Qed.
Print Assumptions C01_markings.

Example C01_witness :
  (exists st, validate all_pass 10 tt V0 0 = Ok (true, st) /\ vs_V st 3 = Valid)
  /\ (exists st, validate two_skips 10 tt V0 0 = Ok (false, st)
                 /\ vs_V st 1 = Valid /\ vs_V st 2 = Invalid /\ vs_V st 0 = Uneval).
Proof. split; eexists; vm_compute; repeat split; reflexivity. Qed.

(* C02: each visited element is evaluated exactly once down in breadth-first
   order over the children that were listed, then exactly once up in the
   opposite order; nothing else is evaluated. *)
Theorem C02_order : forall (S val : Type) (w : world S val) fuel s V root b st,
  validate w fuel s V root = Ok (b, st) ->
  exists D, breadth_first (kids_of (vs_trace st)) root D
    /\ map fst (evals (vs_trace st))
       = map (fun x => (x, true)) D ++ map (fun x => (x, false)) (rev D).
Proof. exact @validate_bfs. Qed.
Print Assumptions C02_order.

(* C02: the children listed for an element are its children at that moment,
   none if its descent evaluation was SkipAll or SkipAllFalse. *)
Theorem C02_children_listed : forall (S val : Type) (w : world S val) fuel s V root b st x o,
  validate w fuel s V root = Ok (b, st) ->
  In (x, true, o) (evals (vs_trace st)) ->
  match o with
  | OSkipAll | OSkipAllFalse => kids_of (vs_trace st) x = []
  | _ => exists s', kids_of (vs_trace st) x = w_children w s' x
  end.
Proof. exact @validate_kids. Qed.
Print Assumptions C02_children_listed.

(* C02: when validators do not change children, the evaluated elements are
   exactly those reachable without passing through a skipped element. *)
Theorem C02_visited : forall (S val : Type) (w : world S val) ch fuel s V root b st,
  (forall s' x, w_children w s' x = ch x) ->
  validate w fuel s V root = Ok (b, st) ->
  forall x, (exists d o, In (x, d, o) (evals (vs_trace st)))
            <-> unskipped_walk ch (vs_trace st) root x.
Proof. exact @visited_static. Qed.
Print Assumptions C02_visited.

(* C02: in a tree, an element's ascent evaluation comes after that of each of
   its children. *)
Theorem C02_children_first : forall (S val : Type) (w : world S val) fuel s V root b st x y,
  validate w fuel s V root = Ok (b, st) ->
  (exists d o, In (x, d, o) (evals (vs_trace st))) ->
  y <> root -> In y (kids_of (vs_trace st) x) ->
  (forall p, In y (kids_of (vs_trace st) p) -> p = x) ->
  exists t1 o1 t2 o2 t3,
    evals (vs_trace st) = t1 ++ (y, false, o1) :: t2 ++ (x, false, o2) :: t3.
Proof. exact @validate_children_first. Qed.
Print Assumptions C02_children_first.

Example C02_witness : exists st, validate all_pass 10 tt V0 0 = Ok (true, st)
  /\ map fst (evals (vs_trace st))
     = [(0,true);(1,true);(2,true);(3,true);(3,false);(2,false);(1,false);(0,false)]
  /\ kids_of (vs_trace st) 2 = [3; 0]
  /\ (forall s' x, w_children all_pass s' x = w_children all_pass tt x).
Proof. eexists; vm_compute; repeat split; reflexivity. Qed.

(* C03: what is not reachable through listed children is untouched. *)
Theorem C03_untouched : forall (S val : Type) (w : world S val) fuel s V root b st x,
  validate w fuel s V root = Ok (b, st) ->
  ~ reachable (kids_of (vs_trace st)) root x ->
  vs_V st x = V x /\ forall e, In e (vs_trace st) -> ~ touches x e.
Proof. exact @validate_untouched. Qed.
Print Assumptions C03_untouched.

(* C03: what is reachable only through a skipped element is untouched. *)
Theorem C03_skipped_branch : forall (S val : Type) (w : world S val) ch fuel s V root b st x,
  (forall s' x, w_children w s' x = ch x) ->
  validate w fuel s V root = Ok (b, st) ->
  ~ unskipped_walk ch (vs_trace st) root x ->
  vs_V st x = V x /\ forall e, In e (vs_trace st) -> ~ touches x e.
Proof. exact @skipped_branch_static. Qed.
Print Assumptions C03_skipped_branch.

(* both parents of 3 are skipped, so 3 is never evaluated *)
Example C03_witness : exists st, validate two_skips 10 tt V0 0 = Ok (false, st)
  /\ map fst (evals (vs_trace st))
     = [(0,true);(1,true);(2,true);(2,false);(1,false);(0,false)]
  /\ ~ unskipped_walk (w_children two_skips tt) (vs_trace st) 0 3.
Proof.
  destruct (validate two_skips 10 tt V0 0) as [[b st]|e] eqn:E; [|now vm_compute in E].
  assert (b = false /\ map fst (evals (vs_trace st))
     = [(0,true);(1,true);(2,true);(2,false);(1,false);(0,false)]) as [-> Hm]
    by (vm_compute in E; injection E as <- <-; easy).
  exists st. split; [easy|]. split; [easy|].
  rewrite <- (visited_static two_skips _ _ _ _ _ _ _ (fun _ _ => eq_refl) E).
  intros (d & o & Hin). apply (in_map fst) in Hin. rewrite Hm in Hin.
  simpl in Hin. intuition congruence.
Qed.

(* C04: the chain protocol of one evaluation (exactly one of three cases). *)
Theorem C04_protocol : forall (S val : Type) (w : world S val) vs s V el s' o ev,
  validate_element w vs s V el = (s', o, ev) ->
  (w_is_empty w s el = true /\ w_optional w s el = true /\ s' = s /\ o = OTrue /\ ev = [])
  \/ (w_is_empty w s el && w_optional w s el = false /\ vs = []
      /\ o = (if w_is_empty w s el then OFalse else OTrue)
      /\ (if w_receivers w s
          then ev = [ESent None el (if w_is_empty w s el then VRFalse else VRTrue)]
               /\ s' = w_notify w None s el (if w_is_empty w s el then VRFalse else VRTrue)
          else ev = [] /\ s' = s))
  \/ (w_is_empty w s el && w_optional w s el = false /\ vs <> []
      /\ exists runs, runs <> [] /\ chain_protocol vs runs o
                      /\ threaded w V el s runs s' ev).
Proof. exact @validate_element_protocol. Qed.
Print Assumptions C04_protocol.

(* C04: which lists are used: none at all when the direction is switched off,
   and a container without descent validators is not evaluated on the way
   down. *)
Theorem C04_direction : forall (S val : Type) (w : world S val) descending s V el,
  validate_pass w descending s V el =
  match (if descending then w_down w s el else w_up w s el) with
  | None => (s, OUneval, [])
  | Some vs =>
      if descending && w_container w el && (match vs with [] => true | _ => false end)
      then (s, OUneval, [])
      else validate_element w vs s V el
  end.
Proof. exact @validate_pass_cases. Qed.
Print Assumptions C04_direction.

Example C04_witness :
  validate_element all_pass [VRTruthy; VRTrue; VRSkip; VRFalse] tt V0 3
  = (tt, OTrue, [ERun VRTruthy 3 VRTruthy; ESent (Some VRTruthy) 3 VRTruthy;
                 ERun VRTrue 3 VRTrue; ESent (Some VRTrue) 3 VRTrue;
                 ERun VRSkip 3 VRSkip; ESent (Some VRSkip) 3 VRSkip])
  /\ validate_element all_pass [VRTrue; VRSkipAllFalse; VRFalse] tt V0 3
  = (tt, OSkipAllFalse, [ERun VRTrue 3 VRTrue; ESent (Some VRTrue) 3 VRTrue;
                 ERun VRSkipAllFalse 3 VRSkipAllFalse;
                 ESent (Some VRSkipAllFalse) 3 VRSkipAllFalse]).
Proof. split; reflexivity. Qed.

(* C05: with children inside a finite universe the loop ends, whatever the
   validators do, and evaluates each element at most once per direction. *)
Theorem C05_terminates : forall (S val : Type) (w : world S val) U s V root,
  (forall s x, In x U -> incl (w_children w s x) U) -> In root U ->
  exists F r, r <> Err OutOfFuel /\ forall fuel, F <= fuel -> validate w fuel s V root = r.
Proof. exact @validate_terminates. Qed.
Print Assumptions C05_terminates.
Theorem C05_bounded : forall (S val : Type) (w : world S val) U fuel s V root b st,
  (forall s x, In x U -> incl (w_children w s x) U) -> In root U ->
  validate w fuel s V root = Ok (b, st) ->
  List.length (evals (vs_trace st)) <= 2 * List.length U.
Proof. exact @validate_bounded. Qed.
Print Assumptions C05_bounded.
(* the only exception the loop itself can raise is the TypeError of
   `True & falsy-object`, and only when a validator returned such an object *)
Theorem C05_errors : forall (S val : Type) (w : world S val) fuel s V root e,
  validate w fuel s V root = Err e -> e = OutOfFuel
  \/ (e = TypeErr /\ exists v s V el s', w_run w v s V el = (s', VRFalsy)).
Proof. exact @validate_errors. Qed.
Print Assumptions C05_errors.
(* C05: validators that do not look at .valid: what was marked before has no
   influence on the verdict, the effects, what is run, nor on the markings of
   the visited elements. *)
Theorem C05_forgets : forall (S val : Type) (w : world S val) fuel s V V' root,
  (forall v s V V' el, w_run w v s V el = w_run w v s V' el) ->
  match validate w fuel s V root, validate w fuel s V' root with
  | Ok (b, st), Ok (b', st') =>
      b = b' /\ vs_s st = vs_s st' /\ vs_trace st = vs_trace st'
      /\ forall x d o, In (x, d, o) (evals (vs_trace st)) -> vs_V st x = vs_V st' x
  | Err e, Err e' => e = e'
  | _, _ => False
  end.
Proof. exact @validate_forgets. Qed.
Print Assumptions C05_forgets.
(* C05: if validators and receivers have no effects either, validating again
   says the same, runs the same and leaves every marking as it is. *)
Theorem C05_again : forall (S val : Type) (w : world S val) fuel s V root b st,
  (forall v s V V' el, w_run w v s V el = w_run w v s V' el) ->
  (forall v s V el, fst (w_run w v s V el) = s) -> (forall fn s el r, w_notify w fn s el r = s) ->
  validate w fuel s V root = Ok (b, st) ->
  vs_s st = s /\ exists st', validate w fuel (vs_s st) (vs_V st) root = Ok (b, st')
    /\ vs_trace st' = vs_trace st /\ forall x, vs_V st' x = vs_V st x.
Proof. exact @validate_again. Qed.
Print Assumptions C05_again.
Example C05_again_witness :
  (forall v s V V' el, w_run two_skips v s V el = w_run two_skips v s V' el)
  /\ (forall v s V el, fst (w_run two_skips v s V el) = s)
  /\ (forall fn s el r, w_notify two_skips fn s el r = s)
  /\ exists st, validate two_skips 10 tt V0 0 = Ok (false, st) /\ vs_V st 2 = Invalid.
Proof. split; [easy|]. split; [now intros v []|]. split; [now intros fn []|]. eexists. split; reflexivity. Qed.
Example C05_witness :
  (forall s x, In x [0;1;2;3] -> incl (w_children all_pass s x) [0;1;2;3]) /\ In 0 [0;1;2;3].
Proof.
  split; [|now left]. intros s x Hx y Hy. simpl in Hx.
  intuition; subst; simpl in *; intuition.
Qed.
Example C05_errors_witness :
  validate (demo (fun _ => Some [VRFalsy]) (fun _ => None)) 10 tt V0 0 = Err TypeErr.
Proof. reflexivity. Qed.

(* C06: recurse=False does not agree with validate() on childless elements. *)
Theorem C06_flat_agrees_refuted : exists (w : world unit vres) el,
  (forall s, w_children w s el = [])
  /\ exists st, validate w 10 tt V0 el = Ok (false, st) /\ vs_V st el = Invalid
  /\ fst (fst (fst (validate_flat w tt V0 el))) = Valid.
Proof. exact flat_disagrees. Qed.
Print Assumptions C06_flat_agrees_refuted.
(* It runs the same validators with the same effects, and agrees on the verdict
   except exactly when descent fails and ascent passes. *)
Theorem C06_flat_agrees : forall (S val : Type) (w : world S val) fuel s V el b st,
  (forall s, w_children w s el = []) ->
  validate w fuel s V el = Ok (b, st) ->
  let '(v, s', V', tr) := validate_flat w s V el in
  s' = vs_s st /\ evals tr = evals (vs_trace st)
  /\ (forall x, x <> el -> V' x = vs_V st x) /\ V' el = v
  /\ (vs_V st el = v <->
      ~ (exists d u, In (el, true, d) (evals tr) /\ In (el, false, u) (evals tr)
                     /\ o_bool d = false /\ u <> OUneval /\ o_bool u = true)).
Proof. exact @validate_flat_agrees. Qed.
Print Assumptions C06_flat_agrees.
Example C06_witness :
  (forall s, w_children all_pass s 3 = [])
  /\ (exists st, validate all_pass 10 tt V0 3 = Ok (true, st))
  /\ fst (fst (fst (validate_flat all_pass tt V0 3))) = Valid.
Proof. repeat split. eexists; reflexivity. Qed.

(* C07: all_children, with the element itself put in front, is a breadth-first
   listing of everything reachable; so the element itself is not in it. *)
Theorem C07_all_children : forall ch fuel self D,
  all_children ch fuel self = Ok D -> breadth_first ch self (self :: D) /\ ~ In self D.
Proof. exact all_children_bfs_self. Qed.
Print Assumptions C07_all_children.
Theorem C07_all_children_terminates : forall ch U self,
  (forall x, In x U -> incl (ch x) U) -> In self U ->
  exists F D, forall fuel, F <= fuel -> all_children ch fuel self = Ok D.
Proof. exact all_children_terminates. Qed.
Print Assumptions C07_all_children_terminates.
Theorem C07_get_all_valid : forall ch fuel V self b,
  get_all_valid ch fuel V self = Ok b ->
  (b = true <-> forall x, reachable ch self x -> v_bool (V x) = true).
Proof. exact get_all_valid_spec. Qed.
Print Assumptions C07_get_all_valid.
Theorem C07_set_all_valid : forall ch fuel V self v V',
  set_all_valid ch fuel V self v = Ok V' ->
  forall x, (reachable ch self x -> V' x = v) /\ (~ reachable ch self x -> V' x = V x).
Proof. exact set_all_valid_spec. Qed.
Print Assumptions C07_set_all_valid.
Example C07_witness :
  all_children (w_children all_pass tt) 10 0 = Ok [1; 2; 3]
  /\ all_children (w_children all_pass tt) 10 2 = Ok [3; 0; 1]
  /\ get_all_valid (w_children all_pass tt) 10 (upd V0 3 Invalid) 0 = Ok false
  /\ (exists V', set_all_valid (w_children all_pass tt) 10 V0 1 Valid = Ok V'
                 /\ V' 3 = Valid /\ V' 0 = Uneval).
Proof. repeat split. eexists. repeat split. Qed.
