(* Model of element validation: flatland/schema/base.py Element.validate,
   Element._validate, validate_element, all_children, all_valid, and
   Container._validate of flatland/schema/containers.py.

   Elements are object identities (nat, Python's id()).  Everything a
   validator can touch is an abstract state [S]; a validator is an oracle that
   may read the state and the current .valid markings and returns a new state
   and a result.  Validators here do not themselves assign .valid and do
   not raise: ModelRaise and ModelAssign are without these restrictions. *)
From Verif Require Import PyBase.

(* Python's id(element), schema/base.py:805 *)
Definition id := nat.

(* What a validator may return.  [VRTruthy] / [VRFalsy] are objects other
   than bools and the Skip constants (base.py:25-45) with that truth value;
   [VRFalsy] additionally does not support `bool & obj`. *)
Inductive vres :=
| VRNone | VRTrue | VRFalse | VRSkip | VRSkipAll | VRSkipAllFalse
| VRTruthy | VRFalsy.

(* schema/base.py:835-845, 910-929: What _validate returns: Unevaluated, True,
   False, SkipAll, SkipAllFalse or some other false object. *)
Inductive outcome :=
| OUneval | OTrue | OFalse | OSkipAll | OSkipAllFalse | OFalsyObj.

(* bool(outcome); Unevaluated and SkipAll are ints equal to 1
   (base.py:29-53) *)
Definition o_bool (o : outcome) : bool :=
  match o with
  | OUneval | OTrue | OSkipAll => true
  | OFalse | OSkipAllFalse | OFalsyObj => false
  end.

(* schema/base.py:133, 788-796, 812-814, 830: Element.valid *)
Inductive vstat := Uneval | Valid | Invalid.
(* schema/base.py:829 the truth of .valid *)
Definition v_bool (v : vstat) : bool :=
  match v with Invalid => false | _ => true end.
(* schema/base.py:790, 796, 814, 830 bool(validated) *)
Definition of_bool (b : bool) : vstat := if b then Valid else Invalid.

(* schema/base.py:786, 792, 809, 819, 823, 915-916, 919, 921-922: Observable
   events, in order of occurrence. *)
Inductive event (val : Type) :=
| ERun (fn : val) (el : id) (r : vres)            (* a validator was called *)
| ESent (fn : option val) (el : id) (r : vres)    (* validator_validated sent;
                                                     None = sender NotEmpty *)
| EEval (el : id) (descending : bool) (o : outcome)  (* _validate returned o *)
| EKids (el : id) (kids : list id).               (* children were queued *)
Arguments ERun {val}. Arguments ESent {val}.
Arguments EEval {val}. Arguments EKids {val}.

Section Validate.
  Context {S val : Type}.
  (* schema/base.py:72-78, 127-128, 765-766, 819, 914-922: the elements and
     validators: everything may depend on the state *)
  Record world := World {
    w_children : S -> id -> list id;          (* Element.children *)
    w_is_empty : S -> id -> bool;             (* Element.is_empty *)
    w_optional : S -> id -> bool;             (* Element.optional *)
    w_container : id -> bool;                 (* isinstance(el, Container) *)
    w_down : S -> id -> option (list val);    (* None: validates_down falsy;
                        Some l: getattr(self, self.validates_down, None), with
                        None and () both Some [] *)
    w_up : S -> id -> option (list val);      (* same for validates_up *)
    w_run : val -> S -> (id -> vstat) -> id -> S * vres;
    w_receivers : S -> bool;                  (* validator_validated.receivers *)
    w_notify : option val -> S -> id -> vres -> S }.

  Variable w : world.

  (* validator_validated.send, guarded by the receivers test
     (base.py:914-916, 920-922) *)
  Definition send (fn : option val) (s : S) (el : id) (r : vres)
    : S * list (event val) :=
    if w_receivers w s then (w_notify w fn s el r, [ESent fn el r])
    else (s, []).

  (* base.py:918-929 *)
  Fixpoint run_chain (vs : list val) (s : S) (V : id -> vstat) (el : id)
    : S * outcome * list (event val) :=
    match vs with
    | [] => (s, OTrue, [])
    | fn :: rest =>
        let '(s1, r) := w_run w fn s V el in
        let '(s2, sent) := send (Some fn) s1 el r in
        let ev := ERun fn el r :: sent in
        match r with
        | VRNone => (s2, OFalse, ev)
        | VRSkip => (s2, OTrue, ev)
        | VRFalse => (s2, OFalse, ev)
        | VRSkipAllFalse => (s2, OSkipAllFalse, ev)
        | VRFalsy => (s2, OFalsyObj, ev)
        | VRSkipAll => (s2, OSkipAll, ev)
        | VRTrue | VRTruthy =>
            let '(s3, o, ev') := run_chain rest s2 V el in
            (s3, o, ev ++ ev')
        end
    end.

  (* base.py:890-929 validate_element *)
  Definition validate_element (vs : list val) (s : S) (V : id -> vstat)
             (el : id) : S * outcome * list (event val) :=
    if w_is_empty w s el && w_optional w s el then (s, OTrue, [])
    else match vs with
         | [] =>
             let valid := negb (w_is_empty w s el) in
             let '(s1, ev) := send None s el (if valid then VRTrue else VRFalse) in
             (s1, if valid then OTrue else OFalse, ev)
         | _ => run_chain vs s V el
         end.

  (* base.py:835-845 Element._validate and containers.py:122-136
     Container._validate (no fallback on the way down) *)
  Definition validate_pass (descending : bool) (s : S) (V : id -> vstat)
             (el : id) : S * outcome * list (event val) :=
    if descending then
      match w_down w s el with
      | None => (s, OUneval, [])
      | Some vs =>
          match w_container w el, vs with
          | true, [] => (s, OUneval, [])
          | _, _ => validate_element vs s V el
          end
      end
    else
      match w_up w s el with
      | None => (s, OUneval, [])
      | Some vs => validate_element vs s V el
      end.

  (* schema/base.py:788-796, 812-814, 830 assigning .valid *)
  Definition upd (V : id -> vstat) (el : id) (v : vstat) : id -> vstat :=
    fun x => if Nat.eqb x el then v else V x.

  (* schema/base.py:815-816, 831-832: `if valid: valid &= validated`:
     ANDing a bool with an object that is not an int is TypeError *)
  Definition and_valid (valid : bool) (o : outcome) : res bool :=
    if valid then match o with OFalsyObj => Err TypeErr | _ => Ok (o_bool o) end
    else Ok false.

  (* the local variables of schema/base.py:799-833 *)
  Record vstate := VState {
    vs_s : S;
    vs_V : id -> vstat;            (* .valid of every element *)
    vs_valid : bool;               (* the local `valid` *)
    vs_elements : list id;         (* the local `elements` *)
    vs_seen : list id;             (* the local `seen` *)
    vs_trace : list (event val) }.

  (* base.py:803-819, the descent loop *)
  Fixpoint descend (fuel : nat) (queue : list id) (st : vstate) : res vstate :=
    match queue with
    | [] => Ok st
    | el :: queue =>
        match fuel with
        | O => Err OutOfFuel
        | Datatypes.S fuel =>
            if memb Nat.eqb el (vs_seen st) then descend fuel queue st
            else
              let '(s1, o, ev) := validate_pass true (vs_s st) (vs_V st) el in
              let elements := vs_elements st ++ [el] in
              let seen := el :: vs_seen st in
              let V1 := upd (vs_V st) el
                            (match o with OUneval => Uneval
                                        | _ => of_bool (o_bool o) end) in
              let tr := vs_trace st ++ ev ++ [EEval el true o] in
              match (match o with OUneval => Ok (vs_valid st)
                                | _ => and_valid (vs_valid st) o end) with
              | Err e => Err e
              | Ok valid =>
                  match o with
                  | OSkipAll | OSkipAllFalse =>
                      descend fuel queue (VState s1 V1 valid elements seen tr)
                  | _ =>
                      let kids := w_children w s1 el in
                      descend fuel (queue ++ kids)
                        (VState s1 V1 valid elements seen (tr ++ [EKids el kids]))
                  end
              end
        end
    end.

  (* base.py:822-832, the ascent loop over reversed(elements) *)
  Fixpoint ascend (els : list id) (st : vstate) : res vstate :=
    match els with
    | [] => Ok st
    | el :: rest =>
        let '(s1, o, ev) := validate_pass false (vs_s st) (vs_V st) el in
        let tr := vs_trace st ++ ev ++ [EEval el false o] in
        match o with
        | OUneval =>
            ascend rest (VState s1 (vs_V st) (vs_valid st) (vs_elements st)
                                (vs_seen st) tr)
        | _ =>
            if v_bool (vs_V st el) then
              match and_valid (vs_valid st) o with
              | Err e => Err e
              | Ok valid =>
                  ascend rest (VState s1 (upd (vs_V st) el (of_bool (o_bool o)))
                                      valid (vs_elements st) (vs_seen st) tr)
              end
            else ascend rest (VState s1 (vs_V st) (vs_valid st)
                                     (vs_elements st) (vs_seen st) tr)
        end
    end.

  (* base.py:799-833 Element.validate(recurse=True): the returned verdict and
     the final state *)
  Definition validate (fuel : nat) (s : S) (V : id -> vstat) (root : id)
    : res (bool * vstate) :=
    bind (descend fuel [root] (VState s V true [] [] []))
         (fun st => bind (ascend (rev (vs_elements st)) st)
                         (fun st' => Ok (vs_valid st', st'))).

  (* base.py:785-797 Element.validate(recurse=False); the value returned is
     the final .valid *)
  Definition validate_flat (s : S) (V : id -> vstat) (el : id)
    : vstat * S * (id -> vstat) * list (event val) :=
    let '(s1, down, ev1) := validate_pass true s V el in
    let V1 := upd V el (match down with OUneval => Uneval
                                      | _ => of_bool (o_bool down) end) in
    let '(s2, up, ev2) := validate_pass false s1 V1 el in
    let V2 := match up with OUneval => V1
                          | _ => upd V1 el (of_bool (o_bool up)) end in
    (V2 el, s2, V2, ev1 ++ [EEval el true down] ++ ev2 ++ [EEval el false up]).
End Validate.
Arguments world : clear implicits.
Arguments vstate : clear implicits.

(* ------------------------------------------------------------------ *)
(* base.py:407-418 Element.all_children over a children function *)
Fixpoint all_children_loop (children : id -> list id) (fuel : nat)
         (seen queue : list id) : res (list id) :=
  match queue with
  | [] => Ok []
  | el :: queue =>
      match fuel with
      | O => Err OutOfFuel
      | S fuel =>
          if memb Nat.eqb el seen then all_children_loop children fuel seen queue
          else rmap (cons el)
                 (all_children_loop children fuel (el :: seen)
                                    (queue ++ children el))
      end
  end.
(* schema/base.py:407-418 *)
Definition all_children (children : id -> list id) (fuel : nat) (self : id)
  : res (list id) :=
  all_children_loop children fuel [self] (children self).

(* base.py:364-371 reading all_valid *)
Definition get_all_valid (children : id -> list id) (fuel : nat)
           (V : id -> vstat) (self : id) : res bool :=
  if negb (v_bool (V self)) then Ok false
  else rmap (forallb (fun el => v_bool (V el))) (all_children children fuel self).

(* base.py:373-376 assigning all_valid *)
Definition set_all_valid (children : id -> list id) (fuel : nat)
           (V : id -> vstat) (self : id) (v : vstat) : res (id -> vstat) :=
  let V1 := upd V self v in
  rmap (fun els => fold_left (fun V el => upd V el v) els V1)
       (all_children children fuel self).

(* ------------------------------------------------------------------ *)
(* Observations on a trace. *)
Section Observe.
  Context {val : Type}.
  (* the calls of _validate at schema/base.py:786, 792, 809, 823: the
     evaluations, in order: element, descending?, outcome *)
  Definition evals (tr : list (event val)) : list (id * bool * outcome) :=
    flat_map (fun e => match e with EEval el d o => [(el, d, o)] | _ => [] end) tr.
  (* the queueing at schema/base.py:819: the children that were queued for an
     element *)
  Definition kids_of (tr : list (event val)) (x : id) : list id :=
    flat_map (fun e => match e with
                       | EKids el ks => if Nat.eqb el x then ks else []
                       | _ => [] end) tr.
  (* the calls at schema/base.py:786, 792, 809, 823, 915-922: validator calls
     and notifications concern element x *)
  Definition touches (x : id) (e : event val) : Prop :=
    match e with ERun _ el _ | ESent _ el _ | EEval el _ _ => el = x | EKids _ _ => False end.
End Observe.
