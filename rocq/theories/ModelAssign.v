(* Model of element validation with validators and receivers that may do
   anything: assign .valid of any element (validators that call validate() of
   another element do), change the children, and raise.  The functions of
   flatland/schema/base.py and containers.py modelled in ModelValidate, with
   .valid in the state that validators can change.  Only the truth of what they
   assign matters to the code, so vstat stands for it. *)
From Verif Require Import PyBase ModelValidate.

(* schema/base.py:774-836: the events of ModelValidate, and element.valid = v
   by validate itself *)
Inductive aevent (val : Type) := AEv (e : event val) | AMark (el : id) (v : vstat).
Arguments AEv {val}. Arguments AMark {val}.

Section Assign.
  Context {S val : Type}.
  (* schema/base.py:774-857 *)
  Record aworld := AWorld {
    a_children : S -> id -> list id;          (* Element.children *)
    a_is_empty : S -> id -> bool;             (* Element.is_empty *)
    a_optional : S -> id -> bool;             (* Element.optional *)
    a_container : id -> bool;                 (* isinstance(el, Container) *)
    a_down : S -> id -> option (list val);    (* as in ModelValidate *)
    a_up : S -> id -> option (list val);
    a_valid : S -> id -> vstat;               (* reading element.valid *)
    a_mark : S -> id -> vstat -> S;           (* assigning it *)
    a_run : val -> S -> id -> S * res vres;   (* a validator returns or raises *)
    a_receivers : S -> bool;                  (* validator_validated.receivers *)
    a_notify : option val -> S -> id -> vres -> S * option exn }.
  Variable w : aworld.

  (* base.py:914-916, 920-922 *)
  Definition send_a (fn : option val) (s : S) (el : id) (r : vres) : S * option exn * list (aevent val) :=
    if a_receivers w s then (a_notify w fn s el r, [AEv (ESent fn el r)]) else (s, None, []).
  (* base.py:918-929 *)
  Fixpoint run_chain_a (vs : list val) (s : S) (el : id) : S * res outcome * list (aevent val) :=
    match vs with
    | [] => (s, Ok OTrue, [])
    | fn :: rest =>
        let '(s1, r) := a_run w fn s el in
        match r with
        | Err e => (s1, Err e, [])
        | Ok r =>
            let '(s2, x, sent) := send_a (Some fn) s1 el r in
            let ev := AEv (ERun fn el r) :: sent in
            match x with
            | Some e => (s2, Err e, ev)
            | None =>
                match r with
                | VRNone => (s2, Ok OFalse, ev)
                | VRSkip => (s2, Ok OTrue, ev)
                | VRFalse => (s2, Ok OFalse, ev)
                | VRSkipAllFalse => (s2, Ok OSkipAllFalse, ev)
                | VRFalsy => (s2, Ok OFalsyObj, ev)
                | VRSkipAll => (s2, Ok OSkipAll, ev)
                | VRTrue | VRTruthy =>
                    let '(s3, o, ev') := run_chain_a rest s2 el in
                    (s3, o, ev ++ ev')
                end
            end
        end
    end.
  (* base.py:890-929 validate_element *)
  Definition validate_element_a (vs : list val) (s : S) (el : id) : S * res outcome * list (aevent val) :=
    if a_is_empty w s el && a_optional w s el then (s, Ok OTrue, [])
    else match vs with
         | [] =>
             let valid := negb (a_is_empty w s el) in
             let '(s1, x, ev) := send_a None s el (if valid then VRTrue else VRFalse) in
             (s1, match x with Some e => Err e | None => Ok (if valid then OTrue else OFalse) end, ev)
         | _ => run_chain_a vs s el
         end.
  (* base.py:835-845 Element._validate, containers.py:122-136 Container._validate *)
  Definition validate_pass_a (descending : bool) (s : S) (el : id) : S * res outcome * list (aevent val) :=
    if descending then
      match a_down w s el with
      | None => (s, Ok OUneval, [])
      | Some vs =>
          match a_container w el, vs with
          | true, [] => (s, Ok OUneval, [])
          | _, _ => validate_element_a vs s el
          end
      end
    else
      match a_up w s el with
      | None => (s, Ok OUneval, [])
      | Some vs => validate_element_a vs s el
      end.
  (* what is assigned for an outcome: base.py:787-790, 811-814 *)
  Definition status (o : outcome) : vstat := match o with OUneval => Uneval | _ => of_bool (o_bool o) end.

  (* schema/base.py:774-857 *)
  Record astate := AState {
    as_s : S;
    as_valid : bool;               (* the local `valid` *)
    as_elements : list id;         (* the local `elements` *)
    as_seen : list id;             (* the local `seen` *)
    as_trace : list (aevent val) }.

  (* base.py:803-819, the descent loop *)
  Fixpoint descend_a (fuel : nat) (queue : list id) (st : astate) : astate * option exn :=
    match queue with
    | [] => (st, None)
    | el :: queue =>
        match fuel with
        | O => (st, Some OutOfFuel)
        | Datatypes.S fuel =>
            if memb Nat.eqb el (as_seen st) then descend_a fuel queue st
            else
              let '(s1, o, ev) := validate_pass_a true (as_s st) el in
              let elements := as_elements st ++ [el] in
              let seen := el :: as_seen st in
              match o with
              | Err e => (AState s1 (as_valid st) elements seen (as_trace st ++ ev), Some e)
              | Ok o =>
                  let s2 := a_mark w s1 el (status o) in
                  let tr := as_trace st ++ ev ++ [AEv (EEval el true o); AMark el (status o)] in
                  match (match o with OUneval => Ok (as_valid st)
                                    | _ => and_valid (as_valid st) o end) with
                  | Err e => (AState s2 (as_valid st) elements seen tr, Some e)
                  | Ok valid =>
                      match o with
                      | OSkipAll | OSkipAllFalse =>
                          descend_a fuel queue (AState s2 valid elements seen tr)
                      | _ =>
                          let kids := a_children w s2 el in
                          descend_a fuel (queue ++ kids)
                            (AState s2 valid elements seen (tr ++ [AEv (EKids el kids)]))
                      end
                  end
              end
        end
    end.
  (* base.py:822-832, the ascent loop *)
  Fixpoint ascend_a (els : list id) (st : astate) : astate * option exn :=
    match els with
    | [] => (st, None)
    | el :: rest =>
        let '(s1, o, ev) := validate_pass_a false (as_s st) el in
        let next s valid tr := AState s valid (as_elements st) (as_seen st) tr in
        match o with
        | Err e => (next s1 (as_valid st) (as_trace st ++ ev), Some e)
        | Ok o =>
            let tr := as_trace st ++ ev ++ [AEv (EEval el false o)] in
            match o with
            | OUneval => ascend_a rest (next s1 (as_valid st) tr)
            | _ =>
                if v_bool (a_valid w s1 el) then
                  let s2 := a_mark w s1 el (of_bool (o_bool o)) in
                  let tr := tr ++ [AMark el (of_bool (o_bool o))] in
                  match and_valid (as_valid st) o with
                  | Err e => (next s2 (as_valid st) tr, Some e)
                  | Ok valid => ascend_a rest (next s2 valid tr)
                  end
                else ascend_a rest (next s1 (as_valid st) tr)
            end
        end
    end.
  (* base.py:799-833 Element.validate(recurse=True): the final state, the
     verdict or the exception *)
  Definition validate_a (fuel : nat) (s : S) (root : id) : astate * res bool :=
    match descend_a fuel [root] (AState s true [] [] []) with
    | (st, Some e) => (st, Err e)
    | (st, None) =>
        match ascend_a (rev (as_elements st)) st with
        | (st, Some e) => (st, Err e)
        | (st, None) => (st, Ok (as_valid st))
        end
    end.
  (* base.py:785-797 Element.validate(recurse=False): the final .valid is
     returned *)
  Definition validate_flat_a (s : S) (el : id) : res vstat * S * list (aevent val) :=
    let '(s1, down, ev1) := validate_pass_a true s el in
    match down with
    | Err e => (Err e, s1, ev1)
    | Ok down =>
        let s2 := a_mark w s1 el (status down) in
        let tr1 := ev1 ++ [AEv (EEval el true down); AMark el (status down)] in
        let '(s3, up, ev2) := validate_pass_a false s2 el in
        match up with
        | Err e => (Err e, s3, tr1 ++ ev2)
        | Ok OUneval => (Ok (a_valid w s3 el), s3, tr1 ++ ev2 ++ [AEv (EEval el false OUneval)])
        | Ok up =>
            let s4 := a_mark w s3 el (of_bool (o_bool up)) in
            (Ok (a_valid w s4 el), s4, tr1 ++ ev2 ++ [AEv (EEval el false up); AMark el (of_bool (o_bool up))])
        end
    end.
End Assign.
Arguments aworld : clear implicits.
Arguments astate : clear implicits.
