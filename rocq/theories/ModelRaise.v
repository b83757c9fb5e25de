(* Model of element validation with validators that raise: the functions of
   flatland/schema/base.py and containers.py modelled in ModelValidate, with the
   state they leave behind when an exception passes through them.  Exceptions of
   receivers of validator_validated, and validators that assign .valid, are in
   ModelAssign. *)
From Verif Require Import PyBase ModelValidate.

Section Raise.
  Context {S val : Type}.
  (* schema/base.py:774-857: the elements and validators as before; a validator
     either raises, leaving a state behind, or does what [r_world] says *)
  Record rworld := RWorld {
    r_world : world S val;
    r_raise : val -> S -> (id -> vstat) -> id -> option (S * exn) }.
  Variable wr : rworld.
  Let w := r_world wr.

  (* base.py:918-929 *)
  Fixpoint run_chain_r (vs : list val) (s : S) (V : id -> vstat) (el : id)
    : S * res outcome * list (event val) :=
    match vs with
    | [] => (s, Ok OTrue, [])
    | fn :: rest =>
        match r_raise wr fn s V el with
        | Some (s1, e) => (s1, Err e, [])
        | None =>
            let '(s1, r) := w_run w fn s V el in
            let '(s2, sent) := send w (Some fn) s1 el r in
            let ev := ERun fn el r :: sent in
            match r with
            | VRNone => (s2, Ok OFalse, ev)
            | VRSkip => (s2, Ok OTrue, ev)
            | VRFalse => (s2, Ok OFalse, ev)
            | VRSkipAllFalse => (s2, Ok OSkipAllFalse, ev)
            | VRFalsy => (s2, Ok OFalsyObj, ev)
            | VRSkipAll => (s2, Ok OSkipAll, ev)
            | VRTrue | VRTruthy =>
                let '(s3, o, ev') := run_chain_r rest s2 V el in
                (s3, o, ev ++ ev')
            end
        end
    end.
  (* base.py:890-929 validate_element *)
  Definition validate_element_r (vs : list val) (s : S) (V : id -> vstat) (el : id)
    : S * res outcome * list (event val) :=
    if w_is_empty w s el && w_optional w s el then (s, Ok OTrue, [])
    else match vs with
         | [] =>
             let valid := negb (w_is_empty w s el) in
             let '(s1, ev) := send w None s el (if valid then VRTrue else VRFalse) in
             (s1, Ok (if valid then OTrue else OFalse), ev)
         | _ => run_chain_r vs s V el
         end.
  (* base.py:835-845 Element._validate, containers.py:122-136 Container._validate *)
  Definition validate_pass_r (descending : bool) (s : S) (V : id -> vstat) (el : id)
    : S * res outcome * list (event val) :=
    if descending then
      match w_down w s el with
      | None => (s, Ok OUneval, [])
      | Some vs =>
          match w_container w el, vs with
          | true, [] => (s, Ok OUneval, [])
          | _, _ => validate_element_r vs s V el
          end
      end
    else
      match w_up w s el with
      | None => (s, Ok OUneval, [])
      | Some vs => validate_element_r vs s V el
      end.

  (* base.py:803-819, the descent loop: the state it ends with, and the
     exception if there is one.  The exception of a validator comes before the
     element is marked, that of `valid &= validated` after. *)
  Fixpoint descend_r (fuel : nat) (queue : list id) (st : vstate S val) : vstate S val * option exn :=
    match queue with
    | [] => (st, None)
    | el :: queue =>
        match fuel with
        | O => (st, Some OutOfFuel)
        | Datatypes.S fuel =>
            if memb Nat.eqb el (vs_seen st) then descend_r fuel queue st
            else
              let '(s1, o, ev) := validate_pass_r true (vs_s st) (vs_V st) el in
              let elements := vs_elements st ++ [el] in
              let seen := el :: vs_seen st in
              match o with
              | Err e => (VState s1 (vs_V st) (vs_valid st) elements seen (vs_trace st ++ ev), Some e)
              | Ok o =>
                  let V1 := upd (vs_V st) el
                                (match o with OUneval => Uneval
                                            | _ => of_bool (o_bool o) end) in
                  let tr := vs_trace st ++ ev ++ [EEval el true o] in
                  match (match o with OUneval => Ok (vs_valid st)
                                    | _ => and_valid (vs_valid st) o end) with
                  | Err e => (VState s1 V1 (vs_valid st) elements seen tr, Some e)
                  | Ok valid =>
                      match o with
                      | OSkipAll | OSkipAllFalse =>
                          descend_r fuel queue (VState s1 V1 valid elements seen tr)
                      | _ =>
                          let kids := w_children w s1 el in
                          descend_r fuel (queue ++ kids)
                            (VState s1 V1 valid elements seen (tr ++ [EKids el kids]))
                      end
                  end
              end
        end
    end.
  (* base.py:822-832, the ascent loop *)
  Fixpoint ascend_r (els : list id) (st : vstate S val) : vstate S val * option exn :=
    match els with
    | [] => (st, None)
    | el :: rest =>
        let '(s1, o, ev) := validate_pass_r false (vs_s st) (vs_V st) el in
        let next V valid tr := VState s1 V valid (vs_elements st) (vs_seen st) tr in
        match o with
        | Err e => (next (vs_V st) (vs_valid st) (vs_trace st ++ ev), Some e)
        | Ok o =>
            let tr := vs_trace st ++ ev ++ [EEval el false o] in
            match o with
            | OUneval => ascend_r rest (next (vs_V st) (vs_valid st) tr)
            | _ =>
                if v_bool (vs_V st el) then
                  let V1 := upd (vs_V st) el (of_bool (o_bool o)) in
                  match and_valid (vs_valid st) o with
                  | Err e => (next V1 (vs_valid st) tr, Some e)
                  | Ok valid => ascend_r rest (next V1 valid tr)
                  end
                else ascend_r rest (next (vs_V st) (vs_valid st) tr)
            end
        end
    end.
  (* base.py:799-833 Element.validate(recurse=True): the final state, the
     verdict or the exception *)
  Definition validate_r (fuel : nat) (s : S) (V : id -> vstat) (root : id) : vstate S val * res bool :=
    match descend_r fuel [root] (VState s V true [] [] []) with
    | (st, Some e) => (st, Err e)
    | (st, None) =>
        match ascend_r (rev (vs_elements st)) st with
        | (st, Some e) => (st, Err e)
        | (st, None) => (st, Ok (vs_valid st))
        end
    end.
  (* base.py:785-797 Element.validate(recurse=False) *)
  Definition validate_flat_r (s : S) (V : id -> vstat) (el : id)
    : res vstat * S * (id -> vstat) * list (event val) :=
    let '(s1, down, ev1) := validate_pass_r true s V el in
    match down with
    | Err e => (Err e, s1, V, ev1)
    | Ok down =>
        let V1 := upd V el (match down with OUneval => Uneval
                                          | _ => of_bool (o_bool down) end) in
        let '(s2, up, ev2) := validate_pass_r false s1 V1 el in
        match up with
        | Err e => (Err e, s2, V1, ev1 ++ [EEval el true down] ++ ev2)
        | Ok up =>
            let V2 := match up with OUneval => V1
                                  | _ => upd V1 el (of_bool (o_bool up)) end in
            (Ok (V2 el), s2, V2, ev1 ++ [EEval el true down] ++ ev2 ++ [EEval el false up])
        end
    end.
End Raise.
Arguments rworld : clear implicits.
Arguments RWorld {S val}.
