(* The assertions about validation of tests/schema/test_base.py,
   tests/schema/test_containers.py, tests/validation/test_signals.py and
   tests/test_validation.py, computed on the model of validation.  The
   validators of these tests give the results written in the tests; what the
   real validators give is in TestsValidators. *)
From Verif Require Import PyBase ModelValidate.
Local Open Scope string_scope.

(* An element: whether it is a container, is empty, is optional, its children,
   descent_validators and validators.  A validator: its name and what it
   returns. *)
Record el := El {
  container : bool; empty : bool; optional : bool; kids : list id;
  descent : list (string * vres); ups : list (string * vres) }.
(* validates_down and validates_up are those of a Scalar (scalars.py:29) or a
   Container (containers.py:49-50) *)
Definition world_of (receivers : bool) (els : list el) : world unit (string * vres) :=
  let at_ {A} (f : el -> A) (d : A) (i : id) := match nth_error els i with Some e => f e | None => d end in
  World (fun _ i => at_ kids [] i) (fun _ i => at_ empty false i) (fun _ i => at_ optional false i)
        (fun i => at_ container false i)
        (fun _ i => at_ (fun e => Some (if container e then descent e else ups e)) None i)
        (fun _ i => at_ (fun e => if container e then Some (ups e) else None) None i)
        (fun fn s _ _ => (s, snd fn)) (fun _ => receivers) (fun _ s _ _ => s).
(* element.validate(): the verdict, .valid of every element and the validators
   called *)
Definition called (tr : list (event (string * vres))) : list string :=
  flat_map (fun e => match e with ERun fn _ _ => [fst fn] | _ => [] end) tr.
Definition run (els : list el) : res (bool * list vstat * list string) :=
  rmap (fun '(b, st) => (b, map (vs_V st) (seq 0 (List.length els)), called (vs_trace st)))
       (validate (world_of false els) 50 tt (fun _ => Uneval) 0).

(* tests/schema/test_base.py test_validation *)
Definition single (l : list vres) : list el := [El false false false [] [] (map (fun r => ("", r)) l)].
Definition verdict (l : list vres) : res (bool * list vstat) := rmap fst (run (single l)).
Example test_validation :
  map verdict
    [[VRTrue]; [VRTrue; VRTrue]; [VRSkip]; [VRSkip; VRFalse]; [VRTrue; VRSkip; VRFalse]; [VRSkipAll]; [VRSkipAll; VRFalse]]
  = repeat (Ok (true, [Valid])) 7
  /\ map verdict
    [[VRNone]; [VRTrue; VRNone]; [VRFalse]; [VRTrue; VRFalse]; [VRTrue; VRFalse; VRTrue]; [VRSkipAllFalse];
     [VRTrue; VRSkipAllFalse; VRTrue]]
  = repeat (Ok (false, [Invalid])) 7.
Proof. split; vm_compute; reflexivity. Qed.
(* test_validator_return: 1 is a truthy object and 0 an int, that is false *)
Example test_validator_return :
  map verdict [[VRTrue]; [VRTruthy]; [VRSkip]; [VRSkipAll]] = repeat (Ok (true, [Valid])) 4
  /\ map verdict [[VRFalse]; [VRNone]; [VRSkipAllFalse]] = repeat (Ok (false, [Invalid])) 3
  /\ map verdict [[VRFalsy]] = [Err TypeErr].
Proof. repeat split; vm_compute; reflexivity. Qed.

(* tests/schema/test_containers.py test_simple_validation_shortcircuit, class
   TestContainerValidation: a Dict of one Integer that is not set *)
Definition dict_of (descent ups inner : list (string * vres)) : list el :=
  [El true false false [1] descent ups; El false true false [] [] inner].
Example test_shortcircuit :
  rmap (fun x => fst (fst x)) (run (dict_of [] [] [])) = Ok false
  /\ rmap (fun x => fst (fst x)) (run (dict_of [("all_ok", VRSkipAll)] [] [("boom", VRFalsy)])) = Ok true.
Proof. split; vm_compute; reflexivity. Qed.
Example test_container_validation :
  (* test_regular *)
  run (dict_of [] [("1", VRTrue)] []) = Ok (false, [Valid; Invalid], ["1"])
  (* test_descent *)
  /\ run (dict_of [("1", VRTrue)] [] []) = Ok (false, [Valid; Invalid], ["1"])
  (* test_paired, test_paired2, test_paired3 *)
  /\ run (dict_of [("1", VRTrue)] [("2", VRTrue)] []) = Ok (false, [Valid; Invalid], ["1"; "2"])
  /\ run (dict_of [("1", VRFalse)] [("2", VRTrue)] []) = Ok (false, [Invalid; Invalid], ["1"; "2"])
  /\ run (dict_of [("1", VRTrue)] [("3", VRTrue)] [("2", VRTrue)]) = Ok (true, [Valid; Valid], ["1"; "2"; "3"])
  (* test_shortcircuit_down_true, test_shortcircuit_down_false *)
  /\ run (dict_of [("1", VRSkipAll)] [("3", VRTrue)] [("2", VRFalse)]) = Ok (true, [Valid; Uneval], ["1"; "3"])
  /\ run (dict_of [("1", VRSkipAllFalse)] [("3", VRTrue)] [("2", VRTrue)]) = Ok (false, [Invalid; Uneval], ["1"; "3"])
  (* test_shortcircuit_up *)
  /\ run (dict_of [("1", VRTrue)] [("3", VRSkipAll)] [("2", VRTrue)]) = Ok (true, [Valid; Valid], ["1"; "2"; "3"]).
Proof. repeat split; vm_compute; reflexivity. Qed.
(* element.all_valid *)
Example test_all_valid :
  let all v := get_all_valid (fun i => if Nat.eqb i 0 then [1] else []) 10 v 0 in
  all (fun _ => Valid) = Ok true
  /\ all (fun i => if Nat.eqb i 0 then Valid else Invalid) = Ok false
  /\ all (fun i => if Nat.eqb i 0 then Valid else Uneval) = Ok true
  /\ all (fun i => if Nat.eqb i 0 then Invalid else Uneval) = Ok false.
Proof. repeat split; vm_compute; reflexivity. Qed.

(* tests/validation/test_signals.py test_validator_validated: what is sent *)
Definition sent (e : el) : res (bool * list (option string * vres)) :=
  rmap (fun '(b, st) => (b, flat_map (fun x => match x with ESent fn _ r => [(option_map fst fn, r)] | _ => [] end)
                                     (vs_trace st)))
       (validate (world_of true [e]) 50 tt (fun _ => Uneval) 0).
Example test_validator_validated :
  let p := "Present" in let c := "Converted" in let n := "NoLongerThan(5)" in
  sent (El false true false [] [] [(p, VRFalse); (c, VRFalse); (n, VRTrue)]) = Ok (false, [(Some p, VRFalse)])
  /\ sent (El false false false [] [] [(p, VRTrue); (c, VRTrue); (n, VRTrue)])
     = Ok (true, [(Some p, VRTrue); (Some c, VRTrue); (Some n, VRTrue)])
  /\ sent (El false false false [] [] [(p, VRTrue); (c, VRTrue); (n, VRFalse)])
     = Ok (false, [(Some p, VRTrue); (Some c, VRTrue); (Some n, VRFalse)])
  /\ sent (El false true false [] [] []) = Ok (false, [(None, VRFalse)])
  /\ sent (El false false false [] [] []) = Ok (true, [(None, VRTrue)]).
Proof. repeat split; vm_compute; reflexivity. Qed.

(* tests/test_validation.py test_child_validation, test_nested_validation: a
   Form of x and of d2, a Dict of x2 *)
Definition form (x x2 : bool) : list el :=
  let field b := El false (negb b) false [] [] [("Present", if b then VRTrue else VRFalse)] in
  [El true false false [1; 2] [] []; field x; El true false false [3] [] []; field x2].
Example test_nested_validation :
  rmap (fun x => fst (fst x)) (run (form false false)) = Ok false
  /\ rmap (fun x => fst (fst x)) (run (form true false)) = Ok false
  /\ rmap (fun x => fst (fst x)) (run (form true true)) = Ok true
  /\ (let '(v, _, _, _) := validate_flat (world_of false (form true false)) tt (fun _ => Uneval) 0 in v) = Valid.
Proof. repeat split; vm_compute; reflexivity. Qed.
