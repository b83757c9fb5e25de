(* Model of validating a form: Element.validate() of flatland/schema/base.py with
   the validators of flatland/validation, which read the form and record
   messages on the element they are given (validation/base.py Validator).

   Here validators decide from what the form holds, and change nothing but the
   messages; messages do not mention messages.  Those that also set the element
   (telephone numbers, canonical URLs) are outside. *)
From Verif Require Import PyBase ModelValidate ModelRaise ModelMessage ModelValidators.

(* validation/base.py:17-36: a validator: its attributes, where the fields of its
   messages are found for each element, and what its validate() decides *)
Record rule := Rule { ru_self : attrs; ru_context : id -> context; ru_verdict : id -> res verdict }.
(* schema/base.py:72-78, 127-128, 765-766, 819, 890-929: what validate() reads of
   the elements of a form; [f_down], [f_up] as in ModelValidate *)
Record form := Form {
  f_children : id -> list id; f_is_empty : id -> bool; f_optional : id -> bool; f_container : id -> bool;
  f_down : id -> option (list rule); f_up : id -> option (list rule) }.

(* schema/base.py:131-132, 617-625: the errors of every element *)
Definition messages := id -> list str.
(* schema/base.py:617-620: the errors of one element change *)
Definition put (s : messages) (el : id) (l : list str) : messages := fun x => if Nat.eqb x el then l else s x.
(* validation/base.py:31-33 __call__: the errors afterwards, and the result *)
Definition call (r : rule) (s : messages) (el : id) : messages * res bool :=
  let '(l, b) := report (ru_self r) (ru_context r el) (s el) (ru_verdict r el) in (put s el l, b).
(* schema/base.py:890-929: nobody listens to validator_validated *)
Definition form_world (f : form) : world messages rule :=
  {| w_children := fun _ => f_children f; w_is_empty := fun _ => f_is_empty f; w_optional := fun _ => f_optional f;
     w_container := f_container f; w_down := fun _ => f_down f; w_up := fun _ => f_up f;
     w_run := fun r s _ el => let '(s', b) := call r s el in (s', match b with Ok true => VRTrue | _ => VRFalse end);
     w_receivers := fun _ => false; w_notify := fun _ s _ _ => s |}.
(* validation/base.py:31-33: a call that raises *)
Definition form_rworld (f : form) : rworld messages rule :=
  RWorld (form_world f) (fun r s _ el => let '(s', b) := call r s el in match b with Ok _ => None | Err e => Some (s', e) end).
(* schema/base.py:768-833 root.validate(): the errors and .valid of every element
   afterwards, and the verdict or exception *)
Definition validate_form (f : form) (fuel : nat) (errors : messages) (V : id -> vstat) (root : id) : messages * (id -> vstat) * res bool :=
  let '(st, r) := validate_r (form_rworld f) fuel errors V root in (vs_s st, vs_V st, r).
(* schema/base.py:785-797 el.validate(recurse=False) *)
Definition validate_alone (f : form) (errors : messages) (V : id -> vstat) (el : id) : messages * (id -> vstat) * res vstat :=
  let '(r, s, V', _) := validate_flat_r (form_rworld f) errors V el in (s, V', r).
