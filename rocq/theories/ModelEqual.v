(* Model of validating an element of ModelCheck by UnisEqual and ValuesEqual
   (flatland/validation/scalars.py), with the fields found by their paths. *)
From Verif Require Import PyBase ModelScalar ModelMessage ModelValidators ModelCompound ModelPaths ModelLink ModelFlat ModelCheck.

(* schema/scalars.py:72-84, compound.py:323-325: .value of scalars and JoinedStrings; other
   elements are not compared by value here *)
Definition own_value (e : element) : pyval :=
  match e with
  | EScalar _ st => s_value st
  | EJoined _ j l => VText (joined_value (j_glue j) l)
  | _ => VNone
  end.
(* validation/scalars.py:565-573: value, text and label of the element at a location;
   [label] gives the label of the element at a place.  Texts of Dicts, Lists and Arrays are not
   treated. *)
Definition described (root : node) (label : list nat -> str) (x : elem) : found :=
  match x with
  | ModelPaths.Node q =>
      match part (nd_element root) q with
      | Some u => ModelValidators.Found (own_value u) (match own_text u with Some t => t | None => [] end) (label (rev q))
      | None => ModelValidators.Found VNone [] []
      end
  | SlotOf _ => ModelValidators.Found VNone [] []
  end.
(* validation/scalars.py:564-614: UnisEqual(path, ...) is with MU, ValuesEqual(path, ...) with
   MValue *)
Definition equal_check (fuel : nat) (how : transform) (label : list nat -> str) (paths : list str) : check :=
  Check map_equal_cls (fun root p =>
    fields_equal fuel how (tree_of (nd_element root)) (described root label) (ModelPaths.Node (rev p)) paths).
