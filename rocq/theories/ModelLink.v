(* Elements that name others by path: the target of a Ref
   (flatland/schema/scalars.py) and the fields of MapEqual, ValuesEqual and
   UnisEqual (flatland/validation/scalars.py), with the paths resolved in the
   tree as in ModelPaths. *)
From Verif Require Import PyBase ModelUtil ModelScalar ModelDsl ModelPaths ModelRef ModelMessage ModelValidators.

(* schema/scalars.py:568-575 Ref.to(name, sep): target_path *)
Definition target_path (name sep : str) : res (list (option str)) := parse_element_path name sep.
(* schema/scalars.py:585-587: self.root.el(self.target_path), for the Ref at [self] *)
Definition ref_target (t : tree) (self : elem) (path : list (option str)) : res elem :=
  el_names t (root t self) (map (option_map Some) path).
(* schema/scalars.py:585-587: the same for the Ref of a number in the heap of
   ModelRef; [place] tells where the elements of the heap are in the tree,
   [number] which is at a place *)
Definition ref_find (t : tree) (place : nat -> elem) (number : elem -> nat) (paths : nat -> list (option str)) (i : nat) : res nat :=
  rmap number (ref_target t (place i) (paths i)).

(* validation/scalars.py:565: element.find(name, single=True), for an element at
   [self]; [describe] gives value, text and label.  Nothing found is None, which
   has no value, text and label: the exception comes at once here, in the code
   after the other paths.  The cache of paths does not matter (C35). *)
Definition field (fuel : nat) (t : tree) (describe : elem -> found) (self : elem) (path : str) : res found :=
  bind (snd (find fuel [] t self path true true)) (fun a => match a with One (Some e) => Ok (describe e) | _ => Err AttributeErr end).
(* validation/scalars.py:564-573 validate *)
Definition fields_equal (fuel : nat) (tf : transform) (t : tree) (describe : elem -> found) (self : elem) (paths : list str) : res verdict :=
  map_equal tf (field fuel t describe self) paths.
