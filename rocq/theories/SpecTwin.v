(* Elements that hold the same, and what validate() should make of them. *)
From Verif Require Import PyBase ModelScalar ModelValidate ModelMessage SpecMessage ModelValidators ModelReport SpecReport ModelFlat SpecFlat ModelCheck SpecCheck.

(* the same place of one structure, and the same values, texts, fields and members there *)
Definition twins (a b : node) : Prop := nd_way a = nd_way b /\ nd_schema a = nd_schema b /\ same (nd_element a) (nd_element b).
(* elements of two trees that answer to each other: reached by the same fields, and by the
   same positions in sequences *)
Definition keyed (nd : node) : Prop := exists n cp items, nd_element nd = EDict n cp items.
Inductive opposite : node -> node -> list nat -> list nat -> Prop :=
| op_here a b : opposite a b [] []
| op_below a b i j c d p q : nth_error (child_nodes a) i = Some c -> nth_error (child_nodes b) j = Some d ->
    nd_way c = nd_way d -> keyed a \/ i = j -> opposite c d p q -> opposite a b (i :: p) (j :: q).
(* the validators go by what the elements of a tree hold *)
Definition impartial (ask : settings) : Prop := forall root root' p q a b c ok m, twins root root' -> opposite root root' p q ->
  node_at root p = Some a -> node_at root' q = Some b -> twins a b -> In c (st_checks (ask (nd_way a))) \/ ~ is_scalar a /\ In c (st_down (ask (nd_way a))) ->
  grades c (st_context (ask (nd_way a)) (nd_element a)) root p ok m -> grades c (st_context (ask (nd_way a)) (nd_element b)) root' q ok m.
(* the validators are Present, Converted and HasAtLeast, with the labels of the elements *)
Definition known_checks (ask : settings) : Prop := forall way,
  (exists label, forall u, plain (st_context (ask way) u) label)
  /\ forall c, In c (st_checks (ask way)) \/ In c (st_down (ask way)) -> c = present_check \/ c = converted_check \/ exists m l, c = has_at_least_check m l.
(* both are judged alike *)
Definition judged_alike (id_of : list nat -> id) (place_of : id -> option (list nat)) (id_of' : list nat -> id) (place_of' : id -> option (list nat))
  (ask : settings) (root root' : node) : Prop :=
  forall errors V errors2 V2, exists F errors' V' errors2' V2' b,
    (forall fuel, F <= fuel -> validate_form (form_of id_of place_of ask root) fuel errors V (id_of []) = (errors', V', Ok b)
       /\ validate_form (form_of id_of' place_of' ask root') fuel errors2 V2 (id_of' []) = (errors2', V2', Ok b))
    /\ forall p q nd, opposite root root' p q -> node_at root p = Some nd ->
         V' (id_of p) = V2' (id_of' q) /\ exists ms, noted (errors (id_of p)) ms (errors' (id_of p)) /\ noted (errors2 (id_of' q)) ms (errors2' (id_of' q)).
