(* Specification of where the Genshi directives may stand, and what they are
   made into. *)
From Verif Require Import PyBase ModelMarkup ModelGenshi SpecGenshi ModelAttach.
From Coq Require Import Permutation Sorted.

Definition tag_names : list str := map lit ["with"; "set"]%string.
Definition control_attributes : list str :=
  map lit ["auto-name"; "auto-value"; "auto-domid"; "auto-for"; "auto-tabindex"; "auto-filter"]%string.

(* the settings written on a form:with or form:set tag, the last of a name *)
Definition settings_of (l : list (str * str)) (s : attrs) : Prop :=
  exists pairs, Forall2 option_says l pairs /\ NoDup (keys s) /\ forall k, aget str_eqb k s = aget str_eqb k (rev pairs).
(* a directive and what is made of it; texts are joined, expressions are left to
   be evaluated with the template *)
Inductive stands : str -> written -> directive -> Prop :=
| st_with l s : settings_of l s -> stands (lit "with") (AsTag l) (DWith s)
| st_set l s : settings_of l s -> stands (lit "set") (AsTag l) (DSet s)
| st_bind raw b : stands (lit "bind") (AsAttr raw b) (DBind b)
| st_control k raw raw' b : In k control_attributes ->
    (forall t, pieces_say raw t -> pieces_say raw' t) ->
    ((exists v, In (PExpr v) raw) -> raw' = raw) -> ((forall v, ~ In (PExpr v) raw) -> exists t, raw' = [PText t]) -> stands k (AsAttr raw b) (DControl k raw').
(* why none is made *)
Inductive refused : str -> written -> refusal -> Prop :=
| rf_unknown n w : n <> lit "bind" -> ~ In n tag_names -> ~ In n control_attributes -> refused n w NoDirective
| rf_attribute n raw b : In n tag_names -> refused n (AsAttr raw b) SyntaxErr
| rf_tag n l : n = lit "bind" \/ In n control_attributes -> refused n (AsTag l) SyntaxErr
| rf_tabindex n l1 v l2 e : In n tag_names -> py_int v = Err e ->
    (forall v', In (lit "tabindex", v') l1 -> exists z, py_int v' = Ok z) ->
    refused n (AsTag (l1 ++ (lit "tabindex", v) :: l2)) (Raised e).

(* the order in which the directives of a tag are applied *)
Definition earlier (m n : str) : Prop :=
  exists before between after,
    tag_names ++ lit "bind" :: control_attributes = before ++ m :: between ++ n :: after.
Definition not_later (p q : str * written) : Prop := fst p = fst q \/ earlier (fst p) (fst q).
(* what a control attribute says *)
Inductive attribute_says : str * written -> str * mv -> Prop :=
| as_control k k' raw v t : In k control_attributes -> setting_name k k' -> pieces_say raw t ->
    attribute_says (k, AsAttr raw v) (k', MText t).
