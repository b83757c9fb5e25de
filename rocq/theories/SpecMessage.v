(* Specifications for validation messages. *)
From Verif Require Import PyBase ModelScalar ModelMessage.

(* text whose parentheses match *)
Inductive balanced : str -> Prop :=
| bal_nil : balanced []
| bal_char c s : c <> ch "(" -> c <> ch ")" -> balanced s -> balanced (c :: s)
| bal_group s t : balanced s -> balanced t -> balanced (ch "(" :: s ++ ch ")" :: t).

(* what a template becomes when the field k is the value v with [field k v] *)
Inductive renders (field : str -> pyval -> Prop) : str -> str -> Prop :=
| rn_nil : renders field [] []
| rn_char c s t : c <> ch "%" -> renders field s t -> renders field (c :: s) (c :: t)
| rn_percent s t : renders field s t -> renders field (ch "%" :: ch "%" :: s) (ch "%" :: t)
| rn_field k v s t : balanced k -> field k v -> renders field s t ->
    renders field (lit "%(" ++ k ++ lit ")s" ++ s) (vtext v ++ t).
(* a template with a field nobody knows: the first such field decides *)
Inductive lacks_field (field : str -> pyval -> Prop) (missing : str -> Prop) : str -> Prop :=
| lf_here k s : balanced k -> missing k -> lacks_field field missing (lit "%(" ++ k ++ lit ")s" ++ s)
| lf_char c s : c <> ch "%" -> lacks_field field missing s -> lacks_field field missing (c :: s)
| lf_percent s : lacks_field field missing s -> lacks_field field missing (ch "%" :: ch "%" :: s)
| lf_field k v s : balanced k -> field k v -> lacks_field field missing s ->
    lacks_field field missing (lit "%(" ++ k ++ lit ")s" ++ s).

(* an item lookup that does not find k *)
Definition no_item (t : target) (k : str) : Prop :=
  forall f, t_item t = Some f -> exists e, f k = Err e /\ In e [KeyErr; IndexErr; LookupErr; TypeErr].
(* t offers v under k: as an item, else as an attribute *)
Definition offers (t : target) (k : str) (v : pyval) : Prop :=
  (exists f, t_item t = Some f /\ f k = Ok v) \/ (no_item t k /\ t_attr t k = Ok v).
Definition offers_nothing (t : target) (k : str) : Prop := no_item t k /\ t_attr t k = Err AttributeErr.
(* the first of several objects that offers k *)
Definition shows (l : list target) (k : str) (v : pyval) : Prop :=
  exists a t b, l = a ++ t :: b /\ Forall (fun t => offers_nothing t k) a /\ offers t k v.
Definition shows_nothing (l : list target) (k : str) : Prop := Forall (fun t => offers_nothing t k) l.
(* the objects asked by a message, in order *)
Definition asked (self : attrs) (x : context) (info : list (str * pyval)) : list target :=
  dict_target info :: (match x_state x with Some t => [t] | None => [] end) ++ [self_target self; x_element x].

(* nobody provides a translation function *)
Definition untranslated {F} (l : lookups F) : Prop :=
  l_attr l = Err AttributeErr /\ (l_item l = None \/ l_item l = Some (Err KeyErr))
  /\ Forall (fun r => r = Err AttributeErr \/ r = Ok None) (l_ancestry l) /\ l_builtin l = None.
(* the one that is used *)
Inductive translator {F} (l : lookups F) : option F -> Prop :=
| tr_attr f : l_attr l = Ok f -> translator l f
| tr_item f : l_attr l = Err AttributeErr -> l_item l = Some (Ok f) -> translator l f
| tr_ancestor a f b : l_attr l = Err AttributeErr -> (l_item l = None \/ l_item l = Some (Err KeyErr)) ->
    l_ancestry l = a ++ Ok (Some f) :: b -> Forall (fun r => r = Err AttributeErr \/ r = Ok None) a ->
    translator l (Some f)
| tr_builtin : l_attr l = Err AttributeErr -> (l_item l = None \/ l_item l = Some (Err KeyErr)) ->
    Forall (fun r => r = Err AttributeErr \/ r = Ok None) (l_ancestry l) -> translator l (l_builtin l).
(* the value a field has in a message *)
Definition field_of (ug : option (pyval -> res pyval)) (l : list target) (k : str) (v : pyval) : Prop :=
  exists w, shows l k w /\ match ug with Some f => f w = Ok v | None => v = w end.
(* the count of a pluralised message *)
Inductive counts (ug : option (pyval -> res pyval)) (l : list target) (k : str) : pyval -> Prop :=
| cn_number v z : field_of ug l k v -> to_int v = Ok (VInt z) -> counts ug l k (VInt z)
| cn_other v : field_of ug l k v -> to_int v = Err TypeErr -> counts ug l k v
| cn_missing : shows_nothing l k -> counts ug l k (VText k).

(* the messages afterwards: every message once *)
Definition records (messages : list str) (m : str) (messages' : list str) : Prop :=
  (In m messages /\ messages' = messages) \/ (~ In m messages /\ messages' = messages ++ [m]).

(* A message context without state and translation, for an element of this
   label. *)
Definition plain (x : context) (label : str) : Prop :=
  x_state x = None /\ untranslated (x_ugettext x) /\ untranslated (x_ungettext x)
  /\ offers (x_element x) (lit "label") (VText label).
(* sample: no state, no translation *)
Definition nowhere {F} : lookups F := Lookups (Err AttributeErr) None [Err AttributeErr] None.
Definition labelled (label : string) (value : pyval) : context :=
  Context None
    (Target None (fun k => if str_eqb k (lit "label") then Ok (VText (lit label))
                           else if str_eqb k (lit "value") then Ok value else Err AttributeErr))
    nowhere nowhere.
(* the message that note_error uses *)
Inductive chosen (self : attrs) : option attr -> option str -> attr -> Prop :=
| co_given m k : attr_truth m = true -> chosen self (Some m) k m
| co_key given k m : (forall g, given = Some g -> attr_truth g = false) -> getattr self k = Ok m -> chosen self given (Some k) m.
