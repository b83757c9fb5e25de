(* C98: where the Genshi directives may stand. *)
From Verif Require Import PyBase ModelMarkup ModelGenshi SpecGenshi ModelAttach SpecAttach ProofAttach.
From Coq Require Import Permutation Sorted.
Local Open Scope string_scope.

(* C98: what a directive that may stand there is made into, and every reason why
   none is made *)
Theorem C98_made : forall n w d, attach n w = inl d -> stands n w d.
Proof. exact @attach_made. Qed.
Print Assumptions C98_made.
Theorem C98_refused : forall n w r, attach n w = inr r <-> refused n w r.
Proof. exact @attach_refused. Qed.
Print Assumptions C98_refused.

(* C98: the directives of a tag come in a fixed order, however they are written *)
Theorem C98_directives : forall l ds, prepare l = inl ds ->
  exists l', Permutation l' l /\ StronglySorted not_later l' /\ Forall2 (fun p d => stands (fst p) (snd p) d) l' ds.
Proof. exact @prepare_made. Qed.
Print Assumptions C98_directives.
Theorem C98_any_order : forall l l', Permutation l l' -> NoDup (map fst l) -> prepare l = prepare l'.
Proof. exact @prepare_order. Qed.
Print Assumptions C98_any_order.
(* a template is refused for one of its directives, and if any is refused *)
Theorem C98_template_refused : forall l,
  (forall r, prepare l = inr r -> exists n w, In (n, w) l /\ refused n w r)
  /\ (forall n w r, In (n, w) l -> refused n w r -> exists r', prepare l = inr r').
Proof. exact (fun l => conj (@prepare_refused l) (@refused_prepare l)). Qed.
Print Assumptions C98_template_refused.

(* C98: of form:bind and control attributes in any order the binding is first,
   and all the others say to it what is written; it is then rendered by C82 *)
Theorem C98_bound_tag : forall l raw b, NoDup (map fst l) -> In (lit "bind", AsAttr raw b) l ->
  (forall n w, In (n, w) l -> n <> lit "bind" -> In n control_attributes /\ exists raw' v, w = AsAttr raw' v) ->
  exists controls rest pairs, prepare l = inl (DBind b :: controls)
    /\ Permutation ((lit "bind", AsAttr raw b) :: rest) l
    /\ Forall2 control_says controls pairs /\ Forall2 attribute_says rest pairs
    /\ splits (DBind b :: controls) [] (DBind b :: controls).
Proof. exact @bound_first. Qed.
Print Assumptions C98_bound_tag.

(* setup() needs a Genshi that has add_directives *)
Theorem C98_setup : forall has, setup has = Ok tt /\ has = true \/ setup has = Err RuntimeErr /\ has = false.
Proof. exact @setup_needs. Qed.
Print Assumptions C98_setup.

Example C98_case :
  let b := Bound (lit "n") (lit "u") BOther in
  let name := (lit "auto-name", AsAttr [PText (lit "o"); PText (lit "ff")] None) in
  let filter := (lit "auto-filter", AsAttr [PText (lit "x"); PExpr (MInt 2)] None) in
  let bind := (lit "bind", AsAttr [PText (lit "el")] (Some b)) in
  prepare [filter; name; bind] = inl [DBind (Some b); DControl (lit "auto-name") [PText (lit "off")];
                                      DControl (lit "auto-filter") [PText (lit "x"); PExpr (MInt 2)]]
  /\ prepare [(lit "with", AsTag [(lit "tabindex", lit " 7"); (lit "auto-domid", lit "on")])]
     = inl [DWith [(lit "tabindex", MInt 7); (lit "auto_domid", MText (lit "on"))]]
  /\ prepare [name; (lit "bind", AsTag [])] = inr SyntaxErr
  /\ prepare [(lit "set", AsAttr [] None)] = inr SyntaxErr
  /\ prepare [(lit "set", AsTag [(lit "tabindex", lit "x")])] = inr (Raised ValueErr)
  /\ prepare [(lit "with", AsAttr [] None); (lit "auto-foo", AsAttr [] None)] = inr NoDirective
  /\ setup false = Err RuntimeErr.
Proof. vm_compute. repeat (split; [reflexivity|]). reflexivity. Qed.
Example C98_bound_case :
  let l := [(lit "auto-name", AsAttr [] None); (lit "bind", AsAttr [] None)] in
  NoDup (map fst l) /\ In (lit "bind", AsAttr [] None) l
  /\ (forall n w, In (n, w) l -> n <> lit "bind" -> In n control_attributes /\ exists raw' v, w = AsAttr raw' v).
Proof.
  split; [|split].
  - constructor; [intros [E|[]]; vm_compute in E; discriminate|]. constructor; [easy|constructor].
  - right. now left.
  - intros n w [[= <- <-]|[[= <- <-]|[]]] N; [|easy]. split; [now left|]. now exists [], None.
Qed.
