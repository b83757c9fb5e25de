(* C107: what elements show. *)
From Verif Require Import PyBase ModelUtil ModelMap ModelScalar SpecScalar ModelNest SpecNest SpecText ModelPaths SpecPaths ModelRepr SpecRepr ProofRepr ProofRepr2.

(* C107: repr() of an element is a display of it: class, name and a Python
   expression for the value; what a Compound's value raises is named; Lists,
   Arrays and mappings show their members *)
Theorem C107_display : forall printable object_repr e t,
  clean_looks e -> look printable object_repr e = Ok t -> displays e t.
Proof. exact @display. Qed.
Print Assumptions C107_display.

(* C107: it raises what the first element raises, other than a Compound, whose
   value raises; otherwise it does not raise *)
Theorem C107_raises : forall printable object_repr e,
  (forall x, look printable object_repr e = Err x <-> troubled e x)
  /\ (sane e <-> exists t, look printable object_repr e = Ok t).
Proof. exact (fun p o e => conj (look_raises p o e) (look_sane p o e)). Qed.
Print Assumptions C107_raises.

(* C107: the display tells the element, up to what is a scalar and what a
   Compound *)
Theorem C107_readable : forall a b t, displays a t -> displays b t -> spaceless a -> spaceless b -> told a b.
Proof. exact @display_unique. Qed.
Print Assumptions C107_readable.

(* C107: slots of a List show the member *)
Theorem C107_slot : forall printable object_repr n e,
  (forall u, clean_name n -> look printable object_repr e = Ok u ->
     exists k, named n k /\ slot_repr printable object_repr n e = Ok (lit "<ListSlot[" ++ k ++ lit "] for " ++ u ++ lit ">"))
  /\ (forall x, look printable object_repr e = Err x -> slot_repr printable object_repr n e = Err x).
Proof. exact (fun p o n e => conj (slot_ok p o n e) (slot_err p o n e)). Qed.
Print Assumptions C107_slot.

(* C107: path expressions show their text, and tell it *)
Theorem C107_path : forall printable,
  (forall s, unicode s -> exists t, literal s t /\ path_repr printable s = lit "pathexpr(" ++ t ++ lit ")")
  /\ (forall s s', unicode s -> unicode s' -> path_repr printable s = path_repr printable s' -> s = s').
Proof. exact (fun p => conj (path_ok p) (path_inj p)). Qed.
Print Assumptions C107_path.

(* C107: properties and settings of a generator show all their pairs, and tell
   them *)
Theorem C107_settings : forall printable object_repr l, settings_clean l ->
  settings_show l (texts_repr printable object_repr l)
  /\ (forall cls, exists t, settings_show l t /\ context_repr printable object_repr cls l = cls ++ lit "(" ++ t ++ lit ")")
  /\ (forall l' t, settings_show l t -> settings_show l' t -> l = l').
Proof. exact (fun p o l C => conj (settings_ok p o l C) (conj (fun cls => context_ok p o cls l C) (settings_inj l))). Qed.
Print Assumptions C107_settings.

(* C107: a strict find() that has no child to go to says so *)
Theorem C107_message : forall printable cls n child expr, clean_name n -> clean_name child -> unicode expr ->
  complains cls n child expr (no_child printable cls n child expr).
Proof. exact @message_ok. Qed.
Print Assumptions C107_message.

(* C107: the LookupError of a strict find() has such a message: it names an
   element the path leads to that has no child as the path wants next, or says
   that several elements match *)
Theorem C107_find : forall printable cls fuel t e path single,
  (snd (find fuel [] t e path single true) = Err LookupErr <-> exists m, find_says printable cls fuel t e path single = Some m)
  /\ forall m, (forall e, clean_name (elem_name t e)) -> unicode path -> find_says printable cls fuel t e path single = Some m ->
     exists ops, tokenize path = Ok ops /\
     ((exists e' x r err, reaches t ops e (NAME x :: r) e' /\ refuses t e' x err /\ err <> NotImplErr
         /\ complains (cls e') (elem_name t e') x path m)
      \/ (single = true /\ (exists l, snd (find fuel [] t e path false true) = Ok (Many l) /\ (1 < List.length l)%nat) /\ several path m)).
Proof. exact (fun p cls fuel t e path single => conj (says_iff p cls fuel t e path single) (fun m => says_what p cls fuel t e path single m)). Qed.
Print Assumptions C107_find.

(* A Compound whose value is as of a scalar shows the same; a Compound whose
   value raises makes no trouble, a scalar does. *)
Theorem C107_unrestricted_refuted : exists a b t, clean_looks a /\ clean_looks b /\ spaceless a /\ spaceless b
  /\ (forall p o, look p o a = Ok t /\ look p o b = Ok t) /\ a <> b.
Proof. exact alike. Qed.
Print Assumptions C107_unrestricted_refuted.

(* an element of each sort *)
Example C107_case : let plain := fun _ : N => true in let thing := fun _ : pyobj => lit "<object>" in
  clean_looks sample_looks /\ spaceless sample_looks /\ sane sample_looks
  /\ look plain thing sample_looks = Ok (lit "{'n': <String 'n'; value=""it's"">, 'l': [<Integer None; value=-7>, <Time None; value=datetime.time(9, 30)>], None: <Pair 'p'; value raised NotImplementedError>}")
  /\ slot_repr plain thing (Some (lit "0")) (ofScalar (lit "String") None (Ok VNone)) = Ok (lit "<ListSlot['0'] for <String None; value=None>>")
  /\ path_repr plain (lit "/a/b") = lit "pathexpr('/a/b')"
  /\ context_repr plain thing (lit "Context") [(lit "auto_id", VBool false); (lit "tabindex", VInt 0)] = lit "Context({'auto_id': False, 'tabindex': 0})"
  /\ no_child plain (lit "Dict") (Some (lit "form")) (Some (lit "x")) (lit "x/y") = lit "Dict element u'form' has no child u'x' in expression u'x/y'"
  /\ look plain thing (ofList [ofScalar (lit "Ref") None (Err KeyErr)]) = Err KeyErr.
Proof.
  cbv zeta. split; [|split; [|split]].
  - unfold sample_looks. repeat (constructor; cbn; try (intros ? [= <-]; cbn); try easy).
  - unfold sample_looks. repeat (constructor; cbn; try easy).
    all: cbn; intuition discriminate.
  - unfold sample_looks. repeat (constructor; cbn; try easy).
  - vm_compute. repeat split.
Qed.
Example C107_find_case :
  let says := find_says (fun _ => true) (fun _ => lit "Dict") 99 sample_tree (Node []) in
  says (lit "l[:]/t") false = Some (lit "Unnamed element Dict has no child u't' in expression u'l[:]/t'")
  /\ says (lit "l[:]/s") true = Some (lit "Path 'l[:]/s' matched multiple elements; single result expected.")
  /\ says (lit "l[:]/s") false = None.
Proof. vm_compute. repeat split. Qed.
