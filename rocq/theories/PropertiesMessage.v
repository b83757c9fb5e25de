(* C65 (fields of messages), C66 (translation and plurals), C67 (recording
   messages, constructing validators). *)
From Verif Require Import PyBase ModelUtil SpecUtil ProofUtil ModelScalar SpecScalar ModelMessage SpecMessage ModelValidators SpecValidators
  ModelNetwork SpecNetwork ProofMessage ProofValidators ProofValidators2 ProofNetwork ProofNetwork2.
Local Open Scope string_scope.
Local Open Scope list_scope.

(* C65 *)

Theorem C65_template : forall get s t, percent s get = Ok t <-> renders (fun k v => get k = Ok v) s t.
Proof. exact @percent_iff. Qed.
Print Assumptions C65_template.

Theorem C65_first_object : forall l k v, find_field l k = Ok v <-> shows l k v.
Proof. exact @find_field_iff. Qed.
Print Assumptions C65_first_object.

Theorem C65_field : forall ug l k v, mapping_get ug l k = Ok v <-> field_of ug l k v.
Proof. exact @mapping_get_iff. Qed.
Print Assumptions C65_field.

Theorem C65_contains : forall ug l k v, field_of ug l k v -> mapping_contains ug l k = Ok true.
Proof. exact @mapping_has. Qed.
Print Assumptions C65_contains.

Theorem C65_missing : forall ug l k, shows_nothing l k -> mapping_get ug l k = Err KeyErr /\ mapping_contains ug l k = Ok false.
Proof. exact @mapping_missing. Qed.
Print Assumptions C65_missing.

Theorem C65_lookup_raises : forall t k e rest a, Forall (fun t => offers_nothing t k) a ->
  ((exists f, t_item t = Some f /\ f k = Err e /\ ~ In e [KeyErr; IndexErr; LookupErr; TypeErr])
   \/ (no_item t k /\ t_attr t k = Err e /\ e <> AttributeErr)) ->
  forall ug, mapping_get ug (a ++ t :: rest) k = Err e /\ (e <> KeyErr -> mapping_contains ug (a ++ t :: rest) k = Err e).
Proof. exact @offers_raises. Qed.
Print Assumptions C65_lookup_raises.

Theorem C65_translation_raises : forall f l k v e, shows l k v -> f v = Err e ->
  mapping_get (Some f) l k = Err e /\ (e <> KeyErr -> mapping_contains (Some f) l k = Err e).
Proof. exact @translation_raises. Qed.
Print Assumptions C65_translation_raises.

Theorem C65_objects : forall self x info, live_targets [Some (dict_target info); x_state x; Some (self_target self); Some (x_element x)] = asked self x info.
Proof. exact @live_asked. Qed.
Print Assumptions C65_objects.

Theorem C65_message : forall self x info v ug t, translator (x_ugettext x) ug ->
  (expand_message self x (Plain v) info = Ok t <->
   exists s, match ug with Some f => f v = Ok (VText s) | None => v = VText s end
             /\ renders (field_of ug (asked self x info)) s t).
Proof. exact @expand_plain. Qed.
Print Assumptions C65_message.

Theorem C65_missing_field : forall self x info s ug v, translator (x_ugettext x) ug ->
  match ug with Some f => f v = Ok (VText s) | None => v = VText s end ->
  lacks_field (field_of ug (asked self x info)) (shows_nothing (asked self x info)) s ->
  expand_message self x (Plain v) info = Err KeyErr.
Proof. exact @expand_missing. Qed.
Print Assumptions C65_missing_field.

Theorem C65_not_text : forall self x info ug v w, translator (x_ugettext x) ug ->
  match ug with Some f => f v = Ok w | None => v = w end -> (forall s, w <> VText s) ->
  expand_message self x (Plain v) info = Err TypeErr.
Proof. exact @expand_not_text. Qed.
Print Assumptions C65_not_text.

(* the keyword argument hides the state, the state the validator, the validator the element *)
Example C65_case :
  let offer v := Target None (fun k => if str_eqb k (lit "label") then Ok (VText (lit v)) else Err AttributeErr) in
  let x := Context (Some (offer "state")) (offer "element") nowhere nowhere in
  expand_message [] x (text "[%(label)s] 100%%") [] = Ok (lit "[state] 100%")
  /\ expand_message [] x (text "[%(label)s]") [(lit "label", VText (lit "info"))] = Ok (lit "[info]")
  /\ expand_message [] x (text "%(other)s") [] = Err KeyErr.
Proof. vm_compute. repeat split. Qed.
Example C65_template_case : renders (fun k v => k = lit "n" /\ v = VInt 7) (lit "a%(n)s%%") (lit "a7%").
Proof.
  apply rn_char; [easy|]. apply (rn_field _ (lit "n") (VInt 7) (lit "%%") (lit "%")); [|easy|].
  - apply bal_char; [easy|easy|constructor].
  - apply rn_percent. constructor.
Qed.

(* C66 *)

Theorem C66_translator : forall (F : Type) (l : lookups F) f, find_transformer l = Ok f <-> translator l f.
Proof. exact @translator_iff. Qed.
Print Assumptions C66_translator.

Theorem C66_translator_raises : forall (F : Type) (l : lookups F) e, e <> AttributeErr ->
  (l_attr l = Err e
   \/ (l_attr l = Err AttributeErr /\ l_item l = Some (Err e) /\ e <> KeyErr)
   \/ (l_attr l = Err AttributeErr /\ (l_item l = None \/ l_item l = Some (Err KeyErr)) /\
       exists a b, l_ancestry l = a ++ Err e :: b /\ Forall (fun r => r = Err AttributeErr \/ r = Ok None) a)) ->
  find_transformer l = Err e.
Proof. exact @transformer_raises. Qed.
Print Assumptions C66_translator_raises.

Theorem C66_plural : forall self x info a b k ug ung n t, translator (x_ugettext x) ug -> translator (x_ungettext x) ung -> counts ug (asked self x info) k n ->
  (expand_message self x (Plural a b k) info = Ok t <->
   exists s, match ung with
             | Some f => f a b n = Ok (VText s)
             | None => exists sa sb, match ug with Some f => f (VText a) = Ok sa /\ f (VText b) = Ok sb
                                                | None => sa = VText a /\ sb = VText b end
                       /\ VText s = if py_eq n (VInt 1) then sa else sb
             end /\ renders (field_of ug (asked self x info)) s t).
Proof. exact @expand_plural. Qed.
Print Assumptions C66_plural.

Theorem C66_callable : forall self x info r, expand_message self x (Call r) info =
  match r with Ok (Call _ as m) => bind (find_transformer (x_ugettext x)) (fun ug => match ug with None => Err TypeErr | Some _ => Err NotImplErr end)
             | Ok m => expand_message self x m info | Err e => Err e end.
Proof. exact @expand_call. Qed.
Print Assumptions C66_callable.

Example C66_case :
  let x := labelled "Name" (VInt 3) in
  let plural := Plural (lit "%(n)s item") (lit "%(n)s items") (lit "n") in
  expand_message [] x plural [(lit "n", VInt 1)] = Ok (lit "1 item")
  /\ expand_message [] x plural [(lit "n", VInt 2)] = Ok (lit "2 items")
  /\ expand_message [] x plural [(lit "n", VText (lit "1"))] = Ok (lit "1 item")
  /\ expand_message [] x (Call (Ok plural)) [(lit "n", VInt 2)] = Ok (lit "2 items").
Proof. vm_compute. repeat split. Qed.
(* a translation function of the state comes before that of an ancestor *)
Example C66_translator_case : forall f g : nat,
  translator (Lookups (Err AttributeErr) (Some (Ok (Some f))) [Ok (Some g)] None) (Some f)
  /\ translator (Lookups (Err AttributeErr) None [Err AttributeErr; Ok (Some g)] None) (Some g).
Proof.
  intros f g. split; [now apply tr_item|]. apply (tr_ancestor _ [Err AttributeErr] g []); try easy; [now left|].
  repeat constructor.
Qed.

(* C67 *)

Theorem C67_records : forall self x l key message info m s, chosen self message key m -> attr_truth m = true ->
  expand_message self x m info = Ok s ->
  exists l', note self x l key message info = (l', Ok false) /\ records l s l'.
Proof. exact @note_records. Qed.
Print Assumptions C67_records.

Theorem C67_silent : forall self x l key message info m, chosen self message key m -> attr_truth m = false ->
  note self x l key message info = (l, Ok false).
Proof. exact @note_silent. Qed.
Print Assumptions C67_silent.

Theorem C67_raises : forall self x l key message info m e, chosen self message key m -> attr_truth m = true ->
  expand_message self x m info = Err e -> note self x l key message info = (l, Err e).
Proof. exact @note_raises. Qed.
Print Assumptions C67_raises.

Theorem C67_unknown_key : forall self x l key info, getattr self key = Err AttributeErr ->
  note self x l (Some key) None info = (l, Err AttributeErr).
Proof. exact @note_unknown. Qed.
Print Assumptions C67_unknown_key.

Theorem C67_once : forall l m, records l m (add_message l m).
Proof. exact @add_message_records. Qed.
Print Assumptions C67_once.

Theorem C67_new : forall cls kw, Forall (fun p => exists a, getattr cls (fst p) = Ok a) kw -> NoDup (map fst kw) ->
  exists self, new_validator cls kw = Ok self
  /\ (forall k a, In (k, a) kw -> getattr self k = Ok a)
  /\ (forall k, ~ In k (map fst kw) -> getattr self k = getattr cls k).
Proof. exact @new_ok. Qed.
Print Assumptions C67_new.

Theorem C67_new_refused : forall cls kw, (exists k a, In (k, a) kw /\ forall b, getattr cls k <> Ok b) -> new_validator cls kw = Err TypeErr.
Proof. exact @new_refused. Qed.
Print Assumptions C67_new_refused.

Example C67_case :
  let x := labelled "Name" (VInt 3) in
  let self := [(lit "bad", text "%(label)s is bad."); (lit "quiet", Plain VNone)] in
  note self x [lit "before"] (Some (lit "bad")) None [] = ([lit "before"; lit "Name is bad."], Ok false)
  /\ note self x [lit "Name is bad."] (Some (lit "bad")) None [] = ([lit "Name is bad."], Ok false)
  /\ note self x [] (Some (lit "quiet")) None [] = ([], Ok false)
  /\ note self x [] (Some (lit "bad")) (Some (text "other")) [] = ([lit "other"], Ok false)
  /\ note self x [] (Some (lit "none")) None [] = ([], Err AttributeErr).
Proof. vm_compute. repeat split. Qed.
Example C67_new_case : new_validator [(lit "bad", text "x")] [(lit "bad", text "y")] = Ok [(lit "bad", text "y"); (lit "bad", text "x")]
  /\ new_validator [(lit "bad", text "x")] [(lit "worse", text "y")] = Err TypeErr.
Proof. vm_compute. split; reflexivity. Qed.
