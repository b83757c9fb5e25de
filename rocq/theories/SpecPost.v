(* Specification of forms drawn by a template: the controls of SpecForm in the
   source of a template, and the pairs that the rendered events stand for.  The
   events are read without the functions that render them. *)
From Verif Require Import PyBase ModelMarkup SpecMarkup ModelGenshi SpecGenshi SpecForm SpecAgree.

(* input or textarea tags with form:bind, radio buttons or checkboxes
   for some values and a checkbox without value, and select tags around options
   (a gap is text before an option or, last, after them), all with further
   attributes; the tags may be in a namespace *)
Definition texts (kw : list (str * str)) : attrs := map (fun p => (fst p, MText (snd p))) kw.
Record choice := Choose { ch_gap : str; ch_value : option str; ch_label : str; ch_attrs : list (str * str) }.
Inductive widget :=
| WInput (kw : list (str * str))
| WArea (kw : list (str * str))
| WChoice (many : bool) (values : list str) (kw : list (str * str))
| WTick (kw : list (str * str))
| WMenu (many : bool) (choices : list choice) (gap : str) (kw : list (str * str)).
Definition widget_tag (ns : option str) (dangle : bool) (tag : string) (kw : list (str * str)) (b : belement) : mark :=
  Mark ns (lit tag) dangle (negb dangle) [] kw None (Some b).
Definition widget_marks (ns : option str) (w : widget) (b : belement) : list mark :=
  match w with
  | WInput kw => [widget_tag ns true "input" kw b]
  | WArea kw => [widget_tag ns false "textarea" kw b]
  | WChoice many values kw =>
      map (fun v => widget_tag ns true "input" ((lit "type", lit (if many then "checkbox" else "radio")) :: (lit "value", v) :: kw) b) values
  | WTick kw => [widget_tag ns true "input" ((lit "type", lit "checkbox") :: kw) b]
  | WMenu _ _ _ _ => []
  end%string.
Definition local (l : list (str * str)) : gattrs := map (fun p => (QName None (fst p), inl (MText (snd p)))) l.
Definition gap_events (t : str) : list event := match t with [] => [] | _ => [Text false t] end.
Definition choice_pairs (c : choice) : list (str * str) :=
  match ch_value c with Some v => [(lit "value", v)] | None => [] end ++ ch_attrs c.
Definition choice_events (q : qname) (c : choice) : list event :=
  gap_events (ch_gap c) ++ Start q (local (choice_pairs c)) :: gap_events (ch_label c) ++ [End q].
Definition menu_pairs (many : bool) (kw : list (str * str)) : list (str * str) :=
  (if many then [(lit "multiple", lit "multiple")] else []) ++ kw.
Definition widget_events (ns : option str) (w : widget) (b : belement) : list event :=
  match w with
  | WMenu many choices gap kw =>
      let q := QName ns (lit "select") in
      [Sub [DBind (Some b)]
         (Start q (local (menu_pairs many kw)) :: (flat_map (choice_events (option_of q)) choices ++ gap_events gap) ++ [End q])]
  | _ => map mark_event (widget_marks ns w b)
  end.
(* the same control in a generator *)
Definition control_of (w : widget) : control :=
  match w with
  | WInput kw => Input (texts kw)
  | WArea kw => Area (texts kw)
  | WChoice many values kw => Choice many values (texts kw)
  | WTick kw => Tick (texts kw)
  | WMenu many choices _ kw => Menu many (map (fun c => Pick (ch_value c) (ch_label c) (texts (ch_attrs c))) choices) (texts kw)
  end.
Definition widget_attrs (w : widget) : list (str * str) :=
  match w with WInput kw | WArea kw | WChoice _ _ kw | WTick kw | WMenu _ _ _ kw => kw end.
(* the page of a form *)
Definition form_page (ns : option str) (l : list (widget * belement)) : list event :=
  flat_map (fun wb => widget_events ns (fst wb) (snd wb)) l.
(* suited as in SpecForm; each attribute written once, as it is; contents of
   options are text of the page, without space around it where it is the value;
   an option with an attribute named option would not be bound *)
Definition tidy_attrs (kw : list (str * str)) : Prop :=
  NoDup (map fst kw) /\ Forall (fun p => drop_tail_underscores (fst p) = fst p) kw.
Definition fit_choice (c : choice) : Prop :=
  quiet (texts (ch_attrs c)) /\ tidy_attrs (ch_attrs c) /\ ~ In (lit "option") (map fst (ch_attrs c))
  /\ (ch_value c = None -> strip (ch_label c) = ch_label c).
Definition fit (wb : widget * belement) : Prop :=
  tidy_attrs (widget_attrs (fst wb)) /\
  match fst wb with
  | WMenu _ choices _ kw => quiet (texts kw) /\ without "multiple" (texts kw) /\ Forall fit_choice choices
  | w => suited (control_of w) (snd wb)
  end.

(* the settings of the template in force: no switch of name and value is off; no
   filters *)
Definition template_settings (rc : option (list frame)) : Prop :=
  exists t ts, render_frames rc = t :: ts /\ has_settings t /\ NoDup (keys t)
    /\ get "ordered_attributes" t = None /\ get "filters" t = Some (MFilters [])
    /\ (forall v, get "auto_name" t = Some v -> ~ says_no v)
    /\ (forall v, get "auto_value" t = Some v -> ~ says_no v).

(* an attribute of a rendered tag; the text of its contents, which Genshi escapes
   unless it is markup already *)
Definition gattr (k : string) (a : gattrs) : option str :=
  match aget qname_eqb (QName None (lit k)) a with Some (inl (MText t)) => Some t | _ => None end.
Definition gattr_is (k v : string) (a : gattrs) : bool :=
  match gattr k a with Some x => str_eqb x (lit v) | None => false end.
Definition gcontents (l : list event) : option str :=
  match l with
  | [] => Some []
  | [Text true t] => decode content_table content_bad t
  | [Text false t] => Some t
  | _ => None
  end.
(* the pairs of an input or a textarea, as in SpecForm for text *)
Definition posts (q : qname) (a : gattrs) (mid : list event) : option (list (str * str)) :=
  match gattr "name" a, gcontents mid with
  | Some n, Some t =>
      if str_eqb (q_local q) (lit "input") then
        if (gattr_is "type" "radio" a || gattr_is "type" "checkbox" a)
           && match gattr "checked" a with None => true | Some _ => false end
        then Some []
        else option_map (fun v => [(n, v)]) (gattr "value" a)
      else if str_eqb (q_local q) (lit "textarea") then Some [(n, t)]
      else None
  | _, _ => None
  end.
(* the options of a select tag: their values, or their contents without, and
   whether they are selected; text between them says nothing *)
Inductive offers : list event -> list (str * bool) -> Prop :=
| of_nil : offers [] []
| of_text h t l os : offers l os -> offers (Text h t :: l) os
| of_option q a mid l t os : q_local q = lit "option" -> gcontents mid = Some t -> offers l os ->
    offers (Start q a :: mid ++ End q :: l)
      ((match gattr "value" a with Some v => v | None => t end, match gattr "selected" a with Some _ => true | None => false end) :: os).
Inductive posted : list event -> list (str * str) -> Prop :=
| po_nil : posted [] []
| po_cons q a mid l p ps : posts q a mid = Some p -> posted l ps ->
    posted (Start q a :: mid ++ End q :: l) (p ++ ps)
| po_menu q a mid l n os ps : q_local q = lit "select" -> gattr "name" a = Some n -> offers mid os -> posted l ps ->
    posted (Start q a :: mid ++ End q :: l)
      (map (pair n) (selected (match gattr "multiple" a with Some _ => true | None => false end) os) ++ ps).
