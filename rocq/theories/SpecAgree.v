(* Specification of the agreement of the two front ends: a page as the source of
   a template and as calls of a generator, settings that are alike, and the same
   tag as text and as events.  The calls are read with the tag parser of
   SpecMarkup. *)
From Verif Require Import PyBase ModelMarkup SpecMarkup ModelGenshi SpecGenshi.
From Verif Require SpecForm.

(* a tag bound to an element (or to None): its namespace in the template, how the
   generator writes it when it is empty, its switches with their names in either
   front end, its attributes and its contents *)
Record mark := Mark {
  mk_ns : option str; mk_tag : str; mk_dangle : bool; mk_paired : bool;
  mk_switches : list (string * string * str);
  mk_attrs : list (str * str);
  mk_contents : option str;
  mk_element : option belement }.
(* a tag; a block with settings of its own; a change of settings *)
Inductive item :=
| Draw (m : mark)
| Within (s : attrs) (l : list item)
| Change (s : attrs).

(* the events of the template: form:bind with the control attributes, form:with
   and form:set *)
Definition mark_name (m : mark) : qname := QName (mk_ns m) (mk_tag m).
Definition mark_event (m : mark) : event :=
  Sub (DBind (mk_element m) :: map (fun p => DControl (lit (fst (fst p))) [PText (snd p)]) (mk_switches m))
    (Start (mark_name m) (map (fun p => (QName None (fst p), inl (MText (snd p)))) (mk_attrs m))
     :: match mk_contents m with Some t => [Text false t] | None => [] end ++ [End (mark_name m)]).
Fixpoint item_event (i : item) : event :=
  match i with
  | Draw m => mark_event m
  | Within s l => Sub [DWith s] (map item_event l)
  | Change s => Sub [DSet s] []
  end.
(* the calls: generator.<tag>(...), begin(...) and end(), set(...) *)
Definition mark_call (m : mark) : gop :=
  OTag (mk_dangle m) (mk_paired m) (mk_tag m)
    (match mk_contents m with Some t => [(lit "contents", MText t)] | None => [] end
     ++ map (fun p => (lit (snd (fst p)), MText (snd p))) (mk_switches m)
     ++ map (fun p => (fst p, MText (snd p))) (mk_attrs m)) (mk_element m).
Fixpoint item_calls (i : item) : list gop :=
  match i with
  | Draw m => [mark_call m]
  | Within s l => OBegin s :: flat_map item_calls l ++ [OEnd]
  | Change s => [OSet s]
  end.

(* names that both front ends can write, each used once; the switches are those of
   the documentation; settings both know, filters aside *)
Definition proper_mark (m : mark) : Prop :=
  wf_name (mk_tag m) = true
  /\ Forall (fun p => In (fst p) control_table) (mk_switches m)
  /\ NoDup (map (fun p => lit (snd (fst p))) (mk_switches m) ++ map fst (mk_attrs m))
  /\ Forall (fun p => wf_name (fst p) = true /\ drop_tail_underscores (fst p) = fst p /\ fst p <> lit "contents") (mk_attrs m).
Definition common (s : attrs) : Prop :=
  NoDup (keys s) /\ ~ In (lit "filters") (keys s) /\ ~ In (lit "ordered_attributes") (keys s).
Inductive proper : item -> Prop :=
| pr_draw m : proper_mark m -> proper (Draw m)
| pr_within s l : common s -> Forall proper l -> proper (Within s l)
| pr_change s : common s -> proper (Change s).

(* settings that mean the same: switches say the same, all others are equal, there
   are no filters, and only the generator has a setting for the order of the
   attributes *)
Definition same_word (v w : mv) : Prop := (says_yes v <-> says_yes w) /\ (says_no v <-> says_no w).
Definition same_setting (k : str) (v w : option mv) : Prop :=
  match v, w with
  | Some v, Some w => if starts_with (lit "auto_") k then same_word v w else v = w
  | None, None => True
  | _, _ => False
  end.
Record alike (t g : frame) : Prop := {
  al_get : forall k, k <> lit "ordered_attributes" -> same_setting k (aget str_eqb k t) (aget str_eqb k g);
  al_filters : get "filters" t = Some (MFilters []);
  al_only : get "ordered_attributes" t = None;
  al_ordered : exists v o, get "ordered_attributes" g = Some v /\ truth v = Ok o;
  al_dict : NoDup (keys t) }.
(* the settings in force in the template and in the generator *)
Definition in_step (rc : option (list frame)) (g : gen) : Prop :=
  exists t ts gt gs, render_frames rc = t :: ts /\ g_frames g = gt :: gs /\ gs <> [] /\ alike t gt.

(* the contents: none; the text of the page, which the template will escape and the
   generator will not; or the text of the element, escaped by both *)
Inductive inside (m : mark) : str -> list event -> Prop :=
| in_none : mk_contents m = None -> inside m [] []
| in_given t : mk_contents m = Some t -> inside m t [Text false t]
| in_filled el body : mk_element m = Some el -> decode content_table content_bad body = Some (b_u el) ->
    inside m body [Text true body].
(* the text out is the tag with the attributes a' and the contents mid *)
Definition same_tag (m : mark) (out : str) (a' : gattrs) (mid : list event) : Prop :=
  exists pairs rest body,
    parse_tag out = Some (mk_tag m, pairs, rest) /\ NoDup (keys pairs)
    /\ (forall k v, aget qname_eqb (QName None k) a' = Some v <-> exists t, v = inl (MText t) /\ aget str_eqb k pairs = Some t)
    /\ (forall n k, aget qname_eqb (QName (Some n) k) a' = None)
    /\ (body = [] /\ In rest [lit " />"; lit ">"] \/ rest = lit ">" ++ body ++ lit "</" ++ mk_tag m ++ lit ">")
    /\ inside m body mid.
(* the texts returned by the calls and the events rendered, item by item *)
Inductive agree : list item -> list str -> list event -> Prop :=
| ag_nil : agree [] [] []
| ag_draw m p out outs a' mid l : same_tag m out a' mid -> agree p outs l ->
    agree (Draw m :: p) (out :: outs) (Start (mark_name m) a' :: mid ++ End (mark_name m) :: l)
| ag_within s p1 p outs1 outs l1 l : agree p1 outs1 l1 -> agree p outs l ->
    agree (Within s p1 :: p) ([] :: outs1 ++ [] :: outs) (l1 ++ l)
| ag_change s p outs l : agree p outs l -> agree (Change s :: p) ([] :: outs) l.
