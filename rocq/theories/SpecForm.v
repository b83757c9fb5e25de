(* Specification of forms drawn from an element: the controls of a form, how a
   name and a text are read from the markup of one, and what is required of the
   settings and of the other attributes.  Written with the tag parser and the
   decoder of SpecMarkup, without the functions that write markup. *)
From Verif Require Import PyBase ModelMarkup SpecMarkup.
From Verif Require ModelPaths SpecPaths ModelFlat SpecFlat.

(* generator.input(bind=...) or generator.textarea(bind=...) with further
   attributes; a radio button or checkbox for each of some values; one checkbox
   that is given no value; generator.select(bind=...) around the markup of some
   generator.option(bind=...), for one choice or with the attribute multiple *)
Record pick := Pick { pk_value : option str; pk_label : str; pk_attrs : attrs }.
Inductive control :=
| Input (kw : attrs)
| Area (kw : attrs)
| Choice (many : bool) (values : list str) (kw : attrs)
| Tick (kw : attrs)
| Menu (many : bool) (picks : list pick) (kw : attrs).
Definition box_call (type : string) (value : option str) (kw : attrs) (b : belement) : gop :=
  OTag true false (lit "input")
    ((lit "type", MText (lit type)) :: match value with Some v => (lit "value", MText v) :: kw | None => kw end) (Some b).
Definition control_calls (c : control) (b : belement) : option (list gop) :=
  match c with
  | Input kw => Some [OTag true false (lit "input") kw (Some b)]
  | Area kw => Some [OTag false true (lit "textarea") kw (Some b)]
  | Choice many values kw => Some (map (fun v => box_call (if many then "checkbox" else "radio")%string (Some v) kw b) values)
  | Tick kw => Some [box_call "checkbox" None kw b]
  | Menu _ _ _ => None
  end.
Definition pick_call (b : belement) (p : pick) : gop :=
  OTag false true (lit "option")
    ((lit "contents", MText (pk_label p)) :: match pk_value p with Some v => (lit "value", MText v) :: pk_attrs p | None => pk_attrs p end) (Some b).
Definition menu_call (many : bool) (inside : str) (kw : attrs) (b : belement) : gop :=
  OTag false true (lit "select")
    ((lit "contents", MHtml inside) :: if many then (lit "multiple", MText (lit "multiple")) :: kw else kw) (Some b).
Definition given_attrs (c : control) : attrs := match c with Input kw | Area kw | Choice _ _ kw | Tick kw | Menu _ _ kw => kw end.

(* the further attributes leave name, value and contents to the generator, switch
   nothing on or off for this tag, can be shown as text and do not ask for an
   input whose value is not its text *)
Definition unsuited_types : list string := ["radio"; "checkbox"; "password"; "file"; "image"]%string.
Definition quiet (kw : attrs) : Prop := forall k v, In (k, v) kw ->
  let n := drop_tail_underscores k in
  wf_name n = true /\ (exists t, shown v = Some t)
  /\ ~ In n (map lit ("name" :: "value" :: "contents" :: control_keys)%string)
  /\ (n = lit "type" -> forall t, In t unsuited_types -> ~ value_is v (lit t)).

(* boxes have their type already; one without a value is for a Boolean.  The
   contents of an option are not escaped by the generator: they hold no tag, and
   if they are the value they are text without entities or space around it *)
Definition without (n : string) (kw : attrs) : Prop := forall k v, In (k, v) kw -> drop_tail_underscores k <> lit n.
Definition typeless (kw : attrs) : Prop := without "type" kw.
Definition suited_pick (p : pick) : Prop :=
  quiet (pk_attrs p) /\ ~ In 60%N (pk_label p)
  /\ (pk_value p = None -> decode content_table content_bad (pk_label p) = Some (pk_label p) /\ strip (pk_label p) = pk_label p).
Definition suited (c : control) (b : belement) : Prop :=
  quiet (given_attrs c) /\
  match c with
  | Choice _ _ kw => typeless kw
  | Tick kw => typeless kw /\ exists t, b_kind b = BBoolean t
  | Menu _ picks kw => without "multiple" kw /\ Forall suited_pick picks
  | _ => True
  end.
(* whether the element has a value: its text, or the text of a member of an Array *)
Definition has_value (b : belement) (v : str) : bool :=
  match b_kind b with BArray has => has (MText v) | _ => str_eqb v (b_u b) end.
Definition worth (p : pick) : str := match pk_value p with Some v => v | None => pk_label p end.
(* what a control is to send: the text of the element; of several boxes, or of a
   menu of several choices, the values that the element has; of a Boolean its text
   if it is that of True; of a menu of one choice the last value that the element
   has, and the first of the menu if it has none *)
Definition sent (c : control) (b : belement) : list (str * str) :=
  match c with
  | Input _ | Area _ => [(b_name b, b_u b)]
  | Choice _ values _ =>
      map (pair (b_name b)) (filter (has_value b) values)
  | Tick _ =>
      match b_kind b with
      | BBoolean t => if str_eqb (b_u b) t then [(b_name b, t)] else []
      | _ => []
      end
  | Menu true picks _ => map (pair (b_name b)) (filter (has_value b) (map worth picks))
  | Menu false picks _ =>
      match rev (filter (has_value b) (map worth picks)), picks with
      | v :: _, _ => [(b_name b, v)]
      | [], p :: _ => [(b_name b, worth p)]
      | [], [] => []
      end
  end.
(* the control has a place for the text of the element *)
Definition has_place (c : control) (b : belement) : Prop :=
  match c with
  | Input _ | Area _ => True
  | Choice _ values _ => NoDup values /\ In (b_u b) values /\ (forall has, b_kind b <> BArray has)
  | Tick _ => b_kind b = BBoolean (b_u b)
  | Menu many picks _ =>
      In (b_u b) (map worth picks) /\ (forall has, b_kind b <> BArray has)
      /\ (many = true -> NoDup (map worth picks))
  end.

(* the switches of name and value are not off; no filters *)
Definition form_settings (g : gen) : Prop :=
  exists top below, g_frames g = top :: below /\ has_settings top
    /\ get "filters" top = Some (MFilters [])
    /\ (forall v, get "auto_name" top = Some v -> ~ says_no v)
    /\ (forall v, get "auto_value" top = Some v -> ~ says_no v).

(* calls made one after the other, none raising *)
Inductive drawn (env : filters_env) : gen -> list gop -> gen -> list str -> Prop :=
| dr_nil g : drawn env g [] g []
| dr_cons g o g1 out rest g2 outs :
    gen_step env g o = (g1, Ok out) -> drawn env g1 rest g2 outs ->
    drawn env g (o :: rest) g2 (out :: outs).
(* the calls of a control; the options of a menu are made before it *)
Inductive control_drawn (env : filters_env) : gen -> control -> belement -> gen -> list str -> Prop :=
| cd_calls g c b calls g' outs : control_calls c b = Some calls -> drawn env g calls g' outs -> control_drawn env g c b g' outs
| cd_menu g many picks kw b g1 inside g2 out :
    drawn env g (map (pick_call b) picks) g1 inside ->
    gen_step env g1 (menu_call many (List.concat inside) kw b) = (g2, Ok out) ->
    control_drawn env g (Menu many picks kw) b g2 [out].
(* the controls of a form, each for its element *)
Inductive form_drawn (env : filters_env) : gen -> list (control * belement) -> gen -> list str -> Prop :=
| fd_nil g : form_drawn env g [] g []
| fd_cons g c b l g1 g2 o1 o2 : control_drawn env g c b g1 o1 -> form_drawn env g1 l g2 o2 ->
    form_drawn env g ((c, b) :: l) g2 (o1 ++ o2).

(* the pairs that a tag stands for: its name attribute with its value attribute
   or its contents; nothing for a radio button or checkbox that is not checked;
   a select tag with the values of its selected options, or of one of them as
   browsers do without multiple (disabled and size are not looked at) *)
Definition attr (k : string) (l : list (str * str)) : option str := aget str_eqb (lit k) l.
Definition attr_is (k v : string) (l : list (str * str)) : bool :=
  match attr k l with Some x => str_eqb x (lit v) | None => false end.
Definition contents_of (tag rest : str) : option str :=
  match rest with
  | 62%N :: r =>
      let '(body, close) := span (fun c => negb (N.eqb c 60)) r in
      if str_eqb close (lit "</" ++ tag ++ lit ">") then decode content_table content_bad body else None
  | _ => None
  end.
Fixpoint after (p s : str) : option str :=
  match p, s with
  | [], _ => Some s
  | x :: p, y :: s => if N.eqb x y then after p s else None
  | _ :: _, [] => None
  end.
(* option tags at the start of a text: values, whether selected, and the rest *)
Fixpoint options_of (fuel : nat) (s : str) : option (list (str * bool) * str) :=
  match fuel with
  | O => None
  | S fuel =>
      match parse_tag s with
      | Some (tag, l, 62%N :: r) =>
          let '(body, close) := span (fun c => negb (N.eqb c 60)) r in
          if str_eqb tag (lit "option") then
            match after (lit "</option>") close with
            | Some s =>
                match (match attr "value" l with Some v => Some v | None => decode content_table content_bad body end), options_of fuel s with
                | Some v, Some (l', rest) => Some ((v, match attr "selected" l with Some _ => true | None => false end) :: l', rest)
                | _, _ => None
                end
            | None => None
            end
          else None
      | _ => Some ([], s)
      end
  end.
Definition selected (many : bool) (l : list (str * bool)) : list str :=
  let on := map fst (filter snd l) in
  if many then on
  else match rev on, l with
       | v :: _, _ => [v]
       | [], (v, _) :: _ => [v]
       | [], [] => []
       end.
Definition menu_values (l : list (str * str)) (rest : str) : option (list str) :=
  match rest with
  | 62%N :: r =>
      match options_of (S (List.length r)) r with
      | Some (os, close) =>
          if str_eqb close (lit "</select>")
          then Some (selected (match attr "multiple" l with Some _ => true | None => false end) os)
          else None
      | None => None
      end
  | _ => None
  end.
Definition submits (out : str) : option (list (str * str)) :=
  match parse_tag out with
  | Some (tag, l, rest) =>
      match attr "name" l with
      | Some n =>
          if str_eqb tag (lit "input") then
            if (attr_is "type" "radio" l || attr_is "type" "checkbox" l)
               && match attr "checked" l with None => true | Some _ => false end
            then Some []
            else option_map (fun v => [(n, v)]) (attr "value" l)
          else if str_eqb tag (lit "textarea") then option_map (fun v => [(n, v)]) (contents_of tag rest)
          else if str_eqb tag (lit "select") then option_map (map (pair n)) (menu_values l rest)
          else None
      | None => None
      end
  | None => None
  end.
Inductive submitted : list str -> list (str * str) -> Prop :=
| su_nil : submitted [] []
| su_cons out outs p ps : submits out = Some p -> submitted outs ps -> submitted (out :: outs) (p ++ ps).

(* what flatten() flattens of an element, generation by generation *)
Definition flattened_parts (e : ModelFlat.element) (xs : list ModelPaths.elem) : Prop :=
  let t := ModelFlat.tree_of e in
  exists n, SpecPaths.generation t (ModelPaths.Node []) n = []
    /\ xs = filter (ModelFlat.text_at e)
         (ModelPaths.Node [] :: if ModelFlat.children_flattenable e then SpecPaths.generations t (ModelPaths.Node []) n else []).
(* one of them as bind=: its flattened_name() and .u; it may be of any kind *)
Definition field (kind : ModelPaths.elem -> bkind) (e : ModelFlat.element) (x : ModelPaths.elem) : belement :=
  Bound (ModelFlat.flattened_name (ModelFlat.tree_of e) x (lit "_")) (ModelFlat.u_at e x) (kind x).
