(* Model of how the Genshi directives are made when a template is made:
   flatland/out/genshi.py:35-113, 165-202, 244-258.

   What is assumed of Genshi 0.6, which is not part of the repository: a tag or
   an attribute whose name is in the namespace given to add_directives stands
   for the directive of that local name, or BadDirectiveError is raised if there
   is none; a tag hands its attributes without namespace to attach as a dict, an
   attribute its value as text; the directives of a tag are attached in the order
   in which the factory lists them; Directive.attach makes the directive. *)
From Verif Require Import PyBase ModelMarkup ModelGenshi.

(* out/genshi.py:72-78,91-98: the value given to attach, type(value) is dict or
   not. The text of an attribute is given by its pieces (out/genshi.py:108, the
   interpolation) and by the value it has as an expression (180-187). *)
Inductive written :=
| AsTag (l : list (str * str))
| AsAttr (raw : list piece) (value : option belement).
(* out/genshi.py:72-98: TemplateSyntaxError; BadDirectiveError of Genshi; an
   exception of the constructor *)
Inductive refusal := SyntaxErr | NoDirective | Raised (e : exn).

(* out/genshi.py:244-258 FlatlandElements.directives, in order *)
Definition registered : list str :=
  map lit ["with"; "set"; "bind"; "auto-name"; "auto-value"; "auto-domid"; "auto-for"; "auto-tabindex"; "auto-filter"]%string.
(* out/genshi.py:35-44 setup, by whether the template has add_directives *)
Definition setup (has_add_directives : bool) : res unit :=
  if has_add_directives then Ok tt else Err RuntimeErr.

(* out/genshi.py:109: kind is TEXT *)
Definition is_text (p : piece) : bool := match p with PText _ => true | PExpr _ => false end.
(* out/genshi.py:104-113 ControlAttribute.__init__: pieces that are all text are
   joined *)
Definition raw_value (raw : list piece) : list piece :=
  if forallb is_text raw then [PText (List.concat (map piece_text raw))] else raw.
(* out/genshi.py:71-78 TagOnly.attach, 190-202 RenderContextManipulator.__init__,
   80-83 TagOnly.__init__ *)
Definition attach_tag (make : attrs -> directive) (w : written) : directive + refusal :=
  match w with
  | AsAttr _ _ => inr SyntaxErr
  | AsTag l => match manipulator l [] with Ok s => inl (make s) | Err e => inr (Raised e) end
  end.
(* out/genshi.py:90-98 AttributeOnly.attach *)
Definition attach_attribute (make : list piece -> option belement -> directive) (w : written) : directive + refusal :=
  match w with
  | AsTag _ => inr SyntaxErr
  | AsAttr raw v => inl (make raw v)
  end.
(* out/genshi.py:140-190,204-206,230-232,244-258: the directive of a name *)
Definition attach (name : str) (w : written) : directive + refusal :=
  if str_eqb name (lit "with") then attach_tag DWith w
  else if str_eqb name (lit "set") then attach_tag DSet w
  else if str_eqb name (lit "bind") then attach_attribute (fun _ v => DBind v) w
  else if memb str_eqb name registered then attach_attribute (fun raw _ => DControl name (raw_value raw)) w
  else inr NoDirective.

(* Genshi, with the order of out/genshi.py:248-258: the place of a directive *)
Fixpoint place (name : str) (l : list str) : nat :=
  match l with
  | [] => 0
  | n :: r => if str_eqb name n then 0 else S (place name r)
  end.
(* Genshi, with the order of out/genshi.py:248-258: sorting the directives of a
   tag, keeping the order of equals *)
Fixpoint insert_directive (p : str * written) (l : list (str * written)) : list (str * written) :=
  match l with
  | [] => [p]
  | q :: r => if place (fst p) registered <=? place (fst q) registered then p :: q :: r
              else q :: insert_directive p r
  end.
(* Genshi, with the order of out/genshi.py:248-258 *)
Fixpoint in_place (l : list (str * written)) : list (str * written) :=
  match l with
  | [] => []
  | p :: r => insert_directive p (in_place r)
  end.
(* Genshi, attaching by out/genshi.py:71-98 one after the other *)
Fixpoint attach_all (l : list (str * written)) : list directive + refusal :=
  match l with
  | [] => inl []
  | (n, w) :: r =>
      match attach n w with
      | inr e => inr e
      | inl d => match attach_all r with inl ds => inl (d :: ds) | inr e => inr e end
      end
  end.
(* Genshi, with out/genshi.py:244-258: the directives of a tag; names that are
   not known are found first *)
Definition prepare (l : list (str * written)) : list directive + refusal :=
  if forallb (fun p => memb str_eqb (fst p) registered) l then attach_all (in_place l) else inr NoDirective.
