(* Model of repr() of elements, slots, path expressions and settings, and of
   what a failing find() says: flatland/schema/scalars.py:145-147,
   compound.py:183-188, containers.py:427-428, 630-632, paths.py:70-84, 95-99,
   properties.py:72-73, out/generic.py:71-72.  Python 3.3, as in ModelNest. *)
From Verif Require Import PyBase ModelUtil ModelMap ModelScalar ModelNest ModelPaths.

(* An element, as far as repr looks at it.  [ofScalar]: elements that use
   Scalar.__repr__ (scalars.py:145): scalars, Constrained, Enum, Ref, MultiValue
   and JoinedString (containers.py:686, compound.py:247: Scalar precedes list in
   the order of their bases), with the class name, the name and what .value
   gives or raises.  [ofCompound]: compound.py:183.  [ofList]: a List
   (containers.py:630) or an Array, which has the repr of list.  [ofDict]: a
   mapping, which has the repr of dict; items in the order of iteration. *)
Inductive looks :=
| ofScalar (cls : str) (n : name) (v : res pyval)
| ofCompound (cls : str) (n : name) (v : res pyval)
| ofList (l : list looks)
| ofDict (l : list (name * looks)).

(* schema/compound.py:187: type(exc).__name__. Simplification: ArithErr stands
   for ArithmeticError itself, AdaptErr for exc.AdaptationError, OutOfFuel for
   too deep a recursion. *)
Definition exn_name (e : exn) : str :=
  lit (match e with
       | TypeErr => "TypeError" | KeyErr => "KeyError" | IndexErr => "IndexError" | ValueErr => "ValueError"
       | LookupErr => "LookupError" | AttributeErr => "AttributeError" | RuntimeErr => "RuntimeError"
       | NotImplErr => "NotImplementedError" | AssertErr => "AssertionError" | AdaptErr => "AdaptationError"
       | ArithErr => "ArithmeticError" | OutOfFuel => "RuntimeError" end)%string.

Section Repr.
Variable printable : N -> bool.
(* repr of an object that is none of the values below *)
Variable object_repr : pyobj -> str.

(* scalars.py:146: %r of a name, text or None *)
Definition name_repr (n : name) : str := match n with Some s => py_repr printable s | None => lit "None" end.
(* scalars.py:147, Python's datetime.time: seconds and microseconds are left out
   when they and what follows is 0 *)
Definition time_args (t : time) : list N :=
  [t_h t; t_m t] ++ (if (t_us t =? 0)%N then if (t_s t =? 0)%N then [] else [t_s t] else [t_s t; t_us t]).
(* scalars.py:147, Python's datetime.date: the arguments *)
Definition date_args (d : date) : list N := [d_y d; d_m d; d_d d].
(* scalars.py:147: repr of a date or time *)
Definition call_repr (f : string) (args : list N) : str :=
  lit f ++ lit "(" ++ join (lit ", ") (map dec args) ++ lit ")".
(* scalars.py:147: %r of a value *)
Definition value_repr (v : pyval) : str :=
  match v with
  | VNone => lit "None"
  | VBool true => lit "True"
  | VBool false => lit "False"
  | VInt z => dec_z z
  | VText s => py_repr printable s
  | VDate d => call_repr "datetime.date" (date_args d)
  | VDateTime d t => call_repr "datetime.datetime" (date_args d ++ time_args t)
  | VTime t => call_repr "datetime.time" (time_args t)
  | VObj o => object_repr o
  end.
(* scalars.py:145-147 Scalar.__repr__ *)
Definition scalar_repr (cls : str) (n : name) (v : res pyval) : res str :=
  rmap (fun v => lit "<" ++ cls ++ lit " " ++ name_repr n ++ lit "; value=" ++ value_repr v ++ lit ">") v.
(* compound.py:183-188 Compound.__repr__ *)
Definition compound_repr (cls : str) (n : name) (v : res pyval) : str :=
  match scalar_repr cls n v with
  | Ok t => t
  | Err e => lit "<" ++ cls ++ lit " " ++ name_repr n ++ lit "; value raised " ++ exn_name e ++ lit ">"
  end.
(* list.__repr__ (containers.py:632) and dict.__repr__: the reprs of the members
   one after the other, up to the first that raises *)
Fixpoint each (l : list (res str)) : res (list str) :=
  match l with
  | [] => Ok []
  | r :: l' => bind r (fun t => rmap (cons t) (each l'))
  end.
(* list.__repr__ (containers.py:632) *)
Definition bracket (o : string) (ts : list str) (c : string) : str := lit o ++ join (lit ", ") ts ++ lit c.
(* repr(element): schema/scalars.py:145-147, compound.py:183-188, containers.py:630-632 *)
Fixpoint look (e : looks) : res str :=
  match e with
  | ofScalar cls n v => scalar_repr cls n v
  | ofCompound cls n v => Ok (compound_repr cls n v)
  | ofList l => rmap (fun ts => bracket "[" ts "]") (each (map look l))
  | ofDict l => rmap (fun ts => bracket "{" ts "}")
                     (each (map (fun kv => rmap (fun t => name_repr (fst kv) ++ lit ": " ++ t) (look (snd kv))) l))
  end.
(* containers.py:427-428 ListSlot.__repr__ *)
Definition slot_repr (n : name) (e : looks) : res str :=
  rmap (fun t => lit "<ListSlot[" ++ name_repr n ++ lit "] for " ++ t ++ lit ">") (look e).
(* paths.py:95-99 PathExpression.__unicode__ and __repr__ *)
Definition path_repr (expr : str) : str := lit "pathexpr(" ++ py_repr printable expr ++ lit ")".
(* properties.py:72-73 DictLike.__repr__; out/generic.py:71-72: a dict of texts *)
Definition texts_repr (l : list (str * pyval)) : str :=
  bracket "{" (map (fun kv => py_repr printable (fst kv) ++ lit ": " ++ value_repr (snd kv)) l) "}".
(* out/generic.py:71-72 Context.__repr__, by the frame on top *)
Definition context_repr (cls : str) (top : list (str * pyval)) : str := cls ++ lit "(" ++ texts_repr top ++ lit ")".
(* paths.py:73-84: what LookupError says when an element has no such child *)
Definition no_child (cls : str) (n : name) (child : name) (expr : str) : str :=
  (match n with
   | Some (c :: s) => cls ++ lit " element " ++ show_key printable n
   | _ => lit "Unnamed element " ++ cls
   end) ++ lit " has no child " ++ show_key printable child ++ lit " in expression " ++ show_text printable false expr.
(* base.py:533-534: what LookupError says when several elements match *)
Definition too_many (path : str) : str :=
  lit "Path " ++ py_repr printable path ++ lit " matched multiple elements; single result expected.".
(* paths.py:70-84: the element that has no child of the name, when following
   the operations comes to one *)
Fixpoint blame (t : tree) (ops : list op) (e : elem) : option (elem * name) :=
  match ops with
  | [] => None
  | TOP :: r => blame t r (root t e)
  | UP :: r => blame t r (match parent t e with Some p => if truthy t p then p else e | None => e end)
  | HERE :: r => blame t r e
  | NAME x :: r => match index t e x with
                   | Ok e' => blame t r e'
                   | Err err => if is_lookup err || match err with TypeErr => true | _ => false end then Some (e, x) else None
                   end
  | SLICE _ :: _ => None
  end.
(* schema/paths.py:61-93: the same for all contexts; the first counts *)
Fixpoint complaint (fuel : nat) (t : tree) (cs : list (list op * elem)) : option (elem * name) :=
  match cs with
  | [] => None
  | (ops, e) :: r =>
      match fuel with
      | O => None
      | S fuel => match blame t ops e with
                  | Some b => Some b
                  | None => match run_ops t true ops e with
                            | Ok (More l) => complaint fuel t (r ++ l)
                            | Ok _ => complaint fuel t r
                            | Err _ => None
                            end
                  end
      end
  end.
(* base.py:526-536, paths.py:57-93: what the LookupError of a strict find()
   says.  [cls] gives the class names of elements.  Simplification: the path is
   not in the cache before. *)
Definition find_says (cls : elem -> str) (fuel : nat) (t : tree) (e : elem) (path : str) (single : bool) : option str :=
  match tokenize path with
  | Err _ => None
  | Ok ops => match complaint fuel t [(ops, e)] with
              | Some (e', x) => Some (no_child (cls e') (elem_name t e') x path)
              | None => match evaluate fuel t true ops e with
                        | Ok (_ :: _ :: _) => if single then Some (too_many path) else None
                        | _ => None
                        end
              end
  end.
End Repr.
