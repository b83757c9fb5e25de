(* Model of schema declaration: class copying (flatland/util/base.py
   class_cloner), the methods built on it (schema/base.py, containers.py,
   scalars.py) and Form classes (schema/forms.py). *)
From Verif Require Import PyBase PyList ModelUtil ModelSeq ModelProps.

(* schema/base.py:154-243, schema/containers.py:55-74, 183, 925,
   schema/scalars.py:436, 568: The class_cloner methods. *)
Inductive meth :=
| MNamed | MUsing | MValidatedBy | MIncluding | MDescentBy | MIncludingDescent | MWithProperties
| MSeqOf | MDictOf | MValued | MTo.

(* schema/base.py:154-247: Values stored in class dictionaries and passed to
   the methods. *)
Inductive value (V : Type) :=
| VNone | VText (s : str)
| VObj (n : nat)                 (* any other object that is not callable *)
| VFun (n : nat)                 (* a callable that is not a class *)
| VClass (c : nat)
| VElem (n : nat)                (* an instance of Element *)
| VSeq (tuple : bool) (l : list (value V))
| VPath (l : list (option str))  (* a list of strings; None is the Root marker *)
| VDict (l : list (str * V))     (* a dict, given for a properties attribute *)
| VCloner (m : meth)
| VStatic (v : value V).         (* staticmethod(v) *)
Arguments VNone {V}. Arguments VText {V}. Arguments VObj {V}. Arguments VFun {V}. Arguments VClass {V}.
Arguments VElem {V}. Arguments VSeq {V}. Arguments VPath {V}. Arguments VDict {V}. Arguments VCloner {V}. Arguments VStatic {V}.

(* All classes: their MROs and properties (k_props), their own attributes other
   than properties, whether their metaclass is _MetaForm (forms.py:10), the next
   fresh class and Properties object. *)
Record classes (V : Type) := Classes {
  k_props : world V;
  k_attrs : nat -> list (str * value V);
  k_form : nat -> bool;
  k_next : nat;
  k_desc : nat }.
Arguments Classes {V}. Arguments k_props {V}. Arguments k_attrs {V}. Arguments k_form {V}.
Arguments k_next {V}. Arguments k_desc {V}.

(* schema/forms.py:42: the classes Element and Dict, which the code refers to
   by name *)
Definition element_class : nat := 1.
(* schema/containers.py:226 *)
Definition dict_class : nat := 2.

Section Dsl.
Context {V : Type}.
Notation kd := (classes V).
Notation val := (value V).
(* six.text_type(x) *)
Variable text_of : val -> str.

(* schema/forms.py:32-33: cls.__mro__ *)
Definition mro (k : kd) (c : nat) : list nat := w_mro (k_props k) c.
(* schema/forms.py:33: attribute lookup along the MRO *)
Fixpoint first_attr (attrs : nat -> list (str * val)) (a : str) (l : list nat) : option val :=
  match l with
  | [] => None
  | c :: r => match aget str_eqb a (attrs c) with Some v => Some v | None => first_attr attrs a r end
  end.
(* schema/forms.py:33, schema/base.py:235, schema/containers.py:91: getattr(c,
   a) for a class c and an attribute other than properties. Descriptors other
   than staticmethod and class_cloner are opaque objects; attributes of the
   metaclass are not modelled. *)
Definition getattr (k : kd) (c : nat) (a : str) : option val :=
  match first_attr (k_attrs k) a (mro k c) with
  | Some (VStatic v) => Some v
  | o => o
  end.
(* schema/base.py:189: hasattr(c, a) *)
Definition hasattr (k : kd) (c : nat) (a : str) : bool :=
  if str_eqb a (lit "properties")
  then match desc (k_props k) c with Some _ => true | None => false end
  else match getattr k c a with Some _ => true | None => false end.
(* schema/base.py:190: the class __dict__ *)
Definition set_attrs (k : kd) (c : nat) (l : list (str * val)) : kd :=
  Classes (k_props k) (fset (k_attrs k) c l) (k_form k) (k_next k) (k_desc k).
(* schema/base.py:165, 190, 215, 239: setattr(c, a, v) for an attribute other
   than properties *)
Definition setattr (k : kd) (c : nat) (a : str) (v : val) : kd :=
  set_attrs k c (aset str_eqb a v (k_attrs k c)).
(* setattr(c, 'properties', Properties(l)): properties.py:238-241 *)
Definition set_properties (k : kd) (c : nat) (l : list (str * V)) : kd :=
  let w := k_props k in
  Classes (World (w_mro w) (fset (w_own w) c (Some (k_desc k))) (fset (w_init w) (k_desc k) (w_next w))
                 (w_map w) (S (w_next w)) (fset (w_dict w) (w_next w) (d_update [] l)) (w_cls w) (w_local w))
          (k_attrs k) (k_form k) (k_next k) (S (k_desc k)).
(* util/base.py:149, schema/forms.py:51: type.__new__(metaclass, name, bases,
   members) with the MRO given *)
Definition new_class (k : kd) (lin : list nat) (form : bool) (members : list (str * val)) : kd * nat :=
  let w := k_props k in
  let n := k_next k in
  (Classes (World (fset (w_mro w) n (n :: lin)) (fset (w_own w) n None) (w_init w) (w_map w)
                  (w_next w) (w_dict w) (w_cls w) (w_local w))
           (fset (k_attrs k) n members) (fset (k_form k) n form) (S n) (k_desc k), n).

(* schema/forms.py:43, 64, 72: field.name. A name is text or None: other
   names, which only using() could install, are not modelled. *)
Definition name_of (k : kd) (v : val) : res name :=
  match v with
  | VClass c => match getattr k c (lit "name") with
                | Some (VText s) => Ok (Some s)
                | Some _ => Ok None
                | None => Err AttributeErr
                end
  | _ => Err AttributeErr
  end.
(* schema/forms.py:63, 71, schema/base.py:179, 235: iterating over a value *)
Definition iterate (v : val) : res (list val) :=
  match v with VSeq _ l => Ok l | _ => Err TypeErr end.

(* schema/forms.py:54-78 _ElementCollection: the elements with their names, whose set
   is [names] *)
Notation coll := (list (name * val)).
(* schema/forms.py:61-67 *)
Fixpoint add_unseen (k : kd) (fs : list val) (c : coll) : res coll :=
  match fs with
  | [] => Ok c
  | f :: r => bind (name_of k f) (fun n =>
              add_unseen k r (if memb name_eqb n (map fst c) then c else c ++ [(n, f)]))
  end.
(* schema/forms.py:72-76 *)
Fixpoint remove_first (n : name) (c : coll) : coll :=
  match c with
  | [] => []
  | (n', f) :: r => if name_eqb n' n then r else (n', f) :: remove_first n r
  end.
(* schema/forms.py:69-78 *)
Fixpoint add_and_overwrite (k : kd) (fs : list val) (c : coll) : res coll :=
  match fs with
  | [] => Ok c
  | f :: r => bind (name_of k f) (fun n => add_and_overwrite k r (remove_first n c ++ [(n, f)]))
  end.
(* forms.py:31-33 the fields of the bases *)
Fixpoint base_fields (k : kd) (bases : list nat) (c : coll) : res coll :=
  match bases with
  | [] => Ok c
  | b :: r => bind (match getattr k b (lit "field_schema") with Some v => iterate v | None => Ok [] end) (fun fs =>
              bind (add_unseen k fs c) (base_fields k r))
  end.

(* util/base.py:137-147: clone = type(cls.__name__, (cls,), members).  When cls
   is a Form, the metaclass runs: it finds no field among the members, so the
   fields are those of cls (schema/forms.py:28-51).  The name of the module of the
   caller is an opaque object. *)
Definition clone (k : kd) (c : nat) : res (kd * nat) :=
  let doc := match getattr k c (lit "__doc__") with Some d => d | None => VText [] end in
  let members := [(lit "__doc__", doc); (lit "__module__", VObj 0)] in
  if k_form k c
  then bind (base_fields k [c] []) (fun fields =>
       Ok (new_class k (mro k c) true (members ++ [(lit "field_schema", VSeq false (map snd fields))])))
  else Ok (new_class k (mro k c) false members).

(* schema/base.py:154-247: The arguments of a call *)
Inductive args :=
| AOne (v : val)                                          (* named(v) *)
| AKw (l : list (str * val))                              (* using( **l) *)
| AVals (l : list val)                                    (* validated_by, of, valued *)
| ASplice (l : list val) (position : option Z) (extra : bool) (* including_validators; extra: another keyword *)
| AProps (l : list (str * V))                             (* with_properties *)
| ATo (path : str + list (option str)) (sep : option str). (* to; the path is a string or a list *)

(* schema/base.py:187 *)
Definition callable (v : val) : bool := match v with VFun _ | VClass _ => true | _ => false end.
(* schema/base.py:210, schema/containers.py:66: a class *)
Definition is_type (v : val) : bool := match v with VClass _ => true | _ => false end.
(* schema/containers.py:218, 931: isinstance(field, Element) *)
Definition is_elem (v : val) : bool := match v with VElem _ => true | _ => false end.

(* base.py:168-195 using, on the clone: the loop over overrides *)
Fixpoint set_all (k : kd) (c : nat) (l : list (str * val)) : kd * res unit :=
  match l with
  | [] => (k, Ok tt)
  | (a, v) :: r =>
      if hasattr k c a
      then set_all (if str_eqb a (lit "properties")
                    then match v with VDict d => set_properties k c d | _ => k end
                    else setattr k c a (if callable v then VStatic v else v)) c r
      else (k, Err TypeErr)
  end.
(* schema/base.py:177-183: using: validators become a list; properties become
   a Properties object. Passing an existing Properties object is not modelled
   (C40 shows what sharing one does); anything else than a dict is a
   TypeError. *)
Fixpoint prepare (l : list (str * val)) : res (list (str * val)) :=
  match l with
  | [] => Ok []
  | (a, v) :: r =>
      bind (if str_eqb a (lit "validators") then rmap (VSeq false) (iterate v)
            else if str_eqb a (lit "properties") then match v with VDict _ => Ok v | _ => Err TypeErr end
            else Ok v) (fun v' =>
      rmap (cons (a, v')) (prepare r))
  end.
(* schema/base.py:168-196 *)
Definition using_on (k : kd) (c : nat) (l : list (str * val)) : kd * res unit :=
  match prepare l with Err x => (k, Err x) | Ok l' => set_all k c l' end.
(* base.py:198-215 validated_by; containers.py:55-71 descent_validated_by *)
Definition validated_by (k : kd) (c : nat) (a : str) (l : list val) : kd * res unit :=
  if existsb is_type l then (k, Err TypeErr) else (setattr k c a (VSeq false l), Ok tt).
(* base.py:218-239 including_validators; containers.py:74-96
   including_descent_validators *)
Definition including (k : kd) (c : nat) (a : str) (l : list val) (position : option Z) (extra : bool) : kd * res unit :=
  let p := match position with Some p => p | None => (-1)%Z end in
  if extra then (k, Err TypeErr)
  else match getattr k c a with
       | None => (k, Err AttributeErr)
       | Some have =>
           match iterate have with
           | Err x => (k, Err x)
           | Ok mutable =>
               let p := if (p <? 0)%Z then (Z.of_nat (List.length mutable) + 1 + p)%Z else p in
               match pl_setslice mutable (Slice (Some p) (Some p) None) l with
               | Err x => (k, Err x)
               | Ok mutable' => (setattr k c a (VSeq false mutable'), Ok tt)
               end
           end
       end.
(* containers.py:925-947 Dict.of; distinct names *)
Fixpoint names_of (k : kd) (l : list val) : res (list name) :=
  match l with
  | [] => Ok []
  | f :: r => bind (name_of k f) (fun n => rmap (cons n) (names_of k r))
  end.
(* schema/containers.py:935-937 *)
Fixpoint distinct (l : list name) : bool :=
  match l with [] => true | n :: r => negb (memb name_eqb n r) && distinct r end.
(* schema/containers.py:925-947 *)
Definition dict_of (k : kd) (c : nat) (l : list val) : kd * res unit :=
  if existsb is_elem l then (k, Err TypeErr)
  else match names_of k l with
       | Err x => (k, Err x)
       | Ok ns => if distinct ns then (setattr k c (lit "field_schema") (VSeq true l), Ok tt) else (k, Err TypeErr)
       end.
(* containers.py:183-227 Sequence.of *)
Definition seq_of (k : kd) (c : nat) (l : list val) : kd * res unit :=
  if existsb is_elem l then (k, Err TypeErr)
  else match l with
       | [] => (k, Err TypeErr)
       | [f] => (setattr k c (lit "member_schema") f, Ok tt)
       | _ => match clone k dict_class with
              | Err x => (k, Err x)
              | Ok (k1, n) => match dict_of k1 n l with
                              | (k2, Ok _) => (setattr k2 c (lit "member_schema") (VClass n), Ok tt)
                              | (k2, Err x) => (k2, Err x)
                              end
              end
       end.
(* base.py:597-609 _parse_element_path of a string *)
Definition parse_element_path (path sep : str) : res (list (option str)) :=
  if str_eqb path sep then Ok [None]
  else let '(path, parts) := if starts_with sep path then (skipn (List.length sep) path, [None]) else (path, []) in
       match sep with
       | [] => Err ValueErr
       | _ => Ok (parts ++ map Some (split sep path))
       end.
(* scalars.py:568-575 Ref.to *)
Definition ref_to (k : kd) (c : nat) (path : str + list (option str)) (sep : option str) : kd * res unit :=
  let sep := match sep with
             | Some s => Ok s
             | None => match getattr k c (lit "sep") with
                       | Some (VText s) => Ok s | Some _ => Err TypeErr | None => Err AttributeErr end
             end in
  match bind sep (fun s => match path with inl p => parse_element_path p s | inr l => Ok l end) with
  | Err x => (k, Err x)
  | Ok l => (setattr k c (lit "target_path") (VPath l), Ok tt)
  end.

(* schema/base.py:154-247: the body of method m, run on the clone c *)
Definition body (k : kd) (c : nat) (m : meth) (a : args) : kd * res unit :=
  match m, a with
  | MNamed, AOne v =>     (* base.py:154-166 *)
      (setattr k c (lit "name") (match v with VText _ | VNone => v | _ => VText (text_of v) end), Ok tt)
  | MUsing, AKw l => using_on k c l
  | MValidatedBy, AVals l => validated_by k c (lit "validators") l
  | MDescentBy, AVals l => validated_by k c (lit "descent_validators") l
  | MIncluding, ASplice l p e => including k c (lit "validators") l p e
  | MIncludingDescent, ASplice l p e => including k c (lit "descent_validators") l p e
  | MWithProperties, AProps l =>   (* base.py:242-247 *)
      let '(w, r) := class_step c (PUpdate l) (k_props k) in
      (Classes w (k_attrs k) (k_form k) (k_next k) (k_desc k), rmap (fun _ => tt) r)
  | MSeqOf, AVals l => seq_of k c l
  | MDictOf, AVals l => dict_of k c l
  | MValued, AVals l => (setattr k c (lit "valid_values") (VSeq true l), Ok tt)  (* scalars.py:436-445 *)
  | MTo, ATo p s => ref_to k c p s
  | _, _ => (k, Err TypeErr)   (* the arguments do not fit the signature *)
  end.
(* C.m(args): the attribute access clones C, the call runs on the clone, which
   is returned (util/base.py:137-147).  When the attribute is not a
   class_cloner, the outcome is not modelled (TypeError here). *)
Definition call (k : kd) (c : nat) (m : str) (a : args) : kd * res nat :=
  match getattr k c m with
  | Some (VCloner m) =>
      match clone k c with
      | Err x => (k, Err x)
      | Ok (k1, n) => let '(k2, r) := body k1 n m a in (k2, rmap (fun _ => n) r)
      end
  | Some _ => (k, Err TypeErr)
  | None => (k, Err AttributeErr)
  end.

(* schema/forms.py:51: Python's C3 linearisation of the bases (type.__new__)
   *)
Definition good_head (ls : list (list nat)) (h : nat) : bool :=
  forallb (fun l => match l with [] => true | _ :: t => negb (memb Nat.eqb h t) end) ls.
(* schema/forms.py:51: C3 *)
Fixpoint find_head (ls rest : list (list nat)) : option nat :=
  match rest with
  | [] => None
  | [] :: r => find_head ls r
  | (h :: _) :: r => if good_head ls h then Some h else find_head ls r
  end.
(* schema/forms.py:51: C3 *)
Fixpoint merge (fuel : nat) (ls : list (list nat)) : res (list nat) :=
  match fuel with
  | O => Err OutOfFuel
  | S fuel =>
      if forallb (fun l => match l with [] => true | _ => false end) ls then Ok []
      else match find_head ls ls with
           | None => Err TypeErr
           | Some h => rmap (cons h) (merge fuel (map (fun l => match l with
                                                              | x :: t => if Nat.eqb x h then t else l
                                                              | [] => [] end) ls))
           end
  end.
(* schema/forms.py:51: C3 *)
Definition linearise (k : kd) (bases : list nat) : res (list nat) :=
  let ls := map (mro k) bases ++ [bases] in
  merge (S (list_sum (map (@List.length nat) ls))) ls.

(* forms.py:38-47: members that are Element classes become fields, renamed
   copies if need be, and leave the members *)
Definition is_element_class (k : kd) (v : val) : bool :=
  match v with VClass c => memb Nat.eqb element_class (mro k c) | _ => false end.
(* schema/forms.py:38-47 *)
Fixpoint declared (k : kd) (members : list (str * val)) : kd * res (list val * list (str * val)) :=
  match members with
  | [] => (k, Ok ([], []))
  | (a, v) :: r =>
      if is_element_class k v
      then match name_of k v with
           | Err x => (k, Err x)
           | Ok n =>
               match (if name_eqb (Some a) n then (k, Ok v)
                      else match v with
                           | VClass c => let '(k1, r) := call k c (lit "named") (AOne (VText a)) in (k1, rmap VClass r)
                           | _ => (k, Err AttributeErr)
                           end) with
               | (k1, Err x) => (k1, Err x)
               | (k1, Ok v') => let '(k2, r') := declared k1 r in
                                (k2, rmap (fun p => (v' :: fst p, snd p)) r')
               end
           end
      else let '(k2, r') := declared k r in (k2, rmap (fun p => (fst p, (a, v) :: snd p)) r')
  end.
(* schema/forms.py:28-51: class X(bases): members. A dict given as properties
   stands for properties = Properties(dict). Metaclasses other than _MetaForm
   and type are not modelled. *)
Definition declare (k : kd) (bases : list nat) (members : list (str * val)) (props : option (list (str * V))) : kd * res nat :=
  let finish k members form :=
    match linearise k bases with
    | Err x => (k, Err x)
    | Ok lin => let '(k1, n) := new_class k lin form members in
                (match props with Some l => set_properties k1 n l | None => k1 end, Ok n)
    end in
  if existsb (k_form k) bases
  then match base_fields k bases [] with
       | Err x => (k, Err x)
       | Ok c1 =>
           match bind (match aget str_eqb (lit "field_schema") members with Some v => iterate v | None => Ok [] end)
                      (fun fs => add_and_overwrite k fs c1) with
           | Err x => (k, Err x)
           | Ok c2 =>
               match declared k members with
               | (k1, Err x) => (k1, Err x)
               | (k1, Ok (fields, rest)) =>
                   match add_and_overwrite k1 fields c2 with
                   | Err x => (k1, Err x)
                   | Ok c3 => finish k1 (aset str_eqb (lit "field_schema") (VSeq false (map snd c3)) rest) true
                   end
               end
           end
       end
  else finish k members false.

(* schema/base.py:154-247, schema/forms.py:28-51 *)
Inductive kop :=
| KCall (c : nat) (m : str) (a : args)
| KDeclare (bases : list nat) (members : list (str * val)) (props : option (list (str * V))).
(* schema/base.py:154-247, schema/forms.py:28-51 *)
Definition kstep (k : kd) (o : kop) : kd * res nat :=
  match o with
  | KCall c m a => call k c m a
  | KDeclare b m p => declare k b m p
  end.
End Dsl.
Arguments args : clear implicits. Arguments kop : clear implicits.
Arguments AOne {V}. Arguments AKw {V}. Arguments AVals {V}. Arguments ASplice {V}. Arguments AProps {V}. Arguments ATo {V}.
Arguments KCall {V}. Arguments KDeclare {V}.
