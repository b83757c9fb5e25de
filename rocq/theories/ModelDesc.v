(* Attributes computed by descriptors (util/base.py), mapping and attribute
   views, and modules loaded on first access (util/deferred.py). *)
From Verif Require Import PyBase.

(* ------------------------------------------------------------------ *)
(* util/base.py: descriptors.  An object is its __dict__ and, for the theorems,
   the number of times the decorated function was called on it.  The function
   sees the object and the number of calls before this one, so that it may
   answer differently every time. *)
Section Descriptors.
Variable V : Type.
(* util/base.py:25-161 *)
Record obj := Obj { o_dict : list (str * V); o_calls : nat }.
Variable fget : nat -> list (str * V) -> res V.

(* util/base.py:41, 70, 111, 154: storing into __dict__ *)
Definition store (n : str) (v : V) (o : obj) : obj := Obj (aset str_eqb n v (o_dict o)) (o_calls o).
(* util/base.py:72-77, 113-118, 156-161: del o.__dict__[n]; the KeyError shows
   as AttributeError *)
Definition unstore (n : str) (o : obj) : obj * res unit :=
  match aget str_eqb n (o_dict o) with
  | Some _ => (Obj (adel str_eqb n (o_dict o)) (o_calls o), Ok tt)
  | None => (o, Err AttributeErr)
  end.
(* util/base.py:40, 67, 108: calling the function *)
Definition call_fget (o : obj) : obj * res V :=
  (Obj (o_dict o) (S (o_calls o)), fget (o_calls o) (o_dict o)).

(* util/base.py:37-42 lazy_property.__get__ on an instance: [n] is the name of
   the function, under which the result is stored *)
Definition lazy_compute (n : str) (o : obj) : obj * res V :=
  match call_fget o with
  | (o1, Ok v) => (store n v o1, Ok v)
  | (o1, Err x) => (o1, Err x)
  end.
(* util/base.py:25-42 lazy_property has no __set__, so Python looks into the
   __dict__ first, under the name [a] of the attribute *)
Definition lazy_read (a n : str) (o : obj) : obj * res V :=
  match aget str_eqb a (o_dict o) with
  | Some v => (o, Ok v)
  | None => lazy_compute n o
  end.
(* util/base.py:60-67 assignable_property.__get__ and 102-108
   assignable_class_property.__get__ on an instance *)
Definition assignable_read (n : str) (o : obj) : obj * res V :=
  match aget str_eqb n (o_dict o) with
  | Some v => (o, Ok v)
  | None => call_fget o
  end.
(* util/base.py:138-143 class_cloner.__get__ on an instance *)
Definition cloner_read (n : str) (o : obj) : obj * res V :=
  (o, match aget str_eqb n (o_dict o) with Some v => Ok v | None => Err AttributeErr end).

(* util/base.py:25-161 *)
Inductive descriptor := Lazy | Assignable | Cloner.
(* reading, assigning and deleting an attribute [a] of an instance.
   util/base.py:69-77, 110-118, 153-161: __set__ and __delete__ of the other
   two go by the name [n] of the function; a lazy_property has neither, so the
   __dict__ is used directly. *)
Definition read (d : descriptor) (a n : str) (o : obj) : obj * res V :=
  match d with Lazy => lazy_read a n o | Assignable => assignable_read n o | Cloner => cloner_read n o end.
(* util/base.py:69-70, 110-111, 153-154 *)
Definition assign (d : descriptor) (a n : str) (v : V) (o : obj) : obj :=
  match d with Lazy => store a v o | _ => store n v o end.
(* util/base.py:72-77, 113-118, 156-161 *)
Definition delete (d : descriptor) (a n : str) (o : obj) : obj * res unit :=
  match d with Lazy => unstore a o | _ => unstore n o end.

(* util/base.py:25-161 *)
Inductive attr_op := ARead | AAssign (v : V) | ADelete.
(* util/base.py:25-161 *)
Definition attr_step (d : descriptor) (a n : str) (o : obj) (op : attr_op) : obj :=
  match op with
  | ARead => fst (read d a n o)
  | AAssign v => assign d a n v o
  | ADelete => fst (delete d a n o)
  end.
End Descriptors.
Arguments Obj {V}. Arguments o_dict {V}. Arguments o_calls {V}.
Arguments store {V}. Arguments unstore {V}. Arguments call_fget {V}. Arguments lazy_compute {V}. Arguments lazy_read {V}.
Arguments assignable_read {V}. Arguments cloner_read {V}. Arguments read {V}. Arguments assign {V}. Arguments delete {V}.
Arguments ARead {V}. Arguments AAssign {V}. Arguments ADelete {V}. Arguments attr_step {V}.

(* ------------------------------------------------------------------ *)
(* schema/base.py:355-362 Element.label.  A class is what its own __dict__ says
   of label and name; [mro] lists the classes from the most derived up to, but
   without, Element, where label is the property and name is None
   (schema/base.py:69). *)
Record classdict := ClassDict { c_label : option name; c_name : option name }.
(* schema/base.py:355-362: attribute lookup along the MRO *)
Fixpoint first_some {A} (l : list (option A)) : option A :=
  match l with [] => None | Some x :: _ => Some x | None :: l' => first_some l' end.
(* schema/base.py:69, 362: cls.name *)
Definition class_name (mro : list classdict) : name :=
  match first_some (map c_name mro) with Some n => n | None => None end.
(* schema/base.py:355-362: cls.label *)
Definition class_label (mro : list classdict) : name :=
  match first_some (map c_label mro) with Some n => n | None => class_name mro end.
(* schema/base.py:69, 362: [own] is the __dict__ of the element *)
Definition elem_name (mro : list classdict) (own : list (str * name)) : name :=
  match aget str_eqb (lit "name") own with Some n => n | None => class_name mro end.
(* schema/base.py:355-362, util/base.py:102-108 *)
Definition elem_label (mro : list classdict) (own : list (str * name)) : name :=
  match first_some (map c_label mro) with
  | Some l => match aget str_eqb (lit "label") own with Some n => n | None => l end
  | None => match aget str_eqb (lit "label") own with Some n => n | None => elem_name mro own end
  end.

(* schema/base.py:848-864 default_value: the factory sees the element *)
Definition default_value {E V} (factory : option (E -> res V)) (default : V) (e : E) : res V :=
  match factory with Some f => f e | None => Ok default end.

(* ------------------------------------------------------------------ *)
(* util/base.py:163-186 as_mapping: [attr] is getattr(target, item) *)
Definition view_item {V} (attr : str -> res V) (item : str) : res V :=
  match attr item with Ok v => Ok v | Err AttributeErr => Err KeyErr | Err x => Err x end.
(* util/base.py:182-183: hasattr of Python 3 lets other exceptions through *)
Definition view_contains {V} (attr : str -> res V) (item : str) : res bool :=
  match attr item with Ok _ => Ok true | Err AttributeErr => Ok false | Err x => Err x end.

(* util/base.py:189-196 adict: __getattr__ is asked only for what dict itself
   does not have; [own] are the attributes of dict *)
Definition adict_attr {V} (own : str -> option V) (d : list (str * V)) (a : str) : res V :=
  match own a with
  | Some v => Ok v
  | None => match aget str_eqb a d with Some v => Ok v | None => Err AttributeErr end
  end.

(* ------------------------------------------------------------------ *)
(* util/deferred.py:8-50; the module is put in place of the one that is shadowed
   (util/deferred.py:13-16).  Objects are opaque; [load] is __import__ of a submodule,
   [attr] getattr on an object, [inherited] what ModuleType and the class
   itself define. *)
Section Deferred.
Variable T : Type.
Variable load : str -> res T.
Variable attr : T -> str -> res T.
Variable inherited : str -> option T.
(* util/deferred.py:18-32 *)
Record deferred := Deferred {
  d_dict : list (str * T);       (* __dict__ *)
  d_all : list str;              (* __all__ *)
  d_pushed : list (str * str);   (* __pushed_up *)
  d_loaded : list str            (* the submodules __import__ was asked for, latest first *)
}.
(* deferred.py:26-32 the loop of __init__ *)
Definition declare_sub (d : deferred) (sub : str * list str) : deferred :=
  Deferred (d_dict d) (d_all d ++ fst sub :: snd sub)
    (fold_left (fun p m => aset str_eqb m (fst sub) p) (snd sub) (d_pushed d)) (d_loaded d).
(* deferred.py:18-32 __init__: [basics] is what ModuleType.__init__ stores
   (19), [late] the attributes set after the keywords (21-25) *)
Definition new_deferred (basics attributes late : list (str * T)) (table : list (str * list str)) : deferred :=
  fold_left declare_sub table
    (Deferred (fold_left (fun m kv => aset str_eqb (fst kv) (snd kv) m) (attributes ++ late) basics) [] [] []).
(* util/deferred.py:38, 43: setattr *)
Definition d_store (k : str) (v : T) (d : deferred) : deferred :=
  Deferred (aset str_eqb k v (d_dict d)) (d_all d) (d_pushed d) (d_loaded d).
(* deferred.py:40-42: the import, and setattr *)
Definition load_sub (k : str) (d : deferred) : deferred * res T :=
  let d := Deferred (d_dict d) (d_all d) (d_pushed d) (k :: d_loaded d) in
  match load k with Ok m => (d_store k m d, Ok m) | Err x => (d, Err x) end.
(* deferred.py:34-50 __getattr__, behind the normal lookup in the __dict__ and
   the class.  Each round of recursion takes fuel; without it the recursion
   limit was met. *)
Fixpoint d_read (fuel : nat) (k : str) (d : deferred) : deferred * res T :=
  match aget str_eqb k (d_dict d) with
  | Some v => (d, Ok v)
  | None =>
      match inherited k with
      | Some v => (d, Ok v)
      | None =>
          match aget str_eqb k (d_pushed d) with
          | Some owner =>
              match fuel with
              | O => (d, Err RuntimeErr)
              | S fuel' =>
                  match d_read fuel' owner d with
                  | (d1, Ok m) => match attr m k with Ok v => (d_store k v d1, Ok v) | Err x => (d1, Err x) end
                  | (d1, Err x) => (d1, Err x)
                  end
              end
          | None => if memb str_eqb k (d_all d) then load_sub k d else (d, Err AttributeErr)
          end
      end
  end.
(* util/deferred.py:34-50: any history of reads *)
Fixpoint d_reads (fuel : nat) (ks : list str) (d : deferred) : deferred :=
  match ks with [] => d | k :: ks' => d_reads fuel ks' (fst (d_read fuel k d)) end.

(* util/deferred.py:53: a < b for text *)
Fixpoint text_before (a b : str) : bool :=
  match a, b with
  | [], [] => false
  | [], _ => true
  | _ :: _, [] => false
  | x :: a', y :: b' => (x <? y)%N || (x =? y)%N && text_before a' b'
  end.
(* util/deferred.py:53: insertion into a sorted list without repetition *)
Fixpoint insert_new (x : str) (l : list str) : list str :=
  match l with
  | [] => [x]
  | y :: l' => if text_before x y then x :: l else if str_eqb x y then l else y :: insert_new x l'
  end.
(* deferred.py:52-54 __dir__ *)
Definition d_dir (d : deferred) : list str :=
  filter (fun k => negb (starts_with (lit "_deferred_module") k))
    (fold_right insert_new [] (d_all d ++ map fst (d_dict d))).
End Deferred.
Arguments Deferred {T}. Arguments d_dict {T}. Arguments d_all {T}. Arguments d_pushed {T}. Arguments d_loaded {T}.
Arguments declare_sub {T}. Arguments new_deferred {T}. Arguments d_store {T}. Arguments load_sub {T}.
Arguments d_read {T}. Arguments d_reads {T}. Arguments d_dir {T}.
