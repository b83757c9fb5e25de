(* Model of validation messages: flatland/validation/base.py (Validator,
   as_format_mapping), flatland/schema/util.py (search_ancestry,
   find_i18n_function) and Element.add_error / add_warning. *)
From Verif Require Import PyBase ModelScalar.

(* validation/base.py:210-215: An attribute of a validator: a value, a
   (single, plural, n_key) tuple, or a callable, given by the outcome of
   calling it with (element, state). n_key is text. *)
Inductive attr :=
| Plain (v : pyval)
| Plural (single plural n_key : str)
| Call (r : res attr).
(* validation/base.py:210: a message that is text *)
Definition text (s : string) : attr := Plain (VText (lit s)).
(* validation/base.py:107, 144: bool(attribute) *)
Definition attr_truth (a : attr) : bool :=
  match a with Plain v => vtruth v | Plural _ _ _ | Call _ => true end.

(* validation/base.py:17-29: The attributes of a validator: those of the
   instance over those of its class. Methods are not among them. *)
Definition attrs := list (str * attr).
(* validation/base.py:107, 144: getattr(self, key) *)
Fixpoint getattr (self : attrs) (k : str) : res attr :=
  match self with
  | [] => Err AttributeErr
  | (k', a) :: rest => if str_eqb k k' then Ok a else getattr rest k
  end.
(* validation/base.py:25: hasattr(cls, attr) *)
Definition hasattr (self : attrs) (k : str) : bool :=
  match getattr self k with Ok _ => true | Err _ => false end.
(* validation/base.py:17-29 Validator.__init__(self, **kw), [cls] the attributes
   of the class: an attribute of the class is overridden, any other is refused *)
Fixpoint validator_init (cls self : attrs) (kw : attrs) : res attrs :=
  match kw with
  | [] => Ok self
  | (k, a) :: rest => if hasattr cls k then validator_init cls ((k, a) :: self) rest else Err TypeErr
  end.
(* validation/base.py:17-29: cls(kw...) *)
Definition new_validator (cls kw : attrs) : res attrs := validator_init cls cls kw.

(* validation/base.py:282-296: An object in which message fields are looked
   up: t_item is None without __getitem__. *)
Record target := Target { t_item : option (str -> res pyval); t_attr : str -> res pyval }.
(* validation/base.py:233-235: A dict. Its own attributes (the dict methods)
   are left out. *)
Definition dict_target (d : list (str * pyval)) : target :=
  Target (Some (fun k => match find (fun p => str_eqb k (fst p)) d with
                         | Some (_, v) => Ok v | None => Err KeyErr end))
         (fun _ => Err AttributeErr).
(* validation/base.py:233-235: A validator. Attributes that are tuples or
   callables are not modelled as field values: NotImplErr. *)
Definition self_target (self : attrs) : target :=
  Target None (fun k => match getattr self k with
                        | Ok (Plain v) => Ok v
                        | Ok _ => Err NotImplErr
                        | Err e => Err e end).

(* validation/base.py:276-278 as_format_mapping.__init__: None is left out *)
Fixpoint live_targets (l : list (option target)) : list target :=
  match l with
  | [] => []
  | None :: rest => live_targets rest
  | Some t :: rest => t :: live_targets rest
  end.
(* validation/base.py:289: except (LookupError, TypeError) *)
Definition lookup_failed (e : exn) : bool :=
  match e with KeyErr | IndexErr | LookupErr | TypeErr => true | _ => false end.
(* validation/base.py:282-299 the loop of __getitem__ *)
Fixpoint find_field (targets : list target) (item : str) : res pyval :=
  match targets with
  | [] => Err KeyErr
  | t :: rest =>
      let by_attr :=
        match t_attr t item with
        | Ok v => Ok v
        | Err AttributeErr => find_field rest item
        | Err e => Err e
        end in
      match t_item t with
      | None => by_attr
      | Some f => match f item with
                  | Ok v => Ok v
                  | Err e => if lookup_failed e then by_attr else Err e
                  end
      end
  end.
(* validation/base.py:282-304 __getitem__ *)
Definition mapping_get (transform : option (pyval -> res pyval)) (targets : list target) (item : str)
  : res pyval :=
  bind (find_field targets item) (fun v => match transform with Some f => f v | None => Ok v end).
(* validation/base.py:306-311 __contains__ *)
Definition mapping_contains (transform : option (pyval -> res pyval)) (targets : list target) (item : str)
  : res bool :=
  match mapping_get transform targets item with
  | Ok _ => Ok true
  | Err KeyErr => Ok false
  | Err e => Err e
  end.

(* validation/base.py:184-198, schema/util.py:10-52: Where a gettext-like
   function may be found: the attribute of the state, the item of the state
   (None: no __getitem__), the attribute of the element and of each of its
   parents, the builtins. A found object that is false is None. *)
Record lookups (F : Type) := Lookups {
  l_attr : res (option F); l_item : option (res (option F));
  l_ancestry : list (res (option F)); l_builtin : option F }.
Arguments Lookups {F}. Arguments l_attr {F}. Arguments l_item {F}.
Arguments l_ancestry {F}. Arguments l_builtin {F}.
(* schema/util.py:10-28 search_ancestry *)
Fixpoint search_ancestry {F} (l : list (res (option F))) : res (option F) :=
  match l with
  | [] => Ok None
  | Ok (Some f) :: _ => Ok (Some f)
  | Ok None :: rest | Err AttributeErr :: rest => search_ancestry rest
  | Err e :: _ => Err e
  end.
(* schema/util.py:31-52 find_i18n_function *)
Definition find_i18n {F} (l : lookups F) : res (option F) :=
  bind (search_ancestry (l_ancestry l)) (fun r =>
  match r with Some f => Ok (Some f) | None => Ok (l_builtin l) end).
(* validation/base.py:184-198 find_transformer *)
Definition find_transformer {F} (l : lookups F) : res (option F) :=
  match l_attr l with
  | Ok f => Ok f
  | Err AttributeErr =>
      match l_item l with
      | Some (Ok f) => Ok f
      | Some (Err KeyErr) | None => find_i18n l
      | Some (Err e) => Err e
      end
  | Err e => Err e
  end.

(* validation/base.py:261: template % mapping. %(key)s and %% are modelled;
   keys nest parentheses. Flags, widths, other conversions and conversions
   without a key are not: NotImplErr. A template that stops inside a
   conversion is ValueError. *)
Fixpoint read_key (depth : nat) (s : str) : option (str * str) :=
  match s with
  | [] => None
  | c :: s' =>
      if (c =? ch "(")%N then
        match read_key (S depth) s' with Some (k, r) => Some (c :: k, r) | None => None end
      else if (c =? ch ")")%N then
        match depth with
        | O => Some ([], s')
        | S d => match read_key d s' with Some (k, r) => Some (c :: k, r) | None => None end
        end
      else match read_key depth s' with Some (k, r) => Some (c :: k, r) | None => None end
  end.
(* validation/base.py:261: template % mapping; fuel is the length, see [percent] *)
Fixpoint fmt (fuel : nat) (s : str) (get : str -> res pyval) : res str :=
  match fuel with
  | O => Err OutOfFuel
  | S f =>
      match s with
      | [] => Ok []
      | c :: s' =>
          if negb (c =? ch "%")%N then rmap (cons c) (fmt f s' get)
          else match s' with
               | [] => Err ValueErr
               | d :: r =>
                   if (d =? ch "%")%N then rmap (cons d) (fmt f r get)
                   else if (d =? ch "(")%N then
                     match read_key 0 r with
                     | None => Err ValueErr
                     | Some (k, r') =>
                         bind (get k) (fun v =>
                         match r' with
                         | [] => Err ValueErr
                         | x :: r'' => if (x =? ch "s")%N
                                       then rmap (fun t => vtext v ++ t) (fmt f r'' get)
                                       else Err NotImplErr
                         end)
                     end
                   else Err NotImplErr
               end
      end
  end.
(* validation/base.py:261: template % mapping *)
Definition percent (s : str) (get : str -> res pyval) : res str := fmt (S (List.length s)) s get.

(* validation/base.py:245: int(n) of a field value *)
Definition to_int (v : pyval) : res pyval := int_conv v.

(* validation/base.py:200-261: Everything expand_message looks at besides the
   validator: the state (None: state is None), the element, and the
   translation functions. *)
Record context := Context {
  x_state : option target; x_element : target;
  x_ugettext : lookups (pyval -> res pyval);
  x_ungettext : lookups (str -> str -> pyval -> res pyval) }.

(* validation/base.py:254-259: ugettext(message), when there is one *)
Definition translated (ug : option (pyval -> res pyval)) (v : pyval) : res pyval :=
  match ug with Some f => f v | None => Ok v end.
(* validation/base.py:261: message % format_map: a TypeError unless the
   message is text *)
Definition expand (v : pyval) (get : str -> res pyval) : res str :=
  match v with VText s => percent s get | _ => Err TypeErr end.
(* validation/base.py:200-261 expand_message *)
Definition expand_message (self : attrs) (x : context) (message : attr) (extra : list (str * pyval))
  : res str :=
  bind (match message with Call r => r | _ => Ok message end) (fun message =>
  bind (find_transformer (x_ugettext x)) (fun ug =>
  let get := mapping_get ug (live_targets [Some (dict_target extra); x_state x;
                                           Some (self_target self); Some (x_element x)]) in
  match message with
  | Plural single plural n_key =>
      bind (find_transformer (x_ungettext x)) (fun ung =>
      bind (match bind (get n_key) (fun n => match to_int n with
                                              | Err TypeErr => Ok n
                                              | r => r end) with
            | Err KeyErr => Ok (VText n_key)
            | r => r end) (fun n =>
      bind (match ung with
            | Some f => f single plural n
            | None =>
                bind (translated ug (VText single)) (fun s =>
                bind (translated ug (VText plural)) (fun p =>
                Ok (if py_eq n (VInt 1) then s else p)))
            end) (fun m => expand m get)))
  | Plain v => bind (translated ug v) (fun m => expand m get)
  | Call _ => match ug with
              | None => Err TypeErr
              | Some _ => Err NotImplErr   (* ugettext given a function: not modelled *)
              end
  end)).

(* schema/base.py:617-625 add_error, add_warning *)
Definition add_message (messages : list str) (m : str) : list str :=
  if memb str_eqb m messages then messages else messages ++ [m].
(* validation/base.py:106-112 note_error and 143-148 note_warning: the list of
   messages afterwards and the outcome *)
Definition note (self : attrs) (x : context) (messages : list str) (key : option str)
           (message : option attr) (info : list (str * pyval)) : list str * res bool :=
  match (match message with
         | Some m => if attr_truth m then Ok m else match key with Some k => getattr self k | None => Err TypeErr end
         | None => match key with Some k => getattr self k | None => Err TypeErr end
         end) with
  | Err e => (messages, Err e)
  | Ok m =>
      if attr_truth m then
        match expand_message self x m info with
        | Ok s => (add_message messages s, Ok false)
        | Err e => (messages, Err e)
        end
      else (messages, Ok false)
  end.
