(* Model of scalar elements: flatland/schema/scalars.py (without Ref) and the
   parts of flatland/schema/base.py they use. *)
From Verif Require Import PyBase.

(* ------------------------------------------------------------------ *)
(* Python's datetime.date, schema/scalars.py:537: Python values given to and
   held by scalars. Dates and times are naive (no tzinfo). [VObj] is any other
   object: identity, text, truth value and the outcome of int(obj) (floats and
   bytes are such objects; an object is equal only to itself). *)
Record date := Date { d_y : N; d_m : N; d_d : N }.
(* Python's datetime.time, schema/scalars.py:551 *)
Record time := Time { t_h : N; t_m : N; t_s : N; t_us : N }.
(* any other object, as given to schema/scalars.py:53 set *)
Record pyobj := Obj { o_id : nat; o_text : str; o_truth : bool; o_int : res Z }.
(* the values given to schema/scalars.py:53 set and held as schema/base.py:105 value *)
Inductive pyval :=
| VNone | VBool (b : bool) | VInt (z : Z) | VText (s : str)
| VDate (d : date) | VDateTime (d : date) (t : time) | VTime (t : time)
| VObj (o : pyobj).

(* Python's datetime.date, schema/scalars.py:537: datetime.date(y, m, d):
   ValueError unless a real date *)
Definition leap (y : N) : bool :=
  ((y mod 4 =? 0) && (negb (y mod 100 =? 0) || (y mod 400 =? 0)))%N.
(* Python's datetime.date, schema/scalars.py:537 *)
Definition days_in_month (y m : N) : N :=
  (if m =? 2 then if leap y then 29 else 28
   else if memb N.eqb m [4; 6; 9; 11] then 30 else 31)%N.
(* Python's datetime.date, schema/scalars.py:537: the arguments it accepts *)
Definition date_ok (d : date) : bool :=
  ((1 <=? d_y d) && (d_y d <=? 9999) && (1 <=? d_m d) && (d_m d <=? 12)
   && (1 <=? d_d d) && (d_d d <=? days_in_month (d_y d) (d_m d)))%N.
(* Python's datetime.time, schema/scalars.py:551: the arguments it accepts *)
Definition time_ok (t : time) : bool :=
  ((t_h t <? 24) && (t_m t <? 60) && (t_s t <? 60) && (t_us t <? 1000000))%N.
(* schema/scalars.py:495 type_ called with the arguments, for schema/scalars.py:537 *)
Definition mk_date (y m d : N) : res date :=
  if date_ok (Date y m d) then Ok (Date y m d) else Err ValueErr.
(* schema/scalars.py:495 type_ called with the arguments, for schema/scalars.py:551 *)
Definition mk_time (h m s : N) : res time :=
  if time_ok (Time h m s 0) then Ok (Time h m s 0) else Err ValueErr.

(* the formats of scalars.py:525-526, 540, 554; isoformat() without the
   fraction *)
Definition date_text (d : date) : str :=
  dec_pad 4 (d_y d) ++ lit "-" ++ dec_pad 2 (d_m d) ++ lit "-" ++ dec_pad 2 (d_d d).
(* schema/scalars.py:554 format % as_mapping(value) *)
Definition time_text (t : time) : str :=
  dec_pad 2 (t_h t) ++ lit ":" ++ dec_pad 2 (t_m t) ++ lit ":" ++ dec_pad 2 (t_s t).
(* schema/scalars.py:83, 118, 184: str(time): with microseconds when there are
   any *)
Definition time_iso (t : time) : str :=
  if (t_us t =? 0)%N then time_text t
  else time_text t ++ lit "." ++ dec_pad 6 (t_us t).

(* schema/scalars.py:83, 118, 184, 186, 270, 511: six.text_type(v) *)
Definition vtext (v : pyval) : str :=
  match v with
  | VNone => lit "None" | VBool true => lit "True" | VBool false => lit "False"
  | VInt z => dec_z z | VText s => s
  | VDate d => date_text d
  | VDateTime d t => date_text d ++ lit " " ++ time_iso t
  | VTime t => time_iso t
  | VObj o => o_text o
  end.
(* schema/scalars.py:135, 347, 360: bool(v); up to Python 3.4 midnight is
   false *)
Definition vtruth (v : pyval) : bool :=
  match v with
  | VNone => false | VBool b => b | VInt z => negb (z =? 0)%Z
  | VText s => match s with [] => false | _ => true end
  | VDate _ | VDateTime _ _ => true
  | VTime t => negb ((t_h t =? 0) && (t_m t =? 0) && (t_s t =? 0) && (t_us t =? 0))%N
  | VObj o => o_truth o
  end.
(* Python's == of dates, as in schema/scalars.py:462 *)
Definition date_eqb (a b : date) : bool :=
  ((d_y a =? d_y b) && (d_m a =? d_m b) && (d_d a =? d_d b))%N.
(* Python's == of times, as in schema/scalars.py:462 *)
Definition time_eqb (a b : time) : bool :=
  ((t_h a =? t_h b) && (t_m a =? t_m b) && (t_s a =? t_s b) && (t_us a =? t_us b))%N.
(* as in schema/scalars.py:462: the number a bool or int is *)
Definition vnum (v : pyval) : option Z :=
  match v with VInt z => Some z | VBool b => Some (if b then 1 else 0)%Z | _ => None end.
(* schema/scalars.py:462: a == b *)
Definition py_eq (a b : pyval) : bool :=
  match vnum a, vnum b with
  | Some x, Some y => (x =? y)%Z
  | None, None =>
      match a, b with
      | VNone, VNone => true
      | VText s, VText t => str_eqb s t
      | VDate x, VDate y => date_eqb x y
      | VDateTime x t, VDateTime y u => date_eqb x y && time_eqb t u
      | VTime t, VTime u => time_eqb t u
      | VObj x, VObj y => Nat.eqb (o_id x) (o_id y)
      | _, _ => false
      end
  | _, _ => false
  end.
(* schema/scalars.py:245, 346, 487 isinstance(value, six.string_types) *)
Definition is_text (v : pyval) : bool := match v with VText _ => true | _ => false end.
(* schema/scalars.py:77, 90, 181, 243, 483 value is None *)
Definition is_none (v : pyval) : bool := match v with VNone => true | _ => false end.

(* ------------------------------------------------------------------ *)
(* schema/scalars.py:218-270: Scalar schemas. [numtype] is what Number uses of
   type_ and format: type_(v), type(v) is type_, v < 0 and format % v.
   [KConstrained] has a user supplied valid_value, which may raise. *)
Record numtype := NumType {
  nt_conv : pyval -> res pyval; nt_is : pyval -> bool;
  nt_neg : pyval -> res bool; nt_format : pyval -> str }.
(* schema/scalars.py:514, 530, 544: the three Temporal classes *)
Inductive tkind := TDate | TTime | TDateTime.
(* schema/scalars.py:34-51, 166-555: the scalar classes and their attributes.
   [KCustom] is a subclass of Scalar with its own adapt, which may raise. *)
Inductive kind :=
| KString (strip_ : bool)
| KNumber (nt : numtype) (signed : bool)
| KBoolean (true_ : str) (true_syn : list str) (false_ : str) (false_syn : list str)
| KTemporal (t : tkind) (strip_ : bool)
| KConstrained (child : kind) (valid : pyval -> res bool)
| KEnum (child : kind) (values : list pyval)
| KCustom (own : pyval -> res pyval).
(* schema/scalars.py:34-51, 96-104: Scalar itself *)
Definition KAbstract : kind := KCustom (fun _ => Err NotImplErr).

(* int(v), for v already stripped if text; scalars.py:273-281 type_ = int,
   format = '%i' (Long is the same in Python 3) *)
Definition int_conv (v : pyval) : res pyval :=
  match v with
  | VInt z => Ok (VInt z)
  | VBool b => Ok (VInt (if b then 1 else 0))
  | VText s => rmap VInt (py_int s)
  | VObj o => rmap VInt (o_int o)
  | _ => Err TypeErr
  end.
(* schema/scalars.py:273-290 type_ and format; 253 native < 0; 268 type(value)
   is type_ *)
Definition int_type : numtype :=
  NumType int_conv (fun v => match v with VInt _ => true | _ => false end)
          (fun v => match v with VInt z => Ok (z <? 0)%Z | _ => Err TypeErr end)
          (fun v => match v with VInt z => dec_z z | _ => [] end).
(* schema/scalars.py:273-290 *)
Definition KInteger (signed : bool) : kind := KNumber int_type signed.
(* scalars.py:313-333 the default Boolean *)
Definition KBool : kind :=
  KBoolean (lit "1") (map lit ["on"; "true"; "True"; "1"]%string)
           (lit "") (map lit ["off"; "false"; "False"; "0"; ""]%string).

(* Regular expressions made of fixed-width digit groups and literal
   characters: scalars.py:522-524, 538-539, 552-553. *)
Inductive pitem := PDigits (n : nat) | PChar (c : N).
(* the group \d{n} of schema/scalars.py:522-524 *)
Fixpoint take_digits (n : nat) (s : str) : option (str * str) :=
  match n with
  | O => Some ([], s)
  | S n' => match s with
            | c :: s' => if is_digit c
                         then match take_digits n' s' with
                              | Some (d, r) => Some (c :: d, r)
                              | None => None
                              end
                         else None
            | [] => None
            end
  end.
(* schema/scalars.py:490 regex.match(value), for the expressions of 522-524,
   538-539 and 552-553 *)
Fixpoint match_pat (p : list pitem) (s : str) : option (list str) :=
  match p with
  | [] => match s with
          | [] => Some []
          | [c] => if N.eqb c 10 then Some [] else None   (* $ before a final newline *)
          | _ => None
          end
  | PDigits n :: p' =>
      match take_digits n s with
      | Some (d, r) => match match_pat p' r with
                       | Some l => Some (d :: l)
                       | None => None
                       end
      | None => None
      end
  | PChar c :: p' =>
      match s with
      | x :: r => if N.eqb x c then match_pat p' r else None
      | [] => None
      end
  end.
(* schema/scalars.py:538-539 *)
Definition date_pat : list pitem :=
  [PDigits 4; PChar (ch "-"); PDigits 2; PChar (ch "-"); PDigits 2].
(* schema/scalars.py:552-553 *)
Definition time_pat : list pitem :=
  [PDigits 2; PChar (ch ":"); PDigits 2; PChar (ch ":"); PDigits 2].
(* schema/scalars.py:522-524, 538-539, 552-553 *)
Definition regex (t : tkind) : list pitem :=
  match t with
  | TDate => date_pat
  | TTime => time_pat
  | TDateTime => date_pat ++ PChar (ch " ") :: time_pat
  end.
(* schema/scalars.py:494: int(group) for each group *)
Fixpoint ints (l : list str) : res (list Z) :=
  match l with
  | [] => Ok []
  | s :: l' => bind (py_int s) (fun z => rmap (cons z) (ints l'))
  end.
(* schema/scalars.py:495: type_ called with the integers; the groups are
   digits, so never negative *)
Definition construct (t : tkind) (args : list Z) : res pyval :=
  match t, map Z.to_N args with
  | TDate, [y; m; d] => rmap VDate (mk_date y m d)
  | TTime, [h; m; s] => rmap VTime (mk_time h m s)
  | TDateTime, [y; mo; d; h; m; s] =>
      bind (mk_date y mo d) (fun dd => rmap (VDateTime dd) (mk_time h m s))
  | _, _ => Err TypeErr
  end.
(* schema/scalars.py:485, 508: isinstance(v, type_): datetime is a subclass of
   date *)
Definition has_type (t : tkind) (v : pyval) : bool :=
  match t, v with
  | TDate, VDate _ | TDate, VDateTime _ _ => true
  | TTime, VTime _ => true
  | TDateTime, VDateTime _ _ => true
  | _, _ => false
  end.

(* schema/scalars.py:249-250, 496-497: except (ValueError, TypeError[,
   ArithmeticError]): raise AdaptationError *)
Definition adaptation {A} (arith : bool) (r : res A) : res A :=
  match r with
  | Err ValueErr | Err TypeErr => Err AdaptErr
  | Err ArithErr => if arith then Err AdaptErr else Err ArithErr
  | _ => r
  end.

(* schema/scalars.py:462: value in values (identity implies equality for
   modelled values) *)
Definition py_in (v : pyval) (l : list pyval) : bool := existsb (py_eq v) l.

(* schema/scalars.py:172-186, 235-255, 334-352, 418-422, 460-462, 475-499:
   adapt: String, Number, Boolean, Constrained, Enum, Temporal *)
Fixpoint adapt (k : kind) (v : pyval) : res pyval :=
  match k with
  | KString st =>
      match v with
      | VNone => Ok VNone
      | _ => Ok (VText (if st then strip (vtext v) else vtext v))
      end
  | KNumber nt signed =>
      match v with
      | VNone => Ok VNone
      | _ =>
          let v := match v with VText s => VText (strip s) | _ => v end in
          bind (adaptation true (nt_conv nt v)) (fun native =>
          if signed then Ok native
          else bind (nt_neg nt native) (fun neg =>
               if neg then Err AdaptErr else Ok native))
      end
  | KBoolean tr ts fa fs =>
      match v with
      | VText s =>
          if str_eqb s tr || memb str_eqb s ts then Ok (VBool true)
          else if str_eqb s fa || memb str_eqb s fs then Ok (VBool false)
          else Err AdaptErr
      | _ => Ok (VBool (vtruth v))
      end
  | KTemporal t st =>
      match v with
      | VNone => Ok VNone
      | _ =>
          if has_type t v then Ok v
          else match v with
               | VText s =>
                   match match_pat (regex t) (if st then strip s else s) with
                   | None => Err AdaptErr
                   | Some groups => adaptation false (bind (ints groups) (construct t))
                   end
               | _ => Err AdaptErr
               end
      end
  | KConstrained child valid =>
      bind (adapt child v) (fun native =>
      bind (valid native) (fun ok => if ok then Ok native else Err AdaptErr))
  | KEnum child values =>
      bind (adapt child v) (fun native =>
      if py_in native values then Ok native else Err AdaptErr)
  | KCustom own => own v
  end.

(* schema/scalars.py:106-118, 188-210, 257-270, 354-360, 424-425, 501-511:
   serialize: Scalar, String, Number, Boolean, Constrained, Temporal *)
Fixpoint serialize (k : kind) (v : pyval) : str :=
  match k with
  | KString st => match v with
                  | VNone => []
                  | _ => if st then strip (vtext v) else vtext v
                  end
  | KNumber nt _ => if nt_is nt v then nt_format nt v else vtext v
  | KBoolean tr _ fa _ => if vtruth v then tr else fa
  | KTemporal t _ =>
      match t, v with
      | TDate, VDate d | TDate, VDateTime d _ => date_text d
      | TTime, VTime x => time_text x
      | TDateTime, VDateTime d x => date_text d ++ lit " " ++ time_text x
      | _, _ => vtext v
      end
  | KConstrained child _ | KEnum child _ => serialize child v
  | KCustom _ => vtext v
  end.

(* ------------------------------------------------------------------ *)
(* schema/base.py:105-115 and schema/scalars.py:71, 76, 78: The state
   of a scalar element; raw is None here when Unset *)
Record scalar := Scalar { s_raw : option pyval; s_value : pyval; s_u : str }.
(* schema/base.py:105-115 *)
Definition blank : scalar := Scalar None VNone [].

(* scalars.py:53-94 set: the state after the call and its outcome *)
Definition scalar_set (k : kind) (st : scalar) (v : pyval) : scalar * res bool :=
  match adapt k v with
  | Ok n => (Scalar (Some v) n (if is_none n then [] else serialize k n), Ok true)
  | Err AdaptErr =>
      (Scalar (Some v) VNone (if is_none v then [] else vtext v), Ok false)
  | Err e => (Scalar (Some v) (s_value st) (s_u st), Err e)
  end.

(* scalars.py:123-127 _set_flat with base.py:743-757 set_flat *)
Fixpoint first_key (nm : name) (pairs : list (str * pyval)) : option pyval :=
  match pairs with
  | [] => None
  | (k, v) :: rest => if name_eqb (Some k) nm then Some v else first_key nm rest
  end.
(* schema/base.py:743-757 set_flat with schema/scalars.py:123-127 _set_flat *)
Definition scalar_set_flat (k : kind) (nm : name) (st : scalar) (pairs : list (str * pyval))
  : scalar * res unit :=
  let st := Scalar None (s_value st) (s_u st) in
  match first_key nm pairs with
  | Some v => let '(st, r) := scalar_set k st v in (st, rmap (fun _ => tt) r)
  | None => (st, Ok tt)
  end.
(* scalars.py:129-132 set_default; None stands for Unspecified *)
Definition scalar_set_default (k : kind) (default : option pyval) (st : scalar)
  : scalar * res unit :=
  match default with
  | Some d => let '(st, r) := scalar_set k st d in (st, rmap (fun _ => tt) r)
  | None => (st, Ok tt)
  end.
(* base.py:130-152 construction with a value; None stands for Unspecified *)
Definition scalar_new (k : kind) (value : option pyval) : res scalar :=
  match value with
  | None => Ok blank
  | Some v => let '(st, r) := scalar_set k blank v in rmap (fun _ => st) r
  end.
(* scalars.py:134-136 __bool__ *)
Definition scalar_bool (st : scalar) : bool :=
  match s_u st with [] => false | _ => vtruth (s_value st) end.
(* base.py:763-766, scalars.py:212-215 is_empty *)
Definition scalar_is_empty (k : kind) (st : scalar) : bool :=
  match k with
  | KString _ => negb (vtruth (s_value st)) && str_eqb (s_u st) []
  | _ => is_none (s_value st) && str_eqb (s_u st) []
  end.
(* schema/scalars.py:53-94: any history of set calls *)
Fixpoint scalar_sets (k : kind) (st : scalar) (vs : list pyval) : scalar :=
  match vs with
  | [] => st
  | v :: vs' => scalar_sets k (fst (scalar_set k st v)) vs'
  end.
