(* Model of the validators: flatland/validation/scalars.py, containers.py,
   string.py, number.py.

   Each validate method is split in two: what it decides, from the state of the
   element, and [report], which records the message of a failure.  Attributes of
   a validator are values ([Plain]); overriding a number by a callable or tuple
   is not modelled (NotImplErr). *)
From Verif Require Import PyBase ModelUtil ModelScalar ModelMessage.

(* validation/base.py:50, 52-112 as used by validation/scalars.py:22-25: What
   validate decides: True; note_error(element, state, key, **info); False
   without a message. *)
Inductive verdict := Pass | Fail (key : str) (info : list (str * pyval)) | Quiet.
(* self.note_error(element, state, key), as in validation/scalars.py:24 *)
Definition fails (key : string) : res verdict := Ok (Fail (lit key) []).
(* the call of validate at validation/base.py:31-33, with note_error of 52-112 *)
Definition report (self : attrs) (x : context) (errors : list str) (r : res verdict) : list str * res bool :=
  match r with
  | Err e => (errors, Err e)
  | Ok Pass => (errors, Ok true)
  | Ok Quiet => (errors, Ok false)
  | Ok (Fail key info) => note self x errors (Some key) None info
  end.
(* as in validation/scalars.py:181: self.k, a value *)
Definition self_value (self : attrs) (k : string) : res pyval :=
  bind (getattr self (lit k)) (fun a => match a with Plain v => Ok v | _ => Err NotImplErr end).
(* as in validation/scalars.py:178, 325: an instance with more attributes set
   *)
Definition set_attr (self : attrs) (k : string) (v : pyval) : attrs := (lit k, Plain v) :: self.

(* the < and <= of validation/scalars.py:181, 230, 328, 366: Rich comparison
   of values (Python 3): numbers, texts, dates, datetimes and times among
   themselves, TypeError otherwise. Objects have no order. *)
Fixpoint str_cmp (a b : str) : comparison :=
  match a, b with
  | [], [] => Eq
  | [], _ => Lt
  | _, [] => Gt
  | x :: a', y :: b' => match (x ?= y)%N with Eq => str_cmp a' b' | c => c end
  end.
(* the < of dates at validation/scalars.py:328 *)
Definition date_key (d : date) : str := [d_y d; d_m d; d_d d].
(* the < of times at validation/scalars.py:328 *)
Definition time_key (t : time) : str := [t_h t; t_m t; t_s t; t_us t].
(* the comparisons of validation/scalars.py:181-508 *)
Definition py_cmp (a b : pyval) : res comparison :=
  match vnum a, vnum b with
  | Some x, Some y => Ok (x ?= y)%Z
  | None, None =>
      match a, b with
      | VText s, VText t => Ok (str_cmp s t)
      | VDate d, VDate e => Ok (str_cmp (date_key d) (date_key e))
      | VDateTime d t, VDateTime e u => Ok (str_cmp (date_key d ++ time_key t) (date_key e ++ time_key u))
      | VTime t, VTime u => Ok (str_cmp (time_key t) (time_key u))
      | _, _ => Err TypeErr
      end
  | _, _ => Err TypeErr
  end.
(* validation/scalars.py:230, 290, 328, 508 the operator < *)
Definition py_lt a b := rmap (fun c => match c with Lt => true | _ => false end) (py_cmp a b).
(* validation/scalars.py:366, 505 the operator <= *)
Definition py_le a b := rmap (fun c => match c with Gt => false | _ => true end) (py_cmp a b).
(* validation/scalars.py:181, 290, 404 the operator > *)
Definition py_gt a b := rmap (fun c => match c with Gt => true | _ => false end) (py_cmp a b).
(* validation/scalars.py:442, validation/containers.py:274 the operator >= *)
Definition py_ge a b := rmap (fun c => match c with Lt => false | _ => true end) (py_cmp a b).
(* validation/scalars.py:505, 508, validation/containers.py:204, 274, 283: a
   and b, b evaluated only when a is true *)
Definition both (a : res bool) (b : res bool) : res bool := bind a (fun x => if x then b else Ok false).
(* validation/scalars.py:290, validation/containers.py:155 a or b *)
Definition either (a : res bool) (b : res bool) : res bool := bind a (fun x => if x then Ok true else b).
(* validation/scalars.py:181, 230, 289 len(element.u) *)
Definition len_val (s : str) : pyval := VInt (Z.of_nat (List.length s)).

(* ------------------------------------------------------------------ *)
(* scalars.py *)

(* 7-25 Present *)
(* validation/scalars.py:20 *)
Definition present_cls : attrs := [(lit "missing", text "%(label)s may not be blank.")].
(* validation/scalars.py:22-25 *)
Definition present (u : str) : res verdict :=
  if str_eqb u [] then fails "missing" else Ok Pass.
(* 28-44 IsTrue, 47-63 IsFalse *)
(* validation/scalars.py:39 *)
Definition is_true_cls : attrs := [(lit "false", text "%(label)s must be True.")].
(* validation/scalars.py:41-44 *)
Definition is_true (v : pyval) : res verdict := if negb (vtruth v) then fails "false" else Ok Pass.
(* validation/scalars.py:58 *)
Definition is_false_cls : attrs := [(lit "true", text "%(label)s must be False.")].
(* validation/scalars.py:60-63 *)
Definition is_false (v : pyval) : res verdict := if vtruth v then fails "true" else Ok Pass.
(* 66-105 ValueIn; valid_options a sequence of values, not an attribute here *)
(* validation/scalars.py:93-95 *)
Definition value_in_cls : attrs := [(lit "fail", text "%(value)s is not a valid value for %(label)s.")].
(* validation/scalars.py:97-105; [options] is valid_options *)
Definition value_in (options : list pyval) (v : pyval) : res verdict :=
  if negb (py_in v options) then fails "fail" else Ok Pass.
(* 108-136 Converted *)
(* validation/scalars.py:130 *)
Definition converted_cls : attrs := [(lit "incorrect", text "%(label)s is not correct.")].
(* validation/scalars.py:132-136 *)
Definition converted (v : pyval) : res verdict :=
  if negb (is_none v) then Ok Pass else fails "incorrect".

(* 139-183 ShorterThan: construction (None: argument not given) and decision *)
(* validation/scalars.py:171-173 *)
Definition shorter_than_cls : attrs :=
  [(lit "exceeded", text "%(label)s may not exceed %(maxlength)s characters."); (lit "maxlength", Plain (VInt 0))].
(* validation/scalars.py:177-178, 226-227, 283-286: only an argument that was given is stored *)
Definition given (self : attrs) (k : string) (v : option pyval) : attrs :=
  match v with Some v => set_attr self k v | None => self end.
(* validation/scalars.py:175-178 *)
Definition new_shorter_than (maxlength : option pyval) (kw : attrs) : res attrs :=
  rmap (fun self => given self "maxlength" maxlength) (new_validator shorter_than_cls kw).
(* validation/scalars.py:180-183 *)
Definition shorter_than (self : attrs) (u : str) : res verdict :=
  bind (self_value self "maxlength") (fun m =>
  bind (py_gt (len_val u) m) (fun b => if b then fails "exceeded" else Ok Pass)).
(* 188-232 LongerThan *)
(* validation/scalars.py:220-222 *)
Definition longer_than_cls : attrs :=
  [(lit "short", text "%(label)s must be at least %(minlength)s characters."); (lit "minlength", Plain (VInt 0))].
(* validation/scalars.py:224-227 *)
Definition new_longer_than (minlength : option pyval) (kw : attrs) : res attrs :=
  rmap (fun self => given self "minlength" minlength) (new_validator longer_than_cls kw).
(* validation/scalars.py:229-232 *)
Definition longer_than (self : attrs) (u : str) : res verdict :=
  bind (self_value self "minlength") (fun m =>
  bind (py_lt (len_val u) m) (fun b => if b then fails "short" else Ok Pass)).
(* 235-292 LengthBetween *)
(* validation/scalars.py:275-279 *)
Definition length_between_cls : attrs :=
  [(lit "breached", text "%(label)s must be between %(minlength)s and %(maxlength)s characters long.");
   (lit "minlength", Plain (VInt 0)); (lit "maxlength", Plain (VInt 0))].
(* validation/scalars.py:281-286 *)
Definition new_length_between (minlength maxlength : option pyval) (kw : attrs) : res attrs :=
  rmap (fun self => given (given self "minlength" minlength) "maxlength" maxlength)
       (new_validator length_between_cls kw).
(* validation/scalars.py:288-292 *)
Definition length_between (self : attrs) (u : str) : res verdict :=
  bind (self_value self "minlength") (fun lo =>
  bind (self_value self "maxlength") (fun hi =>
  bind (either (py_lt (len_val u) lo) (py_gt (len_val u) hi)) (fun b =>
  if b then fails "breached" else Ok Pass))).

(* 295-330 ValueLessThan *)
(* validation/scalars.py:321 *)
Definition less_than_cls : attrs := [(lit "failure", text "%(label)s must be less than %(boundary)s.")].
(* validation/scalars.py:323-325 *)
Definition new_less_than (boundary : pyval) (kw : attrs) : res attrs :=
  rmap (fun self => set_attr self "boundary" boundary) (new_validator less_than_cls kw).
(* validation/scalars.py:327-330 *)
Definition less_than (self : attrs) (v : pyval) : res verdict :=
  bind (self_value self "boundary") (fun b =>
  bind (py_lt v b) (fun r => if negb r then fails "failure" else Ok Pass)).
(* 333-368 ValueAtMost *)
(* validation/scalars.py:359 *)
Definition at_most_cls : attrs := [(lit "failure", text "%(label)s must be less than or equal to %(maximum)s.")].
(* validation/scalars.py:361-363 *)
Definition new_at_most (maximum : pyval) (kw : attrs) : res attrs :=
  rmap (fun self => set_attr self "maximum" maximum) (new_validator at_most_cls kw).
(* validation/scalars.py:365-368 *)
Definition at_most (self : attrs) (v : pyval) : res verdict :=
  bind (self_value self "maximum") (fun b =>
  bind (py_le v b) (fun r => if negb r then fails "failure" else Ok Pass)).
(* 371-406 ValueGreaterThan *)
(* validation/scalars.py:397 *)
Definition greater_than_cls : attrs := [(lit "failure", text "%(label)s must be greater than %(boundary)s.")].
(* validation/scalars.py:399-401 *)
Definition new_greater_than (boundary : pyval) (kw : attrs) : res attrs :=
  rmap (fun self => set_attr self "boundary" boundary) (new_validator greater_than_cls kw).
(* validation/scalars.py:403-406 *)
Definition greater_than (self : attrs) (v : pyval) : res verdict :=
  bind (self_value self "boundary") (fun b =>
  bind (py_gt v b) (fun r => if negb r then fails "failure" else Ok Pass)).
(* 409-444 ValueAtLeast *)
(* validation/scalars.py:435 *)
Definition at_least_cls : attrs := [(lit "failure", text "%(label)s must be greater than or equal to %(minimum)s.")].
(* validation/scalars.py:437-439 *)
Definition new_at_least (minimum : pyval) (kw : attrs) : res attrs :=
  rmap (fun self => set_attr self "minimum" minimum) (new_validator at_least_cls kw).
(* validation/scalars.py:441-444 *)
Definition at_least (self : attrs) (v : pyval) : res verdict :=
  bind (self_value self "minimum") (fun b =>
  bind (py_ge v b) (fun r => if negb r then fails "failure" else Ok Pass)).
(* 447-510 ValueBetween *)
(* validation/scalars.py:491-496 *)
Definition between_cls : attrs :=
  [(lit "failure_inclusive", text "%(label)s must be in the range %(minimum)s to %(maximum)s.");
   (lit "failure_exclusive", text "%(label)s must be greater than %(minimum)s and less than %(maximum)s.");
   (lit "inclusive", Plain (VBool true))].
(* validation/scalars.py:498-501 *)
Definition new_between (minimum maximum : pyval) (kw : attrs) : res attrs :=
  rmap (fun self => set_attr (set_attr self "minimum" minimum) "maximum" maximum) (new_validator between_cls kw).
(* validation/scalars.py:503-510 *)
Definition between (self : attrs) (v : pyval) : res verdict :=
  bind (getattr self (lit "inclusive")) (fun incl =>
  bind (self_value self "minimum") (fun lo =>
  bind (self_value self "maximum") (fun hi =>
  if attr_truth incl then
    bind (both (py_le lo v) (py_le v hi)) (fun r => if negb r then fails "failure_inclusive" else Ok Pass)
  else
    bind (both (py_lt lo v) (py_lt v hi)) (fun r => if negb r then fails "failure_exclusive" else Ok Pass)))).

(* validation/scalars.py:513-573 MapEqual. An element found is given
   by its value, text and label (text); [MDefault] is the transform of the
   class body, a lambda of one argument that becomes a bound method; [MFun] a
   transform given to the constructor. *)
Record found := Found { fd_value : pyval; fd_u : str; fd_label : str }.
(* validation/scalars.py:547, 599, 614 *)
Inductive transform := MDefault | MValue | MU | MFun (f : found -> res pyval).
(* validation/scalars.py:544 *)
Definition map_equal_cls : attrs := [(lit "unequal", text "%(labels)s and %(last_label)s do not match.")].
(* validation/scalars.py:547, 599, 614 transform *)
Definition apply_transform (t : transform) (e : found) : res pyval :=
  match t with
  | MDefault => Err TypeErr
  | MValue => Ok (fd_value e)
  | MU => Ok (VText (fd_u e))
  | MFun f => f e
  end.
(* validation/scalars.py:549-562 __init__: [cls_paths] is the
   field_paths of the class *)
Definition map_equal_paths (cls_paths paths : list str) : res (list str) :=
  match paths with
  | [] => match cls_paths with [] => Err AssertErr | _ => Ok cls_paths end
  | [_] => Err AssertErr
  | _ => Ok paths
  end.
(* validation/scalars.py:565 the list comprehension *)
Fixpoint map_res {A B} (f : A -> res B) (l : list A) : res (list B) :=
  match l with
  | [] => Ok []
  | a :: l' => bind (f a) (fun b => rmap (cons b) (map_res f l'))
  end.
(* validation/scalars.py:568: all(fn(el) == sample for el in elements) *)
Fixpoint all_equal (t : transform) (sample : pyval) (els : list found) : res bool :=
  match els with
  | [] => Ok true
  | e :: rest => bind (apply_transform t e) (fun v => if py_eq v sample then all_equal t sample rest else Ok false)
  end.
(* validation/scalars.py:564-573 validate; [find_one] is
   element.find(name, single=True) *)
Definition map_equal (t : transform) (find_one : str -> res found) (paths : list str) : res verdict :=
  bind (map_res find_one paths) (fun els =>
  match els with
  | [] => Err IndexErr
  | e :: rest =>
      bind (apply_transform t e) (fun sample =>
      bind (all_equal t sample rest) (fun b =>
      if b then Ok Pass
      else Ok (Fail (lit "unequal")
                    [(lit "labels", VText (join (lit ", ") (map fd_label (removelast els))));
                     (lit "last_label", VText (fd_label (last els e)))])))
  end).

(* ------------------------------------------------------------------ *)
(* containers.py *)

(* 7-106 NotDuplicated.  Elements are identities; [parent] is None without
   parent, else the children and the label of the container (the parent of the
   slot, for members of lists).  [op] is the comparator. *)
(* validation/containers.py:80 *)
Definition not_duplicated_cls : attrs :=
  [(lit "failure", text "%(label)s may not be repeated within %(container_label)s.")].
(* validation/containers.py:94-101: the loop over the siblings; the position stays 0 when the element is not met *)
Fixpoint dup_loop (op : nat -> nat -> res bool) (el : nat) (idx : nat) (valid : bool) (children : list nat)
  : res (bool * nat) :=
  match children with
  | [] => Ok (valid, 0)
  | sibling :: rest =>
      if Nat.eqb sibling el then Ok (valid, S idx)
      else if valid then bind (op el sibling) (fun b => dup_loop op el (S idx) (negb b) rest)
      else dup_loop op el (S idx) valid rest
  end.
(* validation/containers.py:84-106 validate *)
Definition not_duplicated (op : nat -> nat -> res bool) (parent : option (list nat * pyval)) (el : nat)
  : res verdict :=
  match parent with
  | None => Err TypeErr
  | Some (children, label) =>
      bind (dup_loop op el 0 true children) (fun r =>
      let '(valid, position) := r in
      if negb valid then
        Ok (Fail (lit "failure") [(lit "position", VInt (Z.of_nat position)); (lit "container_label", label)])
      else Ok Pass)
  end.

(* validation/containers.py:155, 204, 282 element.value: The value of a
   sequence: the list of its members' values (List, Array), or one value
   (MultiValue: of the first member; JoinedString: the text). *)
Inductive qvalue := QList (n : nat) | QVal (v : pyval).
(* validation/containers.py:155, 282: value is None *)
Definition q_none (q : qvalue) : bool := match q with QVal VNone => true | _ => false end.
(* validation/containers.py:204: bool(value) *)
Definition q_truth (q : qvalue) : bool :=
  match q with QList n => negb (Nat.eqb n 0) | QVal v => vtruth v end.
(* validation/containers.py:155, 204, 282: len(value) *)
Definition q_len (q : qvalue) : res pyval :=
  match q with
  | QList n => Ok (VInt (Z.of_nat n))
  | QVal (VText s) => Ok (len_val s)
  | QVal _ => Err TypeErr
  end.
(* 109-159 HasAtLeast; [member] is the label of member_schema, None without *)
(* validation/containers.py:139-145 *)
Definition has_at_least_cls : attrs :=
  [(lit "minimum", Plain (VInt 1));
   (lit "failure", Plural (lit "%(label)s must contain at least one %(child_label)s")
                          (lit "%(label)s must contain at least %(minimum)s %(child_label)ss") (lit "minimum"))].
(* validation/containers.py:156, 205, 287 *)
Definition child_label (l : pyval) : list (str * pyval) := [(lit "child_label", l)].
(* validation/containers.py:147-159 validate *)
Definition has_at_least (self : attrs) (member : option pyval) (q : qvalue) : res verdict :=
  match member with
  | None => Err AssertErr
  | Some label =>
      bind (self_value self "minimum") (fun m =>
      if negb (vtruth m) then Ok Pass
      else bind (either (Ok (q_none q)) (bind (q_len q) (fun n => py_lt n m))) (fun b =>
           if b then Ok (Fail (lit "failure") (child_label label)) else Ok Pass))
  end.
(* 162-208 HasAtMost *)
(* validation/containers.py:192-198 *)
Definition has_at_most_cls : attrs :=
  [(lit "maximum", Plain (VInt 1));
   (lit "failure", Plural (lit "%(label)s must contain at most one %(child_label)s")
                          (lit "%(label)s must contain at most %(maximum)s %(child_label)ss") (lit "maximum"))].
(* validation/containers.py:200-208 validate *)
Definition has_at_most (self : attrs) (member : option pyval) (q : qvalue) : res verdict :=
  match member with
  | None => Err AssertErr
  | Some label =>
      bind (self_value self "maximum") (fun m =>
      bind (both (Ok (q_truth q)) (bind (q_len q) (fun n => py_gt n m))) (fun b =>
      if b then Ok (Fail (lit "failure") (child_label label)) else Ok Pass))
  end.
(* 211-289 HasBetween *)
(* validation/containers.py:257-270 *)
Definition has_between_cls : attrs :=
  [(lit "minimum", Plain (VInt 1)); (lit "maximum", Plain (VInt 1));
   (lit "range", Plural (lit "%(label)s must contain at least %(minimum)s and at most %(maximum)s %(child_label)s")
                        (lit "%(label)s must contain at least %(minimum)s and at most %(maximum)s %(child_label)ss")
                        (lit "maximum"));
   (lit "exact", Plural (lit "%(label)s must contain exactly one %(child_label)s")
                        (lit "%(label)s must contain exactly %(minimum)s %(child_label)ss") (lit "minimum"))].
(* validation/containers.py:272-276 __init__ *)
Definition new_has_between (kw : attrs) : res attrs :=
  bind (new_validator has_between_cls kw) (fun self =>
  bind (self_value self "minimum") (fun lo =>
  bind (self_value self "maximum") (fun hi =>
  bind (both (py_ge hi lo) (py_ge lo (VInt 0))) (fun b =>
  if b then Ok self else Err TypeErr)))).
(* validation/containers.py:278-289 validate *)
Definition has_between (self : attrs) (member : option pyval) (q : qvalue) : res verdict :=
  match member with
  | None => Err AssertErr
  | Some label =>
      bind (if q_none q then Ok (VInt 0) else q_len q) (fun n =>
      bind (self_value self "minimum") (fun lo =>
      bind (self_value self "maximum") (fun hi =>
      bind (both (py_le lo n) (py_le n hi)) (fun b =>
      if b then Ok Pass
      else Ok (Fail (lit (if py_eq lo hi then "exact" else "range")) (child_label label))))))
  end.

(* ------------------------------------------------------------------ *)
(* validation/string.py:7-46 NANPphone. [extensions]:
   'strip', another true object, or a false one. The element is a scalar of
   kind k; validate returns its state. *)
Inductive extensions := ExtNone | ExtStrip | ExtKeep.
(* validation/string.py:8-11 *)
Definition phone_cls : attrs :=
  [(lit "invalid", text "The %(label)s is not valid.");
   (lit "noext", text "%(label)s must be a ten-digit phone number without extension.")].
(* validation/string.py:14 *)
Definition ascii_digit (c : N) : bool := ((48 <=? c) && (c <=? 57))%N.
(* validation/string.py:13, 24: re_cleaner.sub('', value): every character
   outside \d is dropped *)
Definition clean_digits (s : str) : str := filter is_digit s.
(* validation/string.py:15, 36-38: fmt_line % (int(a), int(b), int(c)) *)
Definition phone_line (s : str) : res str :=
  bind (py_int (firstn 3 s)) (fun a =>
  bind (py_int (firstn 3 (skipn 3 s))) (fun b =>
  bind (py_int (firstn 4 (skipn 6 s))) (fun c =>
  Ok (lit "(" ++ dec_pad 3 (Z.to_N a) ++ lit ") " ++ dec_pad 3 (Z.to_N b) ++ lit "-" ++ dec_pad 4 (Z.to_N c))))).
(* validation/string.py:22-46 validate *)
Definition phone (ext : extensions) (k : kind) (st : scalar) : scalar * res verdict :=
  match (if is_none (s_value st) then VText (s_u st) else s_value st) with
  | VText s =>
      match (let value := clean_digits s in
             if str_eqb value [] then Ok None
             else rmap Some (if forallb ascii_digit value then Ok value else rmap dec_z (py_int value))) with
      | Err e => (st, Err e)
      | Ok None => (st, fails "invalid")
      | Ok (Some value) =>
          if (List.length value <? 10)%nat then (st, fails "invalid")
          else if (List.length value =? 10)%nat || match ext with ExtStrip => true | _ => false end then
            match phone_line value with
            | Err e => (st, Err e)
            | Ok line =>
                let '(st', r) := scalar_set k st (VText line) in
                (st', rmap (fun _ => Pass) r)
            end
          else match ext with
               | ExtNone => (st, fails "noext")
               | _ => (st, Err TypeErr)      (* '%03i' of text *)
               end
      end
  | _ => (st, Err TypeErr)                   (* re.sub of something else than text *)
  end.

(* ------------------------------------------------------------------ *)
(* number.py:9-24 NANPnxx; `element.u = ` leaves the rest of the state *)
(* validation/number.py:18-20 *)
Definition nxx_blocked : list Z := [311; 411; 511; 611; 711; 811; 911; 555; 990; 959; 958; 950; 700; 976]%Z.
(* validation/number.py:12-24 validate *)
Definition nanp_nxx (st : scalar) : scalar * res verdict :=
  let v := s_value st in
  if is_none v then (st, Ok Quiet)
  else match either (py_lt v (VInt 200)) (Ok (py_in v (map VInt nxx_blocked))) with
       | Err e => (st, Err e)
       | Ok true => (st, Ok Quiet)
       | Ok false => (Scalar (s_raw st) v (vtext v), Ok Pass)
       end.
(* validation/number.py:26-71 NANPnpa_nxx: errors_to is never
   stored, so that reading self.errors_to fails once both parts were found *)
Definition nanp_npa_nxx (find_one : str -> res found) (npa nxx : str) : res verdict :=
  bind (find_one npa) (fun _ => bind (find_one nxx) (fun _ => Err AttributeErr)).
(* number.py:74-87 Luhn10.  luhn10 of something else than a number fails in
   `number % 100` unless it is false; what % gives for a text with a percent
   sign, and for other objects, is not modelled (NotImplErr) *)
(* validation/number.py:77 *)
Definition luhn_cls : attrs := [(lit "invalid", text "The %(label)s was not entered correctly.")].
(* validation/number.py:79-87 validate; luhn10 is util/base.py:221-232 *)
Definition luhn (fuel : nat) (v : pyval) : res verdict :=
  match v with
  | VNone => fails "invalid"
  | _ => match vnum v with
         | Some z => bind (luhn10 fuel z) (fun b => if b then Ok Pass else fails "invalid")
         | None => if negb (vtruth v) then Ok Pass
                   else match v with
                        | VText s => Err (if memb N.eqb (ch "%") s then NotImplErr else TypeErr)
                        | VObj _ => Err NotImplErr
                        | _ => Err TypeErr
                        end
         end
  end.
