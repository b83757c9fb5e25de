(* Model of Compounds with a compose and an explode of their own
   (flatland/schema/compound.py:75-193).  The children are scalars, in the order
   of field_schema; their names are texts and distinct.  V: the values compose
   makes and explode takes; R: what explode returns when it is not None.  compose
   only reads the children, explode may change them before it returns or raises.
   SystemExit and KeyboardInterrupt do not occur. *)
From Verif Require Import PyBase PyList ModelScalar ModelPaths ModelFlat ModelCompound.

(* schema/base.py:69, 112-117, schema/scalars.py:24-49: a child, with the class
   attributes that matter here *)
Record part := Part { pt_name : name; pt_kind : kind; pt_default : option pyval; pt_st : scalar }.
(* schema/scalars.py:53-94: its state changed *)
Definition with_st (p : part) (st : scalar) : part := Part (pt_name p) (pt_kind p) (pt_default p) st.
(* schema/containers.py:771-776: the children of a new element *)
Definition new_parts (ps : list part) : list part := map (fun p => with_st p blank) ps.

Section Custom.
Variables V R : Type.
(* schema/compound.py:113-142: what a subclass gives; schema/base.py:112-117:
   default_value, None also for Unspecified *)
Record custom := Custom {
  cu_compose : list part -> res (str * V);
  cu_explode : list part -> V -> list part * res (option R);
  cu_default : option V }.
(* compound.py:126, 142: Compound itself *)
Definition abstract (default : option V) : custom :=
  Custom (fun _ => Err NotImplErr) (fun ps _ => (ps, Err NotImplErr)) default.
Variable c : custom.

(* compound.py:147-149, scalars.py:138-143: u and text of the element *)
Definition custom_u (ps : list part) : res str := rmap fst (cu_compose c ps).
(* compound.py:157-159 *)
Definition custom_value (ps : list part) : res V := rmap snd (cu_compose c ps).
(* compound.py:151-155, 161-165: assigning .u or .value *)
Definition custom_assign (ps : list part) (v : V) : list part * res unit :=
  let '(ps, r) := cu_explode c ps v in (ps, rmap (fun _ => tt) r).
(* compound.py:167-178: what set returns *)
Inductive told := ToldTrue | ToldFalse | ToldResult (r : R).
(* compound.py:167-178 set; raw is not assigned *)
Definition custom_set (ps : list part) (v : V) : list part * res told :=
  let '(ps, r) := cu_explode c ps v in
  (ps, match r with
       | Ok None => Ok ToldTrue
       | Ok (Some x) => Ok (ToldResult x)
       | Err NotImplErr => Err NotImplErr
       | Err _ => Ok ToldFalse
       end).
(* containers.py:743-750, compound.py:53-59: cls(value), cls(); ps: the fields *)
Definition custom_init (ps : list part) (v : option V) : list part * res unit :=
  match ps, v with
  | [], _ => ([], Err TypeErr)
  | _, None => (new_parts ps, Ok tt)
  | _, Some v => let '(ps, r) := custom_set (new_parts ps) v in (ps, rmap (fun _ => tt) r)
  end.
(* scalars.py:134-136 bool(); [truth] of a value *)
Definition custom_bool (truth : V -> bool) (ps : list part) : res bool :=
  bind (custom_u ps) (fun u =>
  match u with
  | [] => Ok false
  | _ => rmap truth (custom_value ps)
  end).
(* compound.py:183-188, scalars.py:145-147 __repr__: shows the name, and the
   repr of the value or else the name of the exception *)
Definition custom_repr (repr_ : V -> res str) (ps : list part) : str + exn :=
  match bind (custom_value ps) repr_ with Ok s => inl s | Err e => inr e end.
(* containers.py:868-874: each child in turn, up to one that raises *)
Fixpoint parts_set_default (ps : list part) : list part * res unit :=
  match ps with
  | [] => ([], Ok tt)
  | p :: rest =>
      let '(st, r) := scalar_set_default (pt_kind p) (pt_default p) (pt_st p) in
      match r with
      | Err e => (with_st p st :: rest, Err e)
      | Ok _ => let '(rest, r) := parts_set_default rest in (with_st p st :: rest, r)
      end
  end.
(* containers.py:868-874 set_default, as Mapping comes before Scalar
   (compound.py:72) *)
Definition custom_set_default (ps : list part) : list part * res unit :=
  match cu_default c with
  | Some v => let '(ps, r) := custom_set ps v in (ps, rmap (fun _ => tt) r)
  | None => parts_set_default ps
  end.
(* compound.py:144-145 *)
Definition custom_serialize (v : V) : res str := Err TypeErr.
(* compound.py:190-193 is_empty; reduce has nothing to start from when there
   are no children *)
Definition custom_is_empty (ps : list part) : res bool :=
  match map (fun p => scalar_is_empty (pt_kind p) (pt_st p)) ps with
  | [] => Err TypeErr
  | b :: bs => Ok (fold_left andb bs b)
  end.

(* compound.py:180-181: Mapping._set_flat (containers.py:837-866), for a
   Compound as the Dict of its children *)
Definition parts_schema (n : name) (ps : list part) : schema :=
  SDict n None (map (fun p => (true, SScalar (pt_name p) (pt_kind p))) ps).
(* compound.py:180-181 *)
Definition parts_element (n : name) (ps : list part) : element :=
  EDict n None (map (fun p => (pt_name p, EScalar (pt_name p) (pt_st p))) ps).
(* compound.py:180-181: the children afterwards *)
Definition parts_from (ps : list part) (e : element) : list part :=
  map (fun p => match e with
                | EDict _ _ items => match aget name_eqb (pt_name p) items with
                                   | Some (EScalar _ st) => with_st p st
                                   | _ => p
                                   end
                | _ => p
                end) ps.
(* base.py:743-754, compound.py:180-181 set_flat *)
Definition custom_set_flat (n : name) (sep : str) (ps : list part) (pairs : flat_pairs) : list part * res unit :=
  let '(e, r) := set_flat (parts_schema n ps) sep (parts_element n ps) pairs in (parts_from ps e, r).
(* base.py:651-699: u of the element at a location of the tree *)
Definition custom_u_at (ps : list part) (x : elem) : res str :=
  match x with
  | Node [] => custom_u ps
  | Node [i] => match nth_error ps i with Some p => Ok (s_u (pt_st p)) | None => Err IndexErr end
  | _ => Err IndexErr
  end.
(* base.py:690-699: the values are asked for one after the other *)
Fixpoint in_turn {K A} (l : list (K * res A)) : res (list (K * A)) :=
  match l with
  | [] => Ok []
  | (k, r) :: rest => bind r (fun a => rmap (cons (k, a)) (in_turn rest))
  end.
(* base.py:651-699 flatten, for a Compound without parent; it and its children
   are flattenable (scalars.py:49).  Its truth does not matter here. *)
Definition custom_flatten (fuel : nat) (n : name) (sep : str) (ps : list part) : res (list (str * str)) :=
  bind (flatten fuel (Map n true (map (fun p => (pt_name p, Leaf (pt_name p))) ps)) (fun _ => true) true (Node []) sep
                (custom_u_at ps)) in_turn.
End Custom.
Arguments cu_compose {V R}. Arguments cu_explode {V R}. Arguments cu_default {V R}.
Arguments Custom {V R}. Arguments abstract {V R}. Arguments custom_u {V R}. Arguments custom_value {V R}.
Arguments custom_assign {V R}. Arguments ToldTrue {R}. Arguments ToldFalse {R}. Arguments ToldResult {R}.
Arguments custom_set {V R}. Arguments custom_init {V R}. Arguments custom_bool {V R}. Arguments custom_repr {V R}.
Arguments custom_set_default {V R}. Arguments custom_serialize {V}. Arguments custom_u_at {V R}.
Arguments custom_flatten {V R}.

(* compound.py:198-244: DateYYYYMMDD as one of these; explode returns None.  The
   children are the fields in their order; there are three (date_init). *)
Definition date_custom (strip_ : bool) (default : option pyval) : custom pyval unit :=
  Custom (fun ps => match ps with
                    | [y; m; d] => date_compose strip_ (Parts (pt_st y) (pt_st m) (pt_st d))
                    | _ => Err ValueErr
                    end)
         (fun ps v => match ps with
                      | [y; m; d] =>
                          let '(p, r) := date_explode strip_ (Kinds (pt_kind y) (pt_kind m) (pt_kind d))
                                                      (Parts (pt_st y) (pt_st m) (pt_st d)) v in
                          ([with_st y (p_y p); with_st m (p_m p); with_st d (p_d p)], rmap (fun _ => None) r)
                      | _ => (ps, Err ValueErr)
                      end)
         default.
