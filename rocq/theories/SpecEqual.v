(* Elements of a form that must agree. *)
From Verif Require Import PyBase ModelScalar SpecScalar ModelMessage ModelValidators SpecValidators ModelCompound ModelPaths SpecPaths ModelFlat SpecFlat ModelCheck SpecCheck ModelEqual.

(* from an element by keys and positions to another: the steps, the positions among the
   children, and what is there *)
Inductive reaches : element -> list step -> list nat -> element -> Prop :=
| rc_here e : reaches e [] [] e
| rc_key n cp items i x u r q v : nth_error items i = Some (Some x, u) -> reaches u r q v -> reaches (EDict n cp items) (Key x :: r) (i :: q) v
| rc_list n l i u r q v : nth_error l i = Some u -> reaches u r q v -> reaches (EList n l) (Idx i :: r) (i :: q) v
| rc_array n l i u r q v : nth_error l i = Some u -> reaches u r q v -> reaches (EArray n l) (Idx i :: r) (i :: q) v
| rc_joined n j l i st r q v : nth_error l i = Some st -> reaches (EScalar (j_child j) st) r q v -> reaches (EJoined n j l) (Idx i :: r) (i :: q) v.
(* an element that has a text, and its text *)
Definition texted (e : element) (t : str) : Prop :=
  match e with
  | EScalar _ st => t = s_u st
  | EDict _ (Some f) items => t = composed f items
  | EJoined _ j l => t = joined_value (j_glue j) l
  | _ => False
  end.
(* an element that has a value, and its value *)
Definition valued (e : element) (v : pyval) : Prop :=
  match e with
  | EScalar _ st => v = s_value st
  | EJoined _ j l => v = VText (joined_value (j_glue j) l)
  | _ => False
  end.
(* the labels of those compared *)
Definition mismatch (first : str) (others : list str) : str :=
  join (lit ", ") (removelast (first :: others)) ++ lit " and " ++ last (first :: others) first ++ lit " do not match.".
(* sample: a password and its repetition *)
Definition signup_fields : list (str * kind) := [(lit "password", KString true); (lit "again", KString true)].
Definition signup_label (p : list nat) : str := match p with [O] => lit "Password" | [1] => lit "Repetition" | _ => lit "Form" end.
Definition signup_ask (fuel : nat) : settings := fun way =>
  match way with
  | [] => Setting false [] [equal_check fuel MU signup_label [lit "password"; lit "again"]] (fun _ => sample_context (lit "Form"))
  | _ => Setting false [] [converted_check] (fun _ => sample_context (sample_label way))
  end.
Definition signup_sent (again : str) : flat_pairs := [(Some (lit "password"), VText (lit "abc")); (Some (lit "again"), VText again)].
