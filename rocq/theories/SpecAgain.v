(* Specification of submitting a form again: elements that are set from text,
   and what they keep when their own flattened pairs are set on a new element. *)
From Verif Require Import PyBase ModelMap SpecScalar ModelPaths SpecPaths ModelScalar ModelCompound ModelFlat SpecFlat.

(* elements made by set_flat calls with texts, from a new one on; what a call
   that raises leaves counts as well *)
Definition text_values (ps : flat_pairs) : Prop := Forall (fun p => exists t, snd p = VText t) ps.
Inductive filled (s : schema) (sep : str) : element -> Prop :=
| filled_new : filled s sep (fresh s)
| filled_by e ps : filled s sep e -> text_values ps -> filled s sep (fst (set_flat s sep e ps)).

(* a kind whose text, set again, gives the same value, text and verdict; blank
   text stays blank *)
Definition steady (k : kind) : Prop :=
  (forall t st b, scalar_set k blank (VText t) = (st, Ok b) ->
     scalar_set k blank (VText (s_u st)) = (Scalar (Some (VText (s_u st))) (s_value st) (s_u st), Ok b))
  /\ exists st b, scalar_set k blank (VText []) = (st, Ok b) /\ s_u st = [].
(* what is blank has no value *)
Definition vacant (k : kind) : Prop :=
  forall t st b, scalar_set k blank (VText t) = (st, Ok b) -> s_u st = [] -> s_value st = VNone.
(* compose looks at values and texts *)
Definition looks_at_values (f : composer) : Prop :=
  forall l l', Forall2 (fun x y => fst x = fst y /\ alike (snd x) (snd y)) l l' -> f l = f l'.
Fixpoint steady_schema (s : schema) : Prop :=
  match s with
  | SScalar _ k => steady k
  | SDict _ cp fields =>
      (forall f, cp = Some f -> looks_at_values f /\ forall b n k, In (b, SScalar n k) fields -> vacant k)
      /\ (fix each (fs : list (bool * schema)) : Prop :=
            match fs with [] => True | (_, f) :: fs' => steady_schema f /\ each fs' end) fields
  | SList _ _ _ m | SArray _ _ m => steady_schema m
  | SJoined _ _ => True
  end.
(* the kinds of flatland but Float and Decimal; a Boolean for which blank text
   stands for something writes that blank; valid_value does not raise *)
Fixpoint text_kind (k : kind) : Prop :=
  match k with
  | KString _ | KTemporal _ _ => True
  | KNumber nt _ => nt = int_type
  | KBoolean tr ts fa fs => fa <> tr /\ ~ In fa ts /\ (In [] ts -> tr = []) /\ (In [] fs -> fa = [] \/ tr = [])
  | KConstrained c valid => text_kind c /\ forall v, exists b, valid v = Ok b
  | KEnum c _ => text_kind c
  | KCustom _ => False
  end.
(* those of them that have no value when blank *)
Fixpoint never_blank (k : kind) : Prop :=
  match k with
  | KTemporal _ _ => True
  | KNumber nt _ => nt = int_type
  | KConstrained c _ | KEnum c _ => never_blank c
  | _ => False
  end.

(* nothing is dropped for being blank: what a List, an Array or a mapping would
   not make again shows some text, and a JoinedString splits into its members *)
Fixpoint lasting (pruned : bool) (s : schema) (e : element) : Prop :=
  match s, e with
  | SJoined _ j, EJoined _ _ l => splits_back pruned j l
  | SDict _ _ fields, EDict _ _ items =>
      (fix each (fs : list (bool * schema)) : Prop :=
         match fs with
         | [] => True
         | (there, f) :: fs' =>
             (forall u, In (schema_name f, u) items -> lasting pruned f u /\ (there = false -> shown pruned u))
             /\ each fs'
         end) fields
  | SList _ prune _ m, EList _ l =>
      Forall (lasting (pruned || prune) m) l
      /\ (if prune then Forall (shown (pruned || prune)) l
          else forall l' u, l = l' ++ [u] -> shown pruned u)
  | SArray _ prune _, EArray _ l => Forall (shown (pruned || prune)) l
  | _, _ => True
  end.

(* the same names and texts; the same values but for blank texts *)
Inductive retold : element -> element -> Prop :=
| retold_scalar n a b : s_u a = s_u b -> (s_u a <> [] -> s_value a = s_value b) -> retold (EScalar n a) (EScalar n b)
| retold_dict n cp l l' :
    (forall k, In k (map fst l) <-> In k (map fst l')) ->
    (forall k u u', In (k, u) l -> In (k, u') l' -> retold u u') ->
    retold (EDict n cp l) (EDict n cp l')
| retold_list n l l' : Forall2 retold l l' -> retold (EList n l) (EList n l')
| retold_array n l l' : Forall2 retold l l' -> retold (EArray n l) (EArray n l')
| retold_joined n j l l' : Forall2 alike l l' -> retold (EJoined n j l) (EJoined n j l').
