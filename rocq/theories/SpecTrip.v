(* Native data that survives the way through flat pairs: S(data).flatten() and
   S.from_flat of that.  Ties the two descriptions of elements together: by
   value (ModelNest) and by names and flat pairs (ModelFlat). *)
From Verif Require Import PyBase ModelUtil ModelMap ModelPaths ModelScalar ModelFlat SpecFlat ModelNest.

(* the two descriptions of one schema; a strict mapping holds all its fields
   from the start *)
Inductive matching : schema -> nested -> Prop :=
| ma_scalar n k : matching (SScalar n k) (NScalar k)
| ma_dict n own fs gs : (own = Strict -> Forall (fun f => fst f = true) fs) ->
    Forall2 (fun f g => fst (fst g) = schema_name (snd f) /\ snd (fst g) = fst f /\ matching (snd f) (snd g)) fs gs ->
    matching (SDict n None fs) (NDict own gs)
| ma_list n p z m g : matching m g -> matching (SList n p z m) (NSeq OfList g)
| ma_array n p m g : matching m g -> matching (SArray n p m) (NSeq OfArray g).
(* the two descriptions of one element of the schema *)
Inductive dressed : schema -> record -> element -> Prop :=
| dr_scalar n k sub st : dressed (SScalar n k) (RScalar sub st) (EScalar n st)
| dr_dict n fs items els :
    Forall2 (fun x y => fst x = fst y /\ exists b f, In (b, f) fs /\ schema_name f = fst x /\ dressed f (snd x) (snd y)) items els ->
    dressed (SDict n None fs) (RDict items) (EDict n None els)
| dr_list n p z m l els : Forall2 (dressed m) l els -> dressed (SList n p z m) (RSeq OfList l) (EList n els)
| dr_array n p m l els : Forall2 (dressed m) l els -> dressed (SArray n p m) (RSeq OfArray l) (EArray n els).

(* the value of an element told by names and flat pairs (base.py, scalars.py:
   value; containers.py:389-391 Sequence.value, 889-891 Mapping.value) *)
Inductive gives : element -> data -> Prop :=
| gi_scalar n st : gives (EScalar n st) (DVal (s_value st))
| gi_dict n els l : Forall2 (fun x y => fst x = fst y /\ gives (snd x) (snd y)) els l -> gives (EDict n None els) (DMap l)
| gi_list n els l : Forall2 gives els l -> gives (EList n els) (DSeq l)
| gi_array n els l : Forall2 gives els l -> gives (EArray n els) (DSeq l).

(* the same data; dicts regardless of order *)
Inductive same_data : data -> data -> Prop :=
| sd_val v : same_data (DVal v) (DVal v)
| sd_map l l' : NoDup (map fst l) -> NoDup (map fst l') ->
    (forall k, In k (map fst l) <-> In k (map fst l')) ->
    (forall k d d', In (k, d) l -> In (k, d') l' -> same_data d d') -> same_data (DMap l) (DMap l')
| sd_seq l l' : Forall2 same_data l l' -> same_data (DSeq l) (DSeq l').

(* a value that the scalar takes as it is and finds again in its own text; None
   does as well where blank texts are dropped *)
Definition takes (pruned : bool) (k : kind) (v : pyval) : Prop :=
  exists raw u, scalar_set k blank v = (Scalar raw v u, Ok true) /\
    ((pruned = true /\ u = [] /\ v = VNone)
     \/ ((pruned = true -> u <> []) /\ exists raw' b, scalar_set k blank (VText u) = (Scalar raw' v u, Ok b))).
(* some value in it is written; blank texts do not count when pruning *)
Inductive tells : bool -> schema -> data -> Prop :=
| te_val p n k v : (p = true -> s_u (fst (scalar_set k blank v)) <> []) -> tells p (SScalar n k) (DVal v)
| te_map p n fs l k d b f : In (k, d) l -> In (b, f) fs -> schema_name f = k -> tells p f d -> tells p (SDict n None fs) (DMap l)
| te_list p n prune z m l d : In d l -> tells p m d -> tells p (SList n prune z m) (DSeq l)
| te_array p n prune m l d : In d l -> tells p m d -> tells p (SArray n prune m) (DSeq l).
(* data for all fields (a SparseDict may lack those that need not be there), for
   Lists within their limits; in members that would be dropped and in fields
   that would not be made again some value is written *)
Inductive comes_back : bool -> schema -> data -> Prop :=
| cb_scalar p n k v : takes p k v -> comes_back p (SScalar n k) (DVal v)
| cb_dict p n fs l : NoDup (map fst l) ->
    (forall k d, In (k, d) l -> exists b f, In (b, f) fs /\ schema_name f = k /\ comes_back p f d /\ (b = false -> tells p f d)) ->
    (forall f, In (true, f) fs -> In (schema_name f) (map fst l)) ->
    comes_back p (SDict n None fs) (DMap l)
| cb_list p n prune limit m l : (Z.of_nat (List.length l) <= limit)%Z ->
    Forall (comes_back (p || prune) m) l ->
    (if prune then Forall (tells true m) l else forall l' d, l = l' ++ [d] -> tells p m d) ->
    comes_back p (SList n prune limit m) (DSeq l)
| cb_array p n prune m l : Forall (fun d => comes_back (p || prune) m d /\ tells (p || prune) m d) l ->
    comes_back p (SArray n prune m) (DSeq l).

(* ---------------- samples ---------------- *)
Definition sample_nested : nested :=
  NDict Subset [((text "s", true), NScalar (KString true));
                ((text "l", true), NSeq OfList (NDict Subset [((text "x", true), NScalar (KInteger true)); ((text "t", false), NSeq OfArray (NScalar (KString true)))]))].
Definition word (s : string) : data := DVal (VText (lit s)).
Definition sample_data : data :=
  DMap [(text "l", DSeq [DMap [(text "x", DVal (VInt (-1))); (text "t", DSeq [word "b"; word "a"])]; DMap [(text "x", DVal (VInt 3))]]);
        (text "s", word "hi")].
