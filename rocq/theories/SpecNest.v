(* What nested elements are expected to do, stated apart from the model. *)
From Verif Require Import PyBase ModelUtil ModelMap ModelScalar ModelNest.
From Coq Require Import Permutation.

(* ---- schemas and elements ---- *)
(* the name and schema of a field *)
Definition fname (f : name * bool * nested) : name := fst (fst f).
Definition held (f : name * bool * nested) : bool := snd (fst f).
Definition fschema (f : name * bool * nested) : nested := snd f.
(* field names are distinct (Dict.of refuses others) *)
Inductive proper : nested -> Prop :=
| proper_scalar k : proper (NScalar k)
| proper_dict own fields :
    NoDup (map fname fields) -> Forall (fun f => proper (fschema f)) fields -> proper (NDict own fields)
| proper_seq c m : proper m -> proper (NSeq c m).
(* an element made by a schema, as far as set looks at it *)
Definition fits (s : nested) (e : record) : Prop :=
  match s, e with
  | NScalar _, RScalar _ _ | NDict _ _, RDict _ => True
  | NSeq c _, RSeq c' _ => c' = c
  | _, _ => False
  end.

(* ---- set ---- *)
(* the verdicts of several sets in a row: the first exception, or whether all
   succeeded *)
Fixpoint verdict (l : list (res bool)) : res bool :=
  match l with
  | [] => Ok true
  | Err x :: _ => Err x
  | Ok b :: l' => match verdict l' with Ok b' => Ok (b && b') | Err x => Err x end
  end.
(* the results up to the first exception, that one included *)
Fixpoint tried {A} (outcome : A -> res bool) (l : list A) : list A :=
  match l with
  | [] => []
  | x :: l' => x :: (match outcome x with Ok _ => tried outcome l' | Err _ => [] end)
  end.
Definition given (n : name) (l : list (name * data)) : list data :=
  map snd (filter (fun kv => name_eqb n (fst kv)) l).
Fixpoint mentions (known : list name) (l : list name) : list name :=
  match l with
  | [] => known
  | n :: l' => mentions (if memb name_eqb n known then known else known ++ [n]) l'
  end.

(* ---- round trip ---- *)
(* equal up to raw and up to the order of mappings *)
Inductive same : record -> record -> Prop :=
| same_scalar sub r v u r' : same (RScalar sub (Scalar r v u)) (RScalar sub (Scalar r' v u))
| same_dict l l' m : Permutation l l' -> Forall2 (fun x y => fst x = fst y /\ same (snd x) (snd y)) l' m ->
    same (RDict l) (RDict m)
| same_seq c l m : Forall2 same l m -> same (RSeq c l) (RSeq c m).
(* an element whose scalars hold values their own set would leave alone; no
   MultiValues *)
Inductive settled : nested -> record -> Prop :=
| settled_scalar k sub st :
    sub = unstripped k && negb (is_none (s_value st)) ->
    adapt k (s_value st) = Ok (s_value st) ->
    s_u st = (match s_value st with VNone => [] | v => serialize k v end) ->
    settled (NScalar k) (RScalar sub st)
| settled_dict own fields items :
    NoDup (map fst items) ->
    (forall f, In f fields -> held f = true \/ own = Strict -> In (fname f) (map fst items)) ->
    (forall n e, In (n, e) items -> exists f, In f fields /\ fname f = n /\ settled (fschema f) e) ->
    settled (NDict own fields) (RDict items)
| settled_seq c m l : c <> OfMulti -> Forall (settled m) l -> settled (NSeq c m) (RSeq c l).
(* schemas whose scalars accept None and accept what they have adapted, and
   whose strict mappings hold all their fields from the start *)
Inductive steady : nested -> Prop :=
| steady_scalar k :
    adapt k VNone = Ok VNone -> (forall v w, adapt k v = Ok w -> adapt k w = Ok w) -> steady (NScalar k)
| steady_dict own fields :
    (own = Strict -> Forall (fun f => held f = true) fields) ->
    Forall (fun f => steady (fschema f)) fields -> steady (NDict own fields)
| steady_seq c m : c <> OfMulti -> steady m -> steady (NSeq c m).

(* the scalars of the library: the type of numbers gives no texts and keeps its
   own numbers, as int, float and Decimal do *)
Fixpoint standard (k : kind) : Prop :=
  match k with
  | KNumber nt _ => forall v n, nt_conv nt v = Ok n -> is_text n = false /\ nt_conv nt n = Ok n
  | KConstrained c _ | KEnum c _ => standard c
  | KCustom _ => False
  | _ => True
  end.

(* ---- text and equality ---- *)
(* the names, texts and positions of an element, without the values *)
Inductive outline :=
| OText (sub : bool) (s : str)
| OMap (l : list (name * outline))
| OSeq (l : list outline).
Fixpoint outline_of (e : record) : outline :=
  match e with
  | RScalar sub st => OText sub (s_u st)
  | RDict items => OMap (map (fun kv => (fst kv, outline_of (snd kv))) items)
  | RSeq _ l => OSeq (map outline_of l)
  end.
(* code points only *)
Definition unicode (s : str) : Prop := Forall (fun c => (c < 1114112)%N) s.
(* no MultiValues; Unicode texts *)
Inductive clean : record -> Prop :=
| clean_scalar sub st : unicode (s_u st) -> clean (RScalar sub st)
| clean_dict l :
    Forall (fun kv => match fst kv with Some s => unicode s | None => True end /\ clean (snd kv)) l -> clean (RDict l)
| clean_seq c l : c <> OfMulti -> Forall clean l -> clean (RSeq c l).
Definition is_scalar (e : record) : bool := match e with RScalar _ _ => true | _ => false end.
(* the mark of String.serialize on the text *)
Definition mark (e : record) : bool := match e with RScalar sub _ => sub | _ => false end.
(* dictionary keys are distinct *)
Inductive keyed : record -> Prop :=
| keyed_scalar sub st : keyed (RScalar sub st)
| keyed_dict l : NoDup (map fst l) -> Forall (fun kv => keyed (snd kv)) l -> keyed (RDict l)
| keyed_seq c l : Forall keyed l -> keyed (RSeq c l).

(* ---- set, per pair ---- *)
(* how a name appears as a dictionary key *)
Definition key_data (n : name) : data := DVal (match n with Some s => VText s | None => VNone end).
(* what setting the field named by a pair would return *)
Definition pair_result (object : data -> pyval) (own : policy) (fields : list (name * bool * nested)) (kv : name * data)
  : res bool :=
  match find (fun f => name_eqb (fst kv) (fname f)) fields with
  | Some f => snd (nested_set object (fschema f) (empty (fschema f)) (snd kv))
  | None => match own with Duck => Ok true | _ => Err KeyErr end
  end.
(* items of a list given to a Dict that are not pairs, or whose key is no
   name, and the exception *)
Inductive faulty (own : policy) : data -> exn -> Prop :=
| faulty_value v : is_text v = false -> faulty own (DVal v) TypeErr
| faulty_text s : List.length s <> 2%nat -> faulty own (DVal (VText s)) ValueErr
| faulty_seq l : List.length l <> 2%nat -> faulty own (DSeq l) ValueErr
| faulty_map l : List.length l <> 2%nat -> faulty own (DMap l) ValueErr
| faulty_list_key k d : faulty own (DSeq [DSeq k; d]) TypeErr
| faulty_dict_key k d : faulty own (DSeq [DMap k; d]) TypeErr
| faulty_key v d : own <> Duck -> is_text v = false -> is_none v = false -> faulty own (DSeq [DVal v; d]) KeyErr.
(* strings that keep outer white space, and what wraps them *)
Inductive verbatim : kind -> Prop :=
| verbatim_string : verbatim (KString false)
| verbatim_constrained c valid : verbatim c -> verbatim (KConstrained c valid)
| verbatim_enum c values : verbatim c -> verbatim (KEnum c values).
