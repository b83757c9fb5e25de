(* C92, C93: Compounds with a compose and an explode of their own. *)
From Verif Require Import PyBase SpecScalar ModelScalar ModelPaths ModelFlat SpecFlat ModelCompound SpecCompound
  ModelCustom SpecCustom ProofCustom ProofCustom2.
Local Open Scope string_scope.

(* C92 *)
Theorem C92_set : forall V R (c : custom V R) ps v qs,
  (cu_explode c ps v = (qs, Ok None) -> custom_set c ps v = (qs, Ok ToldTrue))
  /\ (forall x, cu_explode c ps v = (qs, Ok (Some x)) -> custom_set c ps v = (qs, Ok (ToldResult x)))
  /\ (cu_explode c ps v = (qs, Err NotImplErr) -> custom_set c ps v = (qs, Err NotImplErr))
  /\ (forall e, e <> NotImplErr -> cu_explode c ps v = (qs, Err e) -> custom_set c ps v = (qs, Ok ToldFalse)).
Proof. exact @set_lemma. Qed.
Print Assumptions C92_set.
Theorem C92_set_raises : forall V R (c : custom V R) ps v qs e, custom_set c ps v = (qs, Err e) ->
  e = NotImplErr /\ cu_explode c ps v = (qs, Err NotImplErr).
Proof. exact @set_raises. Qed.
Print Assumptions C92_set_raises.
Theorem C92_assign : forall V R (c : custom V R) ps v qs,
  (forall o, cu_explode c ps v = (qs, Ok o) -> custom_assign c ps v = (qs, Ok tt))
  /\ (forall e, cu_explode c ps v = (qs, Err e) -> custom_assign c ps v = (qs, Err e)).
Proof. exact @assign_lemma. Qed.
Print Assumptions C92_assign.
Theorem C92_read : forall V R (c : custom V R) ps,
  (forall u v, cu_compose c ps = Ok (u, v) -> custom_u c ps = Ok u /\ custom_value c ps = Ok v)
  /\ (forall e, cu_compose c ps = Err e -> custom_u c ps = Err e /\ custom_value c ps = Err e).
Proof. exact @read_lemma. Qed.
Print Assumptions C92_read.
Theorem C92_new : forall V R (c : custom V R) ps,
  (ps = [] -> forall v, custom_init c ps v = ([], Err TypeErr))
  /\ (ps <> [] ->
      (exists qs, custom_init c ps None = (qs, Ok tt)
         /\ Forall2 (fun p q => pt_name q = pt_name p /\ pt_kind q = pt_kind p /\ pt_default q = pt_default p
              /\ s_value (pt_st q) = VNone /\ s_u (pt_st q) = [] /\ s_raw (pt_st q) = None) ps qs
         /\ forall v, fst (custom_init c ps (Some v)) = fst (custom_set c qs v)
            /\ (snd (custom_init c ps (Some v)) = Ok tt <-> exists t, snd (custom_set c qs v) = Ok t)
            /\ (forall e, snd (custom_init c ps (Some v)) = Err e <-> snd (custom_set c qs v) = Err e))).
Proof. exact @init_lemma. Qed.
Print Assumptions C92_new.
Theorem C92_truth : forall V R (c : custom V R) truth ps,
  (forall u v, cu_compose c ps = Ok (u, v) -> exists b, custom_bool c truth ps = Ok b /\ (b = true <-> u <> [] /\ truth v = true))
  /\ (forall e, cu_compose c ps = Err e -> custom_bool c truth ps = Err e).
Proof. exact @bool_lemma. Qed.
Print Assumptions C92_truth.
Theorem C92_repr : forall V R (c : custom V R) repr_ ps,
  (forall s, custom_repr c repr_ ps = inl s <-> exists u v, cu_compose c ps = Ok (u, v) /\ repr_ v = Ok s)
  /\ (forall e, custom_repr c repr_ ps = inr e <->
        cu_compose c ps = Err e \/ exists u v, cu_compose c ps = Ok (u, v) /\ repr_ v = Err e).
Proof. exact @repr_lemma. Qed.
Print Assumptions C92_repr.
Theorem C92_default : forall V R (c : custom V R) ps,
  (forall v, cu_default c = Some v -> fst (custom_set_default c ps) = fst (custom_set c ps v)
     /\ (forall e, snd (custom_set_default c ps) = Err e <-> snd (custom_set c ps v) = Err e)
     /\ (snd (custom_set_default c ps) = Ok tt <-> exists t, snd (custom_set c ps v) = Ok t))
  /\ (cu_default c = None -> defaults ps (fst (custom_set_default c ps)) (snd (custom_set_default c ps))).
Proof. exact @set_default_lemma. Qed.
Print Assumptions C92_default.
Theorem C92_empty : forall ps,
  (ps = [] -> custom_is_empty ps = Err TypeErr)
  /\ (ps <> [] -> exists b, custom_is_empty ps = Ok b
      /\ (b = true <-> Forall (fun p => scalar_is_empty (pt_kind p) (pt_st p) = true) ps)).
Proof. exact empty_lemma. Qed.
Print Assumptions C92_empty.
Theorem C92_abstract : forall V R d repr_ truth ps v, let c := @abstract V R d in
  custom_u c ps = Err NotImplErr /\ custom_value c ps = Err NotImplErr /\ custom_set c ps v = (ps, Err NotImplErr)
  /\ custom_assign c ps v = (ps, Err NotImplErr) /\ custom_bool c truth ps = Err NotImplErr
  /\ custom_repr c repr_ ps = inr NotImplErr /\ custom_serialize v = Err TypeErr.
Proof. exact @abstract_lemma. Qed.
Print Assumptions C92_abstract.
(* DateYYYYMMDD is one of them *)
Theorem C92_date : forall strip_ dv y m d v,
  let c := date_custom strip_ dv in
  let p := Parts (pt_st y) (pt_st m) (pt_st d) in
  let k := Kinds (pt_kind y) (pt_kind m) (pt_kind d) in
  custom_u c [y; m; d] = date_u strip_ p /\ custom_value c [y; m; d] = date_value strip_ p
  /\ custom_is_empty [y; m; d] = Ok (date_is_empty k p)
  /\ forall p' r, date_set strip_ k p v = (p', r) ->
     custom_set c [y; m; d] v =
       ([Part (pt_name y) (pt_kind y) (pt_default y) (p_y p'); Part (pt_name m) (pt_kind m) (pt_default m) (p_m p');
         Part (pt_name d) (pt_kind d) (pt_default d) (p_d p')],
        match r with Ok true => Ok ToldTrue | Ok false => Ok ToldFalse | Err e => Err e end).
Proof. exact date_is. Qed.
Print Assumptions C92_date.
Example C92_case :
  let c := double (Some (DPair (VInt 4) (VInt 5))) in
  let ps := fst (custom_set c double_parts (DPair (VInt 7) (VText (lit "blagga")))) in
  let states x := (map pt_st (fst x), snd x) in
  snd (custom_set c double_parts (DPair (VInt 7) (VText (lit "blagga")))) = Ok (ToldResult true) /\ custom_u c ps = Ok (lit "7xblagga") /\ custom_value c ps = Ok DNone
  /\ custom_bool c (fun _ => true) ps = Ok true
  /\ states (custom_set c ps (DText (lit "boom"))) = (map pt_st ps, Ok ToldFalse)
  /\ snd (custom_assign c ps (DText (lit "boom"))) = Err AttributeErr
  /\ states (custom_set c ps (DText (lit "return-none"))) = (map pt_st ps, Ok ToldTrue)
  /\ custom_is_empty ps = Ok false /\ custom_is_empty double_parts = Ok true
  /\ custom_value c (fst (custom_set_default c ps)) = Ok (DPair (VInt 4) (VInt 5))
  /\ snd (custom_init (@abstract dvalue bool None) double_parts (Some DNone)) = Err NotImplErr.
Proof. vm_compute. repeat (split; [reflexivity|]). reflexivity. Qed.

(* C93 *)
Theorem C93_flatten : forall V R (c : custom V R) n sep ps, named ps ->
  (forall u v, cu_compose c ps = Ok (u, v) ->
     exists f, forall fuel, (f <= fuel)%nat -> custom_flatten c fuel n sep ps = Ok (listed n sep u ps))
  /\ (forall e, cu_compose c ps = Err e -> exists f, forall fuel, (f <= fuel)%nat -> custom_flatten c fuel n sep ps = Err e).
Proof. exact @flatten_custom. Qed.
Print Assumptions C93_flatten.
Theorem C93_set_flat : forall n sep ps pairs, named ps -> text_keys pairs ->
  delivers n sep pairs ps (fst (custom_set_flat n sep ps pairs)) (snd (custom_set_flat n sep ps pairs)).
Proof. exact set_flat_custom. Qed.
Print Assumptions C93_set_flat.
Theorem C93_round_trip : forall V R (c : custom V R) n sep ps u v, named ps -> Forall (fun p => pt_name p <> Some []) ps ->
  Forall (fun p => reads_back false (pt_kind p) (pt_st p)) ps -> cu_compose c ps = Ok (u, v) ->
  exists fl qs, (exists f, forall fuel, (f <= fuel)%nat -> custom_flatten c fuel n sep ps = Ok fl)
    /\ custom_set_flat n sep (new_parts ps) (as_flat fl) = (qs, Ok tt) /\ Forall2 alike ps qs
    /\ (observant c -> custom_u c qs = Ok u /\ custom_value c qs = Ok v).
Proof. exact @round_trip. Qed.
Print Assumptions C93_round_trip.
Theorem C93_date_round_trip : forall strip_ dv n sep a b e v d, real_val v -> means_date strip_ v d ->
  NoDup [Some a; Some b; Some e] -> ~ In [] [a; b; e] ->
  let c := date_custom strip_ dv in
  let new := date_fields (Some a) (Some b) (Some e) in
  exists ps fl qs, custom_set c new v = (ps, Ok ToldTrue) /\ custom_value c ps = Ok (VDate d)
    /\ (exists f, forall fuel, (f <= fuel)%nat -> custom_flatten c fuel n sep ps = Ok fl)
    /\ custom_set_flat n sep new (as_flat fl) = (qs, Ok tt) /\ custom_value c qs = Ok (VDate d) /\ custom_u c qs = custom_u c ps.
Proof. exact date_round_trip. Qed.
Print Assumptions C93_date_round_trip.
Theorem C93_own_pair : forall n sep ps (a b : flat_pairs) v, named ps -> Forall (fun p => pt_name p <> Some []) ps -> text_keys (a ++ b)%list ->
  custom_set_flat n sep ps (a ++ (Some (match n with Some x => x | None => [] end), v) :: b)%list
  = custom_set_flat n sep ps (a ++ b)%list.
Proof. exact own_pair. Qed.
Print Assumptions C93_own_pair.
Example C93_case :
  let c := double None in
  let ps := fst (custom_set c double_parts (DPair (VInt 1) (VInt 2))) in
  custom_flatten c 9 (text "s") (lit "_") ps = Ok [(lit "s", lit "1x2"); (lit "s_x", lit "1"); (lit "s_y", lit "2")]
  /\ custom_value c (fst (custom_set_flat (text "s") (lit "_") double_parts (flat_of [("s_x", "1"); ("s_y", "2"); ("s", "5x5")])))
     = Ok (DPair (VInt 1) (VInt 2))
  /\ map pt_st (fst (custom_set_flat (text "s") (lit "_") double_parts (flat_of [("s", "1x2")]))) = [blank; blank].
Proof. vm_compute. repeat (split; [reflexivity|]). reflexivity. Qed.
Example C93_hypotheses : let ps := fst (custom_set (double None) double_parts (DPair (VInt 1) (VInt 2))) in
  named ps /\ Forall (fun p => pt_name p <> Some []) ps /\ Forall (fun p => reads_back false (pt_kind p) (pt_st p)) ps
  /\ observant (double None).
Proof. exact double_hypotheses. Qed.
