(* Construction of SparseDicts; counterexamples and example runs. *)
From Verif Require Import PyBase PyBaseFacts ModelUtil ModelScalar ModelSeq ModelMap SpecMap
  ProofMap ProofMap2 ProofMap3 ProofMap4 ProofMap5 ProofMap6 ProofMap7 ProofMap8.

Section Built.
Context {V M : Type} (cls : nat -> ecls V M) (isa : nat -> nat -> bool) (fields : list field)
        (own_name : name) (minf : minimum) (own : policy).

Lemma sparse_built h self v os : unique_fields fields -> isa_refl isa ->
  snd (construct_map cls isa fields minf IsSparse own h self v) = Ok tt ->
  let s := fst (construct_map cls isa fields minf IsSparse own h self v) in
  sparse_history cls isa fields own_name minf own s os ->
  sparse_shape isa fields (run_sparse cls isa fields own_name minf own s os).
Proof.
  intros (U & Ne) R Hok s Hh. apply sparse_history_shape; try easy. clear os Hh. subst s.
  unfold construct_map. destruct fields as [|f0 fs] eqn:Ef; [easy|]. rewrite <- Ef in *. cbn [do_reset].
  pose proof (reset_sparse cls isa fields minf U R (MapSt h self [])) as (H & _).
  destruct v as [src|]; [|exact H].
  pose proof (closed_dict_set cls isa fields minf (sparse_shape isa fields)) as K.
  specialize (K (fun s k a => shape_setitem cls isa fields R s k a) (fun A s e g => shape_child isa fields A s e g)
                (fun s c m => shape_alloc cls isa fields s c m None)
                (fun s k e F _ _ => shape_del isa fields s k F)
                (fun s _ => proj1 (reset_sparse cls isa fields minf U R s)) own _ src None H).
  destruct (dict_set cls isa fields minf IsSparse own _ src None); exact K.
Qed.
Lemma sparse_built_full h self v os : unique_fields fields -> isa_refl isa ->
  subclass_required cls isa fields -> minf = MinRequired -> class_optional cls h ->
  snd (construct_map cls isa fields minf IsSparse own h self v) = Ok tt ->
  let s := fst (construct_map cls isa fields minf IsSparse own h self v) in
  sparse_history cls isa fields own_name minf own s os ->
  required_present cls fields (run_sparse cls isa fields own_name minf own s os).
Proof.
  intros (U & Ne) R Sb Hm Hc Hok s Hh. apply (sparse_history_full cls isa fields own_name minf U R Sb Hm); [|exact Hh]. clear os Hh. subst s.
  unfold construct_map. destruct fields as [|f0 fs] eqn:Ef; [easy|]. rewrite <- Ef in *. cbn [do_reset].
  destruct (full_parts cls isa fields minf U R Sb Hm) as (P1 & P2 & P3 & P4 & P5).
  pose proof (P5 (MapSt h self []) Hc) as H.
  destruct v as [src|]; [|exact H].
  pose proof (closed_dict_set cls isa fields minf (full cls isa fields) P1 P2 P3 P4) as K.
  specialize (K (fun s F => P5 s (proj1 (proj2 F))) own _ src None H).
  destruct (dict_set cls isa fields minf IsSparse own _ src None); exact K.
Qed.
End Built.

(* ------------------------------ findings ------------------------------ *)
Definition sample_dict : mapst scalar :=
  fst (construct_map sample_classes Nat.eqb sample_fields MinNone IsDict Subset (sample_heap false) 0 None).
Lemma eqb_isa_refl : isa_refl Nat.eqb. Proof. exact Nat.eqb_refl. Qed.
Lemma sample_unique : unique_fields sample_fields.
Proof.
  split; [|easy]. repeat constructor; cbn; [intros [E|[]]; discriminate|intros []].
Qed.
Lemma sample_shape : dict_shape sample_fields sample_dict.
Proof. apply (construct_shape sample_classes Nat.eqb sample_fields MinNone Subset (sample_heap false) 0 None sample_unique eqb_isa_refl eq_refl). Qed.

Lemma required_removable :
  exists h os, unique_fields sample_fields /\ subclass_required sample_classes Nat.eqb sample_fields
  /\ let s0 := fst (construct_map sample_classes Nat.eqb sample_fields MinRequired IsSparse Subset h 0 None) in
     sparse_history sample_classes Nat.eqb sample_fields None MinRequired Subset s0 os
     /\ required_present sample_classes sample_fields s0
     /\ ~ required_present sample_classes sample_fields
            (run_sparse sample_classes Nat.eqb sample_fields None MinRequired Subset s0 os).
Proof.
  exists (sample_heap true), [MSetItem (nm "a") (AElem 1); MDelItem (nm "a")].
  split; [exact sample_unique|]. split.
  { intros f c [<-|[<-|[]]]; cbn; [|easy]. intros _ E. apply Nat.eqb_eq in E. now subst. }
  split; [|split].
  - cbn. repeat split; lia.
  - intros f [<-|[<-|[]]]; cbn; [now left|easy].
  - intros H. specialize (H (Field (Some (lit "a")) 0) (or_introl eq_refl) eq_refl). exact H.
Qed.
Lemma set_not_atomic : exists s l,
  dict_shape sample_fields s /\ seen_values s = [(nm "a", VInt 5); (nm "b", VNone)]
  /\ let '(s', r) := dict_set sample_classes Nat.eqb sample_fields MinNone IsDict Subset s (Pairs (Iter l None)) None in
     r = Err KeyErr /\ seen_values s' = [(nm "a", VInt 3); (nm "b", VNone)].
Proof.
  exists (fst (dict_set sample_classes Nat.eqb sample_fields MinNone IsDict Subset sample_dict
            (Pairs (Iter [(nm "a", VInt 5)] None)) None)), [(nm "a", VInt 3); (nm "zzz", VInt 1)].
  split; [|now vm_compute].
  apply set_shape; [apply sample_unique|exact eqb_isa_refl|exact sample_shape].
Qed.
Definition attrs (l : list (string * Z)) (a : name) : option pyval :=
  match aget name_eqb a (map (fun kv => (nm (fst kv), VInt (snd kv))) l) with Some v => Some v | None => None end.
Lemma rename_omitted : exists obj rename omit order,
  In (nm "x", nm "a") rename /\ obj (nm "x") = Some (VInt 1)
  /\ (forall a, In a (attributes (keys (m_items sample_dict)) omit rename) -> In a order)
  /\ let '(s', r) := set_by_object sample_classes Nat.eqb sample_fields MinNone IsDict Subset sample_dict obj
                       None (Some omit) (Some rename) order in
     r = Ok tt /\ seen_values s' = [(nm "a", VNone); (nm "b", VNone)].
Proof.
  exists (attrs [("x"%string, 1%Z)]), [(nm "x", nm "a")], [nm "x"], [nm "a"; nm "b"; nm "x"].
  split; [now left|]. split; [easy|]. split; [|now vm_compute].
  intros a. vm_compute. tauto.
Qed.
Lemma order_matters : exists obj rename order order',
  (forall a, In a order <-> In a order')
  /\ (forall a, In a order <-> In a (attributes (keys (m_items sample_dict)) [] rename))
  /\ NoDup order /\ NoDup order'
  /\ let run o := seen_values (fst (set_by_object sample_classes Nat.eqb sample_fields MinNone IsDict Subset
                         sample_dict obj None None (Some rename) o)) in
     run order = [(nm "a", VInt 2); (nm "b", VNone)] /\ run order' = [(nm "a", VInt 1); (nm "b", VNone)].
Proof.
  exists (attrs [("x"%string, 1%Z); ("a"%string, 2%Z)]), [(nm "x", nm "a")], [nm "x"; nm "a"; nm "b"], [nm "b"; nm "a"; nm "x"].
  split; [intros a; cbn; tauto|].
  split; [intros a; vm_compute; tauto|].
  split; [repeat constructor; cbn; intuition discriminate|].
  split; [repeat constructor; cbn; intuition discriminate|]. now vm_compute.
Qed.
Lemma flat_raises :
  (exists s pairs, dict_shape sample_fields s
     /\ map_set_flat sample_classes sample_fields (nm "d") (map_setitem sample_classes) s pairs (lit "_") = (s, Err AttributeErr))
  /\ exists fields s pairs, NoDup (map f_name fields) /\ dict_shape fields s
     /\ map_set_flat sample_classes fields None (map_setitem sample_classes) s pairs (lit "_") = (s, Err TypeErr).
Proof.
  split.
  - exists sample_dict, [(None, VInt 1)]. split; [exact sample_shape|reflexivity].
  - assert (U : unique_fields [Field None 0]).
    { split; [|easy]. repeat constructor. intros []. }
    exists [Field None 0],
      (fst (construct_map sample_classes Nat.eqb [Field None 0] MinNone IsDict Subset (sample_heap false) 0 None)),
      [(nm "a", VInt 1)].
    split; [apply U|]. split; [|reflexivity].
    apply (construct_shape sample_classes Nat.eqb [Field None 0] MinNone Subset (sample_heap false) 0 None U eqb_isa_refl eq_refl).
Qed.

Definition sample_run (os : list (mop pyval)) : mapst scalar :=
  run_dict sample_classes Nat.eqb sample_fields None MinNone Subset sample_dict os.
Definition sample_sparse (minf : minimum) (os : list (mop pyval)) : mapst scalar :=
  run_sparse sample_classes Nat.eqb sample_fields None minf Subset
    (fst (construct_map sample_classes Nat.eqb sample_fields minf IsSparse Subset (sample_heap false) 0 None)) os.
Definition sparse_ops : list (mop pyval) :=
  [MSetItem (nm "b") (AVal (VInt 4)); MDelItem (nm "a"); MPop (nm "a"); MSetItem (nm "z") (AVal (VInt 1));
   MSetdefault (nm "a") (VInt 2); MDelItem (nm "b"); MSetItem (nm "a") (AElem 1)].
Lemma bad_arguments : forall V M (cls : nat -> ecls V M) isa fields minf own fl s,
  dict_set cls isa fields minf fl own s NotIterable None = (s, Err TypeErr)
  /\ (forall g, dict_set cls isa fields minf fl own s NotIterable g = (s, Err TypeErr))
  /\ (forall it, snd (dict_set cls isa fields minf fl own s (Pairs it) (Some OtherPolicy)) = Err AssertErr)
  /\ (NoDup (map f_name fields) -> dict_shape fields s -> forall it,
      contents_after cls fields
        (fun f => match fl, minf with
                  | IsDict, _ => true | _, MinNone => false | _, _ => negb (c_optional (cls (f_class f))) end)
        [] (fst (dict_set cls isa fields minf fl own s (Pairs it) (Some OtherPolicy)))).
Proof.
  intros. destruct (set_bad cls isa fields minf own fl s) as (A & B & C & D). repeat (split; [assumption|]).
  now destruct fl, minf.
Qed.
Lemma given_default : forall V M (cls : nat -> ecls V M) isa fields minf own set s src,
  map_set_default cls set s (MDValue src) = (fst (set s src), rmap (fun _ => tt) (snd (set s src)))
  /\ sparse_set_default cls isa fields minf own s (MDValue src)
     = (fst (dict_set cls isa fields minf IsSparse own s src None),
        rmap (fun _ => tt) (snd (dict_set cls isa fields minf IsSparse own s src None))).
Proof.
  intros. cbn. destruct (set s src), (dict_set cls isa fields minf IsSparse own s src None). now split.
Qed.
Lemma cleared : forall V M (cls : nat -> ecls V M) fields minf s, NoDup (map f_name fields) ->
  let s' := sparse_reset cls fields minf s in
  (forall f, In f fields ->
     content s' (f_name f)
     = match minf with
       | MinNone => None
       | _ => if c_optional (cls (f_class f)) then None else Some (c_new (cls (f_class f)))
       end)
  /\ (forall k, ~ In k (map f_name fields) -> content s' k = None)
  /\ untouched (m_h s) (m_h s') /\ (forall ke, In ke (m_items s') -> e_next (m_h s) <= snd ke).
Proof.
  intros V M cls fields minf s U. destruct (sparse_cleared cls fields minf s U) as (A & B). split; [|exact B].
  intros f I. rewrite (A f I). unfold required. now destruct minf, (c_optional (cls (f_class f))).
Qed.
Lemma sparse_steps : forall V M (cls : nat -> ecls V M) isa fields own_name minf own s,
  let step := sparse_step cls isa fields own_name minf own s in
  step MClear = (sparse_reset cls fields minf s, Ok MONone)
  /\ step MPopItem = (s, Err NotImplErr)
  /\ (forall k, step (MPop k) = let '(s', r) := sparse_pop minf s k in (s', rmap MOElem r))
  /\ (forall k, step (MDelItem k) = let '(s', r) := sparse_delitem cls fields minf s k in (s', rmap mnone r))
  /\ (forall k a, step (MSetItem k a) = let '(s', r) := sparse_setitem cls isa fields s k a in (s', rmap mnone r))
  /\ (forall k d, step (MSetdefault k d) = let '(s', r) := sparse_setdefault cls isa fields s k d in (s', rmap MOValue r))
  /\ (forall k, step (MGet k) = (s, match aget name_eqb k (m_items s) with
                                    | Some e => Ok (MOElem e) | None => Err KeyErr end)).
Proof. intros. repeat (split; [reflexivity|]). intros k. cbn. unfold map_get, mget. now destruct (aget name_eqb k (m_items s)). Qed.
