(* Proofs about SparseDict. *)
From Verif Require Import PyBase PyBaseFacts ModelUtil ModelSeq ModelMap SpecMap ProofMap ProofMap2 ProofMap3 ProofMap4.

Lemma on_child_fst {M A} (h : eheap M) e (g : M -> M * res A) x r : on_child h e g = (x, r) -> x = fst (on_child h e g).
Proof. now intros ->. Qed.

Section Sp.
Context {V M : Type} (cls : nat -> ecls V M) (isa : nat -> nat -> bool) (fields : list field)
        (own_name : name) (minf : minimum).
Notation st := (mapst M).
Implicit Types (s : st) (k : name) (e : nat) (f : field).
Definition exists_in s (a : arg V) : Prop := match a with AElem e => e < e_next (m_h s) | AVal _ => True end.

Section Closed.
Context (P : st -> Prop)
  (Pset : forall s k a, P s -> exists_in s a -> P (fst (sparse_setitem cls isa fields s k a)))
  (Pchild : forall A s e (g : M -> M * res A), P s -> P (with_eheap s (fst (on_child (m_h s) e g))))
  (Palloc : forall s c m, P s -> P (with_eheap s (fst (alloc cls (m_h s) c m None))))
  (Pdel : forall s k e, P s -> mget k s = Some e ->
            (minf = MinRequired -> e_optional (m_h s) e = true) -> P (sparse_del s k))
  (Preset : forall s, P s -> P (sparse_reset cls fields minf s)).

Lemma closed_set_child s e a : P s -> P (with_eheap s (fst (set_child cls (m_h s) e a))).
Proof. intros H. apply Pchild. exact H. Qed.
Lemma closed_create s k c m : P s ->
  P (fst (sparse_setitem cls isa fields (with_eheap s (fst (alloc cls (m_h s) c m None))) k (AElem (e_next (m_h s))))).
Proof. intros H. apply Pset; [now apply Palloc|]. cbn. lia. Qed.
Lemma closed_set_all pol last : forall l s seen conv, P s ->
  P (fst (dict_set_all cls isa fields IsSparse pol s l last seen conv)).
Proof.
  induction l as [|(k, v) l IH]; intros s seen conv H; cbn [dict_set_all].
  - destruct last, pol; exact H.
  - destruct (aget name_eqb k (field_map fields)) as [c|].
    + assert (G : forall s1 e, P s1 ->
        P (fst (let '(h, r) := set_child cls (m_h s1) e (AVal v) in
                match r with
                | Ok b => dict_set_all cls isa fields IsSparse pol (with_eheap s1 h) l last (k :: seen) (conv && b)
                | Err x => (with_eheap s1 h, Err x)
                end))).
      { intros s1 e H1. pose proof (closed_set_child s1 e (AVal v) H1) as H2.
        destruct (set_child cls (m_h s1) e (AVal v)) as (h, r). cbn [fst] in H2.
        destruct r; [now apply IH|exact H2]. }
      destruct (mget k s) as [e|].
      * now apply G.
      * pose proof (closed_create s k c (c_new (cls c)) H) as H1. unfold alloc in *. cbn [fst do_setitem] in *.
        destruct (sparse_setitem cls isa fields _ k _) as (s1, r1). cbn [fst] in H1.
        destruct r1; cbn [rmap]; [now apply G|exact H1].
    + destruct pol; try exact H. now apply IH.
Qed.
Lemma closed_dict_set own s src g : P s -> P (fst (dict_set cls isa fields minf IsSparse own s src g)).
Proof.
  intros H. destruct src as [|[l last]]; [exact H|]. unfold dict_set. cbn [it_items it_end do_reset].
  pose proof (Preset s H) as H1. destruct g as [[]|]; try (now apply closed_set_all). exact H1.
Qed.
Lemma closed_setdefault s k d : P s -> P (fst (sparse_setdefault cls isa fields s k d)).
Proof.
  intros H. unfold sparse_setdefault. destruct (negb _); [exact H|].
  assert (G : forall s1 e, P s1 -> P (fst (let '(h, r) := set_child cls (m_h s1) e (AVal d) in
                                          (with_eheap s1 h, rmap (fun _ => d) r)))).
  { intros s1 e H1. pose proof (closed_set_child s1 e (AVal d) H1) as H2.
    now destruct (set_child cls (m_h s1) e (AVal d)) as (h, r). }
  destruct (mget k s) as [e|].
  - destruct (c_empty _ _); [now apply G|exact H].
  - destruct (aget name_eqb k (field_map fields)) as [c|]; [|exact H].
    pose proof (closed_create s k c (c_new (cls c)) H) as H1. unfold alloc in *. cbn [fst] in *.
    destruct (sparse_setitem cls isa fields _ k _) as (s1, r1). cbn [fst] in H1.
    destruct r1; [now apply G|exact H1].
Qed.
Lemma closed_flat ps : forall fs s, P s -> P (fst (flat_fields cls (sparse_setitem cls isa fields) s fs ps)).
Proof.
  induction fs as [|f fs IH]; intros s H; cbn [flat_fields]; [exact H|].
  destruct (accumulate (f_name f) ps) as [[|p acc]|x]; [now apply IH| |exact H].
  assert (G : forall s1, P s1 ->
    P (fst match mget (f_name f) s1 with
           | None => (s1, Err KeyErr)
           | Some e =>
               let '(h, r) := on_child (m_h s1) e (fun m => c_set_flat (cls (e_class (m_h s1) e)) m (p :: acc)) in
               match r with
               | Ok _ => flat_fields cls (sparse_setitem cls isa fields) (with_eheap s1 h) fs ps
               | Err x => (with_eheap s1 h, Err x)
               end
           end)).
  { intros s1 H1. destruct (mget (f_name f) s1) as [e|]; [|exact H1].
    pose proof (Pchild _ s1 e (fun m => c_set_flat (cls (e_class (m_h s1) e)) m (p :: acc)) H1) as H2.
    destruct (on_child (m_h s1) e _) as (h, r). cbn [fst] in H2. destruct r; [now apply IH|exact H2]. }
  destruct (mhas (f_name f) s); [now apply G|].
  pose proof (closed_create s (f_name f) (f_class f) (c_new (cls (f_class f))) H) as H1. unfold alloc in *. cbn [fst] in *.
  destruct (sparse_setitem cls isa fields _ (f_name f) _) as (s1, r1). cbn [fst] in H1.
  destruct r1; [now apply G|exact H1].
Qed.
Lemma closed_defaults : forall fs s, P s -> P (fst (sparse_defaults cls isa fields s fs)).
Proof.
  induction fs as [|f fs IH]; intros s H; cbn [sparse_defaults]; [exact H|].
  destruct (c_optional _); [now apply IH|]. destruct (c_default _ _) as (m, r). destruct r as [[]|x]; [|exact H].
  pose proof (closed_create s (f_name f) (f_class f) m H) as H1. unfold alloc in *. cbn [fst] in *.
  destruct (sparse_setitem cls isa fields _ (f_name f) _) as (s1, r1). cbn [fst] in H1.
  destruct r1; [now apply IH|exact H1].
Qed.
Lemma setitem_next s k a : e_next (m_h s) <= e_next (m_h (fst (sparse_setitem cls isa fields s k a))).
Proof.
  unfold sparse_setitem.
  destruct (mget k s) as [e|], (schema_for fields k) as [c|]; [|cbn; lia| |cbn; lia].
  - destruct a as [v|x]; [|destruct (isa _ _); [cbn; lia|]].
    + pose proof (set_child_next cls (m_h s) e (AVal v)). destruct (set_child _ _ _ _). cbn in *. lia.
    + pose proof (set_child_next cls (m_h s) e (AElem x)). destruct (set_child _ _ _ _). cbn in *. lia.
  - destruct a as [v|x].
    + destruct (c_set _ _ _) as (m, [b|y]); cbn; lia.
    + destruct (isa _ _); [cbn; lia|]. destruct (c_set_el _ _ _) as (m, [b|y]); cbn; lia.
Qed.
Lemma closed_update s d kw : P s -> args_exist s (MUpdate d kw) -> P (fst (map_update (sparse_setitem cls isa fields) s d kw)).
Proof.
  intros H (A & B).
  apply (update_ind (sparse_setitem cls isa fields)
           (fun s' => P s' /\ e_next (m_h s) <= e_next (m_h s'))
           (fun ka => match snd ka with AElem e => e < e_next (m_h s) | AVal _ => True end)); auto.
  intros s' k a (H1 & H2) Ha. split.
  - apply Pset; [easy|]. destruct a; [easy|]. cbn in *. lia.
  - pose proof (setitem_next s' k a). lia.
Qed.
Lemma fst_mret {A} (g : A -> mout V) (x : st * res A) : fst (mret g x) = fst x.
Proof. now destruct x. Qed.
Lemma closed_step own s o : P s -> args_exist s o -> P (fst (sparse_step cls isa fields own_name minf own s o)).
Proof.
  intros H Ha. destruct o; cbn [sparse_step]; rewrite ?fst_mret; try exact H.
  - apply Pset; [exact H|]. exact Ha.
  - unfold sparse_delitem. destruct minf eqn:Em.
    + rewrite mhas_mget. destruct (mget k s) as [e|] eqn:E.
      * apply (Pdel s k e); auto. easy.
      * now destruct (sparse_may _ _ _).
    + destruct (mget k s) as [e|] eqn:E.
      * destruct (e_optional (m_h s) e) eqn:Eo; [|exact H]. now apply (Pdel s k e).
      * destruct (schema_for fields k); [|exact H]. now destruct (c_optional _).
    + destruct (mget k s) as [e|] eqn:E.
      * destruct (e_optional (m_h s) e) eqn:Eo; [|exact H]. now apply (Pdel s k e).
      * destruct (schema_for fields k); [|exact H]. now destruct (c_optional _).
  - cbn. now apply Preset.
  - unfold sparse_pop. destruct (mget k s) as [e|] eqn:E; [|exact H]. destruct minf eqn:Em.
    + now apply (Pdel s k e).
    + destruct (e_optional (m_h s) e) eqn:Eo; [|exact H]. now apply (Pdel s k e).
    + now apply (Pdel s k e).
  - now apply closed_update.
  - now apply closed_setdefault.
  - now apply closed_dict_set.
  - unfold map_set_flat. destruct (match own_name with None => _ | Some _ => _ end) as [[|]|]; try exact H.
    now apply closed_flat.
  - unfold sparse_set_default. destruct d as [| |src].
    + pose proof (Preset s H) as K. revert K. generalize (sparse_reset cls fields minf s). intros R K.
      case minf; [exact K|now apply closed_defaults|exact H].
    + pose proof (Preset s H) as K. revert K. generalize (sparse_reset cls fields minf s). intros R K.
      case minf; [exact K|now apply closed_defaults|exact H].
    + pose proof (closed_dict_set own s src None H) as K. now destruct (dict_set _ _ _ _ _ _ _ _ _).
  - unfold set_by_object. destruct (memb name_eqb None _); [exact H|]. destruct (keyslice_pairs _ _ _ _ _ _) as [sl|x]; [|exact H].
    match goal with |- context [dict_set ?a ?b ?c ?d ?e ?f ?g ?h ?i] =>
      pose proof (closed_dict_set f g h i H) as K; destruct (dict_set a b c d e f g h i) end. exact K.
Qed.
Lemma closed_history own : forall os s, P s -> sparse_history cls isa fields own_name minf own s os ->
  P (run_sparse cls isa fields own_name minf own s os).
Proof.
  induction os as [|o os IH]; intros s H Hh; [exact H|]. destruct Hh as (A & B).
  unfold run_sparse. cbn [fold_left]. apply IH; [now apply closed_step|exact B].
Qed.
End Closed.

(* ------------------------------ shape ------------------------------ *)
Context (Huniq : NoDup (map f_name fields)) (Hrefl : isa_refl isa).

Lemma sparse_same s s' : same_members s s' -> sparse_shape isa fields s -> sparse_shape isa fields s'.
Proof.
  intros (A & B & C & D) (N & H). unfold sparse_shape. rewrite A. split; [easy|].
  intros k e I. destruct (H k e I) as (H1 & H2 & H3). destruct (D e) as (d1 & d2 & d3).
  now rewrite C, d1, d2, B.
Qed.
(* placing e under k *)
Lemma sparse_put s h k e f : sparse_shape isa fields s ->
  e_next (m_h s) <= e_next h ->
  (forall i, i < e_next (m_h s) -> e_class h i = e_class (m_h s) i
     /\ (e_parent h i = e_parent (m_h s) i \/ e_parent h i = Some (m_self s))) ->
  e < e_next h -> e_parent h e = Some (m_self s) ->
  In f fields -> f_name f = k -> isa (e_class h e) (f_class f) = true ->
  sparse_shape isa fields (put (with_eheap s h) k e).
Proof.
  intros (N & H) L K E1 E2 If Ef Ei. split.
  - apply NoDup_keys_aset; [apply name_eqb_eq|easy].
  - intros k' e' I. cbn [put with_eheap m_h m_self m_items] in *.
    assert (Hm : mget k' (put (with_eheap s h) k e) = Some e').
    { apply in_mget; [|easy]. apply NoDup_keys_aset; [apply name_eqb_eq|easy]. }
    rewrite mget_put in Hm. destruct (name_eqb_spec k' k) as [->|_].
    + injection Hm as <-. repeat split; auto. now exists f.
    + apply mget_in in Hm. cbn in Hm. destruct (H k' e' Hm) as (H1 & H2 & H3).
      destruct (K e' H1) as (K1 & K2). rewrite K1. split; [lia|]. split; [|easy].
      destruct K2 as [-> | ->]; easy.
Qed.
Lemma take_shape s k x c : sparse_shape isa fields s -> x < e_next (m_h s) ->
  schema_for fields k = Some c -> isa (e_class (m_h s) x) c = true ->
  sparse_shape isa fields (put (with_eheap s (adopt (m_h s) x (m_self s))) k x).
Proof.
  intros H L Hs Hi. destruct (schema_for_in _ _ _ Hs) as (f & If & Ef & <-).
  apply sparse_put with f; auto; cbn [adopt e_next e_class e_parent].
  - intros i _. split; [easy|]. unfold fset. destruct (Nat.eqb i x); auto.
  - apply fset_eq.
Qed.
Lemma new_shape s k c m : sparse_shape isa fields s -> schema_for fields k = Some c ->
  sparse_shape isa fields (put (with_eheap s (fst (alloc cls (m_h s) c m (Some (m_self s))))) k (e_next (m_h s))).
Proof.
  intros H Hs. destruct (schema_for_in _ _ _ Hs) as (f & If & Ef & <-).
  apply sparse_put with f; auto; cbn; try lia.
  - intros i L. rewrite !fset_neq by lia. auto.
  - apply fset_eq.
  - rewrite fset_eq. apply Hrefl.
Qed.
Lemma shape_setitem s k a : sparse_shape isa fields s -> exists_in s a ->
  sparse_shape isa fields (fst (sparse_setitem cls isa fields s k a)).
Proof.
  intros H Ha. unfold sparse_setitem.
  assert (G : forall e, sparse_shape isa fields (fst (let '(h, r) := set_child cls (m_h s) e a in
               (with_eheap s h, rmap (fun _ : bool => tt) r)))).
  { intros e. destruct (set_child_only cls s e a) as (A & _). apply only_same in A.
    destruct (set_child cls (m_h s) e a). cbn in *. now apply (sparse_same s). }
  destruct (mget k s) as [e|], (schema_for fields k) as [c|] eqn:Es; try exact H.
  - destruct a as [v|x]; [apply G|]. destruct (isa _ _) eqn:Ei; [|apply G]. now apply take_shape with c.
  - destruct a as [v|x].
    + destruct (c_set _ _ _) as (m, [b|y]); [|exact H]. now apply new_shape.
    + destruct (isa _ _) eqn:Ei; [now apply take_shape with c|].
      destruct (c_set_el _ _ _) as (m, [b|y]); [|exact H]. now apply new_shape.
Qed.
Lemma shape_child A s e (g : M -> M * res A) : sparse_shape isa fields s ->
  sparse_shape isa fields (with_eheap s (fst (on_child (m_h s) e g))).
Proof. intros H. destruct (on_child_only s e g) as (B & _). apply only_same in B. now apply (sparse_same s). Qed.
Lemma shape_alloc s c m p : sparse_shape isa fields s ->
  sparse_shape isa fields (with_eheap s (fst (alloc cls (m_h s) c m p))).
Proof.
  intros (N & H). split; [easy|]. intros k e I. destruct (H k e I) as (H1 & H2 & H3).
  cbn. rewrite !fset_neq by lia. repeat split; auto.
Qed.
Lemma shape_del s k : sparse_shape isa fields s -> sparse_shape isa fields (sparse_del s k).
Proof.
  intros (N & H). split; [now apply NoDup_keys_adel; [apply name_eqb_eq|]|].
  intros k' e I. assert (Hm : mget k' (sparse_del s k) = Some e).
  { apply in_mget; [|easy]. now apply NoDup_keys_adel; [apply name_eqb_eq|]. }
  apply (H k' e). apply mget_in. unfold mget, sparse_del in Hm. cbn [m_items] in Hm.
  destruct (name_dec k' k) as [->|Nk].
  - now rewrite aget_adel_eq in Hm.
  - now rewrite (aget_adel_neq name_eqb name_eqb_eq) in Hm.
Qed.
Lemma reset_sparse s : let s' := sparse_reset cls fields minf s in
  sparse_shape isa fields s' /\ complete cls fields minf IsSparse s' /\ m_self s' = m_self s.
Proof.
  destruct (reset_good cls fields minf Huniq IsSparse s I) as (G & C & _). cbn [do_reset] in *.
  split; [|split; [easy|apply G]]. destruct G as [A B C' D E F G K]. split; [easy|].
  intros k e I. pose proof (in_mget _ _ _ K I) as Hm. destruct (C' _ _ Hm) as (_ & L). split; [easy|].
  rewrite (F _ _ Hm), A. split; [easy|]. pose proof (E _ _ Hm) as Hs.
  destruct (schema_for_in _ _ _ Hs) as (f & If & Ef & Ec). exists f. repeat split; auto. rewrite Ec. apply Hrefl.
Qed.
Lemma sparse_step_shape own s o : sparse_shape isa fields s -> args_exist s o ->
  sparse_shape isa fields (fst (sparse_step cls isa fields own_name minf own s o)).
Proof.
  apply closed_step.
  - apply shape_setitem.
  - intros. now apply shape_child.
  - intros. now apply shape_alloc.
  - intros. now apply shape_del.
  - intros s0 _. apply reset_sparse.
Qed.
Lemma sparse_history_shape own os s : sparse_shape isa fields s ->
  sparse_history cls isa fields own_name minf own s os ->
  sparse_shape isa fields (run_sparse cls isa fields own_name minf own s os).
Proof.
  intros H. apply (closed_history (sparse_shape isa fields)); auto.
  - apply shape_setitem.
  - intros. now apply shape_child.
  - intros. now apply shape_alloc.
  - intros. now apply shape_del.
  - intros s0 _. apply reset_sparse.
Qed.

(* ------------------------------ required fields ------------------------------ *)
Context (Hsub : subclass_required cls isa fields) (Hreq : minf = MinRequired).
Definition full s : Prop :=
  sparse_shape isa fields s /\ class_optional cls (m_h s) /\ required_present cls fields s.
Lemma co_alloc (h : eheap M) c m p : class_optional cls h -> class_optional cls (fst (alloc cls h c m p)).
Proof.
  intros H e. cbn. unfold fset. destruct (Nat.eqb e (e_next h)); [easy|apply H].
Qed.
Lemma keys_put s h k e k' : In k' (keys (m_items s)) -> In k' (keys (m_items (put (with_eheap s h) k e))).
Proof. intros H. cbn. apply (In_keys_aset name_eqb name_eqb_eq). now right. Qed.
Lemma setitem_heap s k a : class_optional cls (m_h s) ->
  class_optional cls (m_h (fst (sparse_setitem cls isa fields s k a)))
  /\ forall k', In k' (keys (m_items s)) -> In k' (keys (m_items (fst (sparse_setitem cls isa fields s k a)))).
Proof.
  intros H. unfold sparse_setitem.
  assert (G : forall e, class_optional cls (m_h (fst (let '(h, r) := set_child cls (m_h s) e a in
               (with_eheap s h, rmap (fun _ : bool => tt) r))))
     /\ forall k', In k' (keys (m_items s)) -> In k' (keys (m_items (fst (let '(h, r) := set_child cls (m_h s) e a in
               (with_eheap s h, rmap (fun _ : bool => tt) r)))))).
  { intros e. destruct (set_child_rest cls (m_h s) e a) as (_ & A & B & _).
    destruct (set_child cls (m_h s) e a). cbn in *. split; [|easy]. intros i. rewrite A, B. apply H. }
  destruct (mget k s) as [e|], (schema_for fields k) as [c|] eqn:Es; try (now split).
  - destruct a as [v|x]; [apply G|]. destruct (isa _ _); [|apply G]. split; [exact H|]. intros k'. apply keys_put.
  - destruct a as [v|x].
    + destruct (c_set _ _ _) as (m, [b|y]); [|now split]. split; [now apply co_alloc|]. intros k'. apply keys_put.
    + destruct (isa _ _); [split; [exact H|]; intros k'; apply keys_put|].
      destruct (c_set_el _ _ _) as (m, [b|y]); [|now split]. split; [now apply co_alloc|]. intros k'. apply keys_put.
Qed.
Lemma co_fresh fs : forall s, class_optional cls (m_h s) -> class_optional cls (m_h (fresh_all cls fs s)).
Proof.
  induction fs as [|f fs IH]; intros s H; [exact H|]. unfold fresh_all. cbn [fold_left]. apply IH.
  now apply (co_alloc (m_h s) (f_class f) (c_new (cls (f_class f))) (Some (m_self s))).
Qed.
Lemma full_parts :
  (forall s k a, full s -> exists_in s a -> full (fst (sparse_setitem cls isa fields s k a)))
  /\ (forall A s e (g : M -> M * res A), full s -> full (with_eheap s (fst (on_child (m_h s) e g))))
  /\ (forall s c m, full s -> full (with_eheap s (fst (alloc cls (m_h s) c m None))))
  /\ (forall s k e, full s -> mget k s = Some e -> (minf = MinRequired -> e_optional (m_h s) e = true) ->
        full (sparse_del s k))
  /\ (forall s, class_optional cls (m_h s) -> full (sparse_reset cls fields minf s)).
Proof.
  split; [|split; [|split; [|split]]].
  - intros s k a (A & B & C) Ha. destruct (setitem_heap s k a B) as (D & E).
    split; [now apply shape_setitem|]. split; [easy|]. intros f If Hf. apply E. now apply C.
  - intros A s e g (H1 & H2 & H3). split; [now apply shape_child|]. split; [|exact H3].
    destruct (on_child_only s e g) as ((_ & _ & _ & _ & K) & _). intros i. destruct (K i) as (_ & k1 & k2 & _).
    rewrite k1, k2. apply H2.
  - intros s c m (H1 & H2 & H3). split; [now apply shape_alloc|]. split; [now apply co_alloc|exact H3].
  - intros s k e (H1 & H2 & H3) He Ho. split; [now apply shape_del|]. split; [exact H2|].
    intros f If Hf. cbn. apply (In_keys_adel name_eqb name_eqb_eq). split; [|now apply H3].
    intros <-. destruct (proj2 H1 _ _ (mget_in _ _ _ He)) as (_ & _ & g & Ig & Eg & Hi).
    rewrite (fields_eq fields g f Huniq Ig If Eg) in Hi. pose proof (Hsub f _ If Hf Hi) as K.
    rewrite <- H2 in K. rewrite Ho in K by easy. easy.
  - intros s H. destruct (reset_sparse s) as (A & B & _). split; [easy|]. split.
    + rewrite sparse_reset_fresh. now apply co_fresh.
    + intros f If Hf. apply mget_keys. apply (B f If). unfold starts, required. now rewrite Hreq, Hf.
Qed.
Lemma sparse_history_full own os s : full s ->
  sparse_history cls isa fields own_name minf own s os ->
  full (run_sparse cls isa fields own_name minf own s os).
Proof.
  destruct full_parts as (A & B & C & D & E). intros H. apply closed_history; auto.
  intros s0 H0. apply E. apply H0.
Qed.
End Sp.
