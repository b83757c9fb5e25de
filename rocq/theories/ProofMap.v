(* Proofs about mappings: resetting, shape, histories. *)
From Verif Require Import PyBase PyBaseFacts ModelUtil ModelSeq ModelMap SpecMap.

Lemma name_dec (a b : name) : {a = b} + {a <> b}.
Proof. destruct (name_eqb_spec a b); [now left | now right]. Qed.
Lemma fset_eq {A} (f : nat -> A) k v : fset f k v k = v.
Proof. unfold fset. now rewrite Nat.eqb_refl. Qed.
Lemma fset_neq {A} (f : nat -> A) k v i : i <> k -> fset f k v i = f i.
Proof. unfold fset. destruct (Nat.eqb_spec i k); congruence. Qed.

Lemma untouched_refl {M} (h : eheap M) : untouched h h.
Proof. split; [lia|]. repeat split; auto. Qed.
Lemma untouched_trans {M} (h1 h2 h3 : eheap M) : untouched h1 h2 -> untouched h2 h3 -> untouched h1 h3.
Proof.
  intros (L1 & A) (L2 & B). split; [lia|]. intros e He.
  destruct (A e He) as (a & b & c & d). destruct (B e ltac:(lia)) as (a' & b' & c' & d').
  repeat split; congruence.
Qed.

Section S.
Context {V M : Type} (cls : nat -> ecls V M) (fields : list field) (minf : minimum).
Notation st := (mapst M).
Implicit Types (s : st) (k : name) (e : nat) (f : field).

Lemma mget_put s k k' e : mget k (put s k' e) = if name_eqb k k' then Some e else mget k s.
Proof.
  unfold mget, put. cbn [m_items].
  destruct (name_eqb_spec k k') as [->|N].
  - now apply aget_aset_eq; intros; apply name_eqb_eq.
  - now apply aget_aset_neq; [intros; apply name_eqb_eq|].
Qed.
Lemma mget_keys s k : mget k s <> None <-> In k (keys (m_items s)).
Proof.
  unfold mget. rewrite <- (aget_Some_keys name_eqb name_eqb_eq).
  destruct (aget name_eqb k (m_items s)); split; try easy.
  - intros _. now eexists.
  - now intros (? & H).
Qed.
Lemma mget_in s k e : mget k s = Some e -> In (k, e) (m_items s).
Proof. apply aget_In. apply name_eqb_eq. Qed.
Lemma in_mget s k e : NoDup (keys (m_items s)) -> In (k, e) (m_items s) -> mget k s = Some e.
Proof.
  unfold mget. generalize (m_items s). induction l as [|(k', e') l IH]; [easy|].
  cbn [keys map fst aget]. intros N [E|E]; inversion N; subst.
  - inversion E; subst. now rewrite name_eqb_refl.
  - destruct (name_eqb_spec k k') as [->|_]; [|auto].
    exfalso. apply H1. now apply (in_map fst) in E.
Qed.
Lemma mhas_spec s k : mhas k s = true <-> In k (keys (m_items s)).
Proof.
  rewrite <- mget_keys. unfold mhas, ahas, mget. now destruct (aget name_eqb k (m_items s)).
Qed.
Lemma mhas_mget s k : mhas k s = match mget k s with Some _ => true | None => false end.
Proof. reflexivity. Qed.

(* ------------------------------ placing blank members ------------------------------ *)
Definition fresh_all (fs : list field) (s : st) : st := fold_left (fresh_member cls) fs s.

Record placed (fs : list field) (s s' : st) : Prop := Placed {
  pl_self : m_self s' = m_self s;
  pl_heap : untouched (m_h s) (m_h s');
  pl_other : forall k, ~ In k (map f_name fs) -> mget k s' = mget k s;
  pl_field : forall f, In f fs -> exists e, mget (f_name f) s' = Some e
     /\ e_next (m_h s) <= e < e_next (m_h s')
     /\ e_class (m_h s') e = f_class f /\ e_con (m_h s') e = c_new (cls (f_class f))
     /\ e_parent (m_h s') e = Some (m_self s) /\ e_optional (m_h s') e = c_optional (cls (f_class f));
  pl_inj : forall k k' e, In k (map f_name fs) -> In k' (map f_name fs) ->
     mget k s' = Some e -> mget k' s' = Some e -> k = k' }.

Lemma fresh_heap s f : m_h (fresh_member cls s f)
  = EHeap (S (e_next (m_h s))) (fset (e_parent (m_h s)) (e_next (m_h s)) (Some (m_self s)))
          (fset (e_class (m_h s)) (e_next (m_h s)) (f_class f))
          (fset (e_optional (m_h s)) (e_next (m_h s)) (c_optional (cls (f_class f))))
          (fset (e_con (m_h s)) (e_next (m_h s)) (c_new (cls (f_class f)))).
Proof. reflexivity. Qed.
Lemma fresh_mget s f k : mget k (fresh_member cls s f)
  = if name_eqb k (f_name f) then Some (e_next (m_h s)) else mget k s.
Proof. unfold fresh_member, alloc. now rewrite mget_put. Qed.
Lemma alloc_untouched (h : eheap M) c m p : untouched h (fst (alloc cls h c m p)).
Proof.
  split; cbn; [lia|]. intros e He. rewrite !fset_neq by lia. auto.
Qed.
Lemma fresh_untouched s f : untouched (m_h s) (m_h (fresh_member cls s f)).
Proof. apply (alloc_untouched (m_h s) (f_class f) (c_new (cls (f_class f))) (Some (m_self s))). Qed.

Lemma fresh_all_placed fs : NoDup (map f_name fs) -> forall s, placed fs s (fresh_all fs s).
Proof.
  induction fs as [|f fs IH]; intros N s.
  - constructor; cbn; try easy; apply untouched_refl.
  - cbn [map] in N. inversion N as [|? ? Nf N']; subst. unfold fresh_all. cbn [fold_left].
    fold (fresh_all fs (fresh_member cls s f)). destruct (IH N' (fresh_member cls s f)) as [A B C D E].
    set (s' := fresh_all fs (fresh_member cls s f)) in *.
    assert (Hf : mget (f_name f) s' = Some (e_next (m_h s))).
    { rewrite (C _ Nf), fresh_mget, name_eqb_refl. reflexivity. }
    pose proof (fresh_untouched s f) as U. pose proof (untouched_trans _ _ _ U B) as U'.
    assert (L : e_next (m_h (fresh_member cls s f)) = S (e_next (m_h s))) by reflexivity.
    constructor.
    + now rewrite A.
    + easy.
    + cbn [map In]. intros k Hk. rewrite C by tauto. rewrite fresh_mget.
      destruct (name_eqb_spec k (f_name f)) as [->|_]; [tauto|easy].
    + intros g [<-|Hg].
      * exists (e_next (m_h s)). split; [easy|].
        destruct B as (B1 & B2). destruct (B2 (e_next (m_h s)) ltac:(lia)) as (b1 & b2 & b3 & b4).
        rewrite b1, b2, b3, b4, fresh_heap. cbn. rewrite !fset_eq. repeat split; auto; lia.
      * destruct (D g Hg) as (e & He & Le & Hr). exists e. split; [easy|]. split; [lia|easy].
    + cbn [map In]. intros k k' e [<-|Hk] [<-|Hk'] H1 H2; try easy.
      * exfalso. apply in_map_iff in Hk'. destruct Hk' as (g & <- & Hg). destruct (D g Hg) as (x & Hx & Lx & _). 
        rewrite Hx in H2. injection H2 as ->. rewrite Hf in H1. injection H1 as <-. lia.
      * exfalso. apply in_map_iff in Hk. destruct Hk as (g & <- & Hg). destruct (D g Hg) as (x & Hx & Lx & _). 
        rewrite Hx in H1. injection H1 as ->. rewrite Hf in H2. injection H2 as <-. lia.
      * now apply (E k k' e).
Qed.
Lemma fresh_all_keys fs : NoDup (map f_name fs) -> forall s,
  (forall f, In f fs -> ~ In (f_name f) (keys (m_items s))) ->
  keys (m_items (fresh_all fs s)) = keys (m_items s) ++ map f_name fs.
Proof.
  induction fs as [|f fs IH]; intros N s H; cbn [fresh_all fold_left map].
  - now rewrite app_nil_r.
  - cbn [map] in N. inversion N as [|? ? Nf N']; subst. unfold fresh_all. cbn [fold_left].
    fold (fresh_all fs (fresh_member cls s f)). 
    assert (K : keys (m_items (fresh_member cls s f)) = keys (m_items s) ++ [f_name f]).
    { unfold fresh_member, alloc, put, with_eheap. cbn [m_items]. apply keys_aset_notin.
      - apply name_eqb_eq.
      - apply H. now left. }
    rewrite IH, K, <- app_assoc; try easy.
    intros g Hg. rewrite K, in_app_iff. cbn. intros [I|[I|[]]].
    + revert I. apply H. now right.
    + apply Nf. rewrite I. now apply in_map.
Qed.
Lemma fresh_all_keys_in fs : forall s,
  (forall f, In f fs -> In (f_name f) (keys (m_items s))) ->
  keys (m_items (fresh_all fs s)) = keys (m_items s).
Proof.
  induction fs as [|f fs IH]; intros s H; [easy|]. unfold fresh_all. cbn [fold_left].
  fold (fresh_all fs (fresh_member cls s f)).
  assert (K : keys (m_items (fresh_member cls s f)) = keys (m_items s)).
  { unfold fresh_member, alloc, put, with_eheap. cbn [m_items]. apply keys_aset_in.
    - apply name_eqb_eq.
    - apply H. now left. }
  rewrite IH, K; try easy. intros g Hg. rewrite K. apply H. now right.
Qed.
Lemma sparse_reset_fresh s :
  sparse_reset cls fields minf s = fresh_all (filter (required cls minf) fields) (MapSt (m_h s) (m_self s) []).
Proof.
  unfold sparse_reset, fresh_all. generalize (MapSt (m_h s) (m_self s) []).
  induction fields as [|f fs IH]; intros t; [easy|]. cbn [fold_left filter].
  destruct (required cls minf f); cbn [fold_left]; apply IH.
Qed.
Lemma NoDup_filter_names (p : field -> bool) fs : NoDup (map f_name fs) -> NoDup (map f_name (filter p fs)).
Proof.
  induction fs as [|f fs IH]; cbn [map filter]; intros N; [constructor|].
  inversion N; subst. destruct (p f); [|auto]. cbn [map]. constructor; [|auto].
  rewrite in_map_iff. intros (g & E & Hg). apply filter_In in Hg. apply H1. rewrite <- E. apply in_map. tauto.
Qed.
Lemma fields_eq f g : NoDup (map f_name fields) -> In f fields -> In g fields -> f_name f = f_name g -> f = g.
Proof.
  induction fields as [|a fs IH]; [easy|]. cbn [map]. intros N [<-|Hf] [<-|Hg] E; try easy; inversion N; subst.
  - exfalso. apply H1. rewrite E. now apply in_map.
  - exfalso. apply H1. rewrite <- E. now apply in_map.
  - auto.
Qed.
Lemma schema_for_in k c : schema_for fields k = Some c -> exists f, In f fields /\ f_name f = k /\ f_class f = c.
Proof.
  unfold schema_for. induction fields as [|a fs IH]; [easy|]. cbn [first_field].
  destruct (name_eqb_spec (f_name a) k) as [E|_].
  - intros [= <-]. exists a. cbn. auto.
  - intros H. destruct (IH H) as (f & ? & ?). exists f. cbn. auto.
Qed.
Lemma schema_for_none k : schema_for fields k = None <-> ~ In k (map f_name fields).
Proof.
  unfold schema_for. induction fields as [|a fs IH]; [easy|]. cbn [first_field map In].
  destruct (name_eqb_spec (f_name a) k) as [E|E]; [|rewrite IH]; intuition congruence.
Qed.
Lemma schema_for_field f : NoDup (map f_name fields) -> In f fields -> schema_for fields (f_name f) = Some (f_class f).
Proof.
  intros N H. destruct (schema_for fields (f_name f)) eqn:E.
  - destruct (schema_for_in _ _ E) as (g & Hg & E1 & <-). now rewrite (fields_eq g f N Hg H E1).
  - apply schema_for_none in E. exfalso. apply E. now apply in_map.
Qed.
Lemma field_map_get : NoDup (map f_name fields) -> forall k, aget name_eqb k (field_map fields) = schema_for fields k.
Proof.
  unfold field_map, schema_for. 
  assert (G : forall fs m, NoDup (map f_name fs) -> forall k,
    aget name_eqb k (fold_left (fun m f => aset name_eqb (f_name f) (f_class f) m) fs m)
    = match first_field k fs with Some c => Some c | None => aget name_eqb k m end).
  { clear. induction fs as [|a fs IH]; intros m N k; [easy|]. cbn [fold_left first_field map] in *.
    inversion N; subst. rewrite IH by easy.
    destruct (name_eqb_spec (f_name a) k) as [<-|E].
    - rewrite (aget_aset_eq name_eqb name_eqb_eq).
      replace (first_field (f_name a) fs) with (@None nat); [easy|].
      symmetry. clear - H1. induction fs as [|b fs IH]; [easy|]. cbn [first_field map In] in *.
      destruct (name_eqb_spec (f_name b) (f_name a)); [tauto|]. apply IH. tauto.
    - rewrite (aget_aset_neq name_eqb name_eqb_eq) by congruence. easy. }
  intros N k. rewrite G by easy. now destruct (first_field k fields).
Qed.
Lemma field_map_keys k : In k (keys (field_map fields)) <-> In k (map f_name fields).
Proof.
  unfold field_map.
  assert (G : forall fs m, In k (keys (fold_left (fun m f => aset name_eqb (f_name f) (f_class f) m) fs m))
              <-> In k (keys m) \/ In k (map f_name fs)).
  { induction fs as [|a fs IH]; intros m; cbn [fold_left map In]; [tauto|].
    rewrite IH, (In_keys_aset name_eqb name_eqb_eq). intuition. }
  rewrite G. cbn. tauto.
Qed.
End S.
