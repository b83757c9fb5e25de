(* Proofs about Dict.set and Mapping.set. *)
From Verif Require Import PyBase PyBaseFacts ModelUtil ModelSeq ModelMap SpecMap ProofMap.

Section S.
Context {V M : Type} (cls : nat -> ecls V M) (isa : nat -> nat -> bool) (fields : list field)
        (own_name : name) (minf : minimum).
Notation st := (mapst M).
Implicit Types (s : st) (k : name) (e : nat) (f : field).
Context (Huniq : NoDup (map f_name fields)) (Hrefl : isa_refl isa).

(* members are fresh since h0, distinct, of their field's exact class *)
Record good (h0 : eheap M) (self : nat) (s : st) : Prop := Good {
  g_self : m_self s = self;
  g_heap : untouched h0 (m_h s);
  g_lt : forall k e, mget k s = Some e -> e_next h0 <= e < e_next (m_h s);
  g_inj : forall k k' e, mget k s = Some e -> mget k' s = Some e -> k = k';
  g_cls : forall k e, mget k s = Some e -> schema_for fields k = Some (e_class (m_h s) e);
  g_par : forall k e, mget k s = Some e -> e_parent (m_h s) e = Some self;
  g_opt : forall k e, mget k s = Some e -> e_optional (m_h s) e = c_optional (cls (e_class (m_h s) e));
  g_keys : NoDup (keys (m_items s)) }.

Definition starts (fl : flavour) (f : field) : bool :=
  match fl with IsDict => true | IsSparse => required cls minf f end.
Definition complete (fl : flavour) s : Prop :=
  forall f, In f fields -> starts fl f = true -> mget (f_name f) s <> None.
Definition within (fl : flavour) s : Prop :=
  match fl with IsDict => NoDup (keys (m_items s)) /\ forall k, mget k s <> None -> In k (map f_name fields)
           | IsSparse => True end.

Lemma content_mget s k : content s k = option_map (e_con (m_h s)) (mget k s).
Proof. reflexivity. Qed.

(* ------------------------------ set on a member ------------------------------ *)
Lemma set_child_next (h : eheap M) e a : e_next (fst (set_child cls h e a)) = e_next h.
Proof. unfold set_child, on_child. destruct a; [now destruct (c_set _ _ _) | now destruct (c_set_el _ _ _)]. Qed.
Lemma set_child_rest (h : eheap M) e a :
  e_parent (fst (set_child cls h e a)) = e_parent h
  /\ e_class (fst (set_child cls h e a)) = e_class h
  /\ e_optional (fst (set_child cls h e a)) = e_optional h
  /\ (forall i, i <> e -> e_con (fst (set_child cls h e a)) i = e_con h i).
Proof.
  unfold set_child, on_child. destruct a; [destruct (c_set _ _ _) | destruct (c_set_el _ _ _)];
  cbn; repeat split; auto; intros i Hi; now rewrite fset_neq.
Qed.
Lemma set_child_val (h : eheap M) e v :
  set_child cls h e (AVal v)
  = (EHeap (e_next h) (e_parent h) (e_class h) (e_optional h)
           (fset (e_con h) e (fst (c_set (cls (e_class h e)) (e_con h e) v))),
     snd (c_set (cls (e_class h e)) (e_con h e) v)).
Proof. unfold set_child, on_child. now destruct (c_set _ _ _). Qed.

(* the element that changed is newer than h0 *)
Lemma good_set_child h0 self s k e v : good h0 self s -> mget k s = Some e ->
  good h0 self (with_eheap s (fst (set_child cls (m_h s) e (AVal v)))).
Proof.
  intros [A B C D E F G K] He. rewrite set_child_val. cbn [fst].
  constructor; cbn [with_eheap m_h m_self m_items mget e_next e_class e_parent e_optional e_con] in *; auto.
  destruct B as (B1 & B2). split; cbn; [easy|]. intros i Hi.
  destruct (B2 i Hi) as (b1 & b2 & b3 & b4). repeat split; auto.
  rewrite fset_neq; [easy|]. pose proof (C k e He). lia.
Qed.
Lemma content_set_child h0 self s k e v k' : good h0 self s -> mget k s = Some e ->
  content (with_eheap s (fst (set_child cls (m_h s) e (AVal v)))) k'
  = if name_eqb k' k
    then Some (fst (c_set (cls (e_class (m_h s) e)) (e_con (m_h s) e) v))
    else content s k'.
Proof.
  intros Gd He. rewrite set_child_val. cbn [fst]. rewrite !content_mget.
  change (mget k' (with_eheap s _)) with (mget k' s). cbn [with_eheap m_h e_con].
  destruct (name_eqb_spec k' k) as [->|N].
  - rewrite He. cbn. now rewrite fset_eq.
  - destruct (mget k' s) as [e'|] eqn:E; [|easy]. cbn. rewrite fset_neq; [easy|].
    intros ->. apply N. now apply (g_inj _ _ _ Gd k' k e).
Qed.

(* ------------------------------ reset ------------------------------ *)
Lemma reset_good fl s : within fl s ->
  good (m_h s) (m_self s) (do_reset cls fields minf fl s)
  /\ complete fl (do_reset cls fields minf fl s)
  /\ contents_after cls fields (starts fl) [] (do_reset cls fields minf fl s).
Proof.
  intros W. set (fs := match fl with IsDict => fields | IsSparse => filter (required cls minf) fields end).
  set (s0 := match fl with IsDict => s | IsSparse => MapSt (m_h s) (m_self s) [] end).
  assert (E : do_reset cls fields minf fl s = fresh_all cls fs s0).
  { destruct fl; cbn [do_reset]; [reflexivity|]. apply sparse_reset_fresh. }
  assert (Hh : m_h s0 = m_h s) by (now destruct fl). assert (Hs : m_self s0 = m_self s) by (now destruct fl).
  rewrite E.
  assert (Nf : NoDup (map f_name fs)).
  { destruct fl; [exact Huniq|]. now apply NoDup_filter_names. }
  assert (Hin : forall f, In f fs <-> In f fields /\ starts fl f = true).
  { intros f. destruct fl; cbn [fs starts]; [tauto|]. apply filter_In. }
  destruct (fresh_all_placed cls fs Nf s0) as [P1 P2 P3 P4 P5].
  assert (Hno : forall k, ~ In k (map f_name fs) -> mget k (fresh_all cls fs s0) = None).
  { intros k Hk. rewrite (P3 k Hk). destruct fl; [|reflexivity].
    destruct (mget k s) eqn:Em; [|easy]. exfalso. apply Hk. apply W. congruence. }
  assert (Hmem : forall k e, mget k (fresh_all cls fs s0) = Some e -> exists f, In f fs /\ f_name f = k).
  { intros k e H. destruct (in_dec name_dec k (map f_name fs)) as [I|I].
    - apply in_map_iff in I. destruct I as (f & ? & ?). now exists f.
    - rewrite (Hno k I) in H. easy. }
  rewrite Hh, Hs in *.
  split; [|split].
  - constructor; try assumption.
    + intros k e H. destruct (Hmem k e H) as (f & If & <-). destruct (P4 f If) as (x & Hx & L & _).
      rewrite Hx in H. now injection H as <-.
    + intros k k' e H H'. destruct (Hmem k e H) as (f & If & <-). destruct (Hmem k' e H') as (f' & If' & <-).
      apply (P5 _ _ e); auto; now apply in_map.
    + intros k e H. destruct (Hmem k e H) as (f & If & <-). destruct (P4 f If) as (x & Hx & L & Hc & _).
      rewrite Hx in H. injection H as <-. rewrite Hc. apply schema_for_field; [easy|]. now apply Hin.
    + intros k e H. destruct (Hmem k e H) as (f & If & <-). destruct (P4 f If) as (x & Hx & L & Hc & _ & Hp & _).
      rewrite Hx in H. now injection H as <-.
    + intros k e H. destruct (Hmem k e H) as (f & If & <-). destruct (P4 f If) as (x & Hx & L & Hc & _ & _ & Ho).
      rewrite Hx in H. injection H as <-. now rewrite Ho, Hc.
    + clear - W Nf. unfold fresh_all. 
      assert (N0 : NoDup (keys (m_items s0))).
      { destruct fl; [apply W|constructor]. }
      revert N0. generalize s0. induction fs as [|f fs' IH]; intros t N0; [easy|]. cbn [fold_left].
      apply IH.
      * now inversion Nf.
      * unfold fresh_member, alloc, put. cbn [m_items]. apply NoDup_keys_aset; [apply name_eqb_eq|easy].
  - intros f If Hst. destruct (P4 f) as (x & Hx & _); [now apply Hin|]. congruence.
  - split.
    + intros f If. rewrite content_mget. cbn [values_for filter map]. destruct (starts fl f) eqn:Es.
      * destruct (P4 f) as (x & Hx & _ & _ & Hc & _); [now apply Hin|]. rewrite Hx. cbn. now rewrite Hc.
      * rewrite Hno; [easy|]. rewrite in_map_iff. intros (g & Eg & Ig). apply Hin in Ig.
        rewrite (fields_eq fields g f Huniq) in Ig by tauto. destruct Ig. congruence.
    + intros k Hk. rewrite content_mget, Hno; [easy|]. intros I. apply Hk.
      apply in_map_iff in I. destruct I as (f & <- & If). apply in_map. now apply Hin.
Qed.

(* ------------------------------ creating an absent member ------------------------------ *)
Lemma sparse_create s k c : mget k s = None -> schema_for fields k = Some c ->
  let '(h, e) := alloc cls (m_h s) c (c_new (cls c)) None in
  sparse_setitem cls isa fields (with_eheap s h) k (AElem e)
  = (put (with_eheap s (adopt h e (m_self s))) k e, Ok tt).
Proof.
  intros H1 H2. unfold alloc. unfold sparse_setitem.
  change (mget k (with_eheap s _)) with (mget k s). rewrite H1, H2.
  cbn [with_eheap m_h e_class]. rewrite fset_eq, Hrefl. reflexivity.
Qed.
Lemma good_create h0 self s k c : good h0 self s -> mget k s = None -> schema_for fields k = Some c ->
  let h := fst (alloc cls (m_h s) c (c_new (cls c)) None) in
  let e := e_next (m_h s) in
  let s1 := put (with_eheap s (adopt h e (m_self s))) k e in
  good h0 self s1 /\ mget k s1 = Some e /\ e_class (m_h s1) e = c /\ e_con (m_h s1) e = c_new (cls c)
  /\ forall k', k' <> k -> mget k' s1 = mget k' s /\ content s1 k' = content s k'.
Proof.
  intros [A B C D E F G K] Hn Hc h e s1.
  assert (Hg : forall k', mget k' s1 = if name_eqb k' k then Some e else mget k' s).
  { intros k'. unfold s1. now rewrite mget_put. }
  assert (Hother : forall k' e', mget k' s = Some e' -> e' <> e).
  { intros k' e' H. specialize (C _ _ H). unfold e. lia. }
  assert (Hk : mget k s1 = Some e) by (rewrite Hg, name_eqb_refl; easy).
  destruct B as (B1 & B2).
  assert (Hold : forall i, i <> e -> e_parent (m_h s1) i = e_parent (m_h s) i
     /\ e_class (m_h s1) i = e_class (m_h s) i /\ e_optional (m_h s1) i = e_optional (m_h s) i
     /\ e_con (m_h s1) i = e_con (m_h s) i).
  { intros i Hi. cbn. fold e. rewrite !fset_neq by easy. auto. }
  assert (Hnew : e_parent (m_h s1) e = Some (m_self s) /\ e_class (m_h s1) e = c
     /\ e_optional (m_h s1) e = c_optional (cls c) /\ e_con (m_h s1) e = c_new (cls c)).
  { cbn. fold e. now rewrite !fset_eq. }
  assert (Hnext : e_next (m_h s1) = S (e_next (m_h s))) by reflexivity.
  split; [|split; [easy|split; [easy|split; [easy|]]]].
  - constructor.
    + exact A.
    + split; [rewrite Hnext; lia|]. intros i Hi. destruct (Hold i) as (a & b & c' & d); [unfold e; lia|].
      rewrite a, b, c', d. now apply B2.
    + intros k' e'. rewrite Hg. destruct (name_eqb k' k).
      * intros [= <-]. rewrite Hnext. unfold e. lia.
      * intros H. specialize (C _ _ H). rewrite Hnext. lia.
    + intros k1 k2 e'. rewrite !Hg. destruct (name_eqb_spec k1 k) as [->|], (name_eqb_spec k2 k) as [->|]; try easy.
      * intros [= <-] H. now apply Hother in H.
      * intros H [= <-]. now apply Hother in H.
      * apply D.
    + intros k' e'. rewrite Hg. destruct (name_eqb_spec k' k) as [->|].
      * intros [= <-]. now rewrite (proj1 (proj2 Hnew)).
      * intros H. destruct (Hold e' (Hother _ _ H)) as (_ & -> & _). now apply E.
    + intros k' e'. rewrite Hg. destruct (name_eqb_spec k' k) as [->|].
      * intros [= <-]. now rewrite (proj1 Hnew), A.
      * intros H. destruct (Hold e' (Hother _ _ H)) as (-> & _). now apply (F k').
    + intros k' e'. rewrite Hg. destruct (name_eqb_spec k' k) as [->|].
      * intros [= <-]. destruct Hnew as (_ & -> & -> & _). easy.
      * intros H. destruct (Hold e' (Hother _ _ H)) as (_ & -> & -> & _). now apply (G k').
    + apply NoDup_keys_aset; [apply name_eqb_eq|easy].
  - intros k' Hk'. rewrite !content_mget, Hg. destruct (name_eqb_spec k' k) as [->|]; [easy|].
    split; [easy|]. destruct (mget k' s) eqn:H; [|easy]. cbn [option_map]. f_equal.
    now destruct (Hold n0 (Hother _ _ H)).
Qed.

(* ------------------------------ the loop of Dict.set ------------------------------ *)
Lemma values_for_app k (l1 l2 : list (name * V)) : values_for k (l1 ++ l2) = values_for k l1 ++ values_for k l2.
Proof. unfold values_for. now rewrite filter_app, map_app. Qed.
Lemma values_for_one k k' (v : V) : values_for k [(k', v)] = if name_eqb k' k then [v] else [].
Proof. unfold values_for. cbn. now destruct (name_eqb k' k). Qed.
Lemma values_for_nil k (l : list (name * V)) : values_for k l = [] <-> ~ In k (map fst l).
Proof.
  induction l as [|(k', v) l IH]; [easy|]. change ((k', v) :: l) with ([(k', v)] ++ l).
  rewrite values_for_app, values_for_one, map_app, in_app_iff. cbn [map fst In].
  destruct (name_eqb_spec k' k) as [->|N].
  - split; [easy|]. tauto.
  - cbn. rewrite IH. tauto.
Qed.
Lemma settled_snoc c m vs v : settled cls c m (vs ++ [v]) = fst (c_set (cls c) (settled cls c m vs) v).
Proof. unfold settled. now rewrite fold_left_app. Qed.

Lemma snoc_split {A} (l : list A) (x : A) d1 y d2 :
  l ++ [x] = d1 ++ y :: d2 -> (d2 = [] /\ l = d1 /\ x = y) \/ exists d2', d2 = d2' ++ [x] /\ l = d1 ++ y :: d2'.
Proof.
  intros H. destruct (exists_last (l := y :: d2)) as (q & z & E); [easy|].
  rewrite E, app_assoc in H. apply app_inj_tail in H. destruct H as (H & <-).
  destruct q as [|q0 q].
  - left. cbn in E. injection E as -> ->. now rewrite app_nil_r in H.
  - right. cbn in E. injection E as -> ->. now exists q.
Qed.
Lemma accepted_snoc pol d f v b : accepted cls fields pol d -> In f fields ->
  answer cls (f_class f) (f_name f) d v = Ok b -> accepted cls fields pol (d ++ [(f_name f, v)]).
Proof.
  intros (A & B) If Ha. split.
  - intros kv. rewrite in_app_iff. intros [H|[<-|[]]]; [now apply A|]. left. now apply (in_map f_name).
  - intros d1 d2 g w E Ig. apply snoc_split in E. destruct E as [(-> & <- & E)|(d2' & -> & ->)].
    + injection E as E <-. rewrite (fields_eq fields g f Huniq) by easy. now exists b.
    + now apply (B d1 d2' g w).
Qed.
Lemma accepted_duck d k v : accepted cls fields Duck d -> ~ In k (map f_name fields) ->
  accepted cls fields Duck (d ++ [(k, v)]).
Proof.
  intros (A & B) Hk. split; [auto|].
  intros d1 d2 g w E Ig. apply snoc_split in E. destruct E as [(-> & <- & E)|(d2' & -> & ->)].
  + injection E as -> <-. exfalso. apply Hk. now apply in_map.
  + now apply (B d1 d2' g w).
Qed.
Lemma converted_snoc d f v : In f fields ->
  (all_converted cls fields (d ++ [(f_name f, v)])
   <-> all_converted cls fields d /\ answer cls (f_class f) (f_name f) d v = Ok true).
Proof.
  intros If. split.
  - intros H. split; [|now apply (H d [])].
    intros d1 d2 g w -> Ig. apply (H d1 (d2 ++ [(f_name f, v)])); [|easy]. now rewrite <- app_assoc.
  - intros (H & Ha) d1 d2 g w E Ig. apply snoc_split in E. destruct E as [(-> & <- & E)|(d2' & -> & ->)].
    + injection E as E <-. now rewrite (fields_eq fields g f Huniq) by easy.
    + now apply (H d1 d2' g w).
Qed.
Lemma converted_unknown d k v : ~ In k (map f_name fields) ->
  (all_converted cls fields (d ++ [(k, v)]) <-> all_converted cls fields d).
Proof.
  intros Hk. split; intros H d1 d2 g w E Ig.
  - subst. apply (H d1 (d2 ++ [(k, v)])); [|easy]. now rewrite <- app_assoc.
  - apply snoc_split in E. destruct E as [(-> & <- & E)|(d2' & -> & ->)].
    + injection E as -> <-. exfalso. apply Hk. now apply in_map.
    + now apply (H d1 d2' g w).
Qed.
Lemma contents_snoc sts d s s' f v :
  contents_after cls fields sts d s -> In f fields ->
  (forall k, k <> f_name f -> content s' k = content s k) ->
  content s' (f_name f)
  = Some (fst (c_set (cls (f_class f))
                     (settled cls (f_class f) (c_new (cls (f_class f))) (values_for (f_name f) d)) v)) ->
  contents_after cls fields sts (d ++ [(f_name f, v)]) s'.
Proof.
  intros (A & B) If Ho Hf. split.
  - intros g Ig. rewrite values_for_app, values_for_one.
    destruct (name_eqb_spec (f_name f) (f_name g)) as [E|N].
    + rewrite (fields_eq fields g f Huniq) by easy. rewrite Hf.
      rewrite <- settled_snoc. destruct (sts f); [easy|].
      destruct (values_for (f_name f) d ++ [v]) eqn:En; [|easy]. now apply app_eq_nil in En.
    + rewrite app_nil_r, Ho by congruence. now apply A.
  - intros k Hk. rewrite Ho; [now apply B|]. intros ->. apply Hk. now apply in_map.
Qed.
Lemma contents_unknown sts d s k v :
  contents_after cls fields sts d s -> ~ In k (map f_name fields) ->
  contents_after cls fields sts (d ++ [(k, v)]) s.
Proof.
  intros (A & B) Hk. split; [|easy]. intros g Ig. rewrite values_for_app, values_for_one.
  destruct (name_eqb_spec k (f_name g)) as [->|N].
  - exfalso. apply Hk. now apply in_map.
  - rewrite app_nil_r. now apply A.
Qed.

Lemma memb_names k l : memb name_eqb k l = true <-> In k l.
Proof. apply memb_In, name_eqb_eq. Qed.

Lemma set_all_spec fl pol last h0 self : forall l pre s seen conv,
  good h0 self s -> complete fl s -> contents_after cls fields (starts fl) pre s ->
  accepted cls fields pol pre ->
  (forall k, In k (map f_name fields) -> (In k seen <-> In k (map fst pre))) ->
  (conv = true <-> all_converted cls fields pre) ->
  let '(s', r) := dict_set_all cls isa fields fl pol s l last seen conv in
  exists d, set_outcome cls fields pol (pre ++ l) last d r
    /\ contents_after cls fields (starts fl) d s' /\ good h0 self s' /\ complete fl s'.
Proof.
  induction l as [|(k, v) l IH]; intros pre s seen conv Gd Cm Ct Ac Sn Cv; cbn [dict_set_all].
  - rewrite app_nil_r. destruct last as [x|].
    { exists pre. split; [now apply so_broken|easy]. }
    assert (Hany : forall b, (pol = Strict -> forall f, In f fields -> In (f_name f) (map fst pre)) -> b = conv ->
              set_outcome cls fields pol pre None pre (Ok b)).
    { intros b Hb ->. now apply so_done. }
    destruct pol; try (exists pre; split; [now apply Hany | easy]).
    destruct (forallb _ _) eqn:E.
    + exists pre. split; [|easy]. apply Hany; [|easy]. intros _ f If.
      rewrite forallb_forall in E. assert (Ik : In (f_name f) (map f_name fields)) by now apply in_map.
      apply (Sn _ Ik). apply memb_names. apply E. now apply field_map_keys.
    + exists pre. split; [|easy].
      assert (Hx : exists k, In k (keys (field_map fields)) /\ memb name_eqb k seen = false).
      { clear - E. induction (keys (field_map fields)) as [|k ks IH]; [easy|]. cbn [forallb] in E.
        destruct (memb name_eqb k seen) eqn:Em.
        - destruct (IH E) as (k' & ? & ?). exists k'. cbn. auto.
        - exists k. cbn. auto. }
      destruct Hx as (k & Ik & Em). apply field_map_keys in Ik. pose proof Ik as Ik'. 
      apply in_map_iff in Ik. destruct Ik as (f & <- & If).
      apply so_missing with f; try easy. rewrite <- (Sn _ Ik'). intros I. apply memb_names in I. congruence.
  - rewrite field_map_get by easy.
    destruct (schema_for fields k) as [c|] eqn:Esc.
    + destruct (schema_for_in fields k c Esc) as (f & If & <- & <-).
      (* the member, existing or new *)
      assert (Hm : exists s1 e,
        (match mget (f_name f) s with
         | Some e => (s, Ok e)
         | None => let '(h, e) := alloc cls (m_h s) (f_class f) (c_new (cls (f_class f))) None in
                   let '(s', r) := do_setitem cls isa fields fl (with_eheap s h) (f_name f) (AElem e) in
                   (s', rmap (fun _ => e) r)
         end) = (s1, Ok e)
        /\ good h0 self s1 /\ complete fl s1 /\ mget (f_name f) s1 = Some e
        /\ e_class (m_h s1) e = f_class f
        /\ e_con (m_h s1) e = settled cls (f_class f) (c_new (cls (f_class f))) (values_for (f_name f) pre)
        /\ forall k', k' <> f_name f -> content s1 k' = content s k').
      { destruct (mget (f_name f) s) as [e|] eqn:Em.
        - exists s, e. do 4 (split; [easy|]).
          assert (Hc : e_class (m_h s) e = f_class f).
          { pose proof (g_cls _ _ _ Gd _ _ Em). rewrite Esc in H. now injection H. }
          split; [easy|]. split; [|easy].
          pose proof (proj1 Ct f If) as H. rewrite content_mget, Em in H. cbn [option_map] in H.
          destruct (starts fl f), (values_for (f_name f) pre); try easy; now injection H.
        - destruct fl.
          { exfalso. now apply (Cm f If). }
          pose proof (sparse_create s _ _ Em Esc) as Hs. unfold alloc in Hs |- *. cbn [do_setitem].
          rewrite Hs. cbn [rmap].
          destruct (good_create h0 self s _ _ Gd Em Esc) as (G1 & G2 & G3 & G4 & G5).
          eexists _, _. split; [reflexivity|]. split; [exact G1|].
          split; [|split; [exact G2|split; [exact G3|split]]].
          + intros g Ig Hst. destruct (name_dec (f_name g) (f_name f)) as [->|N].
            * intros E. pose proof (eq_trans (eq_sym E) G2). easy.
            * intros E. pose proof (eq_trans (eq_sym (proj1 (G5 _ N))) E). now apply (Cm g).
          + refine (eq_trans G4 _). pose proof (proj1 Ct f If) as H. rewrite content_mget, Em in H. cbn [option_map] in H.
            destruct (starts IsSparse f), (values_for (f_name f) pre); try easy.
          + intros k' N. now apply G5. }
      destruct Hm as (s1 & e & -> & G1 & C1 & M1 & L1 & N1 & O1).
      pose proof (good_set_child _ _ _ _ _ v G1 M1) as G2.
      pose proof (fun k' => content_set_child _ _ _ _ _ v k' G1 M1) as Hc2.
      assert (Ha : snd (set_child cls (m_h s1) e (AVal v)) = answer cls (f_class f) (f_name f) pre v).
      { rewrite set_child_val. cbn [snd]. now rewrite L1, N1. }
      assert (Ct2 : contents_after cls fields (starts fl) (pre ++ [(f_name f, v)])
                      (with_eheap s1 (fst (set_child cls (m_h s1) e (AVal v))))).
      { apply contents_snoc with s; auto.
        - intros k' N. rewrite Hc2. destruct (name_eqb_spec k' (f_name f)); [easy|]. now apply O1.
        - now rewrite Hc2, name_eqb_refl, L1, N1. }
      assert (Cm2 : complete fl (with_eheap s1 (fst (set_child cls (m_h s1) e (AVal v))))) by exact C1.
      destruct (set_child cls (m_h s1) e (AVal v)) as (h, r) eqn:Es. cbn [fst snd] in *.
      destruct r as [b|x]; cbn [rmap].
      * specialize (IH (pre ++ [(f_name f, v)]) (with_eheap s1 h) (f_name f :: seen) (conv && b)).
        destruct (dict_set_all cls isa fields fl pol (with_eheap s1 h) l last (f_name f :: seen) (conv && b)) as (s', r').
        rewrite <- app_assoc in IH. cbn [app] in IH. apply IH; auto.
        -- apply accepted_snoc with b; auto.
        -- intros k' Ik'. rewrite map_app, in_app_iff. cbn [map fst In]. rewrite (Sn k' Ik'). intuition.
        -- rewrite converted_snoc by easy. rewrite <- Cv, <- Ha. destruct conv, b; cbn; intuition congruence.
      * exists (pre ++ [(f_name f, v)]). split; [|easy]. now apply so_raised with l.
    + pose proof (proj1 (schema_for_none fields k) Esc) as Hk.
      destruct pol; try (exists pre; split; [|easy]; now apply so_unknown with k v l).
      specialize (IH (pre ++ [(k, v)]) s seen conv).
      destruct (dict_set_all cls isa fields fl Duck s l last seen conv) as (s', r').
      rewrite <- app_assoc in IH. cbn [app] in IH. apply IH; auto.
      * now apply contents_unknown.
      * now apply accepted_duck.
      * intros k' Ik'. rewrite map_app, in_app_iff. cbn [map fst In]. rewrite (Sn k' Ik').
        split; [tauto|]. intros [?|[->|[]]]; tauto.
      * now rewrite converted_unknown.
Qed.

Lemma dict_set_spec fl own s l last given : within fl s -> given <> Some OtherPolicy ->
  let pol := match given with Some p => p | None => own end in
  let '(s', r) := dict_set cls isa fields minf fl own s (Pairs (Iter l last)) given in
  exists d, set_outcome cls fields pol l last d r
    /\ contents_after cls fields (starts fl) d s' /\ good (m_h s) (m_self s) s' /\ complete fl s'.
Proof.
  intros W Hg pol. destruct (reset_good fl s W) as (G & C & Ct).
  assert (K : let '(s', r) := dict_set_all cls isa fields fl pol (do_reset cls fields minf fl s) l last [] true in
    exists d, set_outcome cls fields pol l last d r
    /\ contents_after cls fields (starts fl) d s' /\ good (m_h s) (m_self s) s' /\ complete fl s').
  { apply (set_all_spec fl pol last (m_h s) (m_self s) l [] _ [] true); auto.
    - split; [easy|]. intros d1 d2 f v E. now destruct d1.
    - easy.
    - split; [|easy]. intros _ d1 d2 f v E. now destruct d1. }
  unfold dict_set. cbn [it_items it_end].
  destruct given as [[]|]; try exact K. congruence.
Qed.
End S.
