(* SparseDict calls one by one; SparseDict defaults; Dict.of. *)
From Verif Require Import PyBase PyBaseFacts ModelUtil ModelScalar ModelSeq ModelMap SpecMap
  ProofMap ProofMap2 ProofMap3 ProofMap4 ProofMap5 ProofMap6 ProofMap7.

Section Sparse.
Context {V M : Type} (cls : nat -> ecls V M) (isa : nat -> nat -> bool) (fields : list field)
        (minf : minimum).
Notation st := (mapst M).
Implicit Types (s : st) (k : name) (e : nat) (f : field).

Lemma put_stored s k e : stored s (put (with_eheap s (adopt (m_h s) e (m_self s))) k e) k e.
Proof.
  repeat (split; [easy|]). split; [intros k'; apply (mget_put (with_eheap s (adopt (m_h s) e (m_self s))))|].
  split; [apply fset_eq|]. intros i. repeat (split; [easy|]). apply fset_neq.
Qed.
Lemma alloc_created s k c m :
  created cls s (put (with_eheap s (fst (alloc cls (m_h s) c m (Some (m_self s))))) k (e_next (m_h s))) k c m.
Proof.
  split; [easy|]. split; [apply alloc_untouched|]. exists (e_next (m_h s)). split; [cbn; lia|].
  split; [intros k'; apply (mget_put (with_eheap s (fst (alloc cls (m_h s) c m (Some (m_self s))))))|].
  cbn. now rewrite !fset_eq.
Qed.
Lemma sparse_assign s k (a : arg V) :
  NoDup (map f_name fields) -> sparse_shape isa fields s ->
  let '(s', r) := sparse_setitem cls isa fields s k a in
  (~ In k (map f_name fields) -> s' = s /\ r = Err TypeErr)
  /\ forall f, In f fields -> f_name f = k ->
     (forall e, a = AElem e -> isa (e_class (m_h s) e) (f_class f) = true -> stored s s' k e /\ r = Ok tt)
     /\ ((forall e, a = AElem e -> isa (e_class (m_h s) e) (f_class f) = false) ->
         (forall e, In (k, e) (m_items s) ->
            let m := assigned cls (m_h s) (e_class (m_h s) e) (e_con (m_h s) e) a in
            only_content s s' e (fst m) /\ r = rmap (fun _ => tt) (snd m))
         /\ (~ In k (keys (m_items s)) ->
            let m := assigned cls (m_h s) (f_class f) (c_new (cls (f_class f))) a in
            match snd m with
            | Ok _ => r = Ok tt /\ created cls s s' k (f_class f) (fst m)
            | Err x => r = Err x /\ s' = s
            end)).
Proof.
  intros U H. destruct (sparse_setitem cls isa fields s k a) as (s', r) eqn:E. unfold sparse_setitem in E.
  split.
  - intros Nk. rewrite (proj2 (schema_for_none fields k) Nk) in E.
    destruct (mget k s); now inversion E; subst.
  - intros f If <-. rewrite (schema_for_field fields f U If) in E. split.
    + intros e -> I. rewrite I in E. destruct (mget (f_name f) s); inversion E; subst; split; try easy; apply put_stored.
    + intros Ni. split.
      * intros e Ie. apply in_mget in Ie; [|apply H]. rewrite Ie in E.
        pose proof (set_child_only cls s e a) as (K1 & K2).
        assert (E' : (let '(h, r0) := set_child cls (m_h s) e a in (with_eheap s h, rmap (fun _ : bool => tt) r0)) = (s', r)).
        { destruct a as [v|x]; [exact E|]. rewrite (Ni x eq_refl) in E. exact E. }
        destruct (set_child cls (m_h s) e a) as (h, r0). cbn [fst snd] in K1, K2. inversion E'; subst. split; [exact K1|easy].
      * intros Nk. assert (G : mget (f_name f) s = None).
        { destruct (mget (f_name f) s) eqn:G; [|easy]. exfalso. apply Nk, mget_keys. congruence. }
        rewrite G in E. clear G. cbn zeta.
        assert (E' : (let '(m, r0) := assigned cls (m_h s) (f_class f) (c_new (cls (f_class f))) a in
                      match r0 with
                      | Err x => (s, Err x)
                      | Ok _ => let '(h, e) := alloc cls (m_h s) (f_class f) m (Some (m_self s)) in
                                (put (with_eheap s h) (f_name f) e, Ok tt)
                      end) = (s', r)).
        { destruct a as [v|x]; [exact E|]. rewrite (Ni x eq_refl) in E. exact E. }
        destruct (assigned cls (m_h s) (f_class f) (c_new (cls (f_class f))) a) as (m, [b|x]); cbn [fst snd];
          inversion E'; subst; split; try easy. apply alloc_created.
Qed.
Lemma del_removed s k : NoDup (keys (m_items s)) -> removed s (sparse_del s k) k.
Proof.
  intros N. split; [easy|]. split; [easy|]. intros k'. cbn [sparse_del m_items].
  destruct (name_eqb_spec k' k) as [->|E]; [now apply aget_adel_eq|]. now apply (aget_adel_neq name_eqb name_eqb_eq).
Qed.
Lemma may_spec s k : sparse_shape isa fields s -> sparse_may fields s k = true <-> In k (map f_name fields).
Proof.
  intros H. unfold sparse_may. rewrite mhas_mget. split.
  - destruct (mget k s) as [e|] eqn:E.
    + intros _. apply mget_in in E. destruct (proj2 H k e E) as (_ & _ & f & If & <- & _). now apply in_map.
    + cbn [orb]. destruct (schema_for fields k) as [c|] eqn:F; [|easy]. intros _.
      apply schema_for_in in F. destruct F as (f & If & <- & _). now apply in_map.
  - intros I. destruct (schema_for fields k) as [c|] eqn:F; [apply Bool.orb_true_r|].
    apply schema_for_none in F. easy.
Qed.
Lemma in_keys_ex s k : In k (keys (m_items s)) -> exists e, In (k, e) (m_items s).
Proof. intros I. apply in_map_iff in I. destruct I as ((k', e) & <- & I). now exists e. Qed.
Lemma sparse_delete s k : NoDup (map f_name fields) -> sparse_shape isa fields s ->
  let '(s', r) := sparse_delitem cls fields minf s k in
  (forall e, In (k, e) (m_items s) ->
     if (match minf with MinNone => true | _ => e_optional (m_h s) e end)
     then removed s s' k /\ r = Ok tt else s' = s /\ r = Err TypeErr)
  /\ (forall f, In f fields -> f_name f = k -> ~ In k (keys (m_items s)) ->
       s' = s /\ r = Err (if (match minf with MinNone => true | _ => c_optional (cls (f_class f)) end)
                          then KeyErr else TypeErr))
  /\ (~ In k (map f_name fields) -> s' = s /\ r = Err TypeErr).
Proof.
  intros U H. pose proof (may_spec s k H) as Hm. destruct (sparse_delitem cls fields minf s k) as (s', r) eqn:E.
  unfold sparse_delitem in E. rewrite mhas_mget in E. repeat split.
  - intros e I. pose proof (in_mget s k e (proj1 H) I) as G. rewrite G in E.
    assert (R := del_removed s k (proj1 H)).
    destruct minf; [now inversion E; subst|destruct (e_optional (m_h s) e); now inversion E; subst..].
  - destruct (mget k s) eqn:G; [exfalso; apply H2, mget_keys; congruence|].
    rewrite <- H1, (schema_for_field fields f U H0) in E. rewrite H1 in E.
    rewrite (proj2 Hm) in E by (rewrite <- H1; now apply in_map).
    destruct minf; [now inversion E; subst|destruct (c_optional (cls (f_class f))); now inversion E; subst..].
  - destruct (mget k s) eqn:G; [exfalso; apply H2, mget_keys; congruence|].
    rewrite <- H1, (schema_for_field fields f U H0) in E. rewrite H1 in E.
    rewrite (proj2 Hm) in E by (rewrite <- H1; now apply in_map).
    destruct minf; [now inversion E; subst|destruct (c_optional (cls (f_class f))); now inversion E; subst..].
  - assert (G : mget k s = None).
    { destruct (mget k s) eqn:G; [|easy]. exfalso. apply H0, Hm. unfold sparse_may. now rewrite mhas_mget, G. }
    rewrite G, (proj2 (schema_for_none fields k) H0) in E.
    destruct (sparse_may fields s k); [now destruct H0; apply Hm|]. destruct minf; now inversion E.
  - assert (G : mget k s = None).
    { destruct (mget k s) eqn:G; [|easy]. exfalso. apply H0, Hm. unfold sparse_may. now rewrite mhas_mget, G. }
    rewrite G, (proj2 (schema_for_none fields k) H0) in E.
    destruct (sparse_may fields s k); [now destruct H0; apply Hm|]. destruct minf; now inversion E.
Qed.
Lemma sparse_popped s k : sparse_shape isa fields s ->
  let '(s', r) := sparse_pop minf s k in
  (forall e, In (k, e) (m_items s) ->
     if (match minf with MinRequired => e_optional (m_h s) e | _ => true end)
     then removed s s' k /\ r = Ok e else s' = s /\ r = Err TypeErr)
  /\ (~ In k (keys (m_items s)) -> s' = s /\ r = Err KeyErr).
Proof.
  intros H. destruct (sparse_pop minf s k) as (s', r) eqn:E. unfold sparse_pop in E. split.
  - intros e I. rewrite (in_mget s k e (proj1 H) I) in E. assert (R := del_removed s k (proj1 H)).
    destruct minf; [now inversion E; subst|destruct (e_optional (m_h s) e)|]; now inversion E; subst.
  - intros Nk. destruct (mget k s) eqn:G; [exfalso; apply Nk, mget_keys; congruence|]. now inversion E.
Qed.
Lemma setdefault_spec s k (d : V) : NoDup (map f_name fields) -> isa_refl isa -> sparse_shape isa fields s ->
  let '(s', r) := sparse_setdefault cls isa fields s k d in
  (~ In k (map f_name fields) -> s' = s /\ r = Err TypeErr)
  /\ (forall e, In (k, e) (m_items s) ->
       let c := cls (e_class (m_h s) e) in
       if c_empty c (e_con (m_h s) e)
       then only_content s s' e (fst (c_set c (e_con (m_h s) e) d))
            /\ r = rmap (fun _ => d) (snd (c_set c (e_con (m_h s) e) d))
       else s' = s /\ r = Ok (c_value c (e_con (m_h s) e)))
  /\ (forall f, In f fields -> f_name f = k -> ~ In k (keys (m_items s)) ->
       let c := cls (f_class f) in
       created cls s s' k (f_class f) (fst (c_set c (c_new c) d))
       /\ r = rmap (fun _ => d) (snd (c_set c (c_new c) d))).
Proof.
  intros U R H. pose proof (may_spec s k H) as Hm.
  destruct (sparse_setdefault cls isa fields s k d) as (s', r) eqn:E. unfold sparse_setdefault in E. split; [|split].
  - intros N. destruct (sparse_may fields s k); [now destruct N; apply Hm|]. now inversion E.
  - intros e I. pose proof (in_mget s k e (proj1 H) I) as G.
    rewrite (proj2 Hm) in E.
    2:{ destruct (proj2 H k e I) as (_ & _ & f & If & <- & _). now apply in_map. }
    cbn [negb] in E. rewrite G in E. cbn zeta. destruct (c_empty _ _); [|now inversion E].
    pose proof (set_child_only cls s e (AVal d)) as (K1 & K2).
    destruct (set_child cls (m_h s) e (AVal d)) as (h, r0). cbn [fst snd] in *. inversion E; subst. easy.
  - intros f If <- Nk. rewrite (proj2 Hm) in E by now apply in_map. cbn [negb] in E.
    destruct (mget (f_name f) s) eqn:G; [exfalso; apply Nk, mget_keys; congruence|].
    pose proof (schema_for_field fields f U If) as F.
    rewrite (field_map_get fields U), F in E.
    pose proof (sparse_create cls isa fields R s (f_name f) (f_class f) G F) as C.
    cbn zeta. cbn [alloc] in E, C. rewrite C in E. 
    set (c := cls (f_class f)) in *.
    match type of E with (let '(h, r) := set_child cls (m_h ?s1) ?e _ in _) = _ =>
      set (s1' := s1) in E; pose proof (set_child_only cls s1' e (AVal d)) as (K1 & K2);
      assert (Hc : e_class (m_h s1') e = f_class f) by apply fset_eq;
      assert (Hv : e_con (m_h s1') e = c_new c) by apply fset_eq;
      assert (Hcr : created cls s s1' (f_name f) (f_class f) (c_new c))
    end.
    { split; [easy|]. split.
      { split; [cbn; lia|]. intros i Hi. cbn. rewrite !fset_neq by lia. easy. }
      exists (e_next (m_h s)). split; [cbn; lia|]. split; [intros k'; apply mget_put|]. cbn. now rewrite !fset_eq. }
    destruct (set_child cls (m_h s1') (e_next (m_h s)) (AVal d)) as (h, r0). cbn [fst snd] in *. inversion E; subst s' r.
    cbn [assigned] in K1, K2. rewrite Hc, Hv in K1, K2. fold c in K1, K2. rewrite K2. split; [|easy].
    destruct K1 as (I1 & I2 & I3 & I4 & I5). destruct Hcr as (C1 & C2 & e & C3 & C4 & C5 & C6 & C7 & C8).
    assert (Ee : e = e_next (m_h s)).
    { specialize (C4 (f_name f)). rewrite name_eqb_refl in C4. unfold s1' in C4. 
      change (mget (f_name f) (put (with_eheap s (adopt (fst (alloc cls (m_h s) (f_class f) (c_new c) None)) (e_next (m_h s)) (m_self s))) (f_name f) (e_next (m_h s))) = Some e) in C4.
      rewrite mget_put, name_eqb_refl in C4. now inversion C4. }
    subst e. split; [easy|]. split.
    { split; [rewrite I3; apply C2|]. intros i Hi. destruct (I5 i) as (J1 & J2 & J3 & J4). rewrite J1, J2, J3, J4 by lia.
      now apply C2. }
    exists (e_next (m_h s)). rewrite I3. split; [easy|]. split; [exact C4|].
    destruct (I5 (e_next (m_h s))) as (J1 & J2 & J3 & _). now rewrite J1, J2, J3, I4.
Qed.

(* ------------------------------ clear and defaults ------------------------------ *)
Lemma sparse_cleared s : NoDup (map f_name fields) ->
  let s' := sparse_reset cls fields minf s in
  (forall f, In f fields -> content s' (f_name f) = if required cls minf f then Some (c_new (cls (f_class f))) else None)
  /\ (forall k, ~ In k (map f_name fields) -> content s' k = None)
  /\ untouched (m_h s) (m_h s') /\ (forall ke, In ke (m_items s') -> e_next (m_h s) <= snd ke).
Proof.
  intros U. destruct (reset_good cls fields minf U IsSparse s I) as (G & _ & C). cbn [do_reset] in G, C.
  destruct C as (C1 & C2). split; [|split; [|split]].
  - intros f If. rewrite (C1 f If). cbn [starts values_for filter map settled fold_left]. now destruct (required cls minf f).
  - exact C2.
  - apply G.
  - intros (k, e) I. cbn [snd]. apply in_mget in I; [|apply G]. now apply (g_lt _ _ _ _ _ G) in I.
Qed.
Lemma put_adopt_content s h k c m (h' := fst (alloc cls (m_h s) c m None)) (e := e_next (m_h s)) :
  h = adopt h' e (m_self s) ->
  (forall k0 e0, mget k0 s = Some e0 -> e0 < e_next (m_h s)) ->
  forall k', content (put (with_eheap s h) k e) k' = if name_eqb k' k then Some m else content s k'.
Proof.
  intros -> L k'. rewrite !content_mget, mget_put. destruct (name_eqb k' k).
  - cbn. now rewrite fset_eq.
  - change (mget k' (with_eheap s (adopt h' e (m_self s)))) with (mget k' s).
    destruct (mget k' s) eqn:E; [|easy]. cbn. rewrite fset_neq; [easy|]. apply L in E. unfold e. lia.
Qed.
Lemma defaults_spec : forall fs s, NoDup (map f_name fields) -> isa_refl isa -> sparse_shape isa fields s ->
  NoDup (map f_name fs) -> (forall f, In f fs -> In f fields) ->
  let '(s', r) := sparse_defaults cls isa fields s fs in
  (forall k, ~ In k (map f_name fs) -> content s' k = content s k)
  /\ defaulted cls fs (fun f => negb (c_optional (cls (f_class f)))) (content s) (content s')
               (fun f => c_new (cls (f_class f))) r.
Proof.
  intros fs s U R. revert s. induction fs as [|f fs IH]; intros s H Nf Sub; [easy|].
  cbn [map] in Nf. inversion Nf as [|? ? Nf1 Nf2]; subst. cbn [sparse_defaults].
  assert (Sub' : forall f0, In f0 fs -> In f0 fields) by (intros; apply Sub; now right).
  destruct (c_optional (cls (f_class f))) eqn:O.
  - specialize (IH s H Nf2 Sub'). destruct (sparse_defaults cls isa fields s fs) as (s', r). destruct IH as (A & B). split.
    + intros k Nk. apply A. intros I. apply Nk. now right.
    + unfold defaulted in *. destruct r as [u|x].
      * intros g [<-|I]; [|now apply B]. cbn. rewrite O. cbn. now apply A.
      * destruct B as (g & I & B). exists g. split; [now right|easy].
  - destruct (c_default (cls (f_class f)) (c_new (cls (f_class f)))) as (m, rd) eqn:D. destruct rd as [u|x].
    + destruct (alloc cls (m_h s) (f_class f) m None) as (h, e) eqn:Al.
      assert (Eh : h = fst (alloc cls (m_h s) (f_class f) m None)) by now rewrite Al.
      assert (Ee : e = e_next (m_h s)) by (unfold alloc in Al; now inversion Al). clear Al.
      assert (F := schema_for_field fields f U (Sub f (or_introl eq_refl))).
      assert (Cl : e_class h e = f_class f) by (subst h e; apply fset_eq).
      assert (S1 : sparse_setitem cls isa fields (with_eheap s h) (f_name f) (AElem e)
                   = (put (with_eheap s (adopt h e (m_self s))) (f_name f) e, Ok tt)).
      { unfold sparse_setitem. change (mget (f_name f) (with_eheap s h)) with (mget (f_name f) s). rewrite F.
        cbn [with_eheap m_h]. rewrite Cl, (R (f_class f)). now destruct (mget (f_name f) s). }
      rewrite S1. assert (Hc := put_adopt_content s (adopt h e (m_self s)) (f_name f) (f_class f) m ltac:(now subst)).
      assert (L : forall k0 e0, mget k0 s = Some e0 -> e0 < e_next (m_h s)).
      { intros k0 e0 G. apply mget_in in G. now apply (proj2 H) in G. }
      specialize (Hc L). rewrite <- Ee in Hc.
      assert (H1 : sparse_shape isa fields (put (with_eheap s (adopt h e (m_self s))) (f_name f) e)).
      { pose proof (shape_setitem cls isa fields R (with_eheap s h) (f_name f) (AElem e)) as K.
        rewrite S1 in K. cbn [fst] in K. apply K.
        - rewrite Eh. now apply shape_alloc.
        - cbn. subst h e. cbn. lia. }
      specialize (IH _ H1 Nf2 Sub').
      destruct (sparse_defaults cls isa fields (put (with_eheap s (adopt h e (m_self s))) (f_name f) e) fs) as (s', r).
      destruct IH as (A & B). split.
      * intros k Nk. rewrite A by (intros I; apply Nk; now right). rewrite Hc.
        destruct (name_eqb_spec k (f_name f)) as [->|]; [|easy]. exfalso. apply Nk. now left.
      * unfold defaulted in *. destruct r as [u'|x].
        -- intros g [<-|I].
           ++ cbn. rewrite O. cbn. rewrite A by easy. rewrite Hc, name_eqb_refl, D. now destruct u.
           ++ specialize (B g I). destruct (negb _); [easy|]. rewrite B, Hc.
              destruct (name_eqb_spec (f_name g) (f_name f)) as [E|]; [|easy].
              exfalso. apply Nf1. rewrite <- E. now apply in_map.
        -- destruct B as (g & I & B). exists g. split; [now right|easy].
    + split; [easy|]. cbn. exists f. split; [now left|]. rewrite O, D. easy.
Qed.
Lemma sparse_default_outcome own s (d : mdefault V) : NoDup (map f_name fields) -> isa_refl isa ->
  (d = MDNone \/ d = MDUnspecified) ->
  let '(s', r) := sparse_set_default cls isa fields minf own s d in
  match minf with
  | MinNone => m_items s' = [] /\ m_h s' = m_h s /\ r = Ok tt
  | MinRequired =>
      (forall k, ~ In k (map f_name fields) -> content s' k = None)
      /\ defaulted cls fields (fun f => negb (c_optional (cls (f_class f)))) (fun _ => None) (content s')
                   (fun f => c_new (cls (f_class f))) r
  | MinOther => s' = s /\ r = Err RuntimeErr
  end.
Proof.
  intros U R Hd.
  assert (E : sparse_set_default cls isa fields minf own s d
              = match minf with
                | MinNone => (sparse_reset cls fields minf s, Ok tt)
                | MinRequired => sparse_defaults cls isa fields (sparse_reset cls fields minf s) fields
                | MinOther => (s, Err RuntimeErr)
                end) by (destruct Hd as [-> | ->]; easy).
  rewrite E. clear E. pose proof (sparse_cleared s U) as C. pose proof (reset_sparse cls isa fields minf U R s) as (H & _).
  assert (Ini : minf = MinNone -> sparse_reset cls fields minf s = MapSt (m_h s) (m_self s) []).
  { intros ->. rewrite sparse_reset_fresh. 
    replace (filter (required cls MinNone) fields) with (@nil field); [easy|].
    clear. induction fields; [easy|]. exact IHl. }
  destruct minf.
  - now rewrite Ini.
  - pose proof (defaults_spec fields _ U R H U (fun f I => I)) as K.
    destruct (sparse_defaults cls isa fields (sparse_reset cls fields MinRequired s) fields) as (s', r).
    destruct K as (A & B). destruct C as (C1 & C2 & _). split.
    + intros k Nk. rewrite A by easy. now apply C2.
    + unfold defaulted in *. destruct r as [u|x]; [|exact B]. intros f If. specialize (B f If).
      destruct (negb (c_optional (cls (f_class f)))) eqn:O; [exact B|]. rewrite B, (C1 f If). cbn [required]. now rewrite O.
  - easy.
Qed.
Lemma sparse_empty s : map_is_empty IsSparse s = true <-> keys (m_items s) = [].
Proof. cbn. destruct (m_items s); easy. Qed.
End Sparse.

Lemma py_dict_length_unique {A} (l : list (name * A)) :
  List.length (keys (py_dict name_eqb l)) = List.length l <-> NoDup (map fst l).
Proof.
  split.
  - intros E. apply NoDup_incl_NoDup with (l := keys (py_dict name_eqb l)).
    + apply py_dict_nodup.
    + rewrite map_length. lia.
    + intros k I. now apply py_dict_keys.
  - intros N. apply Nat.le_antisymm.
    + rewrite <- (map_length fst l). apply NoDup_incl_length; [apply py_dict_nodup|]. intros k I. now apply py_dict_keys.
    + rewrite <- (map_length fst l). apply NoDup_incl_length; [easy|]. intros k I. now apply py_dict_keys.
Qed.
Lemma dict_of_spec fs :
  (NoDup (map f_name fs) -> dict_of fs = Ok fs) /\ (~ NoDup (map f_name fs) -> dict_of fs = Err TypeErr).
Proof.
  unfold dict_of. pose proof (py_dict_length_unique (map (fun f => (f_name f, tt)) fs)) as K.
  rewrite map_map, map_length in K. cbn [fst] in K.
  change (map (fun x => f_name x) fs) with (map f_name fs) in K.
  destruct (Nat.eqb_spec (List.length (keys (py_dict name_eqb (map (fun f => (f_name f, tt)) fs)))) (List.length fs));
    split; intros; try easy; exfalso; tauto.
Qed.
