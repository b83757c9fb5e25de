(* Proofs about the flat routing of mappings. *)
From Verif Require Import PyBase PyBaseFacts ModelUtil ModelSeq ModelMap SpecMap ProofMap ProofMap2 ProofMap3.

Lemma skipn_app_len {A} (p r : list A) : skipn (List.length p) (p ++ r) = r.
Proof. induction p; [easy|]. exact IHp. Qed.
Lemma starts_with_cut p n key : starts_with (p ++ n) key
  = starts_with p key && starts_with n (skipn (List.length p) key).
Proof.
  revert key. induction p as [|c p IH]; intros key; [easy|].
  destruct key as [|d key]; [easy|]. cbn [app starts_with List.length skipn].
  destruct (N.eqb c d); [apply IH|easy].
Qed.

Section F.
Context {V M : Type} (cls : nat -> ecls V M) (isa : nat -> nat -> bool) (fields : list field)
        (own_name : name).
Notation st := (mapst M).
Implicit Types (s : st) (k : name) (e : nat) (f : field).

Definition texts (pairs : list (name * V)) : Prop := Forall (fun kv => fst kv <> None) pairs.
Definition keep (p : str) (pairs : list (name * V)) : list (name * V) := routed p [] pairs.

Lemma possibles_texts p pairs : texts pairs -> possibles p pairs = Ok (keep p pairs).
Proof.
  induction pairs as [|([key|], v) l IH]; intros H; [easy| |]; inversion H; subst; [|easy].
  cbn [possibles py_startswith bind]. rewrite (IH H3). cbn [rmap option_map].
  unfold keep, routed. cbn [flat_map fst snd]. rewrite app_nil_r. now destruct (starts_with p key).
Qed.
Lemma accumulate_texts n pairs : texts pairs ->
  accumulate (Some n) pairs
  = Ok (filter (fun kv => match fst kv with Some key => starts_with n key | None => false end) pairs).
Proof.
  induction pairs as [|([key|], v) l IH]; intros H; [easy| |]; inversion H; subst; [|easy].
  cbn [accumulate py_startswith bind]. rewrite (IH H3). cbn [rmap filter fst]. now destruct (starts_with n key).
Qed.
Lemma keep_texts p pairs : texts (keep p pairs).
Proof.
  unfold keep, routed, texts. apply Forall_forall. intros kv H. apply in_flat_map in H.
  destruct H as (([key|], v) & _ & H); cbn [fst snd] in H; [|easy].
  destruct (starts_with _ key); [|easy]. destruct H as [<-|[]]. easy.
Qed.
Lemma keep_routed p n pairs :
  filter (fun kv => match fst kv with Some key => starts_with n key | None => false end) (keep p pairs)
  = routed p n pairs.
Proof.
  unfold keep, routed. induction pairs as [|([key|], v) l IH]; [easy| |easy].
  cbn [flat_map fst snd]. rewrite filter_app. apply f_equal2; [|exact IH].
  rewrite app_nil_r, (starts_with_cut p n). destruct (starts_with p key); [|easy].
  cbn [andb filter fst]. now destruct (starts_with n _).
Qed.
Lemma keep_nil pairs : texts pairs -> keep [] pairs = pairs.
Proof.
  unfold keep, routed. induction pairs as [|([key|], v) l IH]; intros H; [easy| |]; inversion H; subst; [|easy].
  cbn [flat_map fst snd app List.length skipn]. apply (f_equal2 (@app _) (eq_refl [(Some key, v)]) (IH H3)).
Qed.

(* ------------------------------ one field ------------------------------ *)
Lemma create_distinct s k c : distinct s -> mget k s = None ->
  let h := fst (alloc cls (m_h s) c (c_new (cls c)) None) in
  let e := e_next (m_h s) in
  let s1 := put (with_eheap s (adopt h e (m_self s))) k e in
  distinct s1 /\ mget k s1 = Some e /\ e_class (m_h s1) e = c /\ e_con (m_h s1) e = c_new (cls c)
  /\ forall k', k' <> k -> mget k' s1 = mget k' s
       /\ forall e', mget k' s = Some e' ->
            e_class (m_h s1) e' = e_class (m_h s) e' /\ e_con (m_h s1) e' = e_con (m_h s) e'.
Proof.
  intros (C & D) Hn h e s1.
  assert (Hg : forall k', mget k' s1 = if name_eqb k' k then Some e else mget k' s).
  { intros k'. unfold s1. now rewrite mget_put. }
  assert (Hother : forall k' e', mget k' s = Some e' -> e' <> e).
  { intros k' e' H. specialize (C _ _ H). unfold e. lia. }
  assert (Hnext : e_next (m_h s1) = S (e_next (m_h s))) by reflexivity.
  split; [split|split; [|split; [|split]]].
  - intros k' e'. rewrite Hg, Hnext. destruct (name_eqb k' k).
    + intros [= <-]. unfold e. lia.
    + intros H. specialize (C _ _ H). lia.
  - intros k1 k2 e'. rewrite !Hg. destruct (name_eqb_spec k1 k) as [->|], (name_eqb_spec k2 k) as [->|]; try easy.
    + intros [= <-] H. now apply Hother in H.
    + intros H [= <-]. now apply Hother in H.
    + apply D.
  - now rewrite Hg, name_eqb_refl.
  - cbn. fold e. now rewrite !fset_eq.
  - cbn. fold e. now rewrite !fset_eq.
  - intros k' Hk'. rewrite Hg. destruct (name_eqb_spec k' k) as [->|]; [easy|]. split; [easy|].
    intros e' H. specialize (Hother _ _ H). cbn. fold e. now rewrite !fset_neq.
Qed.

Definition start_at s f : M := match content s (f_name f) with Some m => m | None => c_new (cls (f_class f)) end.
Definition call_at (acc : list (name * V)) s f : M * res unit :=
  c_set_flat (cls (class_at s f)) (start_at s f) acc.
(* the two views agree except under f *)
Definition agree_off s s' f : Prop :=
  forall k, k <> f_name f ->
    mget k s' = mget k s /\ forall e, mget k s = Some e ->
      e_class (m_h s') e = e_class (m_h s) e /\ e_con (m_h s') e = e_con (m_h s) e.
Lemma agree_content s s' f k : agree_off s s' f -> k <> f_name f -> content s' k = content s k.
Proof.
  intros H N. destruct (H k N) as (A & B). rewrite !content_mget, A.
  destruct (mget k s) eqn:E; [|easy]. cbn. f_equal. now apply B.
Qed.
Lemma agree_call s s' f g acc : agree_off s s' f -> f_name g <> f_name f -> call_at acc s' g = call_at acc s g.
Proof.
  intros H N. unfold call_at, start_at, class_at. rewrite (agree_content _ _ _ _ H N).
  destruct (H _ N) as (A & B). unfold mget in A. rewrite A.
  destruct (aget name_eqb (f_name g) (m_items s)) eqn:E; [|easy]. now rewrite (proj1 (B _ E)).
Qed.

(* what flat_fields does for one field with pairs acc *)
Lemma one_field fl s f acc : distinct s ->
  (fl = IsDict -> mget (f_name f) s <> None) ->
  (fl = IsSparse -> schema_for fields (f_name f) = Some (f_class f) /\ isa_refl isa) ->
  exists s1 e,
    (if mhas (f_name f) s then (s, Ok tt)
     else let '(h, e) := alloc cls (m_h s) (f_class f) (c_new (cls (f_class f))) None in
          do_setitem cls isa fields fl (with_eheap s h) (f_name f) (AElem e)) = (s1, Ok tt)
    /\ mget (f_name f) s1 = Some e
    /\ let '(h, r) := on_child (m_h s1) e (fun m => c_set_flat (cls (e_class (m_h s1) e)) m acc) in
       distinct (with_eheap s1 h)
       /\ r = snd (call_at acc s f)
       /\ content (with_eheap s1 h) (f_name f) = Some (fst (call_at acc s f))
       /\ agree_off s (with_eheap s1 h) f.
Proof.
  intros D Hd Hs. rewrite mhas_mget. destruct (mget (f_name f) s) as [e|] eqn:E.
  - exists s, e. split; [easy|]. split; [easy|].
    destruct (on_child_only s e (fun m => c_set_flat (cls (e_class (m_h s) e)) m acc)) as (A & B).
    destruct (on_child (m_h s) e _) as (h, r). cbn [fst snd] in A, B.
    assert (Hc : call_at acc s f = c_set_flat (cls (e_class (m_h s) e)) (e_con (m_h s) e) acc).
    { unfold call_at, start_at, class_at. rewrite content_mget, E. unfold mget in E. now rewrite E. }
    rewrite Hc. split; [|split; [easy|split]].
    + destruct A as (A1 & A2 & A3 & _). split; intros *; unfold mget; cbn [with_eheap m_items m_h]; [|apply D].
      cbn in A3. rewrite A3. apply D.
    + rewrite (only_content_at s _ (f_name f) e _ _ D E A). now rewrite name_eqb_refl.
    + intros k N. split; [easy|]. intros e' H'. destruct A as (_ & _ & _ & _ & A).
      destruct (A e') as (_ & a & _ & b). split; [easy|]. apply b. intros ->. apply N. now apply (proj2 D k (f_name f) e).
  - destruct fl; [now destruct (Hd eq_refl)|]. destruct (Hs eq_refl) as (Hsc & Hr).
    pose proof (sparse_create cls isa fields Hr s _ _ E Hsc) as Hcr. unfold alloc in Hcr |- *. cbn [do_setitem].
    destruct (create_distinct s (f_name f) (f_class f) D E) as (G1 & G2 & G3 & G4 & G5).
    unfold alloc in G1, G2, G3, G4, G5. cbn [fst] in *.
    set (s1 := put _ (f_name f) (e_next (m_h s))) in *. set (e := e_next (m_h s)) in *.
    exists s1, e. split; [exact Hcr|]. split; [exact G2|].
    destruct (on_child_only s1 e (fun m => c_set_flat (cls (e_class (m_h s1) e)) m acc)) as (A & B).
    destruct (on_child (m_h s1) e _) as (h, r). cbn [fst snd] in A, B.
    assert (Hc : call_at acc s f = c_set_flat (cls (e_class (m_h s1) e)) (e_con (m_h s1) e) acc).
    { unfold call_at, start_at, class_at. rewrite content_mget, E, G3, G4. unfold mget in E. now rewrite E. }
    rewrite Hc. split; [|split; [easy|split]].
    + destruct A as (A1 & A2 & A3 & _). split; intros *; unfold mget; cbn [with_eheap m_items m_h]; [|apply G1].
      cbn in A3. cbn. rewrite A3. apply G1.
    + rewrite (only_content_at s1 _ (f_name f) e _ _ G1 G2 A). now rewrite name_eqb_refl.
    + intros k N. destruct (G5 k N) as (g1 & g2). split; [exact g1|]. intros e' H'.
      destruct A as (_ & _ & _ & _ & A). destruct (A e') as (_ & a & _ & b).
      destruct (g2 e' H') as (g3 & g4). rewrite <- g3, <- g4. split; [exact a|]. apply b.
      intros ->. apply N. apply (proj2 G1 k (f_name f) e); [|exact G2]. now rewrite <- H'.
Qed.

Lemma flat_fields_spec fl ps (accf : field -> list (name * V)) : forall fs s,
  NoDup (map f_name fs) -> distinct s ->
  (forall f, In f fs -> accumulate (f_name f) ps = Ok (accf f)) ->
  (fl = IsDict -> forall f, In f fs -> mget (f_name f) s <> None) ->
  (fl = IsSparse -> (forall f, In f fs -> schema_for fields (f_name f) = Some (f_class f)) /\ isa_refl isa) ->
  let '(s', r) := flat_fields cls (do_setitem cls isa fields fl) s fs ps in
  (forall k, ~ In k (map f_name fs) -> content s' k = content s k)
  /\ (forall f, In f fs -> accf f = [] -> content s' (f_name f) = content s (f_name f))
  /\ match r with
     | Ok _ => forall f, In f fs -> accf f <> [] ->
         content s' (f_name f) = Some (fst (call_at (accf f) s f)) /\ snd (call_at (accf f) s f) = Ok tt
     | Err x =>
         (exists f, In f fs /\ accf f <> [] /\ snd (call_at (accf f) s f) = Err x
                    /\ content s' (f_name f) = Some (fst (call_at (accf f) s f)))
         /\ forall f, In f fs -> content s' (f_name f) = content s (f_name f)
                                 \/ (content s' (f_name f) = Some (fst (call_at (accf f) s f)) /\ accf f <> [])
     end.
Proof.
  induction fs as [|f fs IH]; intros s N D Ha Hd Hs; cbn [flat_fields].
  - repeat split; easy.
  - cbn [map] in N. inversion N as [|? ? Nf N']; subst. rewrite (Ha f (or_introl eq_refl)).
    assert (Nn : forall g, In g fs -> f_name g <> f_name f).
    { intros g Ig E. apply Nf. rewrite <- E. now apply in_map. }
    destruct (accf f) as [|p acc] eqn:Eacc.
    + specialize (IH s N' D). destruct (flat_fields cls (do_setitem cls isa fields fl) s fs ps) as (s', r).
      destruct IH as (I1 & I2 & I3).
      { intros g Ig. apply Ha. now right. }
      { intros E g Ig. apply (Hd E). now right. }
      { intros E. destruct (Hs E) as (H1 & H2). split; [|easy]. intros g Ig. apply H1. now right. }
      split; [|split].
      * intros k Hk. cbn in Hk. apply I1. tauto.
      * intros g [<-|Ig] Eg; [now apply I1|now apply I2].
      * destruct r as [[]|x].
        -- intros g [<-|Ig] Eg; [congruence|now apply I3].
        -- destruct I3 as ((g & Ig & H) & I3). split; [exists g; cbn; auto|].
           intros g' [<-|Ig']; [left; now apply I1|now apply I3].
    + destruct (one_field fl s f (p :: acc) D) as (s1 & e & E1 & E2 & E3).
      { intros E. apply (Hd E). now left. }
      { intros E. destruct (Hs E) as (H1 & H2). split; [|easy]. apply H1. now left. }
      rewrite E1, E2. 
      destruct (on_child (m_h s1) e _) as (h, r). destruct E3 as (D1 & Er & Ec & Ag).
      destruct r as [[]|x].
      * specialize (IH (with_eheap s1 h) N' D1).
        destruct (flat_fields cls (do_setitem cls isa fields fl) (with_eheap s1 h) fs ps) as (s', r).
        destruct IH as (I1 & I2 & I3).
        { intros g Ig. apply Ha. now right. }
        { intros E g Ig. destruct (Ag (f_name g) (Nn g Ig)) as (-> & _). apply (Hd E). now right. }
        { intros E. destruct (Hs E) as (H1 & H2). split; [|easy]. intros g Ig. apply H1. now right. }
        assert (Hcf : content s' (f_name f) = Some (fst (call_at (p :: acc) s f))) by (rewrite I1; easy).
        assert (Hold : forall g, In g fs -> content (with_eheap s1 h) (f_name g) = content s (f_name g)
                         /\ forall acc', call_at acc' (with_eheap s1 h) g = call_at acc' s g).
        { intros g Ig. split; [now apply agree_content with f; [|apply Nn]|].
          intros acc'. apply agree_call with f; [easy|now apply Nn]. }
        split; [|split].
        -- intros k Hk. cbn in Hk. rewrite I1 by tauto. apply agree_content with f; [easy|]. intuition.
        -- intros g [<-|Ig] Eg; [congruence|]. rewrite I2 by easy. now apply Hold.
        -- destruct r as [[]|x].
           ++ intros g [<-|Ig] Eg.
              ** rewrite Eacc, Hcf. now rewrite <- Er.
              ** destruct (Hold g Ig) as (_ & <-). now apply I3.
           ++ destruct I3 as ((g & Ig & Eg & Eg1 & Eg2) & I3). split.
              ** exists g. destruct (Hold g Ig) as (_ & Hc). rewrite <- Hc. cbn. auto.
              ** intros g' [<-|Ig'].
                 --- right. now rewrite Eacc.
                 --- destruct (Hold g' Ig') as (Hx & Hc). rewrite <- Hx, <- Hc. now apply I3.
      * split; [|split].
        -- intros k Hk. cbn in Hk. apply agree_content with f; [easy|]. intuition.
        -- intros g [<-|Ig] Eg; [congruence|]. apply agree_content with f; [easy|now apply Nn].
        -- split.
           ++ exists f. rewrite Eacc. repeat split; auto; [now left|easy].
           ++ intros g [<-|Ig].
              ** right. now rewrite Eacc.
              ** left. apply agree_content with f; [easy|now apply Nn].
Qed.

(* dictionaries do not change members *)
Lemma flat_fields_same ps : forall fs s, (forall f, In f fs -> mget (f_name f) s <> None) ->
  same_members s (fst (flat_fields cls (map_setitem cls) s fs ps)).
Proof.
  induction fs as [|f fs IH]; intros s H; cbn [flat_fields]; [apply same_refl|].
  destruct (accumulate (f_name f) ps) as [[|p acc]|x]; try (apply same_refl).
  - apply IH. intros g Ig. apply H. now right.
  - rewrite mhas_mget. destruct (mget (f_name f) s) as [e|] eqn:E; [|exfalso; apply (H f); [now left|easy]].
    rewrite E. destruct (on_child_only s e (fun m => c_set_flat (cls (e_class (m_h s) e)) m (p :: acc))) as (A & _).
    destruct (on_child (m_h s) e _) as (h, r). cbn [fst] in A. apply only_same in A.
    destruct r; [|easy]. apply (same_trans _ _ _ A). apply IH. intros g Ig.
    rewrite (same_mget _ _ _ A). apply H. now right.
Qed.
End F.
