From Verif Require Import PyBase PyBaseFacts ModelUtil ModelSeq ModelMap SpecMap ProofMap ProofMap2 ProofMap3 ProofMap5 ModelSelf SpecSelf.

Section P.
Context {V M : Type} (cls : nat -> ecls V M) (fields : list field) (minf : minimum).
Implicit Types (s : mapst M) (k : name) (e : nat) (f : field).

Lemma child_self s e : 
  only_content s (with_eheap s (fst (set_child cls (m_h s) e (AElem e)))) e (fst (own_set cls s e))
  /\ snd (set_child cls (m_h s) e (AElem e)) = snd (own_set cls s e).
Proof. exact (set_child_only cls s e (AElem e)). Qed.

Definition missing (l : list name) : Prop := exists f, In f fields /\ ~ In (f_name f) l.

Lemma loop_spec pol ks : forall s seen conv, NoDup ks -> distinct s ->
  (forall k, In k ks -> mget k s <> None /\ In k (map f_name fields)) ->
  let '(s', r) := set_to_itself cls fields pol s ks seen conv in
  same_members s s' /\ (forall k, ~ In k ks -> content s' k = content s k)
  /\ (forall i, (forall k, In k ks -> mget k s <> Some i) -> e_con (m_h s') i = e_con (m_h s) i)
  /\ let all := forall k e, In k ks -> mget k s = Some e -> content s' k = Some (fst (own_set cls s e))
                                                            /\ exists b, snd (own_set cls s e) = Ok b in
     match r with
     | Ok b => all /\ (b = true <-> conv = true /\ forall k e, In k ks -> mget k s = Some e -> snd (own_set cls s e) = Ok true)
               /\ (pol = Strict -> forall f, In f fields -> In (f_name f) ks \/ In (f_name f) seen)
     | Err x => (exists k e, In k ks /\ mget k s = Some e /\ snd (own_set cls s e) = Err x /\ content s' k = Some (fst (own_set cls s e)))
                \/ (x = TypeErr /\ pol = Strict /\ all /\ exists f, In f fields /\ ~ In (f_name f) ks /\ ~ In (f_name f) seen)
     end.
Proof.
  induction ks as [|k ks IH]; intros s seen conv Hn Hd Hk; cbn [set_to_itself].
  - assert (Hb : forallb (fun k => memb name_eqb k seen) (keys (field_map fields)) = true
                 <-> forall f, In f fields -> In (f_name f) seen).
    { rewrite forallb_forall. split.
      - intros H f Hf. apply memb_names. apply H. apply field_map_keys. now apply in_map.
      - intros H k Hin. apply memb_names. apply field_map_keys in Hin. apply in_map_iff in Hin.
        destruct Hin as (f & <- & Hf). now apply H. }
    destruct pol; [|split; [apply same_refl|]; split; [auto|]; split; [auto|]; split; [intros k e []|]; split; [split; [intros ->; split; [reflexivity|intros k e []]|tauto]|discriminate]..].
    destruct (forallb _ _) eqn:E.
    + split; [apply same_refl|]. split; [auto|]. split; [auto|]. split; [intros k e []|]. split; [split; [intros ->; split; [reflexivity|intros k e []]|tauto]|].
      intros _ f Hf. right. now apply Hb.
    + split; [apply same_refl|]. split; [auto|]. split; [auto|]. right. split; [reflexivity|]. split; [reflexivity|]. split; [intros k e []|].
      assert (H : ~ forall f, In f fields -> In (f_name f) seen) by (intros H; apply Hb in H; congruence).
      clear - H. induction fields as [|f l IH]; [exfalso; apply H; intros f []|].
      destruct (in_dec name_dec (f_name f) seen) as [I1|I1].
      * destruct IH as (g & Hg & Hg').
        { intros H'. apply H. intros g [<-|Hg]; auto. }
        exists g. split; [now right|exact Hg'].
      * exists f. split; [now left|]. split; [intros []|exact I1].
  - inversion Hn as [|? ? Hnk Hn']; subst.
    destruct (Hk k (or_introl eq_refl)) as [Hm Hf]. destruct (mget k s) as [e|] eqn:Em; [|congruence]. clear Hm.
    assert (Hc : exists c, aget name_eqb k (field_map fields) = Some c).
    { destruct (aget name_eqb k (field_map fields)) as [c|] eqn:Ec; [now exists c|].
      apply (aget_None name_eqb name_eqb_eq) in Ec. exfalso. apply Ec. now apply field_map_keys. }
    destruct Hc as [c ->].
    destruct (child_self s e) as (A & B). destruct (set_child cls (m_h s) e (AElem e)) as [h r] eqn:Es.
    cbn [fst snd] in *. set (s1 := with_eheap s h) in *.
    pose proof (only_same _ _ _ _ A) as SM.
    assert (Hcon : forall k', content s1 k' = if name_eqb k' k then Some (fst (own_set cls s e)) else content s k').
    { intros k'. exact (only_content_at s s1 k e _ k' Hd Em A). }
    destruct r as [b|x].
    2:{ split; [exact SM|]. split; [|split].
        - intros k' Hk'. rewrite Hcon. destruct (name_eqb_spec k' k) as [->|]; [|reflexivity]. exfalso. apply Hk'. now left.
        - intros i Hi. destruct A as (_ & _ & _ & _ & A5). apply (A5 i). intros ->. apply (Hi k); [now left|exact Em].
        - left. exists k, e. split; [now left|]. split; [exact Em|]. split; [now symmetry|]. rewrite Hcon, name_eqb_refl. reflexivity. }
    assert (Hd1 : distinct s1).
    { destruct Hd as [D1 D2]. split.
      - intros k' e' H'. rewrite (same_mget _ _ _ SM) in H'. destruct SM as (_ & _ & -> & _). eauto.
      - intros k1 k2 e'. rewrite !(same_mget _ _ _ SM). apply D2. }
    assert (Hk1 : forall k', In k' ks -> mget k' s1 <> None /\ In k' (map f_name fields)).
    { intros k' H'. rewrite (same_mget _ _ _ SM). apply Hk. now right. }
    specialize (IH s1 (k :: seen) (conv && b) Hn' Hd1 Hk1).
    destruct (set_to_itself cls fields pol s1 ks (k :: seen) (conv && b)) as [s' r'].
    destruct IH as (SM' & Hrest & Hfar & H).
    assert (Hk' : content s' k = Some (fst (own_set cls s e))) by (rewrite (Hrest k Hnk), Hcon, name_eqb_refl; reflexivity).
    assert (Hown : forall k' e', In k' ks -> mget k' s = Some e' -> own_set cls s1 e' = own_set cls s e').
    { intros k' e' H1 H2. unfold own_set. destruct A as (_ & _ & _ & _ & A5). destruct (A5 e') as (_ & a & _ & d).
      rewrite a, d; [reflexivity|]. intros ->. destruct Hd as [_ D2]. rewrite (D2 k' k e H2 Em) in H1. easy. }
    split; [now apply (same_trans _ s1)|]. split.
    { intros k' H'. cbn in H'. rewrite (Hrest k') by tauto. rewrite Hcon. destruct (name_eqb_spec k' k) as [->|]; [tauto|reflexivity]. }
    split.
    { intros i Hi. rewrite Hfar.
      - destruct A as (_ & _ & _ & _ & A5). apply (A5 i). intros ->. apply (Hi k); [now left|exact Em].
      - intros k' H'. rewrite (same_mget _ _ _ SM). apply Hi. now right. }
    destruct r' as [b'|x].
    + destruct H as (H1 & H2 & H3). split; [|split].
      * intros k0 e0 [<-|Hin] H0.
        -- assert (e0 = e) by congruence. subst e0. split; [exact Hk'|]. exists b. now symmetry.
        -- rewrite <- (Hown k0 e0 Hin H0). apply (H1 k0 e0 Hin). now rewrite (same_mget _ _ _ SM).
      * rewrite H2. rewrite Bool.andb_true_iff. split.
        -- intros ((-> & ->) & Hall). split; [reflexivity|]. intros k0 e0 [<-|Hin] H0.
           ++ assert (e0 = e) by congruence. subst e0. now symmetry.
           ++ rewrite <- (Hown k0 e0 Hin H0). apply (Hall k0 e0 Hin). now rewrite (same_mget _ _ _ SM).
        -- intros (-> & Hall). split.
           ++ split; [reflexivity|]. specialize (Hall k e (or_introl eq_refl) Em). congruence.
           ++ intros k0 e0 Hin H0. rewrite (same_mget _ _ _ SM) in H0. rewrite (Hown k0 e0 Hin H0). apply (Hall k0); [now right|exact H0].
      * intros Hp f Hff. destruct (H3 Hp f Hff) as [|[|]]; [left; now right|left; now left|now right].
    + destruct H as [(k0 & e0 & I0 & M0 & S0 & C0)|(-> & -> & Hall & f & Hff & Hf1 & Hf2)].
      * left. rewrite (same_mget _ _ _ SM) in M0. rewrite (Hown k0 e0 I0 M0) in *. exists k0, e0. split; [now right|]. auto.
      * right. split; [reflexivity|]. split; [reflexivity|]. split.
        -- intros k0 e0 [<-|Hin] H0.
           ++ assert (e0 = e) by congruence. subst e0. split; [exact Hk'|]. exists b. now symmetry.
           ++ rewrite <- (Hown k0 e0 Hin H0). apply (Hall k0 e0 Hin). now rewrite (same_mget _ _ _ SM).
        -- exists f. split; [exact Hff|]. cbn in Hf2 |- *. tauto.
Qed.

Context (Huniq : NoDup (map f_name fields)).

Lemma set_self_spec fl own s given : within fields fl s -> given <> Some OtherPolicy ->
  let pol := match given with Some p => p | None => own end in
  let '(s', r) := dict_set_self cls fields minf fl own s given in
  untouched (m_h s) (m_h s') /\ m_self s' = m_self s
  /\ (forall k, ~ In k (map f_name fields) -> content s' k = None)
  /\ same_members (do_reset cls fields minf fl s) s'
  /\ if Nat.eqb (List.length (m_items (do_reset cls fields minf fl s))) (List.length (m_items s))
     then set_self_outcome cls fields pol (starts cls minf fl) s' r
     else r = Err RuntimeErr /\ s' = do_reset cls fields minf fl s.
Proof.
  intros W Hg pol. unfold dict_set_self. destruct (reset_good cls fields minf Huniq fl s W) as (G & C & K).
  set (s0 := do_reset cls fields minf fl s) in *. destruct K as [K1 K2].
  pose proof G as [g1 g2 g3 g4 g5 g6 g7 g8].
  match goal with |- let '(_, _) := ?x in _ => assert (Ex : x =
    if Nat.eqb (List.length (m_items s0)) (List.length (m_items s)) then set_to_itself cls fields pol s0 (keys (m_items s0)) [] true else (s0, Err RuntimeErr)) end.
  { unfold pol. destruct given as [[]|]; try reflexivity. congruence. }
  rewrite Ex. destruct (Nat.eqb _ _).
  2:{ split; [exact g2|]. split; [exact g1|]. split; [exact K2|]. split; [apply same_refl|auto]. }
  assert (Hd : distinct s0) by (split; [intros k e H; specialize (g3 k e H); lia|exact g4]).
  assert (Hks : forall k, In k (keys (m_items s0)) -> mget k s0 <> None /\ In k (map f_name fields)).
  { intros k Hk. apply mget_keys in Hk. split; [exact Hk|]. destruct (mget k s0) as [e|] eqn:Em; [|congruence].
    pose proof (g5 k e Em) as Hs. destruct (schema_for_in _ _ _ Hs) as (f & Hf & <- & _). now apply in_map. }
  pose proof (loop_spec pol (keys (m_items s0)) s0 [] true g8 Hd Hks) as HL.
  destruct (set_to_itself cls fields pol s0 (keys (m_items s0)) [] true) as [s' r].
  destruct HL as (SM & Hrest & Hfar & HL).
  assert (Hst : forall f, In f fields -> (starts cls minf fl f = true <-> In (f_name f) (keys (m_items s0)))).
  { intros f Hf. rewrite <- mget_keys. specialize (K1 f Hf). cbn [values_for filter map] in K1. unfold content in K1.
    fold (mget (f_name f) s0) in K1. destruct (starts cls minf fl f), (mget (f_name f) s0); cbn in K1; try discriminate; split; congruence. }
  assert (Hown : forall f, In f fields -> forall e, mget (f_name f) s0 = Some e -> own_set cls s0 e = blank_set cls f).
  { intros f Hf e Em. unfold own_set, blank_set. pose proof (g5 _ _ Em) as Hs. rewrite (schema_for_field fields f Huniq Hf) in Hs.
    injection Hs as <-. specialize (K1 f Hf). unfold content in K1. fold (mget (f_name f) s0) in K1. rewrite Em in K1.
    cbn in K1. assert (Hc : e_con (m_h s0) e = c_new (cls (f_class f))).
    { destruct (starts cls minf fl f); [|discriminate]. injection K1 as ->. reflexivity. }
    now rewrite Hc. }
  assert (Hget : forall f, In f fields -> starts cls minf fl f = true -> exists e, mget (f_name f) s0 = Some e).
  { intros f Hf Hs. specialize (C f Hf Hs). destruct (mget (f_name f) s0) as [e|]; [now exists e|congruence]. }
  assert (Hfield : forall k e, In k (keys (m_items s0)) -> mget k s0 = Some e -> exists f, In f fields /\ f_name f = k /\ starts cls minf fl f = true).
  { intros k e Hk Em. destruct (Hks k Hk) as [_ Hin]. apply in_map_iff in Hin. destruct Hin as (f & <- & Hf).
    exists f. split; [exact Hf|]. split; [reflexivity|]. now apply Hst. }
  assert (Hall : (forall k e, In k (keys (m_items s0)) -> mget k s0 = Some e ->
             content s' k = Some (fst (own_set cls s0 e)) /\ exists b, snd (own_set cls s0 e) = Ok b) -> 
             holds_blank_sets cls fields (starts cls minf fl) s' /\ (forall f, In f fields -> starts cls minf fl f = true -> exists b', snd (blank_set cls f) = Ok b')).
  { intros H. split.
    - intros f Hf. destruct (starts cls minf fl f) eqn:Es.
      + destruct (Hget f Hf Es) as [e Em]. destruct (H (f_name f) e) as [H1 _]; [now apply Hst|exact Em|]. rewrite H1. now rewrite (Hown f Hf e Em).
      + rewrite Hrest; [|intros Hin; apply Hst in Hin; congruence]. specialize (K1 f Hf). rewrite Es in K1. exact K1.
    - intros f Hf Es. destruct (Hget f Hf Es) as [e Em]. destruct (H (f_name f) e) as [_ H1]; [now apply Hst|exact Em|]. now rewrite (Hown f Hf e Em) in H1. }
  pose proof SM as (M1 & M2 & M3 & M4).
  split.
  { destruct g2 as [u1 u2]. split; [lia|]. intros e He. destruct (u2 e He) as (a & b & c & d). destruct (M4 e) as (x & y & z).
    rewrite x, y, z. split; [|auto]. rewrite <- a.
    apply Hfar. intros k _ Hm. specialize (g3 k e Hm). lia. }
  split; [congruence|]. split.
  { intros k Hk. rewrite Hrest; [now apply K2|]. intros Hin. now destruct (Hks k Hin). }
  split; [exact SM|]. unfold set_self_outcome.
  destruct r as [b|x].
  - destruct HL as (H1 & H2 & H3). destruct (Hall H1) as [A1 A2]. split; [exact A1|]. split; [exact A2|]. split.
    + rewrite H2. split.
      * intros (_ & H) f Hf Es. destruct (Hget f Hf Es) as [e Em]. rewrite <- (Hown f Hf e Em). apply (H (f_name f)); [now apply Hst|exact Em].
      * intros H. split; [reflexivity|]. intros k e Hk Em. destruct (Hfield k e Hk Em) as (f & Hf & <- & Es).
        rewrite (Hown f Hf e Em). now apply H.
    + intros Hp f Hf. apply Hst; [exact Hf|]. destruct (H3 Hp f Hf) as [|[]]. assumption.
  - destruct HL as [(k & e & Hk & Em & Hs & Hc)|(-> & Hp & H1 & f & Hf & Hf1 & _)].
    + left. destruct (Hfield k e Hk Em) as (f & Hf & <- & Es). rewrite (Hown f Hf e Em) in *. exists f. auto.
    + right. destruct (Hall H1) as [A1 _]. split; [reflexivity|]. split; [exact Hp|]. split; [exact A1|].
      exists f. split; [exact Hf|]. destruct (starts cls minf fl f) eqn:Es; [|reflexivity]. exfalso. apply Hf1. now apply Hst.
Qed.

Lemma dict_self own s given : dict_shape fields s -> given <> Some OtherPolicy ->
  let '(s', r) := dict_set_self cls fields minf IsDict own s given in
  dict_shape fields s' /\ untouched (m_h s) (m_h s')
  /\ set_self_outcome cls fields (match given with Some p => p | None => own end) (fun _ => true) s' r.
Proof.
  intros Hs Hg. pose proof (set_self_spec IsDict own s given (shape_within fields s Hs) Hg) as H.
  pose proof (reset_shape cls fields minf Huniq s (or_introl Hs)) as Hr.
  destruct (dict_set_self cls fields minf IsDict own s given) as [s' r]. destruct H as (U & S' & N & SM & H).
  split; [now apply (same_shape fields _ s' SM)|]. split; [exact U|].
  assert (E : List.length (m_items (do_reset cls fields minf IsDict s)) = List.length (m_items s)).
  { destruct Hs as (A & B & _), Hr as (A' & B' & _).
    rewrite <- (map_length fst (m_items (do_reset cls fields minf IsDict s))), <- (map_length fst (m_items s)).
    apply Nat.le_antisymm; apply NoDup_incl_length; try assumption; intros k Hk.
    - apply B. now apply B'.
    - apply B'. now apply B. }
  rewrite E, Nat.eqb_refl in H. exact H.
Qed.
Context (isa : nat -> nat -> bool) (Hrefl : isa_refl isa).
Lemma sparse_self own s given : sparse_shape isa fields s -> given <> Some OtherPolicy ->
  let needed := required cls minf in
  let '(s', r) := dict_set_self cls fields minf IsSparse own s given in
  sparse_shape isa fields s' /\ untouched (m_h s) (m_h s')
  /\ (forall f, In f fields -> (content s' (f_name f) = None <-> needed f = false))
  /\ if Nat.eqb (List.length (filter needed fields)) (List.length (m_items s))
     then set_self_outcome cls fields (match given with Some p => p | None => own end) needed s' r
     else r = Err RuntimeErr /\ forall f, In f fields -> content s' (f_name f) = if needed f then Some (c_new (cls (f_class f))) else None.
Proof.
  intros Hs Hg needed. pose proof (set_self_spec IsSparse own s given I Hg) as H.
  destruct (reset_sparse cls isa fields minf Huniq Hrefl s) as (R1 & R2 & R3).
  destruct (reset_good cls fields minf Huniq IsSparse s I) as (G & C & K1 & K2).
  destruct (dict_set_self cls fields minf IsSparse own s given) as [s' r]. destruct H as (U & S' & N & SM & H).
  split; [now apply (sparse_same isa fields _ s' SM)|]. split; [exact U|].
  cbn [do_reset] in *. set (s0 := sparse_reset cls fields minf s) in *.
  assert (Hk : forall f, In f fields -> (content s' (f_name f) = None <-> content s0 (f_name f) = None)).
  { intros f Hf. unfold content. fold (mget (f_name f) s') (mget (f_name f) s0). rewrite (same_mget _ _ _ SM). destruct (mget (f_name f) s0); cbn; split; discriminate || auto. }
  split.
  { intros f Hf. rewrite (Hk f Hf), (K1 f Hf). cbn [values_for filter map starts]. fold needed. destruct (needed f); split; discriminate || auto. }
  assert (E : List.length (m_items s0) = List.length (filter needed fields)).
  { rewrite <- (map_length fst (m_items s0)), <- (map_length f_name (filter needed fields)).
    destruct G as [_ _ _ _ g5 _ _ g8].
    apply Nat.le_antisymm; apply NoDup_incl_length; [exact g8| |now apply NoDup_filter_names|].
    - intros k Hin. change (map fst (m_items s0)) with (keys (m_items s0)) in Hin. apply mget_keys in Hin.
      destruct (mget k s0) as [e|] eqn:Em; [|congruence]. pose proof (g5 k e Em) as Hsc.
      destruct (schema_for_in _ _ _ Hsc) as (f & Hf & <- & _). apply in_map. apply filter_In. split; [exact Hf|].
      specialize (K1 f Hf). unfold content in K1. fold (mget (f_name f) s0) in K1. rewrite Em in K1. cbn in K1. fold needed in K1.
      now destruct (needed f).
    - intros k Hin. apply in_map_iff in Hin. destruct Hin as (f & <- & Hf). apply filter_In in Hf. destruct Hf as [Hf Hn].
      apply mget_keys. now apply C. }
  rewrite E in H. fold needed in H. destruct (Nat.eqb _ _); [exact H|].
  destruct H as [-> ->]. split; [reflexivity|]. intros f Hf. rewrite (K1 f Hf). cbn. fold needed. now destruct (needed f).
Qed.
Lemma set_self_bad_policy fl own s : 
  dict_set_self cls fields minf fl own s (Some OtherPolicy) = (do_reset cls fields minf fl s, Err AssertErr).
Proof. reflexivity. Qed.

(* ------------------------------ update ------------------------------ *)
Lemma items_self l : forall s, NoDup (map snd l) -> (forall k e, In (k, e) l -> mget k s = Some e) ->
  let '(s', r) := set_items (map_setitem cls) s (map (fun ke => (fst ke, AElem (snd ke))) l) None in
  same_members s s'
  /\ (forall i, ~ In i (map snd l) -> e_con (m_h s') i = e_con (m_h s) i)
  /\ match r with
     | Ok _ => forall e, In e (map snd l) -> e_con (m_h s') e = fst (own_set cls s e) /\ exists b, snd (own_set cls s e) = Ok b
     | Err x => (exists e, In e (map snd l) /\ snd (own_set cls s e) = Err x /\ e_con (m_h s') e = fst (own_set cls s e))
                /\ forall e, In e (map snd l) -> e_con (m_h s') e = e_con (m_h s) e \/ e_con (m_h s') e = fst (own_set cls s e)
     end.
Proof.
  induction l as [|[k e] l IH]; intros s Hn Hm; cbn [map fst snd set_items].
  - split; [apply same_refl|]. split; [auto|]. intros e [].
  - cbn [map snd] in Hn. inversion Hn as [|? ? Hne Hn']; subst.
    destruct (setitem_known cls s k e (AElem e) (Hm k e (or_introl eq_refl))) as (A & B).
    change (assigned cls (m_h s) (e_class (m_h s) e) (e_con (m_h s) e) (AElem e)) with (own_set cls s e) in *.
    destruct (map_setitem cls s k (AElem e)) as [s1 r1]. cbn [fst snd] in *.
    pose proof (only_same _ _ _ _ A) as SM. destruct A as (A1 & A2 & A3 & A4 & A5).
    destruct r1 as [[]|x].
    + specialize (IH s1 Hn'). destruct (set_items (map_setitem cls) s1 _ None) as [s' r].
      destruct IH as (SM' & Hfar & H).
      { intros k' e' H'. rewrite (same_mget _ _ _ SM). apply Hm. now right. }
      assert (Hown : forall x, In x (map snd l) -> own_set cls s1 x = own_set cls s x).
      { intros x Hx. unfold own_set. destruct (A5 x) as (_ & a & _ & d). rewrite a, d; [reflexivity|]. intros ->. easy. }
      assert (Hb : exists b, snd (own_set cls s e) = Ok b) by (destruct (snd (own_set cls s e)) as [b|]; [now exists b|discriminate]).
      assert (He : e_con (m_h s') e = fst (own_set cls s e)) by (rewrite (Hfar e Hne); exact A4).
      split; [now apply (same_trans _ s1)|]. split.
      { intros i Hi. cbn in Hi. rewrite Hfar by tauto. apply A5. intros ->. tauto. }
      destruct r as [[]|x].
      * intros x [<-|Hx]; [auto|]. rewrite <- (Hown x Hx). now apply H.
      * destruct H as [(y & Hy & H1 & H2) H3]. split.
        -- exists y. rewrite (Hown y Hy) in *. split; [now right|auto].
        -- intros z [<-|Hz]; [now right|]. destruct (H3 z Hz) as [Hz'|Hz'].
           ++ left. rewrite Hz'. apply A5. intros ->. easy.
           ++ right. now rewrite (Hown z Hz) in Hz'.
    + split; [exact SM|]. split; [intros i Hi; apply A5; intros ->; apply Hi; now left|].
      assert (Hx : snd (own_set cls s e) = Err x) by (destruct (snd (own_set cls s e)); cbn in B; congruence).
      split; [exists e; split; [now left|auto]|].
      intros z Hz. destruct (Nat.eq_dec z e) as [->|Hze]; [now right|left; now apply A5].
Qed.
Lemma dict_update_self s : dict_shape fields s ->
  let '(s', r) := update_self (map_setitem cls) s in
  same_members s s' /\ dict_shape fields s'
  /\ (forall i, ~ In i (map snd (m_items s)) -> e_con (m_h s') i = e_con (m_h s) i)
  /\ match r with
     | Ok _ => forall e, In e (map snd (m_items s)) -> e_con (m_h s') e = fst (own_set cls s e) /\ exists b, snd (own_set cls s e) = Ok b
     | Err x => (exists e, In e (map snd (m_items s)) /\ snd (own_set cls s e) = Err x /\ e_con (m_h s') e = fst (own_set cls s e))
                /\ forall e, In e (map snd (m_items s)) -> e_con (m_h s') e = e_con (m_h s) e \/ e_con (m_h s') e = fst (own_set cls s e)
     end.
Proof.
  intros Hs. unfold update_self, map_update. cbn [it_items it_end].
  pose proof (items_self (m_items s) s) as H. destruct (set_items (map_setitem cls) s _ None) as [s1 r].
  destruct H as (SM & Hf & H); [apply Hs|intros k e Hin; apply in_mget; [apply Hs|exact Hin]|].
  destruct r as [[]|x]; cbn; (split; [exact SM|]; split; [now apply (same_shape fields s)|auto]).
Qed.
Lemma aset_id k e (l : list (name * nat)) : aget name_eqb k l = Some e -> aset name_eqb k e l = l.
Proof.
  induction l as [|[k' e'] l IH]; cbn; [discriminate|]. destruct (name_eqb_spec k k') as [->|N].
  - now intros [= ->].
  - intros H. now rewrite IH.
Qed.
Lemma same_mapping_refl s : same_mapping s s. Proof. repeat split. Qed.
Lemma same_mapping_trans s1 s2 s3 : same_mapping s1 s2 -> same_mapping s2 s3 -> same_mapping s1 s3.
Proof.
  intros (A & B & C & D) (A' & B' & C' & D'). split; [congruence|]. split; [congruence|]. split; [congruence|].
  intros i. destruct (D i) as (a & b & c & d), (D' i) as (a' & b' & c' & d'). repeat split; congruence.
Qed.
Lemma sparse_items_self l : forall s, sparse_shape isa fields s -> (forall k e, In (k, e) l -> mget k s = Some e) ->
  let '(s', r) := set_items (sparse_setitem cls isa fields) s (map (fun ke => (fst ke, AElem (snd ke))) l) None in
  same_mapping s s' /\ r = Ok tt.
Proof.
  induction l as [|[k e] l IH]; intros s Hs Hm; cbn [map fst snd set_items].
  - split; [apply same_mapping_refl|reflexivity].
  - pose proof (Hm k e (or_introl eq_refl)) as Em. destruct Hs as [Hn Hin].
    destruct (Hin k e (mget_in _ _ _ Em)) as (L & P & f & Hf & <- & Hi).
    assert (Et : sparse_setitem cls isa fields s (f_name f) (AElem e) = (put (with_eheap s (adopt (m_h s) e (m_self s))) (f_name f) e, Ok tt)).
    { unfold sparse_setitem. rewrite Em, (schema_for_field fields f Huniq Hf), Hi. reflexivity. }
    rewrite Et. set (s1 := put _ _ _).
    assert (S1 : same_mapping s s1).
    { split; [|split; [|split]]; cbn; try reflexivity.
      - apply aset_id. exact Em.
      - intros i. repeat split. unfold fset. destruct (Nat.eqb_spec i e) as [->|]; [now symmetry|reflexivity]. }
    pose proof S1 as (I1 & I2 & I3 & I4).
    specialize (IH s1). destruct (set_items (sparse_setitem cls isa fields) s1 _ None) as [s' r].
    destruct IH as [S2 ->].
    + split; [now rewrite I1|]. intros k' e' H'. rewrite I1 in H'. destruct (Hin k' e' H') as (L' & P' & Hx).
      destruct (I4 e') as (a & b & _). rewrite a, b, I2, I3. auto.
    + intros k' e' H'. unfold mget. rewrite I1. apply Hm. now right.
    + split; [now apply (same_mapping_trans _ s1)|reflexivity].
Qed.
Lemma sparse_update_self s : sparse_shape isa fields s ->
  let '(s', r) := update_self (sparse_setitem cls isa fields) s in same_mapping s s' /\ r = Ok tt.
Proof.
  intros Hs. unfold update_self, map_update. cbn [it_items it_end].
  pose proof (sparse_items_self (m_items s) s Hs) as H. destruct (set_items (sparse_setitem cls isa fields) s _ None) as [s1 r].
  destruct H as [A ->]; [intros k e Hin; apply in_mget; [apply Hs|exact Hin]|]. cbn. auto.
Qed.
End P.
