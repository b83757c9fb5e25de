(* Proofs about Dict operations, assignment sequences, defaults, flat routing. *)
From Verif Require Import PyBase PyBaseFacts ModelUtil ModelSeq ModelMap SpecMap ProofMap ProofMap2.

Section G0.
Context {M : Type}.
Notation st := (mapst M).
Implicit Types (s : st) (k : name) (e : nat) (f : field).
Lemma same_refl s : same_members s s.
Proof. repeat split. Qed.
Lemma same_trans s1 s2 s3 : same_members s1 s2 -> same_members s2 s3 -> same_members s1 s3.
Proof.
  intros (A & B & C & D) (A' & B' & C' & D'). repeat (split; [congruence|]).
  intros i. destruct (D i) as (? & ? & ?), (D' i) as (? & ? & ?). repeat split; congruence.
Qed.
Lemma only_same s s' e m : only_content s s' e m -> same_members s s'.
Proof. intros (A & B & C & _ & D). repeat (split; [easy|]). intros i. destruct (D i). tauto. Qed.
Lemma on_child_only {A} s e (g : M -> M * res A) :
  only_content s (with_eheap s (fst (on_child (m_h s) e g))) e (fst (g (e_con (m_h s) e)))
  /\ snd (on_child (m_h s) e g) = snd (g (e_con (m_h s) e)).
Proof.
  unfold on_child. destruct (g (e_con (m_h s) e)) as (m, r). cbn. split; [|easy].
  repeat (split; [easy|]). split; [apply fset_eq|]. intros i. repeat (split; [easy|]). apply fset_neq.
Qed.
Lemma same_mget s s' k : same_members s s' -> mget k s' = mget k s.
Proof. intros (A & _). unfold mget. now rewrite A. Qed.

Definition distinct s : Prop :=
  (forall k e, mget k s = Some e -> e < e_next (m_h s))
  /\ (forall k k' e, mget k s = Some e -> mget k' s = Some e -> k = k').
Lemma only_content_at s s' k e m k' : distinct s -> mget k s = Some e -> only_content s s' e m ->
  content s' k' = if name_eqb k' k then Some m else content s k'.
Proof.
  intros (_ & D) He (A & _ & _ & B & C). rewrite !content_mget. unfold mget. rewrite A. fold (mget k' s).
  destruct (name_eqb_spec k' k) as [->|N].
  - rewrite He. cbn. congruence.
  - destruct (mget k' s) as [e'|] eqn:E; [|easy]. cbn. f_equal. apply C.
    intros ->. apply N. now apply (D k' k e).
Qed.
Lemma nodup_distinct s : NoDup (keys (m_items s)) -> NoDup (map snd (m_items s)) ->
  forall k k' e, mget k s = Some e -> mget k' s = Some e -> k = k'.
Proof.
  intros _ N k k' e H H'. apply mget_in in H, H'.
  induction (m_items s) as [|(k1, e1) l IH]; [easy|]. cbn [map snd] in N. inversion N; subst.
  destruct H as [H|H], H' as [H'|H'].
  - congruence.
  - exfalso. injection H as -> ->. apply H2. now apply (in_map snd) in H'.
  - exfalso. injection H' as -> ->. apply H2. now apply (in_map snd) in H.
  - auto.
Qed.
Lemma distinct_nodup s : NoDup (keys (m_items s)) ->
  (forall k k' e, mget k s = Some e -> mget k' s = Some e -> k = k') -> NoDup (map snd (m_items s)).
Proof.
  intros N D. assert (D' : forall k k' e, In (k, e) (m_items s) -> In (k', e) (m_items s) -> k = k').
  { intros k k' e H H'. apply (D k k' e); now apply in_mget. }
  clear D. induction (m_items s) as [|(k, e) l IH]; [constructor|]. cbn [map snd keys fst] in *.
  inversion N; subst. constructor.
  - intros I. apply in_map_iff in I. destruct I as ((k', e') & E & I). cbn in E. subst e'.
    apply H1. rewrite (D' k k' e); [now apply (in_map fst) in I|now left|now right].
  - apply IH; [easy|]. intros k1 k2 x H H'. apply (D' k1 k2 x); now right.
Qed.

End G0.
Section Generic.
Context {V M : Type} (cls : nat -> ecls V M).
Notation st := (mapst M).
Implicit Types (s : st) (k : name) (e : nat) (f : field).
Lemma set_child_only s e (a : arg V) :
  let m := assigned cls (m_h s) (e_class (m_h s) e) (e_con (m_h s) e) a in
  only_content s (with_eheap s (fst (set_child cls (m_h s) e a))) e (fst m)
  /\ snd (set_child cls (m_h s) e a) = snd m.
Proof.
  unfold set_child. destruct a as [v|x]; cbn [assigned].
  - apply (on_child_only s e (fun m => c_set (cls (e_class (m_h s) e)) m v)).
  - apply (on_child_only s e (fun m => c_set_el (cls (e_class (m_h s) e)) m (e_con (m_h s) x))).
Qed.
(* ------------------------------ update ------------------------------ *)
Section Assigns.
Context (setitem : st -> name -> arg V -> st * res unit).
Lemma assign_all_app s l1 l2 : assign_all setitem s (l1 ++ l2) = assign_all setitem (assign_all setitem s l1) l2.
Proof. unfold assign_all. now rewrite fold_left_app. Qed.
Lemma all_answer_app s l1 l2 : all_answer setitem s l1 -> all_answer setitem (assign_all setitem s l1) l2 ->
  all_answer setitem s (l1 ++ l2).
Proof.
  intros A B p ka q E. apply app_eq_app in E. destruct E as (l & [(-> & E)|(-> & ->)]).
  - destruct l as [|y l].
    + rewrite app_nil_r in *. apply (B [] ka q). easy.
    + cbn in E. injection E as <- E. apply (A p ka l eq_refl).
  - rewrite assign_all_app. now apply (B l ka q).
Qed.
Lemma assigns_mono s l1 l2 last s' r :
  all_answer setitem s l1 -> assigns setitem (assign_all setitem s l1) l2 last s' r ->
  assigns setitem s (l1 ++ l2) last s' r.
Proof.
  intros A [B L|x B L|d k a rest x E B Ea]; rewrite <- assign_all_app.
  - apply as_done; [now apply all_answer_app|easy].
  - apply as_broken; [now apply all_answer_app|easy].
  - subst l2. rewrite (app_assoc l1 d [(k, a)]). apply as_raised with rest.
    + now rewrite <- app_assoc.
    + now apply all_answer_app.
    + now rewrite assign_all_app.
Qed.
Lemma answer_one s k a : snd (setitem s k a) = Ok tt -> all_answer setitem s [(k, a)].
Proof.
  intros H l1 ka l2 E. destruct l1 as [|x l1]; cbn in E; injection E as <- E; [|now destruct l1].
  easy.
Qed.
Lemma set_items_assigns l : forall s last,
  let '(s', r) := set_items setitem s l last in assigns setitem s l last s' r.
Proof.
  induction l as [|(k, a) l IH]; intros s last; cbn [set_items].
  - assert (N : all_answer setitem s []) by (intros l1 ka l2 E; now destruct l1).
    destruct last; [now apply as_broken | now apply as_done].
  - destruct (setitem s k a) as (s1, r) eqn:E. 
    destruct r as [[]|x].
    + specialize (IH s1 last). destruct (set_items setitem s1 l last) as (s', r').
      apply (assigns_mono s [(k, a)]).
      * apply answer_one. now rewrite E.
      * unfold assign_all. cbn [fold_left fst snd]. now rewrite E.
    + replace s1 with (assign_all setitem s ([] ++ [(k, a)])).
      * apply as_raised with l; [easy| |cbn; now rewrite E]. intros l1 ka l2 E'. now destruct l1.
      * unfold assign_all. cbn. now rewrite E.
Qed.
Lemma update_assigns s it kw :
  let '(s', r) := map_update setitem s [it] kw in
  match it_end it with
  | None => assigns setitem s (it_items it ++ kw) None s' r
  | Some x => assigns setitem s (it_items it) (Some x) s' r
  end.
Proof.
  cbn [map_update]. pose proof (set_items_assigns (it_items it) s (it_end it)) as H.
  destruct (set_items setitem s (it_items it) (it_end it)) as (s1, r1).
  destruct r1 as [[]|x].
  - inversion H; subst. pose proof (set_items_assigns kw (assign_all setitem s (it_items it)) None) as H2.
    destruct (set_items setitem _ kw None) as (s2, r2). rewrite H1. now apply assigns_mono.
  - destruct (it_end it) eqn:E; [easy|]. inversion H as [|? ? ?|d k a rest y Hl Hd Hy]; subst; try easy.
    rewrite Hl, <- app_assoc. cbn [app]. now apply as_raised with (rest ++ kw).
Qed.
Lemma update_none s kw :
  let '(s', r) := map_update setitem s [] kw in assigns setitem s kw None s' r.
Proof. apply set_items_assigns. Qed.
(* something preserved by every assignment *)
Lemma assigns_ind (P : st -> Prop) (ok : name * arg V -> Prop) :
  (forall s k a, P s -> ok (k, a) -> P (fst (setitem s k a))) ->
  forall l s, P s -> Forall ok l -> P (assign_all setitem s l).
Proof.
  intros St l. induction l as [|(k, a) l IH]; intros s Hs F; [easy|]. inversion F; subst.
  unfold assign_all. cbn [fold_left fst snd]. apply IH; auto.
Qed.
Lemma update_ind (P : st -> Prop) (ok : name * arg V -> Prop) s d kw :
  (forall s k a, P s -> ok (k, a) -> P (fst (setitem s k a))) -> P s ->
  Forall (fun it => Forall ok (it_items it)) d -> Forall ok kw ->
  P (fst (map_update setitem s d kw)).
Proof.
  intros St Hs Fd Fk. 
  assert (G : forall l last s', Forall ok l -> forall r, assigns setitem s l last s' r -> P s').
  { intros l last s' Fl r [A L|x A L|q k a rest x E A Ea]; apply (assigns_ind P ok); auto.
    subst. apply Forall_app in Fl. destruct Fl as (F1 & F2). apply Forall_app. split; [easy|].
    inversion F2; subst. repeat constructor. easy. }
  destruct d as [|it [|]]; [| |easy].
  - pose proof (update_none s kw) as H. destruct (map_update setitem s [] kw) as (s', r). cbn [fst].
    now apply (G kw None s' Fk r).
  - inversion Fd; subst. pose proof (update_assigns s it kw) as H. destruct (map_update setitem s [it] kw) as (s', r).
    cbn [fst]. destruct (it_end it).
    + now apply (G (it_items it) (Some e) s' H1 r).
    + apply (G (it_items it ++ kw) None s') with r; [|easy]. now apply Forall_app.
Qed.
End Assigns.
End Generic.

Section D.
Context {V M : Type} (cls : nat -> ecls V M) (fields : list field) (minf : minimum).
Notation st := (mapst M).
Implicit Types (s : st) (k : name) (e : nat) (f : field).
Context (Huniq : NoDup (map f_name fields)).

Lemma shape_mget s : dict_shape fields s -> forall k e, mget k s = Some e ->
  exists f, In f fields /\ f_name f = k /\ e_class (m_h s) e = f_class f
  /\ e_parent (m_h s) e = Some (m_self s) /\ e < e_next (m_h s).
Proof.
  intros (A & B & C & D) k e H. destruct (D (k, e) (mget_in _ _ _ H)) as (f & If & E & ?).
  exists f. split; [easy|]. split; [now symmetry|]. easy.
Qed.
Lemma shape_distinct s : dict_shape fields s -> distinct s.
Proof.
  intros H. split.
  - intros k e He. destruct (shape_mget s H k e He) as (f & ? & ? & ? & ? & ?). easy.
  - destruct H as (A & B & C & D). now apply nodup_distinct.
Qed.
Lemma shape_field s : dict_shape fields s -> forall f, In f fields ->
  exists e, mget (f_name f) s = Some e /\ e_class (m_h s) e = f_class f.
Proof.
  intros H f If. assert (Hm : mget (f_name f) s <> None).
  { apply mget_keys. apply H. now apply in_map. }
  destruct (mget (f_name f) s) as [e|] eqn:E; [|easy]. exists e. split; [easy|].
  destruct (shape_mget s H _ _ E) as (g & Ig & Eg & Ec & _).
  now rewrite <- (fields_eq fields g f Huniq Ig If Eg).
Qed.
Lemma shape_none s k : dict_shape fields s -> (mget k s = None <-> ~ In k (map f_name fields)).
Proof.
  intros (A & B & _). rewrite <- B, <- mget_keys. destruct (mget k s); split; intros; try easy.
  exfalso. now apply H.
Qed.
Lemma shape_within s : dict_shape fields s -> within fields IsDict s.
Proof. intros H. split; [apply H|]. intros k Hk. apply H. now apply mget_keys. Qed.
Lemma same_shape s s' : same_members s s' -> dict_shape fields s -> dict_shape fields s'.
Proof.
  intros (A & B & C & D) (P & Q & R & T). unfold dict_shape. rewrite A. repeat (split; [easy|]).
  intros ke I. destruct (T ke I) as (f & If & E1 & E2 & E3 & E4). exists f. split; [easy|].
  unfold member_of. destruct (D (snd ke)) as (d1 & d2 & d3). rewrite B, C, d1, d2. easy.
Qed.
Lemma good_shape h0 s : good cls fields h0 (m_self s) s -> complete cls fields minf IsDict s -> dict_shape fields s.
Proof.
  intros [A B C D E F G K] Cm.
  assert (Hk : forall k, In k (keys (m_items s)) <-> In k (map f_name fields)).
  { intros k. rewrite <- mget_keys. split.
    - destruct (mget k s) as [e|] eqn:Em; [|easy]. intros _. pose proof (E _ _ Em) as Hs.
      destruct (schema_for_in _ _ _ Hs) as (f & If & <- & _). now apply in_map.
    - intros I. apply in_map_iff in I. destruct I as (f & <- & If). now apply Cm. }
  split; [easy|]. split; [easy|]. split; [now apply distinct_nodup|].
  intros (k, e) I. pose proof (in_mget s k e K I) as Em. pose proof (E _ _ Em) as Hs.
  destruct (schema_for_in _ _ _ Hs) as (f & If & <- & Ec). exists f. split; [easy|].
  unfold member_of. cbn [fst snd]. rewrite (F _ _ Em), <- Ec. specialize (C _ _ Em). repeat split; auto. lia.
Qed.
Lemma reset_shape s : (dict_shape fields s \/ m_items s = []) -> dict_shape fields (do_reset cls fields minf IsDict s).
Proof.
  intros H. assert (W : within fields IsDict s).
  { destruct H as [H|H]; [now apply shape_within|]. split.
    - rewrite H. constructor.
    - intros k Hk. apply mget_keys in Hk. rewrite H in Hk. easy. }
  destruct (reset_good cls fields minf Huniq IsDict s W) as (G & C & _).
  apply good_shape with (m_h s); [|easy]. now rewrite (g_self _ _ _ _ _ G).
Qed.
Context (isa : nat -> nat -> bool) (Hrefl : isa_refl isa).
Lemma set_shape own s src g : dict_shape fields s ->
  dict_shape fields (fst (dict_set cls isa fields minf IsDict own s src g)).
Proof.
  intros H. destruct src as [|[l last]]; [exact H|].
  assert (Hg : g = Some OtherPolicy \/ g <> Some OtherPolicy) by (destruct g as [[]|]; auto; right; congruence).
  destruct Hg as [->|Hg].
  - cbn. apply reset_shape. now left.
  - pose proof (dict_set_spec cls isa fields minf Huniq Hrefl IsDict own s l last g (shape_within s H) Hg) as K.
    destruct (dict_set cls isa fields minf IsDict own s (Pairs (Iter l last)) g) as (s', r).
    destruct K as (d & _ & _ & G & C). cbn [fst]. apply good_shape with (m_h s); [|easy].
    now rewrite (g_self _ _ _ _ _ G).
Qed.

(* ------------------------------ assignment ------------------------------ *)
Lemma setitem_known s k e (a : arg V) : mget k s = Some e ->
  let m := assigned cls (m_h s) (e_class (m_h s) e) (e_con (m_h s) e) a in
  only_content s (fst (map_setitem cls s k a)) e (fst m)
  /\ snd (map_setitem cls s k a) = rmap (fun _ => tt) (snd m).
Proof.
  intros H m. unfold map_setitem. rewrite H. destruct (set_child_only cls s e a) as (A & B).
  fold m in A, B. destruct (set_child cls (m_h s) e a) as (h, r). cbn in *. split; [easy|]. now rewrite B.
Qed.
Lemma setitem_unknown s k (a : arg V) : mget k s = None -> map_setitem cls s k a = (s, Err TypeErr).
Proof. intros H. unfold map_setitem. now rewrite H. Qed.
Lemma setitem_same s k (a : arg V) : same_members s (fst (map_setitem cls s k a)).
Proof.
  destruct (mget k s) as [e|] eqn:E.
  - apply only_same with e (fst (assigned cls (m_h s) (e_class (m_h s) e) (e_con (m_h s) e) a)).
    now apply setitem_known.
  - rewrite setitem_unknown by easy. apply same_refl.
Qed.

(* ------------------------------ defaults ------------------------------ *)
Lemma default_children_same es : forall s, same_members s (fst (default_children cls s es)).
Proof.
  induction es as [|e es IH]; intros s; cbn [default_children]; [apply same_refl|].
  destruct (on_child_only s e (c_default (cls (e_class (m_h s) e)))) as (A & B).
  destruct (on_child (m_h s) e _) as (h, r). cbn [fst] in A. apply only_same in A.
  destruct r; [|easy]. apply (same_trans _ _ _ A). apply IH.
Qed.
Definition def_of s k : option (M * res unit) :=
  option_map (fun e => c_default (cls (e_class (m_h s) e)) (e_con (m_h s) e)) (mget k s).
Lemma default_children_spec es : NoDup es -> forall s,
  let '(s', r) := default_children cls s es in
  (forall e, ~ In e es -> e_con (m_h s') e = e_con (m_h s) e)
  /\ let d e := c_default (cls (e_class (m_h s) e)) (e_con (m_h s) e) in
     match r with
     | Ok _ => forall e, In e es -> e_con (m_h s') e = fst (d e) /\ snd (d e) = Ok tt
     | Err x => (exists e, In e es /\ snd (d e) = Err x /\ e_con (m_h s') e = fst (d e))
                /\ forall e, In e es -> e_con (m_h s') e = e_con (m_h s) e
                                        \/ e_con (m_h s') e = fst (d e)
     end.
Proof.
  induction es as [|e es IH]; intros N s; cbn [default_children].
  - split; easy.
  - inversion N as [|? ? Ne N']; subst.
    destruct (on_child_only s e (c_default (cls (e_class (m_h s) e)))) as ((A1 & A2 & A3 & A4 & A5) & B).
    destruct (on_child (m_h s) e _) as (h, r) eqn:Eo. cbn [fst snd with_eheap m_h] in *.
    destruct r as [[]|x].
    + specialize (IH N' (with_eheap s h)). destruct (default_children cls (with_eheap s h) es) as (s', r').
      cbn [with_eheap m_h] in IH. destruct IH as (I1 & I2).
      assert (Hd : forall e', In e' es -> c_default (cls (e_class h e')) (e_con h e')
                              = c_default (cls (e_class (m_h s) e')) (e_con (m_h s) e')).
      { intros e' I. destruct (A5 e') as (_ & c & _ & d). rewrite c, d; [easy|]. intros ->. easy. }
      assert (He : e_con (m_h s') e = fst (c_default (cls (e_class (m_h s) e)) (e_con (m_h s) e))).
      { rewrite I1 by easy. exact A4. }
      split.
      * intros e' I. cbn in I. rewrite I1 by tauto. apply A5. intros ->. tauto.
      * destruct r' as [[]|x].
        -- intros e' [<-|I]; [now rewrite He, <- B|]. rewrite <- (Hd e' I). now apply I2.
        -- destruct I2 as ((e' & I & E1 & E2) & I3). split.
           ++ exists e'. rewrite (Hd e' I) in *. cbn. auto.
           ++ intros y [<-|Iy]; [now right|]. destruct (I3 y Iy) as [E|E].
              ** left. rewrite E. apply A5. intros ->. easy.
              ** right. now rewrite (Hd y Iy) in E.
    + cbn [m_h with_eheap]. split.
      * intros e' I. apply A5. intros ->. apply I. now left.
      * split.
        -- exists e. cbn. split; [now left|]. split; [now rewrite <- B|]. exact A4.
        -- intros e' [<-|I]; [now right|]. left. apply A5. intros ->. easy.
Qed.
End D.
