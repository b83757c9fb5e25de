(* Proofs: the attributes and the contents of a rewritten tag. *)
From Verif Require Import PyBase PyBaseFacts ModelMarkup SpecMarkup ProofMarkup ProofMarkup4 ModelGenshi SpecGenshi ProofGenshi ProofGenshi2.
From Coq Require Import Sorting.Sorted Permutation.

Lemma qget_set {V} q q' (v : V) l : aget qname_eqb q (aset qname_eqb q' v l) = if qname_eqb q q' then Some v else aget qname_eqb q l.
Proof. apply (aget_aset _ qname_eqb_eq). Qed.
Lemma qget_del {V} q q' (l : list (qname * V)) : aget qname_eqb q (adel qname_eqb q' l) = if qname_eqb q q' then None else aget qname_eqb q l.
Proof. apply (aget_adel _ qname_eqb_eq). Qed.
Lemma sget_set {V} q q' (v : V) l : aget str_eqb q (aset str_eqb q' v l) = if str_eqb q q' then Some v else aget str_eqb q l.
Proof. apply (aget_aset _ str_eqb_eq). Qed.
Lemma sget_del {V} q q' (l : list (str * V)) : aget str_eqb q (adel str_eqb q' l) = if str_eqb q q' then None else aget str_eqb q l.
Proof. apply (aget_adel _ str_eqb_eq). Qed.
Lemma qkeys_set_in {V} q (v : V) l : In q (keys l) -> keys (aset qname_eqb q v l) = keys l.
Proof. apply (keys_aset_in _ qname_eqb_eq). Qed.
Lemma qkeys_set_out {V} q (v : V) l : ~ In q (keys l) -> keys (aset qname_eqb q v l) = keys l ++ [q].
Proof. apply (keys_aset_notin _ qname_eqb_eq). Qed.
Lemma qget_in {V} q (l : list (qname * V)) : (exists v, aget qname_eqb q l = Some v) <-> In q (keys l).
Proof. apply (aget_Some_keys _ qname_eqb_eq). Qed.
Lemma qget_out {V} q (l : list (qname * V)) : aget qname_eqb q l = None <-> ~ In q (keys l).
Proof. apply (aget_None _ qname_eqb_eq). Qed.
Lemma sget_in {V} q (l : list (str * V)) : (exists v, aget str_eqb q l = Some v) <-> In q (keys l).
Proof. apply (aget_Some_keys _ str_eqb_eq). Qed.
Lemma sget_out {V} q (l : list (str * V)) : aget str_eqb q l = None <-> ~ In q (keys l).
Proof. apply (aget_None _ str_eqb_eq). Qed.
Lemma local_eqb k k' : qname_eqb (QName None k) (QName None k') = str_eqb k k'.
Proof. reflexivity. Qed.
Lemma foreign_eqb n k k' : qname_eqb (QName (Some n) k) (QName None k') = false.
Proof. reflexivity. Qed.

(* ---- reading ---- *)
Definition fold_names (ex : list (str * qname)) : Prop := forall k q, aget str_eqb k ex = Some q -> q = QName None k.
Lemma read_spec : forall l a ex m a' ex' m', read_attrs l a ex m = Ok (a', ex', m') ->
  NoDup (keys l) -> incl (keys l) (keys a) ->
  keys a' = keys a
  /\ (forall n k, aget qname_eqb (QName (Some n) k) a' = aget qname_eqb (QName (Some n) k) a)
  /\ (forall k, match aget qname_eqb (QName None k) l with
                | Some v => exists w, attr_reads v w /\ aget str_eqb k m' = Some w /\ aget str_eqb k ex' = Some (QName None k)
                | None => aget str_eqb k m' = aget str_eqb k m /\ aget str_eqb k ex' = aget str_eqb k ex
                end)
  /\ (NoDup (keys m) -> NoDup (keys m')) /\ (NoDup (keys ex) -> NoDup (keys ex')).
Proof.
  induction l as [|[q v] l IH]; intros a ex m a' ex' m' E Nl Il.
  - injection E as <- <- <-. repeat split; try easy.
  - cbn [read_attrs] in E. inversion Nl as [|? ? Nq Nl']; subst. cbn [fst] in Nq. assert (incl (keys l) (keys a)) as Il' by (intros x Hx; apply Il; now right).
    destruct q as [[n|] k0]; cbn [q_ns q_local] in E.
    + destruct (IH _ _ _ _ _ _ E Nl' Il') as (A & B & C & D). split; [easy|]. split; [easy|]. split; [|easy].
      intros k. cbn [aget]. change (qname_eqb (QName None k) (QName (Some n) k0)) with false. cbv iota. apply C.
    + set (step := match v with inl (MText s) => _ | _ => _ end) in E.
      assert (S : forall a1 w, step = Ok (a1, w) -> attr_reads v w /\ keys a1 = keys a
                 /\ (forall n k, aget qname_eqb (QName (Some n) k) a1 = aget qname_eqb (QName (Some n) k) a)).
      { intros a1 w Es. subst step. destruct v as [v|lv].
        - destruct v; try discriminate; injection Es as <- <-; repeat split; constructor.
        - destruct (simplify lv) as [[t|]|] eqn:Sv; try discriminate. cbn [bind] in Es. injection Es as <- <-.
          apply simplify_text in Sv. split; [now constructor|]. unfold attrs_or. split.
          + apply qkeys_set_in, Il. now left.
          + intros n k. rewrite qget_set, foreign_eqb. easy. }
      destruct step as [[a1 w]|]; [|discriminate]. cbn [bind fst snd] in E. destruct (S a1 w eq_refl) as (S1 & S2 & S3). clear S.
      destruct (IH _ _ _ _ _ _ E Nl') as (A & B & C & D1 & D2); [now rewrite S2|].
      split; [congruence|]. split; [intros n k; now rewrite B, S3|]. split; [|split].
      * intros k. cbn [aget]. rewrite local_eqb. specialize (C k). rewrite !sget_set in C.
        destruct (str_eqb k k0) eqn:Ek; [apply str_eqb_eq in Ek; subst k|].
        -- destruct (aget qname_eqb (QName None k0) l) eqn:G.
           ++ elim Nq. apply qget_in. eauto.
           ++ exists w. destruct C as (C1 & C2). now rewrite C1, C2.
        -- apply C.
      * intros Nm. apply D1. now apply (NoDup_keys_aset _ str_eqb_eq).
      * intros Ne. apply D2. now apply (NoDup_keys_aset _ str_eqb_eq).
Qed.

(* ---- writing ---- *)
Definition adds (pairs : attrs) (a : gattrs) : gattrs := fold_left (fun a p => attrs_or a (QName None (fst p)) (inl (snd p))) pairs a.
Definition drops (ex : list (str * qname)) (a : gattrs) : gattrs := fold_left (fun a p => attrs_sub a (snd p)) ex a.
Definition unread (pairs : attrs) (ex : list (str * qname)) : list (str * qname) := fold_left (fun ex p => adel str_eqb (fst p) ex) pairs ex.
Lemma fold_names_del k ex : fold_names ex -> fold_names (adel str_eqb k ex).
Proof. intros F k' q. rewrite sget_del. destruct (str_eqb k' k); [easy|]. apply F. Qed.
Lemma adel_same {V} k (ex : list (str * V)) : aget str_eqb k ex = None -> adel str_eqb k ex = ex.
Proof.
  induction ex as [|[k' q] ex IH]; cbn [aget adel]; [easy|]. destruct (str_eqb k k'); [easy|]. intros E. now rewrite IH.
Qed.
Lemma write_eq : forall pairs a ex, fold_names ex -> write_attrs pairs a ex = drops (unread pairs ex) (adds pairs a).
Proof.
  induction pairs as [|[k v] pairs IH]; intros a ex F; [reflexivity|]. cbn [write_attrs].
  destruct (aget str_eqb k ex) as [q|] eqn:E.
  - rewrite (F _ _ E), IH by now apply fold_names_del. reflexivity.
  - rewrite IH by easy. unfold unread, adds. cbn [fold_left fst snd]. now rewrite (adel_same k ex E).
Qed.
Lemma unread_get pairs : forall ex k, aget str_eqb k (unread pairs ex) = if ahas str_eqb k pairs then None else aget str_eqb k ex.
Proof.
  unfold unread, ahas. induction pairs as [|[k0 v] pairs IH]; intros ex k; [reflexivity|]. cbn [fold_left fst aget].
  rewrite IH, sget_del. destruct (str_eqb k k0); [|easy]. now destruct (aget str_eqb k pairs).
Qed.
Lemma unread_NoDup pairs : forall ex, NoDup (keys ex) -> NoDup (keys (unread pairs ex)).
Proof.
  unfold unread. induction pairs as [|[k0 v] pairs IH]; intros ex H; [easy|]. cbn [fold_left fst]. apply IH. now apply (NoDup_keys_adel _ str_eqb_eq).
Qed.
Lemma adds_get : forall pairs a q, NoDup (keys pairs) -> aget qname_eqb q (adds pairs a) =
  match q_ns q with
  | Some _ => aget qname_eqb q a
  | None => match aget str_eqb (q_local q) pairs with Some v => Some (inl v) | None => aget qname_eqb q a end
  end.
Proof.
  unfold adds. induction pairs as [|[k0 v] pairs IH]; intros a [[n|] k] Np; cbn [fold_left q_ns q_local aget fst snd]; try easy.
  - inversion Np; subst. rewrite IH by easy. cbn [q_ns]. unfold attrs_or. now rewrite qget_set, foreign_eqb.
  - inversion Np as [|? ? N1 N2]; subst. rewrite IH by easy. cbn [q_ns q_local]. unfold attrs_or. rewrite qget_set, local_eqb.
    destruct (str_eqb k k0) eqn:Ek; [apply str_eqb_eq in Ek; subst k|easy]. cbn [fst] in N1. apply sget_out in N1. now rewrite N1.
Qed.
Definition fresh (a : gattrs) (k : str) : bool := negb (memb qname_eqb (QName None k) (keys a)).
Lemma memb_q q l : memb qname_eqb q l = true <-> In q l.
Proof.
  unfold memb. rewrite existsb_exists. split.
  - intros (x & I & E). apply qname_eqb_eq in E. now subst. - intros I. exists q. split; [easy|apply qname_eqb_refl].
Qed.
Lemma memb_q_false q l : memb qname_eqb q l = false <-> ~ In q l.
Proof. rewrite <- memb_q. destruct (memb qname_eqb q l); split; congruence. Qed.
Lemma filter_ext_in' {A} (f g : A -> bool) l : (forall x, In x l -> f x = g x) -> filter f l = filter g l.
Proof. apply filter_ext_in. Qed.
Lemma adds_keys : forall pairs a, NoDup (keys pairs) -> keys (adds pairs a) = keys a ++ map (QName None) (filter (fresh a) (keys pairs)).
Proof.
  unfold adds. induction pairs as [|[k0 v] pairs IH]; intros a Np; cbn [fold_left].
  - cbn. now rewrite app_nil_r.
  - inversion Np as [|? ? N1 N2]; subst. cbn [fst snd] in *. rewrite IH by easy. unfold attrs_or. cbn [keys map fst filter].
    unfold fresh at 2. destruct (memb qname_eqb (QName None k0) (keys a)) eqn:M; cbn [negb].
    + apply memb_q in M. rewrite qkeys_set_in by easy. f_equal. f_equal. apply filter_ext_in. intros k Ik. unfold fresh.
      now rewrite qkeys_set_in.
    + apply memb_q_false in M. rewrite qkeys_set_out by easy. rewrite <- app_assoc. f_equal. cbn [app map]. f_equal. f_equal.
      apply filter_ext_in. intros k Ik. unfold fresh. f_equal. rewrite qkeys_set_out by easy. unfold memb. rewrite existsb_app. cbn [existsb].
      rewrite local_eqb. destruct (str_eqb k k0) eqn:Ek; [apply str_eqb_eq in Ek; subst k; now elim N1|]. now rewrite !orb_false_r.
Qed.
Lemma drops_get ex : forall a q, aget qname_eqb q (drops ex a) = if memb qname_eqb q (map snd ex) then None else aget qname_eqb q a.
Proof.
  unfold drops. induction ex as [|[k0 q0] ex IH]; intros a q; [reflexivity|]. cbn [fold_left snd map]. rewrite IH. unfold attrs_sub.
  rewrite qget_del. unfold memb. cbn [existsb]. destruct (qname_eqb q q0); [|easy]. now destruct (existsb (qname_eqb q) (map snd ex)).
Qed.
Lemma keys_del {V} q (a : list (qname * V)) : keys (adel qname_eqb q a) = filter (fun x => negb (qname_eqb q x)) (keys a).
Proof.
  induction a as [|[q' v] a IH]; [reflexivity|]. cbn [adel keys map fst filter]. destruct (qname_eqb q q'); cbn [negb]; [easy|]. cbn [map fst]. unfold keys in IH. now rewrite IH.
Qed.
Lemma filter_filter {A} (f g : A -> bool) l : filter f (filter g l) = filter (fun x => g x && f x) l.
Proof. induction l as [|x l IH]; [reflexivity|]. cbn. destruct (g x); cbn; [destruct (f x); now rewrite IH|easy]. Qed.
Lemma qname_eqb_sym a b : qname_eqb a b = qname_eqb b a.
Proof. destruct (qname_dec a b) as [->|D]; [easy|]. rewrite !qname_eqb_neq; congruence. Qed.
Lemma drops_keys ex : forall a, keys (drops ex a) = filter (fun q => negb (memb qname_eqb q (map snd ex))) (keys a).
Proof.
  unfold drops. induction ex as [|[k0 q0] ex IH]; intros a; cbn [fold_left snd map].
  - cbn. induction (keys a) as [|x l IHl]; [easy|]. cbn. now rewrite <- IHl.
  - rewrite IH. unfold attrs_sub. rewrite keys_del, filter_filter. apply filter_ext. intros q. unfold memb. cbn [existsb].
    rewrite (qname_eqb_sym q0 q). now destruct (qname_eqb q q0).
Qed.

Lemma get_perm {V} (l l' : list (str * V)) k : NoDup (keys l) -> Permutation l l' -> aget str_eqb k l' = aget str_eqb k l.
Proof.
  intros N0 P. destruct (aget str_eqb k l) as [v|] eqn:E.
  - apply (aget_In _ str_eqb_eq) in E. apply (In_aget _ str_eqb_eq).
    + apply (Permutation_NoDup (Permutation_map fst P)). exact N0. + eapply Permutation_in; eauto.
  - apply sget_out in E. apply sget_out. intros I. apply E. unfold keys in *. eapply Permutation_in; [apply Permutation_sym, Permutation_map, P|exact I].
Qed.
Lemma sorted_filter {A} (R : A -> A -> Prop) f l : StronglySorted R l -> StronglySorted R (filter f l).
Proof.
  induction 1 as [|x l Hs IH Hf]; cbn [filter]; [constructor|]. destruct (f x); [|easy]. constructor; [easy|].
  rewrite Forall_forall in *. intros y Hy. apply filter_In in Hy as (Hy & _). auto.
Qed.
Lemma sorted_keys (m : attrs) : NoDup (keys m) -> StronglySorted (fun x y => ordered_before (x, tt) (y, tt)) (keys (sort_attrs m)).
Proof.
  intros N0. apply sort_sorted in N0. induction N0 as [|x l Hs IH Hf]; cbn [keys map]; constructor; [easy|].
  rewrite Forall_forall in *. intros y Hy. apply in_map_iff in Hy as ([ky vy] & <- & Hy). apply (Hf _ Hy).
Qed.

Lemma write_spec a0 a ex (m : attrs) :
  keys a = keys a0 -> (forall n k, aget qname_eqb (QName (Some n) k) a = aget qname_eqb (QName (Some n) k) a0) ->
  (forall k, aget str_eqb k ex = if memb qname_eqb (QName None k) (keys a0) then Some (QName None k) else None) ->
  NoDup (keys ex) -> NoDup (keys m) -> written a0 m (write_attrs (sort_attrs m) a ex).
Proof.
  intros Ka Fa Ex Ne Nm.
  assert (Np : NoDup (keys (sort_attrs m))).
  { unfold keys. eapply Permutation_NoDup; [apply Permutation_map, Permutation_sym, sort_perm|exact Nm]. }
  assert (Gp : forall k, aget str_eqb k (sort_attrs m) = aget str_eqb k m).
  { intros k. apply get_perm; [easy|]. apply Permutation_sym, sort_perm. }
  assert (Kp : forall k, In k (keys (sort_attrs m)) <-> In k (keys m)).
  { intros k. rewrite <- !sget_in, Gp. easy. }
  rewrite write_eq. 2: { intros k q E. rewrite Ex in E. destruct (memb qname_eqb (QName None k) (keys a0)); congruence. }
  assert (U : forall q, memb qname_eqb q (map snd (unread (sort_attrs m) ex)) = true <->
                q_ns q = None /\ In q (keys a0) /\ ~ In (q_local q) (keys m)).
  { intros q. rewrite memb_q, in_map_iff. split.
    - intros ([k q'] & E & I). cbn [snd] in E. subst q'. apply (In_aget _ str_eqb_eq) in I; [|now apply unread_NoDup].
      rewrite unread_get, Ex in I. unfold ahas in I. rewrite Gp in I. destruct (aget str_eqb k m) eqn:G; [discriminate|].
      destruct (memb qname_eqb (QName None k) (keys a0)) eqn:M; [|discriminate]. injection I as <-. cbn. split; [easy|]. split; [now apply memb_q|]. now apply sget_out.
    - destruct q as [ns k]. cbn [q_ns q_local]. intros (-> & I & O). exists (k, QName None k). split; [easy|]. apply (aget_In _ str_eqb_eq).
      rewrite unread_get, Ex. unfold ahas. rewrite Gp. apply sget_out in O. rewrite O. apply memb_q in I. now rewrite I. }
  assert (Un : forall q, memb qname_eqb q (map snd (unread (sort_attrs m) ex)) = false <->
                ~ (q_ns q = None /\ In q (keys a0) /\ ~ In (q_local q) (keys m))).
  { intros q. rewrite <- U. destruct (memb qname_eqb q (map snd (unread (sort_attrs m) ex))); split; congruence. }
  split.
  - intros n k. rewrite drops_get, (proj2 (Un _)) by easy. rewrite adds_get by easy. apply Fa.
  - intros k. rewrite drops_get, adds_get by easy. cbn [q_ns q_local]. rewrite Gp. destruct (aget str_eqb k m) as [v|] eqn:G.
    + rewrite (proj2 (Un _)); [easy|]. cbn. intros (_ & _ & O). apply O, sget_in. eauto.
    + cbn [option_map]. destruct (memb qname_eqb (QName None k) (map snd (unread (sort_attrs m) ex))) eqn:M; [easy|].
      apply qget_out. rewrite Ka. intros I. apply Un in M. apply M. cbn. split; [easy|]. split; [easy|]. now apply sget_out.
  - exists (filter (fresh a0) (keys (sort_attrs m))). split; [|split].
    + change (map fst (drops (unread (sort_attrs m) ex) (adds (sort_attrs m) a))) with (keys (drops (unread (sort_attrs m) ex) (adds (sort_attrs m) a))).
      rewrite drops_keys, adds_keys by easy. rewrite filter_app, Ka. f_equal.
      * apply filter_ext_in. intros [[n|] k] I; cbn [stays q_ns q_local].
        -- now rewrite (proj2 (Un _)).
        -- unfold stays, ahas. cbn [q_ns q_local]. destruct (aget str_eqb k m) eqn:G.
           ++ rewrite (proj2 (Un _)); [easy|]. cbn. intros (_ & _ & O). apply O, sget_in. eauto.
           ++ rewrite (proj2 (U _)); [easy|]. cbn. split; [easy|]. split; [easy|]. now apply sget_out.
      * assert (filter (fresh a) (keys (sort_attrs m)) = filter (fresh a0) (keys (sort_attrs m))) as ->.
        { apply filter_ext. intros k. unfold fresh. now rewrite Ka. }
        rewrite (filter_ext_in _ (fun _ => true)).
        -- induction (map (QName None) _) as [|x l IHl]; [easy|]. cbn. now rewrite IHl.
        -- intros q I. apply in_map_iff in I as (k & <- & I). apply filter_In in I as (I & F). rewrite (proj2 (Un _)); [easy|].
           cbn. intros (_ & I2 & _). unfold fresh in F. apply memb_q in I2. now rewrite I2 in F.
    + intros k. rewrite filter_In, Kp. unfold fresh. rewrite negb_true_iff, memb_q_false. easy.
    + apply sorted_filter, sorted_keys, Nm.
Qed.
