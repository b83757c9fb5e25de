(* Native data through flat pairs and back. *)
From Verif Require Import PyBase PyBaseFacts PyList ModelUtil ModelMap SpecScalar ModelPaths SpecPaths ModelScalar ModelFlat SpecFlat
  ModelNest ProofFlat ProofFlat2 ProofFlat5 ProofFlat6 ProofFlat8 SpecAgain ProofAgain SpecTrip ProofScalar3.
From Verif Require SpecNest ProofNest ProofNest2 ProofNest6 SpecForm ProofForm2 ModelGenshi SpecGenshi SpecPost ProofPost.

Lemma choose {A B} (R : A -> B -> Prop) l : (forall x, In x l -> exists y, R x y) -> exists l', Forall2 R l l'.
Proof.
  induction l as [|x l IH]; intros H; [now exists []|]. destruct (H x (or_introl eq_refl)) as (y & Hy).
  destruct IH as (l' & F); [intros z I; apply H; now right|]. exists (y :: l'). now constructor.
Qed.
Lemma F2_in_l {A B} (R : A -> B -> Prop) l l' x : Forall2 R l l' -> In x l -> exists y, In y l' /\ R x y.
Proof. induction 1 as [|a b l l' H F IH]; intros I; [easy|]. destruct I as [->|I]; [exists b; split; [now left|easy]|]. destruct (IH I) as (y & J & K). exists y. split; [now right|easy]. Qed.
Lemma F2_in_r {A B} (R : A -> B -> Prop) l l' y : Forall2 R l l' -> In y l' -> exists x, In x l /\ R x y.
Proof. induction 1 as [|a b l l' H F IH]; intros I; [easy|]. destruct I as [->|I]; [exists a; split; [now left|easy]|]. destruct (IH I) as (x & J & K). exists x. split; [now right|easy]. Qed.
Lemma F2_keys {A B} (R : name * A -> name * B -> Prop) l l' : (forall x y, R x y -> fst x = fst y) -> Forall2 R l l' -> map fst l = map fst l'.
Proof. intros H. induction 1 as [|a b l l' Hr F IH]; [easy|]. cbn. now rewrite (H _ _ Hr), IH. Qed.
Lemma nodup_one {A} (l : list (name * A)) k x y : NoDup (map fst l) -> In (k, x) l -> In (k, y) l -> x = y.
Proof.
  induction l as [|[k0 z] l IH]; [easy|]. cbn [map fst]. intros N I J. inversion N as [|? ? N1 N2]; subst.
  destruct I as [I|I], J as [J|J]; [congruence| | |now apply IH].
  - injection I as <- <-. exfalso. apply N1. now apply (in_map fst) in J.
  - injection J as <- <-. exfalso. apply N1. now apply (in_map fst) in I.
Qed.
Lemma shown_child p e i u : member e i = Some u -> shown p u -> shown p e.
Proof.
  intros M (q & v & w & P & T & N). exists (q ++ [i]), v, w. rewrite part_app, M. easy.
Qed.
Lemma shown_in_dict p n cp l k u : In (k, u) l -> shown p u -> shown p (EDict n cp l).
Proof. intros I S. apply In_nth_error in I as (i & E). apply (shown_child p _ i u); [|easy]. cbn. now rewrite E. Qed.
Lemma shown_in_list p n l u : In u l -> shown p u -> shown p (EList n l) /\ shown p (EArray n l).
Proof. intros I S. apply In_nth_error in I as (i & E). split; apply (shown_child p _ i u); easy. Qed.
Lemma matching_names fs gs : Forall2 (fun f g => fst (fst g) = schema_name (snd f) /\ snd (fst g) = fst f /\ matching (snd f) (snd g)) fs gs ->
  map (@SpecNest.fname) gs = map fname fs.
Proof. induction 1 as [|f g fs gs (A & _) F IH]; [easy|]. cbn. unfold SpecNest.fname at 1, fname at 1. now rewrite A, IH. Qed.
Lemma matching_field fs gs b f : Forall2 (fun f g => fst (fst g) = schema_name (snd f) /\ snd (fst g) = fst f /\ matching (snd f) (snd g)) fs gs ->
  In (b, f) fs -> exists g, In g gs /\ SpecNest.fname g = schema_name f /\ SpecNest.held g = b /\ matching f (SpecNest.fschema g).
Proof.
  intros F I. destruct (F2_in_l _ _ _ _ F I) as (g & Ig & A & B & M). exists g. repeat split; assumption.
Qed.
Lemma matching_field' fs gs g : Forall2 (fun f g => fst (fst g) = schema_name (snd f) /\ snd (fst g) = fst f /\ matching (snd f) (snd g)) fs gs ->
  In g gs -> exists b f, In (b, f) fs /\ SpecNest.fname g = schema_name f /\ SpecNest.held g = b /\ matching f (SpecNest.fschema g).
Proof.
  intros F I. destruct (F2_in_r _ _ _ _ F I) as ([b f] & Ig & A & B & M). exists b, f. repeat split; assumption.
Qed.
Lemma given_one k d (l : list (name * data)) : NoDup (map fst l) -> In (k, d) l -> SpecNest.given k l = [d].
Proof.
  unfold SpecNest.given. induction l as [|[k' d'] l IH]; [easy|]. cbn [map fst filter]. intros N I. inversion N as [|? ? N1 N2]; subst.
  destruct (name_eqb_spec k k') as [E|E].
  - subst k'. assert (d' = d) as -> by (destruct I as [I|I]; [congruence|exfalso; apply N1; now apply (in_map fst) in I]).
    cbn [map snd]. f_equal. clear - N1. induction l as [|[a b] l IH]; [easy|]. cbn [filter fst]. destruct (name_eqb_spec k a) as [E|E].
    + exfalso. apply N1. subst a. now left.
    + apply IH. intros X. apply N1. now right.
  - destruct I as [I|I]; [congruence|]. now apply IH.
Qed.
Lemma matching_held fs gs k : Forall2 (fun f g => fst (fst g) = schema_name (snd f) /\ snd (fst g) = fst f /\ matching (snd f) (snd g)) fs gs ->
  In k (map SpecNest.fname (filter SpecNest.held gs)) -> exists f, In (true, f) fs /\ schema_name f = k.
Proof.
  intros F I. apply in_map_iff in I as (g & <- & I). apply filter_In in I as [I H].
  destruct (matching_field' _ _ _ F I) as (b & f & J & E & Hb & _). rewrite H in Hb. subst b. exists f. now split.
Qed.
Lemma NoDup_filter_map {A B} (f : A -> B) h l : NoDup (map f l) -> NoDup (map f (filter h l)).
Proof.
  induction l as [|x l IH]; [easy|]. cbn [map filter]. intros N. inversion N as [|? ? N1 N2]; subst. destruct (h x); [|now apply IH].
  cbn [map]. constructor; [|now apply IH]. intros I. apply N1. apply in_map_iff in I as (y & <- & I). apply in_map. now apply filter_In in I.
Qed.
Lemma last_app {A} (l l' : list A) x : l = l' ++ [x] -> nth_error l (List.length l') = Some x.
Proof. intros ->. rewrite nth_error_app2 by lia. now rewrite Nat.sub_diag. Qed.

Lemma F2_last {A B} (R : A -> B -> Prop) l l' m' y : Forall2 R l l' -> l' = m' ++ [y] -> exists m x, l = m ++ [x] /\ R x y.
Proof.
  intros F ->. apply Forall2_app_inv_r in F as (m & k & Fm & Fk & ->). inversion Fk as [|x ? k' ? H Fn]; subst. inversion Fn; subst. now exists m, x.
Qed.
Lemma seq_dressed object m g p l :
  (forall d, comes_back p m d -> exists r e, nested_set object g (empty g) d = (r, Ok true) /\ dressed m r e /\ same_data (record_value r) d
      /\ is_of m e /\ kept p m e /\ forall q, tells q m d -> shown q e) ->
  Forall (comes_back p m) l -> exists rs els,
    SpecNest.verdict (map (fun d => snd (nested_set object g (empty g) d)) l) = Ok true
    /\ map (fun d => fst (nested_set object g (empty g) d)) l = rs
    /\ Forall2 (dressed m) rs els /\ Forall2 same_data (map record_value rs) l /\ Forall (is_of m) els /\ Forall (kept p m) els
    /\ Forall2 (fun d e => forall q, tells q m d -> shown q e) l els.
Proof.
  intros H. induction 1 as [|d l C F IH].
  - exists [], []. repeat split; constructor.
  - destruct (H d C) as (r & e & S & D & V & O & K & Sh). destruct IH as (rs & els & Vd & Mp & Ds & Vs & Os & Ks & Shs).
    exists (r :: rs), (e :: els). cbn [map SpecNest.verdict]. rewrite S. cbn [fst snd]. rewrite Vd, Mp.
    repeat match goal with |- _ /\ _ => split end; try (constructor; assumption); reflexivity.
Qed.

Section Trip.
  Variable object : data -> pyval.
  Lemma set_dressed s : named_fields s -> forall n p d, matching s n -> comes_back p s d ->
    exists r e, nested_set object n (empty n) d = (r, Ok true) /\ dressed s r e /\ same_data (record_value r) d
      /\ is_of s e /\ kept p s e /\ forall q, tells q s d -> shown q e.
  Proof.
    induction s as [nm k|nm cp fs IH|nm pr z m IH|nm pr m IH|nm jd] using schema_ind'; intros N n p d M C.
    - inversion M; subst. inversion C as [? ? ? v (raw & u & E & T)| | |]; subst.
      exists (RScalar (marked k (Scalar raw v u)) (Scalar raw v u)), (EScalar nm (Scalar raw v u)).
      repeat match goal with |- _ /\ _ => split end.
      + cbn [nested_set empty plain]. now rewrite E.
      + constructor.
      + constructor.
      + reflexivity.
      + unfold kept, reads_back. cbn [s_u s_value]. destruct T as [(-> & -> & ->)|(Tp & raw' & b & T)]; [reflexivity|].
        destruct (p && str_eqb u []) eqn:X; [|eauto]. apply andb_prop in X as [-> X]. apply str_eqb_eq in X. now destruct (Tp eq_refl).
      + intros q T'. inversion T' as [? ? ? ? T2| | |]; subst. exists [], (EScalar nm (Scalar raw v u)), u. split; [easy|]. split; [easy|].
        rewrite E in T2. exact T2.
    - inversion M as [|? own ? gs St F| |]; subst. inversion C as [|? ? ? l ND K Th| |]; subst. apply named_dict in N as [NF N].
      pose proof (matching_names _ _ F) as NG. assert (NoDup (map SpecNest.fname gs)) as NG' by now rewrite NG.
      assert (forall k d, In (k, d) l -> exists b f g r e, In (b, f) fs /\ schema_name f = k /\ In g gs /\ SpecNest.fname g = k
         /\ nested_set object (SpecNest.fschema g) (empty (SpecNest.fschema g)) d = (r, Ok true)
         /\ dressed f r e /\ same_data (record_value r) d /\ is_of f e /\ kept p f e /\ (b = false -> shown p e) /\ forall q, tells q f d -> shown q e) as A.
      { intros k d I. destruct (K _ _ I) as (b & f & If & Ek & Cf & Tf). destruct (matching_field _ _ _ _ F If) as (g & Ig & Eg & _ & Mg).
        rewrite Forall_forall in IH. destruct (IH _ If (proj2 (N _ _ If)) _ _ _ Mg Cf) as (r & e & S & D & V & O & Kp & Sh).
        exists b, f, g, r, e. repeat match goal with |- _ /\ _ => split end; try easy; [congruence|]. intros B. apply Sh. now apply Tf. }
      destruct (ProofNest2.dict_set_spec object own gs (match empty (NDict own gs) with RDict i => i | _ => [] end) l NG') as (items & S & Ks & _). cbv zeta in S, Ks.
      assert (SpecNest.verdict (map (ProofNest2.outcome object own gs) l) = Ok true) as V.
      { apply ProofNest2.verdict_true. rewrite Forall_map, Forall_forall. intros [k d] I. destruct (A _ _ I) as (b & f & g & r & e & _ & _ & Ig & Eg & Sg & _).
        unfold ProofNest2.outcome. cbn [fst snd]. rewrite <- Eg, (ProofNest2.find_name gs g NG' Ig), Sg. reflexivity. }
      rewrite V in S. rewrite (ProofNest2.tried_all _ _ _ V) in Ks.
      assert (nested_set object (NDict own gs) (empty (NDict own gs)) (DMap l) = (RDict items, Ok true)) as S'.
      { change (empty (NDict own gs)) with (RDict (match empty (NDict own gs) with RDict i => i | _ => [] end)) at 1. rewrite S. f_equal. destruct own; try reflexivity.
        match goal with |- (if ?a then _ else _) = _ => assert (a = true) as ->; [|reflexivity] end. apply forallb_forall. intros g Ig.
        destruct (matching_field' _ _ _ F Ig) as (b & f & If & Eg & _). specialize (St eq_refl). rewrite Forall_forall in St. pose proof (St _ If) as Hb. cbn in Hb. subst b.
        apply ProofNest.memb_name. rewrite Eg. now apply Th. }
      destruct (ProofNest2.dict_set_last object own gs (match empty (NDict own gs) with RDict i => i | _ => [] end) l _ true NG' S') as (items' & X & G).
      injection X as <-.
      assert (forall k, In k (map fst items) <-> In k (map fst l)) as Kk.
      { intros k. rewrite Ks, ProofNest2.mentions_in. split.
        - intros [I|I]; [destruct (matching_held _ _ _ F I) as (f & If & <-); now apply Th|]. now apply filter_In in I.
        - intros I. right. apply filter_In. split; [exact I|]. apply in_map_iff in I as ([k' d] & <- & I).
          destruct (A _ _ I) as (b & f & g & r & e & _ & _ & Ig & Eg & _). apply existsb_exists. exists g. split; [exact Ig|]. cbn [fst]. rewrite Eg. apply name_eqb_refl. }
      assert (NoDup (map fst items)) as Ni.
      { rewrite Ks. apply ProofNest2.mentions_nodup. now apply NoDup_filter_map. }
      assert (forall x, In x items -> exists y, fst x = fst y /\ exists b f d, In (fst x, d) l /\ In (b, f) fs /\ schema_name f = fst x
        /\ dressed f (snd x) (snd y) /\ same_data (record_value (snd x)) d /\ is_of f (snd y) /\ kept p f (snd y) /\ (b = false -> shown p (snd y))
        /\ forall q, tells q f d -> shown q (snd y)) as H.
      { intros [k r] I. assert (In k (map fst l)) as J by (apply Kk; now apply (in_map fst) in I). apply in_map_iff in J as ([k' d] & E & J). cbn in E. subst k'.
        destruct (A _ _ J) as (b & f & g & r' & e & If & Ef & Ig & Eg & Sg & D & V' & O & Kp & Sh & Sq).
        specialize (G g Ig). rewrite Eg, (given_one k d l ND J) in G. cbn [rev app] in G. rewrite Sg in G. cbn [fst] in G.
        assert (r = r') as -> by (apply (aget_In name_eqb name_eqb_eq') in G; exact (nodup_one _ _ _ _ Ni I G)).
        exists (k, e). split; [easy|]. exists b, f, d. easy. }
      destruct (choose _ _ H) as (els & Fe). clear H.
      assert (map fst items = map fst els) as Ke by (apply (F2_keys _ _ _ (fun x y (H : _ /\ _) => proj1 H) Fe)).
      exists (RDict items), (EDict nm None els). split; [exact S'|].
      assert (forall k u, In (k, u) els -> exists b f d r, In (k, d) l /\ In (k, r) items /\ In (b, f) fs /\ schema_name f = k
        /\ dressed f r u /\ same_data (record_value r) d /\ is_of f u /\ kept p f u /\ (b = false -> shown p u) /\ forall q, tells q f d -> shown q u) as Hu.
      { intros k u I. destruct (F2_in_r _ _ _ _ Fe I) as ([k' r] & J & E & b & f & d & H). cbn [fst snd] in *. subst k'. exists b, f, d, r. intuition. }
      repeat match goal with |- _ /\ _ => split end.
      + constructor. refine (F2_impl _ _ _ _ _ Fe). intros [k r] [k' u] (E & b & f & d & _ & If & Ef & D & _). split; [exact E|]. exists b, f. now split.
      + cbn [record_value]. constructor; [| |..].
        * rewrite map_map. cbn [fst]. exact Ni.
        * exact ND.
        * intros k. rewrite map_map. cbn [fst]. apply Kk.
        * intros k d d' I J. apply in_map_iff in I as ([k' r] & E & I). cbn [fst snd] in E. injection E as -> <-.
          destruct (F2_in_l _ _ _ _ Fe I) as ([k' u] & _ & E & b & f & d & J' & _ & _ & _ & V' & _). cbn [fst snd] in *.
          now rewrite (nodup_one _ _ _ _ ND J J').
      + apply is_of_dict. split; [easy|]. split; [easy|]. split; [now rewrite <- Ke|]. split.
        * intros k I. apply in_map_iff in I as ([k' u] & <- & I). destruct (Hu _ _ I) as (b & f & d & r & _ & _ & If & Ef & _).
          apply in_map_iff. exists (b, f). split; [exact Ef|exact If].
        * intros b f If. split.
          -- intros u I. destruct (Hu _ _ I) as (b' & f' & d & r & _ & _ & If' & Ef & _ & _ & O & _).
             destruct (field_unique fs b f b' f' NF If If' (eq_sym Ef)) as [_ ->]. exact O.
          -- intros ->. rewrite <- Ke. apply Kk. now apply Th.
      + apply kept_dict. intros b f If u I. destruct (Hu _ _ I) as (b' & f' & d & r & _ & _ & If' & Ef & _ & _ & _ & Kp & Sh & _).
        destruct (field_unique fs b f b' f' NF If If' (eq_sym Ef)) as [-> ->]. now split.
      + intros q T. inversion T as [|? ? ? ? k d b f J If Ef T'| |]; subst.
        assert (In (schema_name f) (map fst els)) as I by (rewrite <- Ke; apply Kk; now apply (in_map fst) in J).
        apply in_map_iff in I as ([k u] & E & I). cbn [fst] in E. subst k.
        destruct (Hu _ _ I) as (b' & f' & d' & r & J' & _ & If' & Ef' & _ & _ & _ & _ & _ & Sq).
        destruct (field_unique fs b f b' f' NF If If' (eq_sym Ef')) as [_ <-]. rewrite (nodup_one _ _ _ _ ND J J') in T'.
        apply (shown_in_dict q _ _ _ _ _ I). now apply Sq.
    - inversion M as [| |? ? ? ? g Mg|]; subst. inversion C as [| |? ? ? ? ? l L Cl T|]; subst. cbn in N.
      destruct (seq_dressed object m g (p || pr) l) as (rs & els & Vd & Mp & D & V & O & Kp & Sh); [now intros d Cd; apply IH|exact Cl|].
      exists (RSeq OfList rs), (EList nm els). pose proof (F2_len _ _ _ Sh) as Len. repeat match goal with |- _ /\ _ => split end.
      + change (empty (NSeq OfList g)) with (RSeq OfList []). rewrite ProofNest6.seq_set', Vd. now rewrite Mp.
      + now constructor.
      + cbn [record_value]. now constructor.
      + split; [easy|exact O].
      + cbn [kept]. split; [now rewrite <- Len|]. split; [exact Kp|]. destruct pr.
        * rewrite orb_true_r. clear - T Sh. induction Sh as [|d u l els H F IH]; [constructor|]. inversion T; subst. constructor; [now apply H|now apply IH].
        * intros l' u E. destruct (F2_last _ _ _ _ _ Sh E) as (k & d & Ed & Sd). apply Sd. exact (T _ _ Ed).
      + intros q T'. inversion T' as [| |? ? ? ? ? ? d I T2|]; subst. destruct (F2_in_l _ _ _ _ Sh I) as (u & J & Sd). apply (shown_in_list q nm els u J). now apply Sd.
    - inversion M as [| | |? ? ? g Mg]; subst. inversion C as [| | |? ? ? ? l Cl]; subst. cbn in N.
      assert (Forall (comes_back (p || pr) m) l) as Cl' by (eapply Forall_impl; [|exact Cl]; now intros ? []).
      destruct (seq_dressed object m g (p || pr) l) as (rs & els & Vd & Mp & D & V & O & Kp & Sh); [now intros d Cd; apply IH|exact Cl'|].
      exists (RSeq OfArray rs), (EArray nm els). repeat match goal with |- _ /\ _ => split end.
      + change (empty (NSeq OfArray g)) with (RSeq OfArray []). rewrite ProofNest6.seq_set', Vd. now rewrite Mp.
      + now constructor.
      + cbn [record_value]. now constructor.
      + split; [easy|exact O].
      + cbn [kept]. split; [exact Kp|]. clear - Cl Sh. induction Sh as [|d u l els H F IH]; [constructor|]. inversion Cl as [|? ? [_ T] Cl2]; subst.
        constructor; [now apply H|now apply IH].
      + intros q T'. inversion T' as [| | |? ? ? ? ? d I T2]; subst. destruct (F2_in_l _ _ _ _ Sh I) as (u & J & Sd). apply (shown_in_list q nm els u J). now apply Sd.
    - inversion M.
  Qed.
End Trip.

Lemma F2_map_r {A B C} (R : A -> C -> Prop) (f : B -> C) l l' : Forall2 (fun x y => R x (f y)) l l' -> Forall2 R l (map f l').
Proof. induction 1; cbn; now constructor. Qed.
Lemma F2_flip {A B} (R : A -> B -> Prop) l l' : Forall2 R l l' -> Forall2 (fun y x => R x y) l' l.
Proof. induction 1; now constructor. Qed.
Lemma dressed_value s : forall r e, dressed s r e -> gives e (record_value r).
Proof.
  induction s as [n k|n cp fs IH|n p z m IH|n p m IH|n jd] using schema_ind'; intros r e D; inversion D as [|? ? items els F|? ? ? ? l els F|? ? ? l els F]; subst; cbn [record_value].
  - constructor.
  - constructor. apply F2_map_r, F2_flip. refine (F2_impl _ _ _ _ _ F). intros [k r] [k' e] (E & b & f & If & _ & Df). cbn [fst snd] in *. split; [easy|].
    rewrite Forall_forall in IH. exact (IH _ If _ _ Df).
  - constructor. apply F2_map_r, F2_flip. exact (F2_impl _ _ _ _ (fun r e => IH r e) F).
  - constructor. apply F2_map_r, F2_flip. exact (F2_impl _ _ _ _ (fun r e => IH r e) F).
Qed.
Lemma seq_back m els : forall els' vs l, (forall e e' v d, is_of m e' -> same e e' -> gives e v -> same_data v d -> exists v', gives e' v' /\ same_data v' d) ->
  Forall (is_of m) els' -> Forall2 same els els' -> Forall2 gives els vs -> Forall2 same_data vs l ->
  exists vs', Forall2 gives els' vs' /\ Forall2 same_data vs' l.
Proof.
  intros els' vs l H O S. revert vs l. induction S as [|e e' els els' Se S IH]; intros vs l G D.
  - inversion G; subst. inversion D; subst. exists []. now split.
  - inversion G as [|? v ? vs2 Ge G2]; subst. inversion D as [|? d ? l2 Dd D2]; subst. inversion O as [|? ? Oe O2]; subst.
    destruct (H _ _ _ _ Oe Se Ge Dd) as (v' & A & B). destruct (IH O2 _ _ G2 D2) as (vs' & C & E). exists (v' :: vs'). split; now constructor.
Qed.
Lemma same_gives s : forall e e' v d, is_of s e' -> same e e' -> gives e v -> same_data v d -> exists v', gives e' v' /\ same_data v' d.
Proof.
  induction s as [n k|n cp fs IH|n p z m IH|n p m IH|n jd] using schema_ind'; intros e e' v d O S G D.
  - destruct e' as [n' st'| | | |]; try easy. inversion S as [? a b Ev Eu| | | |]; subst. inversion G; subst. inversion D; subst. exists (DVal (s_value st')). split; [constructor|].
    rewrite Ev. constructor.
  - destruct e' as [|n' cq els'| | |]; try easy. inversion S as [|? ? els ? Kk Sm| | |]; subst. inversion G as [|? ? vs Gm| |]; subst.
    apply is_of_dict in O as (-> & <- & ND & Kn & Of). inversion D as [|? l Nv Nl Kl Dm|]; subst.
    assert (map fst els = map fst vs) as Kv by (apply (F2_keys _ _ _ (fun x y (H : _ /\ _) => proj1 H) Gm)).
    assert (forall x, In x els' -> exists y, (fst x = fst y /\ gives (snd x) (snd y)) /\ exists d, In (fst x, d) l /\ same_data (snd y) d) as H.
    { intros [k u'] I. assert (In k (map fst els')) as Ik by now apply (in_map fst) in I. pose proof Ik as J. apply Kk in J.
      apply in_map_iff in J as ([k' u] & E & J). cbn in E. subst k'. destruct (F2_in_l _ _ _ _ Gm J) as ([k' v] & Iv & E & Gu). cbn [fst snd] in E, Gu. subst k'.
      assert (In k (map fst l)) as Il by (apply Kl; now apply (in_map fst) in Iv). apply in_map_iff in Il as ([k' d] & E & Il). cbn in E. subst k'.
      apply Kn in Ik. apply in_map_iff in Ik as ([b f] & Ef & If). unfold fname in Ef. cbn [snd] in Ef. subst k.
      rewrite Forall_forall in IH. destruct (IH _ If u u' v d) as (v' & A & B); [now apply (Of _ _ If)|eapply Sm; eauto|exact Gu|eapply Dm; eauto|].
      exists (schema_name f, v'). split; [now split|]. now exists d. }
    destruct (choose _ _ H) as (vs' & F). exists (DMap vs'). split.
    + constructor. refine (F2_impl _ _ _ _ _ F). now intros x y [].
    + assert (map fst els' = map fst vs') as Kv' by (refine (F2_keys _ _ _ _ F); now intros x y [[] _]).
      constructor; [now rewrite <- Kv'|exact Nl|..].
      * intros k. rewrite <- Kv', <- Kk, Kv. apply Kl.
      * intros k d d' I J. destruct (F2_in_r _ _ _ _ F I) as ([k' u] & Iu & (E & _) & d2 & Id & Sd). cbn [fst snd] in *. subst k'.
        now rewrite (nodup_one _ _ _ _ Nl J Id).
  - destruct e' as [| |n' els'| |]; try easy. inversion S as [| |? els ? F| |]; subst. inversion G as [| |? ? vs Gm|]; subst. inversion D as [| |? l Dm]; subst.
    destruct O as [-> O]. destruct (seq_back m els els' vs l IH O F Gm Dm) as (vs' & A & B). exists (DSeq vs'). split; now constructor.
  - destruct e' as [| | |n' els'|]; try easy. inversion S as [| | |? els ? F|]; subst. inversion G as [| | |? ? vs Gm]; subst. inversion D as [| |? l Dm]; subst.
    destruct O as [-> O]. destruct (seq_back m els els' vs l IH O F Gm Dm) as (vs' & A & B). exists (DSeq vs'). split; now constructor.
  - destruct e'; try easy. inversion S; subst. inversion G.
Qed.

Theorem trip object sep s n d : separator sep -> clear_schema sep s -> shows s -> matching s n -> comes_back false s d ->
  exists r e, nested_set object n (empty n) d = (r, Ok true) /\ dressed s r e /\ same_data (record_value r) d
  /\ exists f fl, (forall fuel, (f <= fuel)%nat -> flatten_element fuel e sep = Ok fl)
  /\ exists e' v, set_flat s sep (fresh s) (as_flat fl) = (e', Ok tt) /\ gives e' v /\ same_data v d.
Proof.
  intros Sp C R M B. pose proof (clear_named _ _ C) as N.
  destruct (set_dressed object s N n false d M B) as (r & e & S & D & V & O & K & _). exists r, e. repeat match goal with |- _ /\ _ => split end; try easy.
  destruct (flatten_back_lemma sep s e Sp C R O K) as (f & fl & F & e' & S' & Sm). exists f, fl. split; [exact F|].
  assert (is_of s e') as O'.
  { apply inv_is_of. change e' with (fst (e', @Ok unit tt)). rewrite <- S'. apply (filled_inv s sep); [exact N|]. constructor; [constructor|].
    unfold text_values, as_flat. rewrite Forall_map, Forall_forall. intros x _. now exists (snd x). }
  destruct (same_gives s _ _ _ _ O' Sm (dressed_value _ _ _ D) V) as (v & G & Q). now exists e', v.
Qed.

(* the element that belongs to a record is unique *)
Lemma dressed_name s r e : dressed s r e -> element_name e = schema_name s.
Proof. now destruct 1. Qed.
Lemma F2_fun {A B} (R : A -> B -> Prop) l : forall l' l'', (forall x y z, In x l -> R x y -> R x z -> y = z) -> Forall2 R l l' -> Forall2 R l l'' -> l' = l''.
Proof.
  induction l as [|x l IH]; intros l' l'' H F G; inversion F; subst; inversion G; subst; [easy|]. f_equal.
  - eapply H; eauto. now left.
  - eapply IH; eauto. intros a b c I. apply H. now right.
Qed.
Lemma dressed_one s : named_fields s -> forall r e e', dressed s r e -> dressed s r e' -> e = e'.
Proof.
  induction s as [n k|n cp fs IH|n p z m IH|n p m IH|n jd] using schema_ind'; intros N r e e' D D'.
  - inversion D; subst. now inversion D'; subst.
  - inversion D as [|? ? items els F| |]; subst. inversion D' as [|? ? ? els' G| |]; subst. f_equal. apply named_dict in N as [NF N]. refine (F2_fun _ _ _ _ _ F G).
    intros [k r] [k1 u] [k2 w] _ (E1 & b & f & If & Ef & Df) (E2 & b' & f' & If' & Ef' & Df'). cbn [fst snd] in *. subst k1 k2. f_equal.
    destruct (field_unique fs b f b' f' NF If If' (eq_trans Ef (eq_sym Ef'))) as [-> ->]. rewrite Forall_forall in IH. eapply (IH _ If); eauto. now apply (N _ _ If).
  - inversion D as [| |? ? ? ? l els F|]; subst. inversion D' as [| |? ? ? ? ? els' G|]; subst. f_equal. refine (F2_fun _ _ _ _ _ F G). intros x y w _. now apply IH.
  - inversion D as [| | |? ? ? l els F]; subst. inversion D' as [| | |? ? ? ? els' G]; subst. f_equal. refine (F2_fun _ _ _ _ _ F G). intros x y w _. now apply IH.
  - inversion D.
Qed.

(* which values the scalars of the library take *)
Lemma takes_lossless p k v st : scalar_set k blank v = (st, Ok true) -> s_value st = v -> v <> VNone -> real_val v -> lossless k v -> sound_texts k ->
  (p = true -> s_u st <> []) -> takes p k v.
Proof.
  intros S E N R L T P. destruct st as [raw w u]. cbn [s_value s_u] in *. subst w. exists raw, u. split; [exact S|]. right. split; [exact P|].
  exists (Some (VText u)), true. exact (roundtrip k blank v _ blank S N R L T).
Qed.
Lemma blank_fails k : never_blank k -> adapt k (VText []) = Err AdaptErr.
Proof.
  induction k; cbn; try easy.
  - now intros ->.
  - intros _. destruct t, strip_; reflexivity.
  - intros H. now rewrite (IHk H).
  - intros H. now rewrite (IHk H).
Qed.
Lemma takes_none p k : adapt k VNone = Ok VNone -> p = true \/ never_blank k -> takes p k VNone.
Proof.
  intros A H. exists (Some VNone), []. unfold scalar_set at 1. rewrite A. split; [reflexivity|].
  destruct p; [now left|]. right. split; [easy|]. destruct H as [|H]; [easy|]. exists (Some (VText [])), false. unfold scalar_set. now rewrite (blank_fails k H).
Qed.

(* what comes back of pairs, however they got there *)
Lemma back_gives object sep s n d r e fl e' : clear_schema sep s -> matching s n -> comes_back false s d ->
  nested_set object n (empty n) d = (r, Ok true) -> dressed s r e ->
  set_flat s sep (fresh s) (as_flat fl) = (e', Ok tt) -> same e e' -> exists v, gives e' v /\ same_data v d.
Proof.
  intros C M B S D S' Sm. pose proof (clear_named _ _ C) as N.
  destruct (set_dressed object s N n false d M B) as (r1 & e1 & S1 & D1 & V & O & K & _). rewrite S in S1. injection S1 as <-.
  assert (is_of s e') as O'.
  { apply inv_is_of. change e' with (fst (e', @Ok unit tt)). rewrite <- S'. apply (filled_inv s sep); [exact N|]. constructor; [constructor|].
    unfold text_values, as_flat. rewrite Forall_map, Forall_forall. intros x _. now exists (snd x). }
  exact (same_gives s _ _ _ _ O' Sm (dressed_value _ _ _ D) V).
Qed.
Lemma set_is object s n d r e sep : clear_schema sep s -> matching s n -> comes_back false s d ->
  nested_set object n (empty n) d = (r, Ok true) -> dressed s r e -> is_of s e /\ kept false s e.
Proof.
  intros C M B S D. pose proof (clear_named _ _ C) as N.
  destruct (set_dressed object s N n false d M B) as (r1 & e1 & S1 & D1 & V & O & K & _). rewrite S in S1. injection S1 as <-.
  rewrite (dressed_one s N r e e1 D D1). now split.
Qed.
Theorem trip_form object s n d r env g e kind xs l g' outs :
  clear_schema (lit "_") s -> shows s -> matching s n -> comes_back false s d ->
  nested_set object n (empty n) d = (r, Ok true) -> dressed s r e ->
  SpecForm.flattened_parts e xs -> map snd l = map (SpecForm.field kind e) xs ->
  Forall (fun cb => SpecForm.suited (fst cb) (snd cb)) l -> Forall (fun cb => SpecForm.has_place (fst cb) (snd cb)) l ->
  SpecForm.form_settings g -> SpecForm.form_drawn env g l g' outs ->
  exists fl, SpecForm.submitted outs fl /\ exists e' v, set_flat s (lit "_") (fresh s) (as_flat fl) = (e', Ok tt) /\ gives e' v /\ same_data v d.
Proof.
  intros C R M B S D P Fd Su Pl G Dr. destruct (set_is object s n d r e _ C M B S D) as [O K].
  destruct (ProofForm2.form_lemma env g s e kind xs l g' outs C R O K P Fd Su G Dr) as [_ H].
  destruct (H Pl) as (fl & Hs & _ & e' & E & Sa). exists fl. split; [exact Hs|]. exists e'.
  destruct (back_gives object _ s n d r e fl e' C M B S D E Sa) as (v & Gv & Q). now exists v.
Qed.
Theorem trip_page object s n d r env filters rc ns e kind xs l rc' out :
  clear_schema (lit "_") s -> shows s -> matching s n -> comes_back false s d ->
  nested_set object n (empty n) d = (r, Ok true) -> dressed s r e ->
  SpecForm.flattened_parts e xs -> map snd l = map (SpecForm.field kind e) xs -> Forall SpecPost.fit l ->
  Forall (fun wb => SpecForm.has_place (SpecPost.control_of (fst wb)) (snd wb)) l ->
  SpecPost.template_settings rc -> SpecGenshi.renders env filters rc (SpecPost.form_page ns l) rc' out ->
  exists fl, SpecPost.posted out fl /\ exists e' v, set_flat s (lit "_") (fresh s) (as_flat fl) = (e', Ok tt) /\ gives e' v /\ same_data v d.
Proof.
  intros C R M B S D P Fd Su Pl G Dr. destruct (set_is object s n d r e _ C M B S D) as [O K].
  destruct (ProofPost.form_posted env filters rc ns s e kind xs l rc' out C R O K P Fd Su Pl G Dr) as (fl & Hs & _ & e' & E & Sa).
  exists fl. split; [exact Hs|]. exists e'.
  destruct (back_gives object _ s n d r e fl e' C M B S D E Sa) as (v & Gv & Q). now exists v.
Qed.

(* ---------------- samples ---------------- *)
Lemma sample_takes p k v : scalar_set k blank v = (Scalar (Some v) v (match v with VNone => [] | _ => serialize k v end), Ok true) ->
  (exists b, scalar_set k blank (VText (serialize k v)) = (Scalar (Some (VText (serialize k v))) v (serialize k v), Ok b)) -> serialize k v <> [] -> v <> VNone -> takes p k v.
Proof. intros H (b & G) N X. exists (Some v), (serialize k v). rewrite H. destruct v; try easy; (split; [reflexivity|]); right; (split; [easy|]); eauto. Qed.
Lemma matching_sample : matching sample_schema sample_nested.
Proof.
  repeat first [constructor | discriminate].
Qed.
Ltac nodup_keys := cbn; repeat constructor; cbn; intuition discriminate.
Lemma comes_sample : comes_back false sample_schema sample_data.
Proof.
  assert (forall p, takes p (KString true) (VText (lit "hi")) /\ takes p (KString true) (VText (lit "a")) /\ takes p (KString true) (VText (lit "b"))
     /\ takes p (KInteger true) (VInt (-1)) /\ takes p (KInteger true) (VInt 3)) as T.
  { intros p. repeat split; apply sample_takes; try reflexivity; try discriminate; exists true; reflexivity. }
  assert (forall p n, tells p (SScalar n (KString true)) (word "b") /\ tells p (SScalar n (KString true)) (word "a")
     /\ tells p (SScalar n (KInteger true)) (DVal (VInt (-1))) /\ tells p (SScalar n (KInteger true)) (DVal (VInt 3))) as W.
  { intros p n. repeat split; constructor; intros _; discriminate. }
  assert (forall p, comes_back p line_schema (DMap [(text "x", DVal (VInt (-1))); (text "t", DSeq [word "b"; word "a"])])) as L1.
  { intros p. constructor; [nodup_keys|..].
    - intros k d [[= <- <-]|[[= <- <-]|[]]].
      + exists true, (SScalar (text "x") (KInteger true)). split; [now left|]. split; [easy|]. split; [constructor; apply T|easy].
      + exists false, (SArray (text "t") true (SScalar None (KString true))). split; [right; now left|]. split; [easy|]. split.
        * constructor. repeat constructor; try apply T; intros _; discriminate.
        * intros _. apply te_array with (d := word "b"); [now left|]. apply W.
    - intros f [[= <-]|[H|[]]]; [now left|discriminate H]. }
  assert (forall p, comes_back p line_schema (DMap [(text "x", DVal (VInt 3))])) as L2.
  { intros p. constructor; [nodup_keys|..].
    - intros k d [[= <- <-]|[]]. exists true, (SScalar (text "x") (KInteger true)). split; [now left|]. split; [easy|]. split; [constructor; apply T|easy].
    - intros f [[= <-]|[H|[]]]; [now left|discriminate H]. }
  assert (In (true, SScalar (text "x") (KInteger true)) [(true, SScalar (text "x") (KInteger true)); (false, SArray (text "t") true (SScalar None (KString true)))]) as X by now left.
  constructor; [nodup_keys|..].
  - intros k d [[= <- <-]|[[= <- <-]|[]]].
    + exists true, (SList (text "l") true 3 line_schema). split; [right; now left|]. split; [easy|]. split; [|easy]. constructor; [cbn; lia|..].
      * constructor; [apply L1|constructor; [apply L2|constructor]].
      * constructor; [|constructor; [|constructor]]; (eapply te_map; [now left|exact X|reflexivity|apply W]).
    + exists true, (SScalar (text "s") (KString true)). split; [now left|]. split; [easy|]. split; [constructor; apply T|easy].
  - intros f [[= <-]|[[= <-]|[]]]; [right; now left|now left].
Qed.
Lemma trip_lossy :
  let loses s n d := clear_schema (lit "_") s /\ shows s /\ matching s n /\ exists r e fuel fl e' v,
    nested_set (fun _ => VNone) n (empty n) d = (r, Ok true) /\ dressed s r e /\ record_value r = d
    /\ flatten_element fuel e (lit "_") = Ok fl /\ set_flat s (lit "_") (fresh s) (as_flat fl) = (e', Ok tt) /\ gives e' v /\ ~ same_data v d in
  loses (SScalar (text "s") (KString true)) (NScalar (KString true)) (DVal VNone)
  /\ loses (SList (text "l") true 9 (SScalar None (KString true))) (NSeq OfList (NScalar (KString true))) (DSeq [word ""; word "a"])
  /\ loses (SList (text "l") false 9 (SList None false 9 (SScalar None (KString true)))) (NSeq OfList (NSeq OfList (NScalar (KString true)))) (DSeq [DSeq []])
  /\ loses (SDict None None [(false, SScalar (text "s") (KString true)); (false, SList (text "l") true 9 (SScalar None (KString true)))])
           (NDict Subset [((text "s", false), NScalar (KString true)); ((text "l", false), NSeq OfList (NScalar (KString true)))])
           (DMap [(text "s", word "a"); (text "l", DSeq [])])
  /\ loses (SList (text "l") true 1 (SScalar None (KString true))) (NSeq OfList (NScalar (KString true))) (DSeq [word "a"; word "b"]).
Proof.
  cbv zeta.
  assert (clear_name (lit "_") (text "s") /\ clear_name (lit "_") (text "l") /\ clear_name (lit "_") None) as (Cs & Cl & Cn).
  { repeat split; try discriminate.
    all: injection H as <-; try discriminate. 
    all: try (intros c r [= <- <-]; cbn; intuition discriminate). 
    all: intros y E; apply (f_equal (fun l => List.last l 0%N)) in E; rewrite last_last in E; discriminate. }
  split; [|split; [|split; [|split]]].
  - split; [now split|]. split; [easy|]. split; [constructor|]. exists (RScalar false (Scalar (Some VNone) VNone [])), (EScalar (text "s") (Scalar (Some VNone) VNone [])), 9%nat. eexists _, _, _.
    split; [reflexivity|]. split; [constructor|]. split; [reflexivity|]. split; [vm_compute; reflexivity|]. split; [reflexivity|]. split; [constructor|].
    intros H. inversion H.
  - split; [easy|]. split; [easy|]. split; [repeat constructor|].
    eexists _, (EList (text "l") [EScalar None (plain_text ""); EScalar None (plain_text "a")]), 9%nat, _, _, _.
    split; [reflexivity|]. split; [repeat constructor|]. split; [reflexivity|]. split; [vm_compute; reflexivity|]. split; [reflexivity|]. split; [repeat constructor|].
    intros H. inversion H as [| |? ? F]; subst. inversion F as [|? ? ? ? _ G]; subst. inversion G.
  - split; [easy|]. split; [easy|]. split; [repeat constructor|].
    eexists _, (EList (text "l") [EList None []]), 9%nat, _, _, _.
    split; [reflexivity|]. split; [repeat constructor|]. split; [reflexivity|]. split; [vm_compute; reflexivity|]. split; [reflexivity|]. split; [repeat constructor|].
    intros H. inversion H as [| |? ? F]; subst. inversion F.
  - split; [|split; [easy|split]].
    + split; [easy|]. split; [nodup_keys|]. split.
      * intros f g x y [[= <-]|[[= <-]|[]]] [<-|[<-|[]]]; cbn; intros [= <-] [= E]; try discriminate; now rewrite <- E.
      * cbn [clear_schema schema_name]. repeat match goal with |- _ /\ _ => split end; try assumption; try exact Logic.I; discriminate.
    + constructor; [discriminate|]. repeat constructor.
    + eexists _, (EDict None None [(text "s", EScalar (text "s") (plain_text "a")); (text "l", EList (text "l") [])]), 9%nat, _, _, (DMap [(text "s", word "a")]).
      split; [reflexivity|]. split.
      { constructor. constructor; [|constructor; [|constructor]]; (split; [reflexivity|]).
        - exists false, (SScalar (text "s") (KString true)). split; [now left|]. split; [easy|]. constructor.
        - exists false, (SList (text "l") true 9 (SScalar None (KString true))). split; [right; now left|]. split; [easy|]. repeat constructor. }
      split; [reflexivity|]. split; [vm_compute; reflexivity|]. split; [reflexivity|]. split; [constructor; constructor; [split; constructor|constructor]|].
      intros H. inversion H as [|? ? _ _ K _|]; subst. destruct (proj2 (K (text "l"))) as [E|E]; [right; now left|discriminate E|destruct E].
  - split; [easy|]. split; [easy|]. split; [repeat constructor|].
    eexists _, (EList (text "l") [EScalar None (plain_text "a"); EScalar None (plain_text "b")]), 9%nat, _, _, _.
    split; [reflexivity|]. split; [repeat constructor|]. split; [reflexivity|]. split; [vm_compute; reflexivity|]. split; [reflexivity|]. split; [repeat constructor|].
    intros H. inversion H as [| |? ? F]; subst. inversion F as [|? ? ? ? _ G]; subst. inversion G.
Qed.
