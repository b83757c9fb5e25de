(* SparseDict calls, defaults, transfers from and to objects. *)
From Verif Require Import PyBase PyBaseFacts ModelUtil SpecUtil ProofUtil ModelScalar ModelSeq ModelMap SpecMap
  ProofMap ProofMap2 ProofMap3 ProofMap4 ProofMap5 ProofMap6.

Section Dic.
Context {V : Type}.
Implicit Types (k : name) (l : list (name * V)).
Lemma last_value_dict l k v : aget name_eqb k (py_dict name_eqb l) = Some v <-> last_value k l v.
Proof.
  revert v; induction l as [|[k' n'] r IH] using rev_ind; intros v.
  - split; [easy|]. intros (b & a & E & _). now destruct b.
  - rewrite py_dict_snoc. destruct (name_eqb_spec k k') as [->|E].
    + rewrite (aget_aset_eq name_eqb name_eqb_eq). split.
      * intros [= <-]. exists r, []. easy.
      * intros (b & a & E & Hn).
        destruct a as [|x a _] using rev_ind.
        -- apply app_inj_tail in E as [_ E]. congruence.
        -- rewrite app_comm_cons, app_assoc in E.
           apply app_inj_tail in E as [_ E]. subst x. exfalso. apply Hn.
           rewrite map_app. apply in_app_iff. right. now left.
    + rewrite (aget_aset_neq name_eqb name_eqb_eq) by easy.
      rewrite IH. split.
      * intros (b & a & -> & Hn). exists b, (a ++ [(k', n')]).
        rewrite <- app_assoc. split; [easy|]. rewrite map_app.
        intros Hin. apply in_app_iff in Hin as [Hin|[Hin|[]]]; [easy|].
        simpl in Hin. congruence.
      * intros (b & a & E' & Hn).
        destruct a as [|x a _] using rev_ind.
        -- apply app_inj_tail in E' as [_ E']. congruence.
        -- rewrite app_comm_cons, app_assoc in E'.
           apply app_inj_tail in E' as [-> <-]. exists b, a. split; [easy|].
           intros Hin. apply Hn. rewrite map_app. apply in_app_iff. now left.
Qed.
Lemma last_value_in k l v : last_value k l v -> In (k, v) l.
Proof. intros (b & a & -> & _). apply in_app_iff. right. now left. Qed.
Lemma py_dict_keys k l : In k (keys (py_dict name_eqb l)) <-> In k (map fst l).
Proof.
  induction l as [|[k' n'] r IH] using rev_ind; [easy|].
  rewrite py_dict_snoc, (In_keys_aset name_eqb name_eqb_eq), IH, map_app, in_app_iff. simpl. intuition.
Qed.
Lemma py_dict_nodup l : NoDup (keys (py_dict name_eqb l)).
Proof.
  induction l as [|[k' n'] r IH] using rev_ind; [constructor|].
  rewrite py_dict_snoc. now apply NoDup_keys_aset; [apply name_eqb_eq|].
Qed.
Lemma in_assoc (l : list (name * V)) k v : NoDup (keys l) -> In (k, v) l -> aget name_eqb k l = Some v.
Proof.
  induction l as [|(k', v') l IH]; [easy|]. cbn [keys map fst aget]. intros N [E|E]; inversion N; subst.
  - inversion E; subst. now rewrite name_eqb_refl.
  - destruct (name_eqb_spec k k') as [->|_]; [|auto].
    exfalso. apply H1. now apply (in_map fst) in E.
Qed.
Lemma sliced_in include omit rename f pairs out : sliced (V:=V) include omit rename f pairs out ->
  forall k v, In (k, v) out <-> exists a, In (a, v) pairs /\ emitted (K:=name) include omit rename (f a) k.
Proof.
  induction 1 as [|a k' v rest out E S IH|a v rest out E S IH]; intros k w.
  - cbn. split; [easy|]. intros (a & [] & _).
  - cbn [In]. rewrite IH. split.
    + intros [[= <- <-]|(a' & I & Em)]; [exists a; auto|exists a'; auto].
    + intros (a' & [[= <- <-]|I] & Em).
      * left. f_equal. clear - E Em. 
        assert (U : forall n1 n2, renamed_to rename (f a) n1 -> renamed_to rename (f a) n2 -> n1 = n2).
        { intros n1 n2 H1 H2. apply (renamed_to_dict name_eqb name_eqb_eq) in H1, H2. congruence. }
        assert (C : forall n, renamed_to rename (f a) n -> not_renamed rename (f a) -> False).
        { intros n H1 H2. apply (renamed_to_dict name_eqb name_eqb_eq) in H1.
          apply (not_renamed_dict name_eqb name_eqb_eq) in H2. congruence. }
        inversion E; inversion Em; subst; eauto; exfalso; eauto.
      * right. now exists a'.
  - cbn [In]. rewrite IH. split.
    + intros (a' & I & Em). exists a'. auto.
    + intros (a' & [[= <- <-]|I] & Em); [now apply E in Em|]. now exists a'.
Qed.
End Dic.

Section Obj.
Context {V M : Type} (cls : nat -> ecls V M) (isa : nat -> nat -> bool) (fields : list field)
        (minf : minimum) (own : policy).
Notation st := (mapst M).
Implicit Types (s : st) (k : name) (e : nat).

Lemma attributes_in fs omit rename a :
  (forall x, In x fs -> ~ In x omit -> In x (attributes fs omit rename))
  /\ (In a (attributes fs omit rename) -> ~ In a omit)
  /\ (forall f, In f fs -> In (a, f) rename -> ~ In a omit -> In a (attributes fs omit rename))
  /\ (In a (attributes fs omit rename) -> In a fs \/ In a (map fst rename)).
Proof.
  unfold attributes. set (step := fun acc kv => _).
  assert (Mono : forall rn acc x, In x acc -> In x (fold_left step rn acc)).
  { induction rn as [|kv rn IH]; intros acc x H; [easy|]. cbn [fold_left]. apply IH. unfold step.
    destruct (_ && _); [apply in_app_iff; now left|easy]. }
  assert (Add : forall rn acc f, In f acc -> In (a, f) rn -> In a (fold_left step rn acc)).
  { induction rn as [|kv rn IH]; intros acc f H I; [easy|]. cbn [fold_left]. destruct I as [->|I].
    - apply Mono. unfold step. cbn [fst snd].
      rewrite (proj2 (memb_In name_eqb name_eqb_eq f acc) H). cbn [andb].
      destruct (memb name_eqb a acc) eqn:E; cbn [negb].
      + now apply (memb_In name_eqb name_eqb_eq).
      + apply in_app_iff. right. now left.
    - apply (IH _ f); [|easy]. unfold step. destruct (_ && _); [apply in_app_iff; now left|easy]. }
  assert (Only : forall rn acc, In a (fold_left step rn acc) -> In a acc \/ In a (map fst rn)).
  { induction rn as [|kv rn IH]; intros acc H; [now left|]. cbn [fold_left] in H. apply IH in H.
    cbn [map In]. destruct H as [H|H]; [|tauto]. unfold step in H. destruct (_ && _); [|tauto].
    apply in_app_iff in H. destruct H as [H|[H|[]]]; tauto. }
  assert (Fil : forall x acc, In x (filter (fun a => negb (memb name_eqb a omit)) acc) <-> In x acc /\ ~ In x omit).
  { intros x acc. rewrite filter_In, Bool.negb_true_iff.
    rewrite <- (memb_In name_eqb name_eqb_eq x omit). destruct (memb name_eqb x omit); intuition congruence. }
  repeat split.
  - intros x H H'. apply Fil. auto.
  - intros H. now apply Fil in H.
  - intros f H I H'. apply Fil. split; [|easy]. now apply (Add rename fs f).
  - intros H. apply Fil in H. now apply Only.
Qed.

Lemma transfer fl s obj include omit rename order :
  let fs := keys (m_items s) in
  (forall a, In a (attributes fs (items omit) (items rename)) -> In a order) ->
  ~ (items include <> [] /\ items omit <> []) ->
  ~ In None (attributes fs (items omit) (items rename)) ->
  exists D : list (name * V), NoDup (map fst D)
    /\ (forall f v, In (f, v) D ->
          exists a, feeds fs (items include) (items omit) (items rename) a f /\ obj a = Some v)
    /\ (forall a f v, feeds fs (items include) (items omit) (items rename) a f -> obj a = Some v ->
          In f (map fst D))
    /\ set_by_object cls isa fields minf fl own s obj include omit rename order
       = let '(s', r) := dict_set cls isa fields minf fl own s (Pairs (Iter D None)) None in
         (s', rmap (fun _ => tt) r).
Proof.
  intros fs Cov Both NoNone. unfold set_by_object. fold fs.
  set (attrs := attributes fs (items omit) (items rename)) in *.
  rewrite <- (memb_In name_eqb name_eqb_eq) in NoNone. apply Bool.not_true_iff_false in NoNone. rewrite NoNone.
  set (possible := flat_map _ order).
  assert (Hp : forall a v, In (a, v) possible <-> In a order /\ In a attrs /\ obj a = Some v).
  { intros a v. unfold possible. rewrite in_flat_map. split.
    - intros (x & I & H). destruct (memb name_eqb x attrs) eqn:E; [|easy]. apply (memb_In name_eqb name_eqb_eq) in E.
      destruct (obj x) eqn:Ex; [|easy]. destruct H as [[= <- <-]|[]]. auto.
    - intros (I & E & O). exists a. split; [easy|]. apply (memb_In name_eqb name_eqb_eq) in E. rewrite E, O. now left. }
  pose proof (keyslice_pairs_spec name_eqb name_eqb_eq possible include omit rename None) as K.
  destruct (keyslice_pairs name_eqb possible include omit rename None) as [sl|x]; [|destruct K as (_ & K); now destruct Both].
  destruct K as (_ & K). pose proof (proj2 (K sl) eq_refl) as Sl. clear K. cbn [keyf] in Sl.
  pose proof (sliced_in _ _ _ _ _ _ Sl) as Hs. clear Sl.
  set (kept := filter _ sl).
  assert (Hk : forall f v, In (f, v) kept <-> In f fs /\ exists a, In (a, v) possible
                 /\ emitted (items include) (items omit) (items rename) a f).
  { intros f v. unfold kept. rewrite filter_In. cbn [fst]. rewrite (memb_In name_eqb name_eqb_eq), Hs. tauto. }
  assert (Hfeed : forall a f v, In f fs -> In a order -> In a attrs -> obj a = Some v ->
            emitted (items include) (items omit) (items rename) a f ->
            feeds fs (items include) (items omit) (items rename) a f).
  { intros a f v If Io Ia Oa Em. destruct (attributes_in fs (items omit) (items rename) a) as (_ & No & _).
    split; [easy|]. split; [now apply No|]. inversion Em as [? ? Hr|? Hn Hi|? Hn Hi Ho]; subst.
    - left. exact Hr.
    - right. split; [easy|]. split; [exact Hn|now right].
    - right. split; [easy|]. split; [exact Hn|now left]. }
  exists (py_dict name_eqb kept). split; [apply py_dict_nodup|]. split; [|split].
  - intros f v I. apply in_assoc in I; [|apply py_dict_nodup]. apply last_value_dict, last_value_in in I.
    apply Hk in I. destruct I as (If & a & Ip & Em). apply Hp in Ip. destruct Ip as (Io & Ia & Oa).
    exists a. split; [|easy]. now apply Hfeed with v.
  - intros a f v (If & No & H) O. apply py_dict_keys.
    assert (Ia : In a attrs).
    { destruct (attributes_in fs (items omit) (items rename) a) as (A & _ & B & _).
      destruct H as [(b & c & E & _)|(-> & _)]; [|now apply A].
      apply (B f If); [|easy]. rewrite E. apply in_app_iff. right. now left. }
    change f with (fst (f, v)). apply in_map. apply Hk. split; [easy|]. exists a. split.
    + apply Hp. repeat split; auto.
    + destruct H as [H|(-> & Hn & Hi)]; [now apply em_rename|].
      destruct Hi as [Hi|Hi]; [now apply em_omit|now apply em_include].
  - reflexivity.
Qed.
Lemma transfer_both fl s obj include omit rename order : items include <> [] -> items omit <> [] ->
  set_by_object cls isa fields minf fl own s obj include omit rename order = (s, Err TypeErr).
Proof.
  intros A B. unfold set_by_object, keyslice_pairs.
  assert (T : forall l : option (list name), items l <> [] -> truthy l = true) by (intros [[|]|]; easy).
  rewrite (T _ A), (T _ B). now destruct (memb name_eqb None _).
Qed.
Lemma transfer_none fl s obj include omit rename order :
  In None (attributes (keys (m_items s)) (items omit) (items rename)) ->
  set_by_object cls isa fields minf fl own s obj include omit rename order = (s, Err TypeErr).
Proof. intros A. unfold set_by_object. apply (memb_In name_eqb name_eqb_eq) in A. now rewrite A. Qed.
Lemma values_for_unique (D : list (name * V)) f v : NoDup (map fst D) -> In (f, v) D -> values_for f D = [v].
Proof.
  intros N I. apply in_split in I. destruct I as (b & a & ->). rewrite map_app in N. cbn [map fst] in N.
  apply NoDup_remove_2 in N. rewrite in_app_iff in N.
  change ((f, v) :: a) with ([(f, v)] ++ a). rewrite !values_for_app, values_for_one, name_eqb_refl.
  now rewrite (proj2 (values_for_nil f b)), (proj2 (values_for_nil f a)) by tauto.
Qed.
(* the contents a returning call leaves in a Dict *)
Lemma transfer_contents s obj include omit rename order :
  unique_fields fields -> isa_refl isa -> dict_shape fields s -> 
  let names := map f_name fields in
  (forall a, In a (attributes (keys (m_items s)) (items omit) (items rename)) -> In a order) ->
  let '(s', r) := set_by_object cls isa fields minf IsDict own s obj include omit rename order in
  let feed := feeds names (items include) (items omit) (items rename) in
  match r with
  | Ok _ => ~ In None (attributes (keys (m_items s)) (items omit) (items rename)) /\ forall f, In f fields ->
      (content s' (f_name f) = Some (c_new (cls (f_class f)))
         /\ own <> Strict /\ forall a, feed a (f_name f) -> obj a = None)
      \/ exists a v, feed a (f_name f) /\ obj a = Some v
           /\ content s' (f_name f) = Some (fst (c_set (cls (f_class f)) (c_new (cls (f_class f))) v))
           /\ exists b, snd (c_set (cls (f_class f)) (c_new (cls (f_class f))) v) = Ok b
  | Err x =>
      (x = TypeErr /\ s' = s
         /\ (items include <> [] /\ items omit <> [] \/ In None (attributes (keys (m_items s)) (items omit) (items rename))))
      \/ (x = TypeErr /\ own = Strict /\ exists f, In f fields /\ forall a, feed a (f_name f) -> obj a = None)
      \/ exists f a v, In f fields /\ feed a (f_name f) /\ obj a = Some v
           /\ snd (c_set (cls (f_class f)) (c_new (cls (f_class f))) v) = Err x
  end.
Proof.
  intros (U & _) R H names Cov.
  assert (B : (items include <> [] /\ items omit <> []) \/ ~ (items include <> [] /\ items omit <> [])).
  { destruct (items include), (items omit); try (right; intros (? & ?); congruence). left. split; easy. }
  destruct B as [(B1 & B2)|B].
  - rewrite transfer_both by easy. left. repeat split; auto.
  - destruct (in_dec name_dec None (attributes (keys (m_items s)) (items omit) (items rename))) as [Bn|Bn].
    { rewrite transfer_none by easy. left. repeat split; auto. }
    destruct (transfer IsDict s obj include omit rename order Cov B Bn) as (D & N & D1 & D2 & ->).
    assert (Hfs : forall a f, feeds (keys (m_items s)) (items include) (items omit) (items rename) a f
                  <-> feeds names (items include) (items omit) (items rename) a f).
    { intros a f. unfold feeds. destruct H as (_ & H & _). now rewrite H. }
    pose proof (dict_set_outcome cls isa fields minf own s D None None U R H ltac:(easy)) as K. cbn zeta in K.
    destruct (dict_set cls isa fields minf IsDict own s (Pairs (Iter D None)) None) as (s', r). cbn [fst snd] in K.
    destruct K as (d & So & (Ct & _) & _).
    assert (Hun : forall f, ~ In f (map fst D) -> forall a, feeds names (items include) (items omit) (items rename) a f -> obj a = None).
    { intros f Nf a Fa. destruct (obj a) as [v|] eqn:O; [|easy]. exfalso. apply Nf. apply (D2 a f v); [|easy]. now apply Hfs. }
    assert (Hfed : forall k v, In (k, v) D -> exists a, feeds names (items include) (items omit) (items rename) a k /\ obj a = Some v).
    { intros k v I. destruct (D1 k v I) as (a & Fa & Oa). exists a. split; [now apply Hfs|easy]. }
    inversion So; subst; cbn [rmap].
    + split; [exact Bn|]. intros f If. specialize (Ct f If). cbn beta iota in Ct.
      destruct (in_dec name_dec (f_name f) (map fst d)) as [I|I].
      * right. apply in_map_iff in I. destruct I as ((k, v) & Ek & I). cbn in Ek. subst k.
        destruct (Hfed _ _ I) as (a & Fa & Oa). exists a, v. split; [easy|]. split; [easy|].
        rewrite (values_for_unique d (f_name f) v N I) in Ct. split; [exact Ct|].
        apply in_split in I. destruct I as (b1 & b2 & ->).
        destruct H1 as (_ & H1). destruct (H1 b1 b2 f v eq_refl If) as (b' & Hb). exists b'.
        unfold answer in Hb. rewrite map_app in N. cbn [map fst] in N. apply NoDup_remove_2 in N. rewrite in_app_iff in N.
        rewrite (proj2 (values_for_nil (f_name f) b1)) in Hb by tauto. exact Hb.
      * left. rewrite (proj2 (values_for_nil (f_name f) d) I) in Ct. split; [exact Ct|]. split; [|now apply Hun].
        intros E. apply I. now apply H2.
    + right. left. split; [easy|]. split; [easy|]. exists f. split; [easy|now apply Hun].
    + easy.
    + exfalso. apply H2. destruct (D1 k v) as (a & Fa & _); [apply in_app_iff; right; now left|].
      apply (proj1 (proj2 H)). apply Fa.
    + right. right.
      assert (I : In (f_name f, v) (d0 ++ (f_name f, v) :: rest)) by (apply in_app_iff; right; now left).
      destruct (Hfed _ _ I) as (a & Fa & Oa). exists f, a, v. repeat (split; [easy|]).
      unfold answer in H3. rewrite map_app in N. cbn [map fst] in N. apply NoDup_remove_2 in N. rewrite in_app_iff in N.
      rewrite (proj2 (values_for_nil (f_name f) d0)) in H3 by tauto. exact H3.
Qed.
Lemma sparse_from_object h self obj include omit rename order :
  NoDup (map f_name fields) -> fields <> [] -> minf = MinNone -> own <> Strict ->
  ~ (items include <> [] /\ items omit <> []) ->
  (forall a, In a (attributes [] (items omit) (items rename)) -> In a order) ->
  let '(s, r) := from_object cls isa fields minf IsSparse own h self None obj include omit rename order in
  m_items s = [] /\ r = Ok tt.
Proof.
  intros U Ne Hm Ho B Cov. unfold from_object, construct_map. destruct fields as [|f0 fs] eqn:Ef; [easy|]. rewrite <- Ef in *.
  cbn [do_reset].
  assert (E : forall s, sparse_reset cls fields minf s = MapSt (m_h s) (m_self s) []).
  { intros s. rewrite sparse_reset_fresh. rewrite Hm.
    replace (filter (required cls MinNone) fields) with (@nil field); [easy|].
    clear. induction fields; [easy|]. exact IHl. }
  rewrite E. cbn [m_h m_self].
  assert (Nn : ~ In None (attributes [] (items omit) (items rename))).
  { unfold attributes. replace (fold_left _ (items rename) []) with (@nil name); [easy|].
    clear. induction (items rename) as [|kv l IH]; [easy|exact IH]. }
  destruct (transfer IsSparse (MapSt h self []) obj include omit rename order Cov B Nn) as (D & N & D1 & D2 & ->).
  destruct D as [|(k, v) D].
  - cbn [dict_set]. unfold do_reset. rewrite E. cbn [it_items it_end dict_set_all]. now destruct own.
  - destruct (D1 k v (or_introl eq_refl)) as (a & (F & _) & _). easy.
Qed.

(* ------------------------------ slice, update_object ------------------------------ *)
Lemma slice_spec s include omit rename key :
  match dict_slice cls s include omit rename key with
  | Ok out => exists l, sliced (items include) (items omit) (items rename)
                               (match key with Some g => g | None => fun k => k end)
                               (map (fun ke => (fst ke, c_value (cls (e_class (m_h s) (snd ke))) (e_con (m_h s) (snd ke)))) (m_items s)) l
       /\ NoDup (keys out) /\ forall k v, In (k, v) out <-> last_value k l v
  | Err x => x = TypeErr /\ items include <> [] /\ items omit <> []
  end.
Proof.
  unfold dict_slice. pose proof (keyslice_pairs_spec name_eqb name_eqb_eq (pair_values cls s) include omit rename key) as K.
  destruct (keyslice_pairs name_eqb (pair_values cls s) include omit rename key) as [l|x]; cbn [rmap]; [|easy].
  exists l. destruct K as (_ & K). split; [now apply K|]. split; [apply py_dict_nodup|].
  intros k v. rewrite <- last_value_dict. split; [apply in_assoc, py_dict_nodup|apply aget_In, name_eqb_eq].
Qed.
Lemma update_object_spec s obj include omit rename key :
  match update_object cls s obj include omit rename key with
  | (obj', Ok _) => exists out, dict_slice cls s include omit rename (Some key) = Ok out
       /\ ~ In None (map fst out)
       /\ forall a, (forall v, In (a, v) out -> obj' a = Some v) /\ (~ In a (map fst out) -> obj' a = obj a)
  | (obj', Err x) => x = TypeErr
       /\ ((obj' = obj /\ items include <> [] /\ items omit <> [])
           \/ exists out, dict_slice cls s include omit rename (Some key) = Ok out
                /\ In None (map fst out) /\ obj' None = obj None
                /\ forall a, obj' a = obj a \/ exists v, In (a, v) out /\ obj' a = Some v)
  end.
Proof.
  unfold update_object. pose proof (slice_spec s include omit rename (Some key)) as K.
  destruct (dict_slice cls s include omit rename (Some key)) as [out|x];
    [|destruct K as (-> & K); split; [easy|left; now split]].
  destruct K as (l & _ & N & _). clear l. unfold keys in N.
  assert (A : forall obj, match assign obj out with
    | (obj', Ok _) => ~ In None (map fst out)
         /\ forall a, (forall v, In (a, v) out -> obj' a = Some v) /\ (~ In a (map fst out) -> obj' a = obj a)
    | (obj', Err x) => x = TypeErr /\ In None (map fst out) /\ obj' None = obj None
         /\ forall a, obj' a = obj a \/ exists v, In (a, v) out /\ obj' a = Some v
    end).
  { clear obj. induction out as [|(k, v) out IH]; intros obj; cbn [assign map In fst snd] in *; [easy|].
    inversion N as [|? ? Nk N']; subst. specialize (IH N').
    destruct k as [k|]; [|repeat split; auto].
    specialize (IH (fun a => if name_eqb a (Some k) then Some v else obj a)).
    destruct (assign _ out) as (obj', [u|x]).
    - destruct IH as (IHn & IH). split; [intros [?|?]; [easy|now apply IHn]|]. intros a. split.
      + intros w [[= <- <-]|I]; [|now apply IH]. rewrite (proj2 (IH _)) by easy. cbn beta. now rewrite name_eqb_refl.
      + intros Na. rewrite (proj2 (IH _)) by tauto. cbn beta. destruct (name_eqb_spec a (Some k)) as [->|]; [tauto|easy].
    - destruct IH as (-> & IHn & IH0 & IH). split; [easy|]. split; [now right|].
      split; [rewrite IH0; cbn beta; now destruct (name_eqb_spec None (Some k))|].
      intros a. destruct (IH a) as [E|(w & I & E)].
      + destruct (name_eqb_spec a (Some k)) as [Ea|]; [|left; exact E]. right. exists v. split; [left; now rewrite Ea|exact E].
      + right. exists w. auto. }
  specialize (A obj). destruct (assign obj out) as (obj', [u|x]).
  - exists out. split; [easy|exact A].
  - destruct A as (-> & A). split; [easy|]. right. exists out. split; [easy|exact A].
Qed.

(* ------------------------------ Dict defaults ------------------------------ *)
Lemma dict_default set s d : NoDup (map f_name fields) -> dict_shape fields s ->
  (d = MDNone \/ d = MDUnspecified) ->
  let '(s', r) := map_set_default cls set s d in
  same_members s s'
  /\ exists start, (forall f, In f fields -> content s (f_name f) = Some (start f))
      /\ defaulted cls fields (fun _ => true) (content s) (content s') start r
      /\ forall f, In f fields -> content s' (f_name f) = Some (start f)
                   \/ content s' (f_name f) = Some (fst (c_default (cls (f_class f)) (start f))).
Proof.
  intros U H Hd.
  assert (E : map_set_default cls set s d = default_children cls s (map snd (m_items s))) by (destruct Hd as [-> | ->]; easy).
  rewrite E. pose proof (default_children_same cls (map snd (m_items s)) s) as Sm.
  pose proof (default_children_spec cls (map snd (m_items s)) (proj1 (proj2 (proj2 H))) s) as K.
  destruct (default_children cls s (map snd (m_items s))) as (s', r). cbn [fst] in Sm. split; [exact Sm|].
  destruct K as (K1 & K2).
  exists (fun f => match content s (f_name f) with Some m => m | None => c_new (cls (f_class f)) end).
  assert (Hc : forall f, In f fields -> exists e, mget (f_name f) s = Some e /\ e_class (m_h s) e = f_class f
             /\ In e (map snd (m_items s)) /\ content s (f_name f) = Some (e_con (m_h s) e)
             /\ content s' (f_name f) = Some (e_con (m_h s') e)).
  { intros f If. destruct (shape_field fields U s H f If) as (e & E1 & E2). exists e. repeat (split; [easy|]).
    split; [now apply (in_map snd) in E1 || (apply mget_in in E1; now apply (in_map snd) in E1)|].
    rewrite !content_mget. rewrite (same_mget _ _ _ Sm), E1. easy. }
  split.
  { intros f If. destruct (Hc f If) as (e & _ & _ & _ & -> & _). easy. }
  split.
  - unfold defaulted. destruct r as [[]|x].
    + intros f If. destruct (Hc f If) as (e & E1 & E2 & E3 & -> & ->). rewrite <- E2.
      destruct (K2 e E3) as (-> & ?). easy.
    + destruct K2 as ((e & I & E1 & E2) & _). apply in_map_iff in I. destruct I as ((k, e') & Ee & I). cbn in Ee. subst e'.
      destruct (proj2 (proj2 (proj2 H)) _ I) as (f & If & F1 & F2 & _). cbn in F1, F2.
      exists f. split; [easy|]. split; [easy|].
      destruct (Hc f If) as (e2 & G1 & G2 & _ & -> & _).
      assert (mget (f_name f) s = Some e) by (rewrite <- F1; apply in_mget; [apply H|easy]).
      assert (e2 = e) by congruence. subst e2. rewrite <- F2. exact E1.
  - intros f If. destruct (Hc f If) as (e & E1 & E2 & E3 & -> & ->). rewrite <- E2. destruct r as [[]|x].
    + destruct (K2 e E3) as (-> & _). now right.
    + destruct K2 as (_ & K2). destruct (K2 e E3) as [-> | ->]; [now left|now right].
Qed.
End Obj.
