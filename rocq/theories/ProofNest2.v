(* Dict.set as a whole; setting an element to its own value *)
From Verif Require Import PyBase PyBaseFacts PyList ModelUtil ModelMap ModelScalar ModelNest SpecNest ProofNest.
From Coq Require Import Lia Permutation.

Section Objects.
Variable object : data -> pyval.
Notation set := (nested_set object).
Definition outcome (own : policy) (fields : list (name * bool * nested)) (kv : name * data) : res bool :=
  match find (fun f => name_eqb (fst kv) (fname f)) fields with
  | Some f => snd (set (fschema f) (empty (fschema f)) (snd kv))
  | None => match own with Duck => Ok true | _ => Err KeyErr end
  end.
Lemma field_of_find fields n :
  field_of fields n = option_map fschema (find (fun f => name_eqb n (fname f)) fields).
Proof.
  unfold field_of. induction fields as [| f l IH]; cbn [map aget find]; [reflexivity |].
  destruct (name_eqb n (fname f)); [reflexivity | exact IH].
Qed.
Lemma pair_outcome_eq own fields kv : pair_outcome object own fields kv = outcome own fields kv.
Proof.
  unfold pair_outcome, outcome. rewrite field_of_find. destruct (find _ _); reflexivity.
Qed.
Lemma find_name fields f : NoDup (map fname fields) -> In f fields ->
  find (fun g => name_eqb (fname f) (fname g)) fields = Some f.
Proof.
  induction fields as [| g l IH]; intros D H; [destruct H |]. cbn [find map] in *.
  inversion D as [| ? ? D1 D2]; subst.
  destruct (name_eqb_spec (fname f) (fname g)) as [E | E].
  - destruct H as [H | H]; [congruence |]. exfalso. apply D1. rewrite <- E. apply in_map, H.
  - destruct H as [H | H]; [subst; congruence |]. apply IH; assumption.
Qed.
Lemma find_known fields n f : find (fun g => name_eqb n (fname g)) fields = Some f -> In f fields /\ fname f = n.
Proof.
  intros H. apply find_some in H. destruct H as [H1 H2]. apply name_eqb_eq in H2. split; [exact H1 | congruence].
Qed.
Lemma tried_ext {A} (f g : A -> res bool) l : (forall x, f x = g x) -> tried f l = tried g l.
Proof.
  intros H. induction l as [| x l IH]; cbn [tried]; [reflexivity |]. rewrite H, IH. reflexivity.
Qed.
Lemma tried_all {A} (f : A -> res bool) l b : verdict (map f l) = Ok b -> tried f l = l.
Proof.
  revert b. induction l as [| x l IH]; intros b; cbn [map verdict tried]; [reflexivity |].
  destruct (f x); [| discriminate]. destruct (verdict (map f l)) as [b' |]; [| discriminate].
  intros _. rewrite (IH b' eq_refl). reflexivity.
Qed.
Notation known fields := (fun n => existsb (fun f => name_eqb n (fname f)) fields).
Notation start fields := (flat_map (fun f : name * bool * nested => if snd (fst f) : bool then [(fst (fst f), empty (snd f))] else []) fields).
Lemma start_keys fields : map fst (start fields) = map fname (filter held fields).
Proof.
  induction fields as [| [[n b] s] l IH]; cbn [flat_map filter map]; [reflexivity |].
  unfold held at 1. cbn [fst snd]. destruct b; cbn [app map fst]; rewrite IH; reflexivity.
Qed.
Lemma start_get fields f : NoDup (map fname fields) -> In f fields ->
  aget name_eqb (fname f) (start fields) = if held f then Some (empty (fschema f)) else None.
Proof.
  induction fields as [| g l IH]; intros D H; [destruct H |]. cbn [map] in D.
  inversion D as [| ? ? D1 D2]; subst. cbn [flat_map].
  destruct H as [H | H].
  - subst g. destruct f as [[n b] s]. unfold held, fname, fschema in *. cbn [fst snd] in *.
    destruct b; cbn [app aget].
    + rewrite name_eqb_refl. reflexivity.
    + apply aget_none. intros H.
      assert (S : map fst (start l) = map fname (filter held l)) by apply start_keys.
      rewrite S in H. apply in_map_iff in H. destruct H as [x [H1 H2]].
      apply filter_In in H2. apply D1. unfold fname in *. rewrite <- H1.
      apply (in_map (fun f : name * bool * nested => fst (fst f))). apply H2.
  - assert (E : name_eqb (fname f) (fname g) = false).
    { destruct (name_eqb_spec (fname f) (fname g)) as [E | E]; [| reflexivity]. exfalso. apply D1.
      rewrite <- E. apply in_map, H. }
    unfold fname at 2 in E. destruct (snd (fst g)); cbn [app aget]; [rewrite E |]; apply IH; assumption.
Qed.
Lemma start_fits fields : NoDup (map fname fields) -> fitting fields (start fields).
Proof.
  intros D n e s H Hs. rewrite field_of_find in Hs.
  destruct (find _ fields) as [f |] eqn:Ef; [| discriminate]. injection Hs as <-.
  apply find_known in Ef. destruct Ef as [Hin <-]. rewrite (start_get fields f D Hin) in H.
  destruct (held f); [| discriminate]. injection H as <-. apply empty_fits.
Qed.
Lemma known_field fields n : existsb (fun f => name_eqb n (fname f)) fields = (match field_of fields n with Some _ => true | None => false end).
Proof.
  rewrite field_of_find. induction fields as [| f l IH]; cbn [existsb find]; [reflexivity |].
  destruct (name_eqb n (fname f)); [reflexivity | exact IH].
Qed.
Lemma given_known fields n l : existsb (fun f => name_eqb n (fname f)) fields = true ->
  given n (filter (fun kv => match field_of fields (fst kv) with Some _ => true | None => false end) l) = given n l.
Proof.
  intros H. unfold given. f_equal. induction l as [| [m d] l IH]; cbn [filter fst]; [reflexivity |].
  destruct (field_of fields m) as [s |] eqn:E; cbn [filter fst].
  - rewrite IH. reflexivity.
  - destruct (name_eqb_spec n m) as [E' | E']; [| exact IH].
    subst m. rewrite known_field, E in H. discriminate.
Qed.
Lemma map_filter_known fields l :
  map fst (filter (fun kv : name * data => match field_of fields (fst kv) with Some _ => true | None => false end) l)
  = filter (known fields) (map fst l).
Proof.
  induction l as [| [m d] l IH]; cbn [filter map fst]; [reflexivity |].
  rewrite known_field. destruct (field_of fields m); cbn [map fst]; rewrite IH; reflexivity.
Qed.
Theorem dict_set_spec own fields items0 l : NoDup (map fname fields) ->
  let o := outcome own fields in
  exists items,
    nested_set object (NDict own fields) (RDict items0) (DMap l) =
      (RDict items,
       match verdict (map o l) with
       | Err x => Err x
       | Ok b => match own with
                 | Strict => if forallb (fun f => memb name_eqb (fname f) (map fst l)) fields then Ok b else Err TypeErr
                 | _ => Ok b
                 end
       end) /\
    map fst items = mentions (map fname (filter held fields)) (filter (known fields) (map fst (tried o l))) /\
    (forall f, In f fields ->
       aget name_eqb (fname f) items =
       match held f, given (fname f) (tried o l) with
       | false, [] => None
       | _, ds => Some (fold_left (fun e d => fst (set (fschema f) e d)) ds (empty (fschema f)))
       end).
Proof.
  intros D o. cbn [nested_set pairs_of].
  pose proof (fields_loop object own fields l (start fields) [] true (start_fits fields D)) as [H1 [H2 H3]].
  cbv zeta in H1, H2, H3.
  unfold as_key in H1, H2, H3.
  destruct (set_fields _ _ _ _ _ _) as [items r]. cbn [fst snd] in H1, H2, H3.
  exists items.
  assert (Eo : map (pair_outcome object own fields) l = map o l)
    by (apply map_ext; intros; apply pair_outcome_eq).
  assert (Et : tried (pair_outcome object own fields) l = tried o l)
    by (apply tried_ext; intros; apply pair_outcome_eq).
  rewrite Et in *. rewrite Eo in H1.
  split; [| split].
  - f_equal. rewrite H1. destruct (verdict (map o l)) as [b | x] eqn:Ev; [| reflexivity].
    apply tried_all in Ev. rewrite Ev. cbn [andb]. destruct own; try reflexivity.
    match goal with |- (if ?a then _ else _) = (if ?c then _ else _) => assert (E : a = c); [| rewrite E; reflexivity] end.
    rewrite app_nil_r.
    clear. apply eq_iff_eq_true. rewrite !forallb_forall. split; intros H f Hf.
    + specialize (H (fst (fst f), (empty (snd f), set (snd f)))). cbn [fst] in H.
      apply memb_name. rewrite memb_name in H.
      assert (Hi : In (fst (fst f)) (map fst (rev (filter (fun kv : name * data => match field_of fields (fst kv) with Some _ => true | None => false end) l)))).
      { apply H. apply in_map_iff. exists f. split; [reflexivity | exact Hf]. }
      rewrite map_rev, <- in_rev, map_filter_known in Hi. apply filter_In in Hi. apply Hi.
    + apply in_map_iff in Hf. destruct Hf as [g [<- Hg]]. cbn [fst].
      apply memb_name. rewrite map_rev, <- in_rev, map_filter_known. apply filter_In.
      specialize (H g Hg). apply memb_name in H. split; [exact H |].
      apply existsb_exists. exists g. split; [exact Hg | apply name_eqb_refl].
  - rewrite H2, start_keys, map_filter_known. reflexivity.
  - intros f Hf. rewrite (H3 (fname f) (fschema f)).
    + unfold member. rewrite (start_get fields f D Hf), given_known.
      * destruct (held f); [reflexivity |]. destruct (given _ _); reflexivity.
      * apply existsb_exists. exists f. split; [exact Hf | apply name_eqb_refl].
    + rewrite field_of_find, (find_name fields f D Hf). reflexivity.
Qed.

(* the last value given wins when nothing raises *)
Lemma set_fold s ds d e : fits s e -> (exists b, snd (set s (empty s) d) = Ok b) ->
  fold_left (fun e d => fst (set s e d)) (ds ++ [d]) e = fst (set s (empty s) d).
Proof.
  intros F [b H]. rewrite fold_left_app. cbn [fold_left].
  assert (G : fits s (fold_left (fun e d => fst (set s e d)) ds e)).
  { clear H. revert e F. induction ds as [| x ds IH]; intros e F; cbn [fold_left]; [exact F |].
    apply IH, set_fits, F. }
  destruct (set_forgets object s _ (empty s) d G (empty_fits s)) as [R E].
  rewrite H in R. exact (E b R).
Qed.
Lemma verdict_each l b : verdict l = Ok b -> Forall (fun r => exists b', r = Ok b') l.
Proof.
  revert b. induction l as [| [x | e] l IH]; intros b; cbn [verdict]; [constructor | | discriminate].
  destruct (verdict l) as [b' |]; [| discriminate]. intros _. constructor; [exists x; reflexivity | exact (IH b' eq_refl)].
Qed.
Lemma verdict_true l : Forall (fun r => r = Ok true) l -> verdict l = Ok true.
Proof. induction 1 as [| r l H F IH]; cbn [verdict]; [reflexivity |]. rewrite H, IH. reflexivity. Qed.
Lemma verdict_true_inv l : verdict l = Ok true -> Forall (fun r => r = Ok true) l.
Proof.
  induction l as [| [x | e] l IH]; cbn [verdict]; [constructor | | discriminate].
  destruct (verdict l) as [[] |]; intros H; try discriminate; rewrite ?andb_false_r, ?andb_true_r in H; try discriminate.
  constructor; [congruence | apply IH; reflexivity].
Qed.
Theorem dict_set_last own fields items0 l e b : NoDup (map fname fields) ->
  set (NDict own fields) (RDict items0) (DMap l) = (e, Ok b) ->
  exists items, e = RDict items /\
    forall f, In f fields ->
      aget name_eqb (fname f) items =
      match rev (given (fname f) l) with
      | d :: _ => Some (fst (set (fschema f) (empty (fschema f)) d))
      | [] => if held f then Some (empty (fschema f)) else None
      end.
Proof.
  intros D H. destruct (dict_set_spec own fields items0 l D) as [items [E [_ G]]].
  cbv zeta in E, G. rewrite E in H. injection H as <- H. exists items. split; [reflexivity |].
  intros f Hf. rewrite (G f Hf).
  destruct (verdict (map (outcome own fields) l)) as [b' | x] eqn:Ev; [| discriminate].
  rewrite (tried_all _ _ _ Ev).
  destruct (rev (given (fname f) l)) as [| d r] eqn:Er.
  - apply (f_equal (@rev _)) in Er. rewrite rev_involutive in Er. rewrite Er. destruct (held f); reflexivity.
  - apply (f_equal (@rev _)) in Er. rewrite rev_involutive in Er. cbn [rev] in Er. rewrite Er.
    assert (Hin : In (fname f, d) l).
    { assert (X : In d (given (fname f) l)) by (rewrite Er; apply in_or_app; right; left; reflexivity).
      unfold given in X. apply in_map_iff in X. destruct X as [[n d'] [X1 X2]]. cbn [snd] in X1. subst d'.
      apply filter_In in X2. destruct X2 as [X2 X3]. cbn [fst] in X3. apply name_eqb_eq in X3. congruence. }
    apply verdict_each in Ev. rewrite Forall_map, Forall_forall in Ev. specialize (Ev _ Hin).
    unfold outcome in Ev. cbn [fst snd] in Ev. rewrite (find_name fields f D Hf) in Ev.
    pose proof (set_fold (fschema f) (rev r) d (empty (fschema f)) (empty_fits _) Ev) as SF.
    destruct (held f); [f_equal; exact SF |]. destruct (rev r); cbn [app] in *; f_equal; exact SF.
Qed.
Lemma mentions_in known l n : In n (mentions known l) <-> In n known \/ In n l.
Proof.
  revert known. induction l as [| m l IH]; intros known; cbn [mentions In]; [intuition |].
  rewrite IH. destruct (memb name_eqb m known) eqn:E.
  - apply memb_name in E. intuition; subst; auto.
  - rewrite in_app_iff. cbn [In]. intuition.
Qed.
Lemma mentions_nodup known l : NoDup known -> NoDup (mentions known l).
Proof.
  revert known. induction l as [| m l IH]; intros known D; cbn [mentions]; [exact D |].
  apply IH. destruct (memb name_eqb m known) eqn:E; [exact D |].
  apply Permutation_NoDup with (m :: known); [apply Permutation_cons_append |].
  constructor; [| exact D]. intros H. apply memb_name in H. congruence.
Qed.

(* ---- round trip ---- *)
Lemma given_map {A} (f : A -> data) n (l : list (name * A)) :
  given n (map (fun kv => (fst kv, f (snd kv))) l) = map (fun kv => f (snd kv)) (filter (fun kv => name_eqb n (fst kv)) l).
Proof.
  unfold given. induction l as [| [m a] l IH]; cbn [map filter fst snd]; [reflexivity |].
  destruct (name_eqb n m); cbn [map snd]; rewrite IH; reflexivity.
Qed.
Lemma filter_key {A} n (a : A) l : NoDup (map fst l) -> In (n, a) l ->
  filter (fun kv => name_eqb n (fst kv)) l = [(n, a)].
Proof.
  induction l as [| [m x] l IH]; intros D H; [destruct H |]. cbn [map fst] in D.
  inversion D as [| ? ? D1 D2]; subst. cbn [filter fst].
  destruct (name_eqb_spec n m) as [E | E].
  - subst m. destruct H as [H | H].
    + injection H as ->. f_equal. clear - D1. induction l as [| [k y] l IH]; cbn [filter fst]; [reflexivity |].
      cbn [map fst In] in D1. destruct (name_eqb_spec n k) as [E | E]; [exfalso; apply D1; left; congruence |].
      apply IH. intros H. apply D1. right. exact H.
    + exfalso. apply D1. apply (in_map fst) in H. exact H.
  - destruct H as [H | H]; [congruence |]. apply IH; assumption.
Qed.
Lemma NoDup_keys {A} (l : list (name * A)) : NoDup (map fst l) -> NoDup l.
Proof. apply NoDup_map_inv. Qed.

Theorem settled_round s : proper s -> forall e, settled s e -> forall e0, fits s e0 ->
  exists e', set s e0 (record_value e) = (e', Ok true) /\ same e' e.
Proof.
  induction s as [k | own fields IH | c m IH] using nested_rect'; intros P e S e0 F.
  - inversion S as [k' sub st Hs Ha Hu | |]; subst. destruct e0 as [sub0 st0 | |]; try contradiction.
    cbn [nested_set record_value plain]. unfold scalar_set. rewrite Ha.
    eexists. split; [reflexivity |].
    unfold marked. cbn [s_value]. destruct st as [raw v u]. cbn [s_value s_u] in *.
    subst u. destruct v; apply same_scalar.
  - inversion P as [| ? ? D PF |]; subst. inversion S as [| ? ? items Dk Hall Hin |]; subst.
    destruct e0 as [| items0 |]; try contradiction. cbn [record_value].
    set (l := map (fun kv => (fst kv, record_value (snd kv))) items).
    destruct (dict_set_spec own fields items0 l D) as [items' [E [Hk _]]]. cbv zeta in E, Hk.
    assert (Kl : map fst l = map fst items) by (unfold l; rewrite map_map; reflexivity).
    assert (Hone : forall n e1, In (n, e1) items -> exists f, In f fields /\ fname f = n /\
                     exists e2, set (fschema f) (empty (fschema f)) (record_value e1) = (e2, Ok true) /\ same e2 e1).
    { intros n e1 Hi. destruct (Hin n e1 Hi) as [f [Hf [Hn Hs]]]. exists f. split; [exact Hf | split; [exact Hn |]].
      rewrite Forall_forall in IH, PF. apply (IH f Hf (PF f Hf) e1 Hs). apply empty_fits. }
    assert (V : verdict (map (outcome own fields) l) = Ok true).
    { apply verdict_true. unfold l. rewrite !Forall_map. apply Forall_forall. intros [n e1] Hi.
      destruct (Hone n e1 Hi) as [f [Hf [Hn [e2 [He _]]]]]. unfold outcome. cbn [fst snd].
      rewrite <- Hn, (find_name fields f D Hf), He. reflexivity. }
    rewrite V in E.
    assert (E' : set (NDict own fields) (RDict items0) (DMap l) = (RDict items', Ok true)).
    { rewrite E. f_equal. destruct own; try reflexivity.
      assert (X : forallb (fun f => memb name_eqb (fname f) (map fst l)) fields = true).
      { apply forallb_forall. intros f Hf. apply memb_name. rewrite Kl. apply Hall; [exact Hf | right; reflexivity]. }
      rewrite X. reflexivity. }
    destruct (dict_set_last own fields items0 l _ true D E') as [items'' [X G]]. injection X as <-.
    exists (RDict items'). split; [exact E' |].
    rewrite (tried_all _ _ _ V), Kl in Hk.
    assert (Hkeys : forall n, In n (map fst items') <-> In n (map fst items)).
    { intros n. rewrite Hk, mentions_in. split.
      - intros [H | H].
        + apply in_map_iff in H. destruct H as [f [<- H]]. apply filter_In in H. destruct H as [Hf Hh].
          apply Hall; [exact Hf | left; exact Hh].
        + apply filter_In in H. apply H.
      - intros H. right. apply filter_In. split; [exact H |]. apply in_map_iff in H.
        destruct H as [[n' e1] [<- Hi]]. destruct (Hone n' e1 Hi) as [f [Hf [Hn _]]]. cbn [fst].
        apply existsb_exists. exists f. split; [exact Hf | rewrite Hn; apply name_eqb_refl]. }
    assert (Dk' : NoDup (map fst items')).
    { rewrite Hk. apply mentions_nodup. clear - D. induction fields as [| f l IH]; [constructor |].
      cbn [map] in D. inversion D as [| ? ? D1 D2]; subst. cbn [filter].
      destruct (held f); cbn [map]; [| apply IH, D2]. constructor; [| apply IH, D2].
      intros H. apply in_map_iff in H. destruct H as [g [H1 H2]]. apply filter_In in H2. apply D1.
      rewrite <- H1. apply in_map, H2. }
    assert (Hmem : forall n e1, In (n, e1) items -> exists e2, aget name_eqb n items' = Some e2 /\ same e2 e1).
    { intros n e1 Hi. destruct (Hone n e1 Hi) as [f [Hf [Hn [e2 [He Hs]]]]].
      exists e2. split; [| exact Hs]. rewrite <- Hn, (G f Hf), Hn. unfold l. rewrite given_map.
      rewrite (filter_key n e1 items Dk Hi). cbn [map rev app snd]. rewrite He. reflexivity. }
    assert (Hex : exists l', map fst l' = map fst items /\ Forall (fun kv => aget name_eqb (fst kv) items' = Some (snd kv)) l'
                             /\ Forall2 (fun x y => fst x = fst y /\ same (snd x) (snd y)) l' items).
    { clear - Hmem. induction items as [| [n e1] items IH].
      - exists []. repeat split; constructor.
      - destruct IH as [l' [H1 [H2 H3]]]; [intros m e2 H; apply Hmem; right; exact H |].
        destruct (Hmem n e1 (or_introl eq_refl)) as [e2 [H4 H5]].
        exists ((n, e2) :: l'). cbn [map fst]. rewrite H1. repeat split; constructor; auto. }
    destruct Hex as [l' [H1 [H2 H3]]].
    apply same_dict with l'; [| exact H3].
    apply NoDup_Permutation.
    + apply NoDup_keys, Dk'.
    + apply NoDup_keys. rewrite H1. exact Dk.
    + intros [n e2]. split; intros H.
      * assert (Hn : In n (map fst l')) by (rewrite H1; apply Hkeys; apply (in_map fst) in H; exact H).
        apply in_map_iff in Hn. destruct Hn as [[n' e3] [Hn Hi]]. cbn [fst] in Hn. subst n'.
        rewrite Forall_forall in H2. specialize (H2 _ Hi). cbn [fst snd] in H2.
        rewrite (in_aget n e2 items' Dk' H) in H2. injection H2 as ->. exact Hi.
      * rewrite Forall_forall in H2. specialize (H2 _ H). cbn [fst snd] in H2. apply aget_in, H2.
  - inversion P as [| | ? ? PM]; subst. inversion S as [| | ? ? l Hc Hl]; subst.
    destruct e0 as [| | c0 l0]; try contradiction. cbn [fits] in F. subst c0.
    assert (Hv : record_value (RSeq c l) = DSeq (map record_value l)) by (destruct c; congruence || reflexivity).
    rewrite Hv, (seq_set object c m l0 (DSeq (map record_value l)) (map record_value l) eq_refl), !map_map.
    assert (Hone : Forall (fun e => exists e', set m (empty m) (record_value e) = (e', Ok true) /\ same e' e) l).
    { rewrite Forall_forall in *. intros e He. apply (IH PM e (Hl e He)). apply empty_fits. }
    assert (V : verdict (map (fun e => snd (set m (empty m) (record_value e))) l) = Ok true).
    { apply verdict_true. rewrite Forall_map. eapply Forall_impl; [| exact Hone].
      intros e [e' [He _]]. rewrite He. reflexivity. }
    rewrite V. eexists. split; [reflexivity |]. constructor.
    clear - Hone. induction Hone as [| e l [e' [He Hs]] F IH]; cbn [map]; constructor; [rewrite He; exact Hs | exact IH].
Qed.
End Objects.
