(* Top level: Dict and SparseDict. *)
From Verif Require Import PyBase PyBaseFacts ModelUtil SpecUtil ProofUtil ModelScalar ModelSeq ModelMap SpecMap
  ProofMap ProofMap2 ProofMap3 ProofMap4 ProofMap5.

Section Top.
Context {V M : Type} (cls : nat -> ecls V M) (isa : nat -> nat -> bool) (fields : list field)
        (own_name : name) (minf : minimum) (own : policy).
Notation st := (mapst M).
Implicit Types (s : st) (k : name) (e : nat) (f : field).
Notation dstep := (dict_step cls isa fields own_name minf own).
Notation sstep := (sparse_step cls isa fields own_name minf own).

Lemma construct_shape h self v : unique_fields fields -> isa_refl isa ->
  snd (construct_map cls isa fields minf IsDict own h self v) = Ok tt ->
  dict_shape fields (fst (construct_map cls isa fields minf IsDict own h self v))
  /\ m_self (fst (construct_map cls isa fields minf IsDict own h self v)) = self.
Proof.
  intros (U & Ne) R. unfold construct_map. destruct fields as [|f0 fs] eqn:Ef; [easy|]. rewrite <- Ef in *.
  clear Ne. assert (S1 : dict_shape fields (do_reset cls fields minf IsDict (MapSt h self []))).
  { apply (reset_shape cls fields minf U). now right. }
  assert (E1 : m_self (do_reset cls fields minf IsDict (MapSt h self [])) = self).
  { assert (W : within fields IsDict (MapSt h self [])) by (split; [constructor|easy]).
    apply (g_self _ _ _ _ _ (proj1 (reset_good cls fields minf U IsDict _ W))). }
  destruct v as [src|]; [|easy].
  pose proof (set_shape cls fields minf U isa R own _ src None S1) as S2.
  assert (E2 : m_self (fst (dict_set cls isa fields minf IsDict own (do_reset cls fields minf IsDict (MapSt h self [])) src None)) = self).
  { destruct src as [|[l last]]; [exact E1|].
    pose proof (dict_set_spec cls isa fields minf U R IsDict own _ l last None (shape_within _ _ S1) ltac:(easy)) as K.
    destruct (dict_set _ _ _ _ _ _ _ _ _) as (s', r). destruct K as (d & _ & _ & G & _). cbn [fst].
    rewrite (g_self _ _ _ _ _ G). exact E1. }
  destruct (dict_set _ _ _ _ _ _ _ _ _) as (s', r). easy.
Qed.
Lemma dict_step_shape s o : NoDup (map f_name fields) -> isa_refl isa ->
  dict_shape fields s -> dict_shape fields (fst (dstep s o)) /\ m_self (fst (dstep s o)) = m_self s.
Proof.
  intros U R H.
  assert (Sm : forall s', same_members s s' -> dict_shape fields s' /\ m_self s' = m_self s).
  { intros s' E. split; [now apply (same_shape fields s)|apply E]. }
  assert (Ds : forall src g, let s' := fst (dict_set cls isa fields minf IsDict own s src g) in
               dict_shape fields s' /\ m_self s' = m_self s).
  { intros src g. split; [now apply set_shape|]. destruct src as [|[l last]]; [easy|].
    assert (Hg : g = Some OtherPolicy \/ g <> Some OtherPolicy) by (destruct g as [[]|]; auto; right; congruence).
    destruct Hg as [->|Hg].
    - cbn. pose proof (reset_good cls fields minf U IsDict s (shape_within _ _ H)) as (G & _). apply G.
    - pose proof (dict_set_spec cls isa fields minf U R IsDict own s l last g (shape_within _ _ H) Hg) as K.
      destruct (dict_set _ _ _ _ _ _ _ _ _) as (s', r). destruct K as (d & _ & _ & G & _). apply G. }
  destruct o; cbn [dict_step]; rewrite ?fst_mret; try (now split).
  - apply Sm, setitem_same.
  - unfold map_delitem. now destruct (mhas k s).
  - unfold map_delitem. now destruct (mhas k s).
  - assert (K : same_members s (fst (map_update (map_setitem cls) s dictish kwargs))).
    { apply (update_ind _ (fun s' => same_members s s') (fun _ => True)).
      - intros s1 k a E _. apply (same_trans _ _ _ E). apply setitem_same.
      - apply same_refl.
      - apply Forall_forall. intros. now apply Forall_forall.
      - now apply Forall_forall. }
    now apply Sm.
  - apply Ds.
  - apply Sm. unfold map_set_flat. destruct (match own_name with None => _ | Some _ => _ end) as [[|]|]; try apply same_refl.
    apply flat_fields_same. intros f If. destruct (shape_field fields U s H f If) as (e & -> & _). easy.
  - unfold map_set_default. destruct d as [| |src]; [apply Sm, default_children_same|apply Sm, default_children_same|].
    specialize (Ds src None). cbn zeta in Ds. now destruct (dict_set _ _ _ _ _ _ _ _ _).
  - unfold set_by_object. destruct (memb name_eqb None _); [now split|]. destruct (keyslice_pairs _ _ _ _ _ _) as [sl|x]; [|now split].
    match goal with |- context [dict_set _ _ _ _ _ _ _ ?h ?i] => specialize (Ds h i); cbn zeta in Ds end.
    now destruct (dict_set _ _ _ _ _ _ _ _ _).
Qed.
Lemma dict_run_shape os : forall s, NoDup (map f_name fields) -> isa_refl isa -> dict_shape fields s ->
  dict_shape fields (run_dict cls isa fields own_name minf own s os)
  /\ m_self (run_dict cls isa fields own_name minf own s os) = m_self s.
Proof.
  induction os as [|o os IH]; intros s U R H; [easy|]. unfold run_dict. cbn [fold_left].
  destruct (dict_step_shape s o U R H) as (A & B). destruct (IH _ U R A) as (C & D). split; [exact C|].
  etransitivity; [exact D|exact B].
Qed.
Lemma dict_history h self v os : unique_fields fields -> isa_refl isa ->
  snd (construct_map cls isa fields minf IsDict own h self v) = Ok tt ->
  let s := run_dict cls isa fields own_name minf own (fst (construct_map cls isa fields minf IsDict own h self v)) os in
  dict_shape fields s /\ m_self s = self.
Proof.
  intros U R H. destruct (construct_shape h self v U R H) as (A & B).
  destruct (dict_run_shape os _ (proj1 U) R A) as (C & D). split; [exact C|]. etransitivity; [exact D|exact B].
Qed.
Lemma no_fields_error fl h self v : fields = [] ->
  construct_map cls isa fields minf fl own h self v = (MapSt h self [], Err TypeErr).
Proof. now intros ->. Qed.

(* ------------------------------ Dict calls ------------------------------ *)
Lemma dict_assign s k a : NoDup (map f_name fields) -> dict_shape fields s ->
  match mget k s with
  | Some e => In k (map f_name fields)
      /\ let m := assigned cls (m_h s) (e_class (m_h s) e) (e_con (m_h s) e) a in
         only_content s (fst (dstep s (MSetItem k a))) e (fst m)
         /\ snd (dstep s (MSetItem k a)) = rmap (fun _ => MONone) (snd m)
  | None => ~ In k (map f_name fields) /\ dstep s (MSetItem k a) = (s, Err TypeErr)
  end.
Proof.
  intros U H. cbn [dict_step]. destruct (mget k s) as [e|] eqn:E.
  - split.
    + destruct (in_dec name_dec k (map f_name fields)) as [I|I]; [easy|].
      apply (shape_none fields s k H) in I. congruence.
    + destruct (setitem_known cls s k e a E) as (A & B). rewrite fst_mret. split; [exact A|].
      destruct (map_setitem cls s k a) as (s', r). cbn [mret snd] in *. rewrite B.
      now destruct (snd (assigned _ _ _ _ _)).
  - split; [now apply (shape_none fields s k H)|]. now rewrite setitem_unknown.
Qed.
Lemma dict_refuses s : dict_shape fields s ->
  (forall k, dstep s (MDelItem k) = (s, Err (if mhas k s then TypeErr else KeyErr)))
  /\ (forall k, dstep s (MPop k) = (s, Err (if mhas k s then TypeErr else KeyErr)))
  /\ dstep s MClear = (s, Err TypeErr) /\ dstep s MPopItem = (s, Err TypeErr)
  /\ (forall k d, dstep s (MSetdefault k d) = (s, Err TypeErr))
  /\ (forall k, map_may s k = true <-> In k (map f_name fields))
  /\ (forall k, mhas k s = true <-> In k (map f_name fields))
  /\ (forall k, dstep s (MGet k) = (s, match aget name_eqb k (m_items s) with
                                       | Some e => Ok (MOElem e) | None => Err KeyErr end))
  /\ map_is_empty IsDict s = false.
Proof.
  intros H. assert (K : forall k, mhas k s = true <-> In k (map f_name fields)).
  { intros k. rewrite mhas_spec. apply H. }
  do 2 (split; [intros k; cbn; unfold map_delitem; now destruct (mhas k s)|]).
  do 3 (split; [easy|]). split; [exact K|]. split; [exact K|]. split; [|easy].
  intros k. cbn. unfold map_get. fold (mget k s). now destruct (mget k s).
Qed.
Lemma update_many s setitem d1 d2 ds kw :
  map_update (V:=V) setitem s (d1 :: d2 :: ds) kw = (s, Err TypeErr).
Proof. reflexivity. Qed.

(* ------------------------------ set ------------------------------ *)
Lemma starts_dict : starts cls minf IsDict = fun _ => true.
Proof. reflexivity. Qed.
Lemma dict_set_outcome s l last given : NoDup (map f_name fields) -> isa_refl isa -> dict_shape fields s ->
  given <> Some OtherPolicy ->
  let pol := match given with Some p => p | None => own end in
  let s' := fst (dict_set cls isa fields minf IsDict own s (Pairs (Iter l last)) given) in
  exists d, set_outcome cls fields pol l last d (snd (dict_set cls isa fields minf IsDict own s (Pairs (Iter l last)) given))
    /\ contents_after cls fields (fun _ => true) d s'
    /\ untouched (m_h s) (m_h s') /\ m_self s' = m_self s
    /\ forall ke, In ke (m_items s') -> e_next (m_h s) <= snd ke.
Proof.
  intros U R H Hg. pose proof (dict_set_spec cls isa fields minf U R IsDict own s l last given (shape_within _ _ H) Hg) as K.
  cbn zeta. destruct (dict_set _ _ _ _ _ _ _ _ _) as (s', r). destruct K as (d & K1 & K2 & [G1 G2 G3 _ _ _ _ G8] & _). cbn [fst snd].
  exists d. repeat (split; [easy|]). intros (k, e) I. apply (G3 k e). now apply in_mget.
Qed.
Lemma sparse_set_outcome s l last given : NoDup (map f_name fields) -> isa_refl isa ->
  given <> Some OtherPolicy ->
  let pol := match given with Some p => p | None => own end in
  let s' := fst (dict_set cls isa fields minf IsSparse own s (Pairs (Iter l last)) given) in
  exists d, set_outcome cls fields pol l last d (snd (dict_set cls isa fields minf IsSparse own s (Pairs (Iter l last)) given))
    /\ contents_after cls fields
         (fun f => match minf with MinNone => false | _ => negb (c_optional (cls (f_class f))) end) d s'
    /\ untouched (m_h s) (m_h s') /\ m_self s' = m_self s
    /\ forall ke, In ke (m_items s') -> e_next (m_h s) <= snd ke.
Proof.
  intros U R Hg. pose proof (dict_set_spec cls isa fields minf U R IsSparse own s l last given I Hg) as K.
  cbn zeta. destruct (dict_set _ _ _ _ _ _ _ _ _) as (s', r). destruct K as (d & K1 & K2 & [G1 G2 G3 _ _ _ _ G8] & _). cbn [fst snd].
  exists d. repeat (split; [easy|]). intros (k, e) I. apply (G3 k e). now apply in_mget.
Qed.
Lemma set_bad fl s : 
  dict_set cls isa fields minf fl own s NotIterable None = (s, Err TypeErr)
  /\ (forall g, dict_set cls isa fields minf fl own s NotIterable g = (s, Err TypeErr))
  /\ (forall it, snd (dict_set cls isa fields minf fl own s (Pairs it) (Some OtherPolicy)) = Err AssertErr)
  /\ (NoDup (map f_name fields) -> dict_shape fields s -> forall it,
      contents_after cls fields (starts cls minf fl) [] (fst (dict_set cls isa fields minf fl own s (Pairs it) (Some OtherPolicy)))).
Proof.
  repeat (split; [easy|]). intros U H it. cbn. apply reset_good; [easy|].
  destruct fl; [now apply shape_within|exact I].
Qed.
(* Mapping.set on a full mapping is the strict policy *)
Lemma map_set_all_strict last : forall l s seen conv, NoDup (map f_name fields) -> dict_shape fields s ->
  map_set_all cls s l last seen conv = dict_set_all cls isa fields IsDict Strict s l last seen conv.
Proof.
  intros l s seen conv U. revert s seen conv. induction l as [|(k, v) l IH]; intros s seen conv H; cbn [map_set_all dict_set_all].
  - destruct last; [easy|]. f_equal.
    assert (E : forallb (fun k => memb name_eqb k seen) (keys (m_items s))
                = forallb (fun k => memb name_eqb k seen) (keys (field_map fields))).
    { apply Bool.eq_true_iff_eq. rewrite !forallb_forall.
      destruct H as (_ & H & _). split; intros K k Ik; apply K.
      - apply H. now apply field_map_keys.
      - apply field_map_keys. now apply H. }
    now rewrite E.
  - rewrite field_map_get by easy. destruct (mget k s) as [e|] eqn:E.
    + assert (Ik : In k (map f_name fields)).
      { destruct (in_dec name_dec k (map f_name fields)) as [I|I]; [easy|].
        apply (shape_none fields s k H) in I. congruence. }
      destruct (schema_for fields k) as [c|] eqn:Es; [|now apply schema_for_none in Es].
      destruct (set_child_only cls s e (AVal v)) as (A & _). apply only_same in A.
      destruct (set_child cls (m_h s) e (AVal v)) as (h, r). cbn [fst] in A. destruct r; [|easy].
      apply IH. now apply (same_shape fields s).
    + apply (shape_none fields s k H) in E. apply schema_for_none in E. now rewrite E.
Qed.
Lemma mapping_set_strict s src : NoDup (map f_name fields) -> dict_shape fields s ->
  map_set cls fields s src = dict_set cls isa fields minf IsDict own s src (Some Strict).
Proof.
  intros U H. destruct src as [|[l last]]; [easy|]. unfold map_set, dict_set. cbn [it_items it_end].
  apply map_set_all_strict; [easy|]. apply (reset_shape cls fields minf U). now left.
Qed.

(* ------------------------------ set_flat ------------------------------ *)
Definition route pairs sep (f : field) : list (name * V) :=
  match f_name f with Some n => routed (own_prefix own_name sep) n pairs | None => [] end.
Lemma flat_calls fl s pairs sep :
  NoDup (map f_name fields) -> isa_refl isa ->
  (fl = IsDict -> dict_shape fields s) -> (forall k e, mget k s = Some e -> e < e_next (m_h s)) ->
  NoDup (keys (m_items s)) -> NoDup (map snd (m_items s)) ->
  texts pairs -> (forall f, In f fields -> f_name f <> None) ->
  let '(s', r) := map_set_flat cls fields own_name (do_setitem cls isa fields fl) s pairs sep in
  (forall k, ~ In k (map f_name fields) -> content s' k = content s k)
  /\ (forall f, In f fields -> route pairs sep f = [] -> content s' (f_name f) = content s (f_name f))
  /\ match r with
     | Ok _ => forall f, In f fields -> route pairs sep f <> [] ->
         content s' (f_name f) = Some (fst (call_at cls (route pairs sep f) s f))
         /\ snd (call_at cls (route pairs sep f) s f) = Ok tt
     | Err x =>
         (exists f, In f fields /\ route pairs sep f <> [] /\ snd (call_at cls (route pairs sep f) s f) = Err x
                    /\ content s' (f_name f) = Some (fst (call_at cls (route pairs sep f) s f)))
         /\ forall f, In f fields -> content s' (f_name f) = content s (f_name f)
              \/ (content s' (f_name f) = Some (fst (call_at cls (route pairs sep f) s f)) /\ route pairs sep f <> [])
     end.
Proof.
  intros U R Hd L N1 N2 T Ft. 
  assert (E : (match own_name with None => Ok pairs | Some n => possibles (n ++ sep) pairs end)
              = Ok (keep (own_prefix own_name sep) pairs)).
  { destruct own_name; cbn [own_prefix]; [now apply possibles_texts|]. now rewrite keep_nil. }
  unfold map_set_flat. rewrite E.
  assert (Hacc : forall f, In f fields ->
            accumulate (f_name f) (keep (own_prefix own_name sep) pairs) = Ok (route pairs sep f)).
  { intros f If. unfold route. destruct (f_name f) as [n|] eqn:En; [|now apply Ft in En].
    rewrite accumulate_texts by apply keep_texts. now rewrite keep_routed. }
  destruct (keep (own_prefix own_name sep) pairs) as [|p ps] eqn:Ek.
  - assert (Z : forall f, In f fields -> route pairs sep f = []).
    { intros f If. specialize (Hacc f If). cbn in Hacc. congruence. }
    split; [easy|]. split; [easy|]. intros f If Hn. now rewrite Z in Hn.
  - rewrite <- Ek in *. clear Ek. 
    apply (flat_fields_spec cls isa fields fl); auto.
    + split; [exact L|]. now apply nodup_distinct.
    + intros -> f If. destruct (shape_field fields U s (Hd eq_refl) f If) as (e & -> & _). easy.
    + intros _. split; [|easy]. intros f If. now apply schema_for_field.
Qed.
End Top.
