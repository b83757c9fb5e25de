From Verif Require Import PyBase ModelDesc SpecDesc.
From Coq Require Import Sorted.

Lemma seq_iff a b : str_eqb a b = true <-> a = b.
Proof.
  revert b; induction a as [| x a IH]; intros [| y b]; cbn; try (split; [discriminate | discriminate]); [split; reflexivity |].
  rewrite andb_true_iff, N.eqb_eq, IH. split; [intros [-> ->]; reflexivity | intros H; injection H; auto].
Qed.
Lemma seq_refl a : str_eqb a a = true. Proof. now apply seq_iff. Qed.
Lemma seq_neq a b : a <> b -> str_eqb a b = false.
Proof. intros H. destruct (str_eqb a b) eqn:E; [apply seq_iff in E; contradiction | reflexivity]. Qed.
Lemma get_set {V} k n (v : V) l : aget str_eqb k (aset str_eqb n v l) = if str_eqb k n then Some v else aget str_eqb k l.
Proof.
  induction l as [| [k' v'] l IH]; cbn [aset aget].
  - reflexivity.
  - destruct (str_eqb n k') eqn:E; cbn [aget].
    + apply seq_iff in E. subst k'. destruct (str_eqb k n); reflexivity.
    + destruct (str_eqb k k') eqn:E2; [| exact IH]. apply seq_iff in E2. subst k'.
      rewrite seq_neq; [reflexivity |]. intros ->. rewrite seq_refl in E. discriminate.
Qed.
Lemma get_del {V} k n (l : list (str * V)) : aget str_eqb k (adel str_eqb n l) = if str_eqb k n then None else aget str_eqb k l.
Proof.
  induction l as [| [k' v'] l IH]; cbn [adel aget]; [destruct (str_eqb k n); reflexivity |].
  destruct (str_eqb n k') eqn:E; cbn [aget].
  - rewrite IH. apply seq_iff in E. subst k'. destruct (str_eqb k n); reflexivity.
  - rewrite IH. destruct (str_eqb k k') eqn:E2; [| reflexivity]. apply seq_iff in E2. subst k'.
    rewrite seq_neq; [reflexivity |]. intros ->. rewrite seq_refl in E. discriminate.
Qed.

Section Descriptors.
Variable V : Type.
Variable fget : nat -> list (str * V) -> res V.
Notation step := (attr_step fget).
Lemma step_own d a n o op : d <> Lazy -> aget str_eqb n (o_dict (step d a n o op)) = after (aget str_eqb n (o_dict o)) op.
Proof.
  intros D. destruct op as [| v |]; destruct d; try congruence; cbn [attr_step read assign delete after].
  - unfold assignable_read. destruct (aget str_eqb n (o_dict o)) eqn:E; cbn; [exact E | exact E].
  - unfold cloner_read. reflexivity.
  - cbn. rewrite get_set, seq_refl. reflexivity.
  - cbn. rewrite get_set, seq_refl. reflexivity.
  - unfold unstore. destruct (aget str_eqb n (o_dict o)) eqn:E; cbn; [rewrite get_del, seq_refl; reflexivity | exact E].
  - unfold unstore. destruct (aget str_eqb n (o_dict o)) eqn:E; cbn; [rewrite get_del, seq_refl; reflexivity | exact E].
Qed.
Lemma step_calls a n o op :
  o_calls (step Assignable a n o op) = misses (aget str_eqb n (o_dict o)) [op] + o_calls o.
Proof.
  destruct op as [| v |]; cbn [attr_step read assign delete misses].
  - unfold assignable_read. destruct (aget str_eqb n (o_dict o)); cbn; lia.
  - reflexivity.
  - unfold unstore. destruct (aget str_eqb n (o_dict o)); reflexivity.
Qed.
Lemma step_other d a n o op k : k <> n -> (d = Lazy -> k <> a) ->
  aget str_eqb k (o_dict (step d a n o op)) = aget str_eqb k (o_dict o).
Proof.
  intros Hn Ha. destruct op as [| v |]; destruct d; cbn [attr_step read assign delete]; try specialize (Ha eq_refl);
    unfold assignable_read, cloner_read, lazy_read, lazy_compute, unstore, store;
    repeat (match goal with |- context [match aget ?e ?x ?y with _ => _ end] => destruct (aget e x y) end; cbn [fst o_dict call_fget]);
    try (unfold call_fget; destruct (fget (o_calls o) (o_dict o)); cbn [fst o_dict store]);
    try rewrite get_set; try rewrite get_del; try rewrite seq_neq by assumption; reflexivity.
Qed.
Lemma history_own d a n ops o : d <> Lazy ->
  aget str_eqb n (o_dict (fold_left (step d a n) ops o)) = fold_left after ops (aget str_eqb n (o_dict o)).
Proof.
  intros D. revert o. induction ops as [| op ops IH]; intros o; cbn [fold_left]; [reflexivity |].
  rewrite IH, step_own by exact D. reflexivity.
Qed.
Lemma history_other d a n ops o k : k <> n -> (d = Lazy -> k <> a) ->
  aget str_eqb k (o_dict (fold_left (step d a n) ops o)) = aget str_eqb k (o_dict o).
Proof.
  intros H1 H2. revert o. induction ops as [| op ops IH]; intros o; cbn [fold_left]; [reflexivity |].
  rewrite IH. now apply step_other.
Qed.
Lemma history_calls a n ops o :
  o_calls (fold_left (step Assignable a n) ops o) = misses (aget str_eqb n (o_dict o)) ops + o_calls o.
Proof.
  revert o. induction ops as [| op ops IH]; intros o; cbn [fold_left misses]; [reflexivity |].
  rewrite IH, step_own, step_calls by discriminate. cbn [misses]. destruct op, (aget str_eqb n (o_dict o)); cbn; lia.
Qed.
Lemma assignable_history a n ops o :
  let o' := fold_left (step Assignable a n) ops o in
  read fget Assignable a n o' =
  match fold_left after ops (aget str_eqb n (o_dict o)) with
  | Some v => (o', Ok v)
  | None => (Obj (o_dict o') (S (o_calls o')), fget (o_calls o') (o_dict o'))
  end.
Proof. cbv zeta. rewrite <- (history_own Assignable a) by discriminate. cbn [read]. unfold assignable_read. destruct (aget _ _ _); reflexivity. Qed.
Lemma cloner_history a n ops o :
  let o' := fold_left (step Cloner a n) ops o in
  read fget Cloner a n o' =
  (o', match fold_left after ops (aget str_eqb n (o_dict o)) with Some v => Ok v | None => Err AttributeErr end).
Proof. cbv zeta. rewrite <- (history_own Cloner a) by discriminate. reflexivity. Qed.
Lemma delete_absent d a n (o : obj V) : aget str_eqb (match d with Lazy => a | _ => n end) (o_dict o) = None ->
  delete d a n o = (o, Err AttributeErr).
Proof. intros H. destruct d; cbn; unfold unstore; rewrite H; reflexivity. Qed.
Lemma delete_present d a n (o : obj V) v : aget str_eqb (match d with Lazy => a | _ => n end) (o_dict o) = Some v ->
  snd (delete d a n o) = Ok tt /\
  (forall k, aget str_eqb k (o_dict (fst (delete d a n o))) =
     if str_eqb k (match d with Lazy => a | _ => n end) then None else aget str_eqb k (o_dict o)) /\
  o_calls (fst (delete d a n o)) = o_calls o.
Proof.
  intros H. destruct d; cbn [delete]; unfold unstore; rewrite H; cbn; (split; [reflexivity | split; [| reflexivity]]);
    intros k; apply get_del.
Qed.
Lemma lazy_once a o o1 v : read fget Lazy a a o = (o1, Ok v) ->
  forall n, fold_left (step Lazy a a) (repeat ARead n) o1 = o1 /\ read fget Lazy a a o1 = (o1, Ok v) /\
  o_calls o1 = match aget str_eqb a (o_dict o) with Some _ => o_calls o | None => S (o_calls o) end.
Proof.
  cbn [read]. unfold lazy_read. intros H n.
  assert (K : aget str_eqb a (o_dict o1) = Some v /\ o_calls o1 = match aget str_eqb a (o_dict o) with Some _ => o_calls o | None => S (o_calls o) end).
  { destruct (aget str_eqb a (o_dict o)) as [w |] eqn:E.
    - injection H as <- <-. split; [exact E | reflexivity].
    - unfold lazy_compute, call_fget in H. destruct (fget (o_calls o) (o_dict o)); [| discriminate].
      injection H as <- <-. cbn. rewrite get_set, seq_refl. split; reflexivity. }
  destruct K as [K1 K2]. rewrite K1. split; [| split; [reflexivity | exact K2]].
  induction n; cbn [repeat fold_left]; [reflexivity |]. cbn [attr_step read]. unfold lazy_read. rewrite K1. cbn [fst]. exact IHn.
Qed.
Lemma lazy_first a o : aget str_eqb a (o_dict o) = None ->
  read fget Lazy a a o =
  match fget (o_calls o) (o_dict o) with
  | Ok v => (Obj (aset str_eqb a v (o_dict o)) (S (o_calls o)), Ok v)
  | Err x => (Obj (o_dict o) (S (o_calls o)), Err x)
  end.
Proof.
  intros H. cbn [read]. unfold lazy_read. rewrite H. unfold lazy_compute, call_fget. destruct (fget _ _); reflexivity.
Qed.
Lemma lazy_assigned a n v o : read fget Lazy a n (assign Lazy a n v o) = (assign Lazy a n v o, Ok v).
Proof. cbn. unfold lazy_read, store. cbn. rewrite get_set, seq_refl. reflexivity. Qed.
End Descriptors.

Lemma label_order mro own :
  elem_label mro own =
  first_given [aget str_eqb (lit "label") own; first_some (map c_label mro); aget str_eqb (lit "name") own; first_some (map c_name mro)] None.
Proof.
  unfold elem_label, elem_name, class_name. cbn [first_given].
  destruct (aget str_eqb (lit "label") own), (first_some (map c_label mro)); try reflexivity;
    destruct (aget str_eqb (lit "name") own); try reflexivity; destruct (first_some (map c_name mro)); reflexivity.
Qed.
Lemma class_label_order mro :
  class_label mro = first_given [first_some (map c_label mro); first_some (map c_name mro)] None.
Proof. unfold class_label, class_name. cbn. destruct (first_some (map c_label mro)); try reflexivity. Qed.
Lemma first_some_spec {A} (l : list (option A)) :
  (forall x, first_some l = Some x <-> exists n, nth_error l n = Some (Some x) /\ forall m, m < n -> nth_error l m = Some None) /\
  (first_some l = None <-> forall o, In o l -> o = None).
Proof.
  induction l as [| [y |] l [IH1 IH2]]; cbn [first_some].
  - split; [| split; [intros _ ? [] | reflexivity]]. intros x. split; [discriminate |]. intros [[| n] [H _]]; discriminate.
  - split.
    + intros x. split; [intros H; injection H as <-; exists 0; split; [reflexivity | intros; lia] |].
      intros [[| n] [H L]]; [cbn in H; congruence |]. specialize (L 0 ltac:(lia)). discriminate.
    + split; [discriminate |]. intros H. specialize (H (Some y) (or_introl eq_refl)). discriminate.
  - split.
    + intros x. rewrite IH1. split.
      * intros [n [H L]]. exists (S n). split; [exact H |]. intros [| m] Lt; [reflexivity | apply L; lia].
      * intros [[| n] [H L]]; [discriminate |]. exists n. split; [exact H |]. intros m Lt. apply (L (S m)). lia.
    + rewrite IH2. split; [intros H o [<- | Ho]; auto | intros H o Ho; apply H; now right].
Qed.

(* ---- views ---- *)
Lemma view_spec {V} (attr : str -> res V) item :
  (view_contains attr item = Ok true <-> exists v, attr item = Ok v) /\
  (view_contains attr item = Ok false <-> attr item = Err AttributeErr) /\
  (forall v, view_item attr item = Ok v <-> attr item = Ok v) /\
  (forall x, x <> AttributeErr -> attr item = Err x -> view_contains attr item = Err x /\ view_item attr item = Err x) /\
  (attr item = Err AttributeErr -> view_item attr item = Err KeyErr).
Proof.
  unfold view_contains, view_item. destruct (attr item) as [v | []] eqn:E;
    repeat split; intros; try congruence; try (destruct H; congruence); try (eexists; reflexivity).
Qed.
Lemma adict_spec {V} (own : str -> option V) d a :
  adict_attr own d a = match first_given [option_map Some (own a); option_map Some (aget str_eqb a d)] None with
                       | Some v => Ok v | None => Err AttributeErr end.
Proof. unfold adict_attr. cbn. destruct (own a); [reflexivity |]. cbn. destruct (aget str_eqb a d); reflexivity. Qed.

(* ---- deferred modules ---- *)
Lemma memb_in k l : existsb (str_eqb k) l = true <-> In k l.
Proof.
  rewrite existsb_exists. split; [intros [x [H E]]; apply seq_iff in E; now subst | intros H; exists k; split; [exact H | apply seq_refl]].
Qed.
Lemma pushed_fold (s : str) ms p k : aget str_eqb k (fold_left (fun p m => aset str_eqb m s p) ms p) =
  if existsb (str_eqb k) ms then Some s else aget str_eqb k p.
Proof.
  revert p. induction ms as [| m ms IH]; intros p; cbn [fold_left existsb]; [reflexivity |].
  rewrite IH, get_set. destruct (str_eqb k m), (existsb (str_eqb k) ms); reflexivity.
Qed.
Lemma declared {T} table : forall d : deferred T,
  let d' := fold_left declare_sub table d in
  d_dict d' = d_dict d /\ d_loaded d' = d_loaded d /\
  d_all d' = d_all d ++ flat_map (fun s => fst s :: snd s) table /\
  (forall k, aget str_eqb k (d_pushed d') = match owner table k with Some s => Some s | None => aget str_eqb k (d_pushed d) end).
Proof.
  induction table as [| [s ms] table IH]; intros d; cbn [fold_left flat_map owner].
  - repeat split; [now rewrite app_nil_r].
  - destruct (IH (declare_sub d (s, ms))) as (H1 & H2 & H3 & H4). cbn in H1, H2, H3, H4. cbv zeta.
    repeat split; [exact H1 | exact H2 | rewrite H3; cbn; now rewrite <- app_assoc |].
    intros k. rewrite H4. destruct (owner table k); [reflexivity |]. rewrite pushed_fold. destruct (existsb (str_eqb k) ms); reflexivity.
Qed.
Lemma owner_listed table k s : owner table k = Some s -> In s (map fst table) /\ In k (flat_map snd table).
Proof.
  induction table as [| [s' ms] table IH]; cbn [owner]; [discriminate |]. intros H.
  destruct (owner table k) eqn:E.
  - injection H as ->. destruct (IH eq_refl). split; [now right | cbn; apply in_or_app; now right].
  - destruct (existsb (str_eqb k) ms) eqn:Em; [| discriminate]. injection H as <-. split; [now left |]. cbn. apply in_or_app. left. now apply memb_in.
Qed.
Lemma owner_none table k : owner table k = None <-> ~ In k (flat_map snd table).
Proof.
  induction table as [| [s' ms] table IH]; cbn [owner flat_map]; [tauto |].
  rewrite in_app_iff. cbn [snd]. destruct (owner table k) eqn:E.
  - split; [discriminate |]. intros H. exfalso. apply H. right. now apply owner_listed in E.
  - rewrite <- memb_in. destruct (existsb (str_eqb k) ms); [split; [discriminate | intros H; exfalso; apply H; now left] |].
    split; [intros _ [H | H]; [discriminate | now apply IH] | reflexivity].
Qed.

Section Deferred.
Variable T : Type.
Variables (load : str -> res T) (attr : T -> str -> res T) (inherited : str -> option T).
Variables (start : list (str * T)) (table : list (str * list str)).
Hypothesis TD : tidy table.
Notation exp := (expected load attr inherited start table).
Definition inv (d : deferred T) : Prop :=
  d_all d = flat_map (fun s => fst s :: snd s) table /\
  (forall k, aget str_eqb k (d_pushed d) = owner table k) /\
  (forall k v, aget str_eqb k (d_dict d) = Some v -> exp k = Ok v) /\
  (forall k, aget str_eqb k (d_dict d) = None -> aget str_eqb k start = None) /\
  (forall s, In s (d_loaded d) -> In s (map fst table) /\ aget str_eqb s start = None /\ inherited s = None /\ exp s = load s /\
     (forall m, load s = Ok m -> aget str_eqb s (d_dict d) <> None)) /\
  NoDup (filter (fun s => match load s with Ok _ => true | Err _ => false end) (d_loaded d)).
Definition within (d d' : deferred T) (k : str) : Prop :=
  exists l, d_loaded d' = l ++ d_loaded d /\ forall s, In s l -> s = k \/ owner table k = Some s.
Lemma all_known k : owner table k = None -> memb str_eqb k (flat_map (fun s => fst s :: snd s) table) = existsb (str_eqb k) (map fst table).
Proof.
  intros H. unfold memb. apply eq_true_iff_eq. rewrite !memb_in, in_flat_map, in_map_iff.
  apply owner_none in H. split.
  - intros [[s ms] [Hi [<- | Hm]]]; [exists (s, ms); auto |]. exfalso. apply H. apply in_flat_map. exists (s, ms). auto.
  - intros [[s ms] [<- Hi]]. exists (s, ms). split; [exact Hi | now left].
Qed.
Lemma module_expected s : In s (map fst table) -> module load inherited start s = exp s.
Proof.
  intros H. unfold module, expected. destruct (aget str_eqb s start); [reflexivity |]. destruct (inherited s); [reflexivity |].
  rewrite (TD s H). apply memb_in in H. rewrite H. reflexivity.
Qed.
Lemma read_plain fuel k d : inv d -> owner table k = None ->
  snd (d_read load attr inherited fuel k d) = exp k /\ inv (fst (d_read load attr inherited fuel k d)) /\
  within d (fst (d_read load attr inherited fuel k d)) k.
Proof.
  intros (A & P & D & N & L & ND) O.
  assert (Same : within d d k) by (exists []; split; [reflexivity | intros ? []]).
  assert (E : d_read load attr inherited fuel k d =
    match aget str_eqb k (d_dict d) with
    | Some v => (d, Ok v)
    | None => match inherited k with Some v => (d, Ok v) | None => if memb str_eqb k (d_all d) then load_sub load k d else (d, Err AttributeErr) end
    end).
  { destruct fuel; cbn [d_read]; destruct (aget str_eqb k (d_dict d)); try reflexivity; destruct (inherited k); try reflexivity; rewrite P, O; reflexivity. }
  rewrite E. clear E. destruct (aget str_eqb k (d_dict d)) as [v |] eqn:EK.
  { cbn. split; [symmetry; now apply D | split; [repeat split; assumption || apply L; auto | exact Same]]. }
  pose proof (N k EK) as NS.
  assert (X : exp k = match inherited k with Some v => Ok v | None => if existsb (str_eqb k) (map fst table) then load k else Err AttributeErr end)
    by (unfold expected; rewrite NS, O; reflexivity).
  destruct (inherited k) as [v |] eqn:EI.
  { cbn. split; [symmetry; exact X | split; [repeat split; assumption || apply L; auto | exact Same]]. }
  rewrite A, (all_known k O). destruct (existsb (str_eqb k) (map fst table)) eqn:EM.
  2: { cbn. split; [symmetry; exact X | split; [repeat split; assumption || apply L; auto | exact Same]]. }
  assert (Hk : In k (map fst table)) by now apply memb_in.
  unfold load_sub. destruct (load k) as [m | x] eqn:EL; cbn [fst snd].
  - split; [symmetry; exact X |]. split.
    + split; [exact A | split; [exact P |]]. cbn [d_store d_dict d_loaded]. split; [| split; [| split]].
      * intros k' v'. rewrite get_set. destruct (str_eqb k' k) eqn:Ek; [| apply D]. apply seq_iff in Ek. subst. intros H. injection H as <-. exact X.
      * intros k'. rewrite get_set. destruct (str_eqb k' k); [discriminate | apply N].
      * intros s [<- | Hs].
        -- split; [exact Hk | split; [exact NS | split; [exact EI | split; [rewrite X; symmetry; exact EL |]]]]. intros m' _. rewrite get_set, seq_refl. discriminate.
        -- destruct (L s Hs) as (L1 & L2 & L3 & L4 & L5). repeat split; try assumption. intros m' Hm. rewrite get_set.
           destruct (str_eqb s k); [discriminate | now apply (L5 m')].
      * cbn [filter]. rewrite EL. constructor; [| exact ND]. rewrite filter_In. intros [Hin _]. destruct (L k Hin) as (_ & _ & _ & _ & L5).
        now apply (L5 m EL).
    + exists [k]. split; [reflexivity | intros s [<- | []]; now left].
  - split; [symmetry; exact X |]. split.
    + split; [exact A | split; [exact P |]]. cbn [d_dict d_loaded]. split; [exact D | split; [exact N | split]].
      * intros s [<- | Hs]; [| exact (L s Hs)]. split; [exact Hk | split; [exact NS | split; [exact EI | split; [rewrite X; symmetry; exact EL |]]]].
        intros m Hm. congruence.
      * cbn [filter]. rewrite EL. exact ND.
    + exists [k]. split; [reflexivity | intros s [<- | []]; now left].
Qed.
Lemma read_any fuel k d : inv d -> snd (d_read load attr inherited (S fuel) k d) = exp k /\
  inv (fst (d_read load attr inherited (S fuel) k d)) /\ within d (fst (d_read load attr inherited (S fuel) k d)) k.
Proof.
  intros I. destruct (owner table k) as [o |] eqn:O; [| now apply read_plain].
  destruct I as (A & P & D & N & L & ND) eqn:EI. pose proof I as I0. clear EI.
  assert (Same : within d d k) by (exists []; split; [reflexivity | intros ? []]).
  cbn [d_read]. destruct (aget str_eqb k (d_dict d)) as [v |] eqn:EK.
  { cbn. split; [symmetry; now apply D | split; [exact I0 | exact Same]]. }
  pose proof (N k EK) as NS.
  assert (X : exp k = match inherited k with Some v => Ok v | None => bind (module load inherited start o) (fun m => attr m k) end)
    by (unfold expected; rewrite NS, O; reflexivity).
  destruct (inherited k) as [v |] eqn:EH.
  { cbn. split; [symmetry; exact X | split; [exact I0 | exact Same]]. }
  rewrite P, O. destruct (owner_listed _ _ _ O) as [Ho Hk].
  destruct (read_plain fuel o d I0 (TD o Ho)) as (R1 & R2 & R3). destruct (d_read load attr inherited fuel o d) as [d1 r1]. cbn [fst snd] in R1, R2, R3.
  rewrite (module_expected o Ho) in X. rewrite <- R1 in X.
  assert (W : within d d1 k).
  { destruct R3 as [l [E H]]. exists l. split; [exact E |]. intros s Hs. right. destruct (H s Hs) as [-> | H']; [exact O |].
    rewrite (TD o Ho) in H'. discriminate. }
  destruct r1 as [m | x]; cbn [bind] in X.
  - destruct (attr m k) as [v | x] eqn:EA; cbn [fst snd]; [| split; [symmetry; exact X | split; [exact R2 | exact W]]].
    split; [symmetry; exact X |]. split; [| exact W].
    destruct R2 as (A1 & P1 & D1 & N1 & L1 & ND1). split; [exact A1 | split; [exact P1 |]]. cbn [d_store d_dict d_loaded]. split; [| split; [| split]].
    + intros k' v'. rewrite get_set. destruct (str_eqb k' k) eqn:Ek; [| apply D1]. apply seq_iff in Ek. subst. intros H. injection H as <-. exact X.
    + intros k'. rewrite get_set. destruct (str_eqb k' k); [discriminate | apply N1].
    + intros s Hs. destruct (L1 s Hs) as (M1 & M2 & M3 & M4 & M5). repeat split; try assumption. intros m' Hm. rewrite get_set.
      destruct (str_eqb s k); [discriminate | now apply (M5 m')].
    + exact ND1.
  - cbn. split; [symmetry; exact X | split; [exact R2 | exact W]].
Qed.
Lemma reads_inv fuel ks : forall d, inv d -> inv (d_reads load attr inherited (S fuel) ks d) /\
  exists l, d_loaded (d_reads load attr inherited (S fuel) ks d) = l ++ d_loaded d /\
    forall s, In s l -> exists k, In k ks /\ (s = k \/ owner table k = Some s).
Proof.
  induction ks as [| k ks IH]; intros d I; cbn [d_reads].
  - split; [exact I | exists []; split; [reflexivity | intros ? []]].
  - destruct (read_any fuel k d I) as (_ & I1 & [l1 [E1 H1]]). destruct (IH _ I1) as [I2 [l2 [E2 H2]]].
    split; [exact I2 |]. exists (l2 ++ l1). split; [rewrite E2, E1; now rewrite app_assoc |].
    intros s Hs. apply in_app_or in Hs. destruct Hs as [Hs | Hs]; [destruct (H2 s Hs) as [k' [? ?]]; exists k'; split; [now right | assumption] |].
    exists k. split; [now left | now apply H1].
Qed.
End Deferred.
Lemma initial_get {T} (basics attributes late : list (str * T)) k :
  aget str_eqb k (initial basics attributes late) =
  first_given [option_map Some (aget str_eqb k (rev late)); option_map Some (aget str_eqb k (rev attributes))] (aget str_eqb k basics).
Proof.
  assert (F : forall (l m : list (str * T)), aget str_eqb k (fold_left (fun m kv => aset str_eqb (fst kv) (snd kv) m) l m) =
    match aget str_eqb k (rev l) with Some v => Some v | None => aget str_eqb k m end).
  { assert (G : forall (l r : list (str * T)), aget str_eqb k (l ++ r) = match aget str_eqb k l with Some v => Some v | None => aget str_eqb k r end).
    { induction l as [| [k' v'] l IHl]; intros r; cbn; [reflexivity |]. destruct (str_eqb k k'); [reflexivity | apply IHl]. }
    induction l as [| [k' v'] l IH]; intros m; cbn [fold_left rev]; [reflexivity |].
    rewrite IH, G, get_set. cbn. destruct (aget str_eqb k (rev l)); [reflexivity |]. destruct (str_eqb k k'); reflexivity. }
  unfold initial. rewrite fold_left_app, !F. cbn. destruct (aget str_eqb k (rev late)); [reflexivity |]. cbn.
  destruct (aget str_eqb k (rev attributes)); reflexivity.
Qed.
Lemma new_inv T load attr inherited (basics attributes late : list (str * T)) table : tidy table ->
  inv T load attr inherited (initial basics attributes late) table (new_deferred basics attributes late table) /\
  d_loaded (new_deferred basics attributes late table) = [].
Proof.
  intros TD. unfold new_deferred.
  destruct (declared table (Deferred (initial basics attributes late) [] [] [])) as (H1 & H2 & H3 & H4). cbn in H1, H2, H3, H4.
  unfold initial in *. split; [| exact H2]. split; [exact H3 |]. split; [| split; [| split; [| split]]].
  - intros k. rewrite H4. destruct (owner table k); reflexivity.
  - intros k v. rewrite H1. intros E. unfold expected. rewrite E. reflexivity.
  - intros k. rewrite H1. auto.
  - intros s. rewrite H2. intros [].
  - rewrite H2. constructor.
Qed.
Lemma deferred_reads T load attr inherited (basics attributes late : list (str * T)) table fuel ks k : tidy table ->
  let d := d_reads load attr inherited (S fuel) ks (new_deferred basics attributes late table) in
  snd (d_read load attr inherited (S fuel) k d) = expected load attr inherited (initial basics attributes late) table k /\
  NoDup (filter (fun s => match load s with Ok _ => true | Err _ => false end) (d_loaded d)) /\
  (forall s, In s (d_loaded d) -> exists k, In k ks /\ (s = k \/ owner table k = Some s)).
Proof.
  intros TD d. destruct (new_inv T load attr inherited basics attributes late table TD) as [I0 E0].
  destruct (reads_inv T load attr inherited (initial basics attributes late) table TD fuel ks _ I0) as [I [l [El Hl]]]. fold d in I, El.
  split; [exact (proj1 (read_any T load attr inherited _ table TD fuel k d I)) |]. split; [apply I |].
  rewrite El, E0, app_nil_r. exact Hl.
Qed.
(* alphabetical order *)
Lemma before_iff a : forall b, text_before a b = true <-> before a b.
Proof.
  induction a as [| x a IH]; intros [| y b]; cbn [text_before].
  - split; [discriminate | intros H; inversion H].
  - split; [intros _; constructor | reflexivity].
  - split; [discriminate | intros H; inversion H].
  - rewrite orb_true_iff, andb_true_iff, N.ltb_lt, N.eqb_eq, IH. split.
    + intros [H | [-> H]]; [now apply before_less | now apply before_same].
    + intros H. inversion H; subst; auto.
Qed.
Lemma before_trans a b c : before a b -> before b c -> before a c.
Proof.
  intros H. revert c. induction H as [x b | x a y b Hl | x a b H IH]; intros c Hc; inversion Hc; subst; try (constructor; fail).
  - apply before_less. lia.
  - now apply before_less.
  - now apply before_less.
  - apply before_same. now apply IH.
Qed.
Lemma before_total a : forall b, before a b \/ a = b \/ before b a.
Proof.
  induction a as [| x a IH]; intros [| y b]; [auto | left; constructor | right; right; constructor |].
  destruct (N.lt_total x y) as [H | [-> | H]]; [left; now apply before_less | | right; right; now apply before_less].
  destruct (IH b) as [H | [-> | H]]; [left; now apply before_same | auto | right; right; now apply before_same].
Qed.
Lemma insert_in x y l : In y (insert_new x l) <-> y = x \/ In y l.
Proof.
  induction l as [| z l IH]; cbn [insert_new]; [cbn; intuition |].
  destruct (text_before x z); [cbn; intuition |]. destruct (str_eqb x z) eqn:E.
  - apply seq_iff in E. subst. cbn. intuition.
  - cbn [In]. rewrite IH. intuition.
Qed.
Lemma insert_sorted x l : StronglySorted before l -> StronglySorted before (insert_new x l).
Proof.
  induction l as [| z l IH]; intros S; cbn [insert_new]; [constructor; constructor |].
  inversion S as [| ? ? S1 S2]; subst.
  destruct (text_before x z) eqn:E.
  - apply before_iff in E. constructor; [exact S |]. constructor; [exact E |]. rewrite Forall_forall in *. intros y Hy.
    apply (before_trans _ z); auto.
  - destruct (str_eqb x z) eqn:E2; [exact S |]. constructor; [now apply IH |]. rewrite Forall_forall in *. intros y Hy.
    apply insert_in in Hy. destruct Hy as [-> | Hy]; [| auto].
    destruct (before_total x z) as [H | [H | H]]; [apply before_iff in H; congruence | subst; rewrite seq_refl in E2; discriminate | exact H].
Qed.
Lemma filter_sorted {A} (R : A -> A -> Prop) f l : StronglySorted R l -> StronglySorted R (filter f l).
Proof.
  induction 1 as [| x l S IH F]; cbn; [constructor |]. destruct (f x); [| exact IH]. constructor; [exact IH |].
  rewrite Forall_forall in *. intros y Hy. apply filter_In in Hy. apply F, Hy.
Qed.
Lemma dir_spec T (d : deferred T) :
  StronglySorted before (d_dir d) /\
  (forall k, In k (d_dir d) <-> (In k (d_all d) \/ In k (map fst (d_dict d))) /\ starts_with (lit "_deferred_module") k = false).
Proof.
  unfold d_dir. split.
  - apply filter_sorted. induction (d_all d ++ map fst (d_dict d)); cbn; [constructor | now apply insert_sorted].
  - intros k. rewrite filter_In, negb_true_iff, <- in_app_iff.
    assert (E : forall l, In k (fold_right insert_new [] l) <-> In k l).
    { induction l; cbn [fold_right]; [tauto |]. rewrite insert_in, IHl. cbn. intuition. }
    rewrite E. reflexivity.
Qed.
Lemma dict_keys_set {V} k (v : V) l x : In x (map fst (aset str_eqb k v l)) <-> x = k \/ In x (map fst l).
Proof.
  induction l as [| [k' v'] l IH]; cbn [aset map fst In]; [intuition |].
  destruct (str_eqb k k') eqn:E; cbn [map fst In]; [apply seq_iff in E; subst; intuition |]. rewrite IH. intuition.
Qed.
Lemma own_name_loops T load attr inherited (s : str) (d : deferred T) fuel :
  aget str_eqb s (d_dict d) = None -> inherited s = None -> aget str_eqb s (d_pushed d) = Some s ->
  d_read load attr inherited fuel s d = (d, Err RuntimeErr).
Proof.
  intros H1 H2 H3. induction fuel as [| fuel IH]; cbn [d_read]; rewrite H1, H2, H3; [reflexivity |]. rewrite IH. reflexivity.
Qed.
Lemma all_spec T (basics attributes late : list (str * T)) table k :
  In k (d_all (new_deferred basics attributes late table)) <-> In k (map fst table) \/ In k (flat_map snd table).
Proof.
  unfold new_deferred. destruct (declared table (Deferred (initial basics attributes late) [] [] [])) as (_ & _ & H3 & _).
  cbn in H3. unfold initial in H3. rewrite H3. clear H3. induction table as [| [s ms] table IH]; cbn; [tauto |].
  rewrite !in_app_iff, IH. intuition.
Qed.
