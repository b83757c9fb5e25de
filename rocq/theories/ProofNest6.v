(* faulty pairs; iteration; MultiValue *)
From Verif Require Import PyBase PyBaseFacts PyList ModelUtil ModelMap ModelScalar ModelNest SpecNest
  ProofNest ProofNest2.
From Coq Require Import Lia.
Section Objects.
Variable object : data -> pyval.
Notation set := (nested_set object).
Lemma faulty_stops own fields bad x rest : faulty own bad x -> forall items seen conv,
  set_fields own fields items seen conv (unpack bad :: rest) = (items, Err x).
Proof.
  intros F items seen conv. destruct F as [v H | s H | l H | l H | k d | k d | v d Ho Ht Hn]; cbn [set_fields].
  - destruct v; try discriminate; reflexivity.
  - destruct s as [| a [| b [| c s]]]; try reflexivity. exfalso. apply H. reflexivity.
  - destruct l as [| a [| b [| c l]]]; try reflexivity. exfalso. apply H. reflexivity.
  - destruct l as [| a [| b [| c l]]]; try reflexivity. exfalso. apply H. reflexivity.
  - reflexivity.
  - reflexivity.
  - destruct v; try discriminate; destruct own; try congruence; reflexivity.
Qed.
Lemma loop_faulty own fields bad x rest : NoDup (map fname fields) -> faulty own bad x -> forall l items seen conv,
  fitting fields items ->
  snd (set_fields own (map (fun f => (fst (fst f), (empty (snd f), set (snd f)))) fields) items seen conv
         (map (fun kv => Ok (as_key (fst kv), snd kv)) l ++ unpack bad :: rest)) =
  match verdict (map (pair_outcome object own fields) l) with Err y => Err y | Ok _ => Err x end.
Proof.
  intros D F. induction l as [| [n d] l IH]; intros items seen conv Fi.
  - cbn [map app verdict]. rewrite (faulty_stops own _ bad x rest F). reflexivity.
  - cbn [map app set_fields fst snd]. rewrite as_name_key, setters_get.
    cbn [verdict]. unfold pair_outcome at 1. cbn [fst snd].
    destruct (field_of fields n) as [s |] eqn:Es; cbn [option_map].
    + set (old := match aget name_eqb n items with Some e => e | None => empty s end).
      assert (Fo : fits s old).
      { unfold old. destruct (aget name_eqb n items) as [e |] eqn:Ee; [exact (Fi n e s Ee Es) | apply empty_fits]. }
      pose proof (set_forgets object s old (empty s) d Fo (empty_fits s)) as [Hr _].
      pose proof (set_fits object s old d Fo) as Fe.
      destruct (set s old d) as [e r]. cbn [fst snd] in Hr, Fe. rewrite <- Hr.
      destruct r as [b | y]; [| reflexivity].
      rewrite IH; [destruct (verdict _); reflexivity |].
      intros m e' s' Hm Hs'. rewrite aget_aset in Hm. destruct (name_eqb_spec m n) as [E | E].
      * subst m. injection Hm as <-. rewrite Es in Hs'. injection Hs' as <-. exact Fe.
      * exact (Fi m e' s' Hm Hs').
    + destruct own; cbn [off_policy]; try reflexivity. rewrite (IH items seen conv Fi). destruct (verdict _); reflexivity.
Qed.
Theorem bad_pair own fields items0 l bad x rest : NoDup (map fname fields) -> faulty own bad x ->
  snd (set (NDict own fields) (RDict items0)
         (DSeq (map (fun kv => DSeq [as_key (fst kv); snd kv]) l ++ bad :: rest))) =
  match verdict (map (outcome object own fields) l) with Err y => Err y | Ok _ => Err x end.
Proof.
  intros D F. cbn [nested_set pairs_of iter_data rmap].
  rewrite map_app, map_map. cbn [map].
  pose proof (loop_faulty own fields bad x (map unpack rest) D F l _ [] true (start_fits fields D)) as H.
  assert (E : map (pair_outcome object own fields) l = map (outcome object own fields) l)
    by (apply map_ext; intros; apply pair_outcome_eq).
  rewrite E in H. rewrite <- H. clear H E.
  match goal with |- snd (let '(_, _) := ?a in _) = snd ?b => change a with b; destruct b; reflexivity end.
Qed.
Lemma dict_not_iterable own fields items0 v : is_text v = false ->
  set (NDict own fields) (RDict items0) (DVal v) = (RDict items0, Err TypeErr).
Proof. intros H. destruct v; try discriminate; reflexivity. Qed.
Lemma seq_not_iterable c m l0 v : is_text v = false -> set (NSeq c m) (RSeq c l0) (DVal v) = (RSeq c [], Ok false).
Proof. intros H. destruct v; try discriminate; reflexivity. Qed.
Lemma seq_of_text c m e s : set (NSeq c m) e (DVal (VText s)) = set (NSeq c m) e (DSeq (map (fun x => DVal (VText [x])) s)).
Proof. reflexivity. Qed.
Lemma seq_of_dict c m e l : set (NSeq c m) e (DMap l) = set (NSeq c m) e (DSeq (map (fun kv => as_key (fst kv)) l)).
Proof. reflexivity. Qed.
Lemma seq_set' c m l0 l :
  set (NSeq c m) (RSeq c l0) (DSeq l) =
  match verdict (map (fun d => snd (set m (empty m) d)) l) with
  | Ok b => (RSeq c (map (fun d => fst (set m (empty m) d)) l), Ok b)
  | Err TypeErr => (RSeq c [], Ok false)
  | Err x => (RSeq c [], Err x)
  end.
Proof. apply seq_set. reflexivity. Qed.
Lemma pairs_as_dict' own fields e l :
  set (NDict own fields) e (DSeq (map (fun kv => DSeq [as_key (fst kv); snd kv]) l)) = set (NDict own fields) e (DMap l).
Proof. destruct e as [| items |]; try reflexivity. cbn [nested_set pairs_of iter_data rmap]. rewrite map_map. reflexivity. Qed.
Lemma scalar_part k sub st v :
  set (NScalar k) (RScalar sub st) (DVal v) =
  (RScalar (match snd (scalar_set k st v) with
            | Ok _ => unstripped k && negb (is_none (s_value (fst (scalar_set k st v))))
            | Err _ => sub
            end) (fst (scalar_set k st v)), snd (scalar_set k st v)).
Proof. cbn [nested_set plain]. destruct (scalar_set k st v) as [st' r]. reflexivity. Qed.
End Objects.
(* MultiValue *)
Lemma multi_value_present k v x l : multi_set_value k v (x :: l) = (Scalar (s_raw x) v (s_u x) :: l, Ok tt).
Proof. reflexivity. Qed.
Lemma multi_u_present k s x l : multi_set_u k s (x :: l) = (Scalar (s_raw x) (s_value x) s :: l, Ok tt).
Proof. reflexivity. Qed.
Lemma multi_absent k v s :
  match adapt k VNone with
  | Ok n => multi_set_value k v [] = ([Scalar (Some VNone) v (match n with VNone => [] | _ => serialize k n end)], Ok tt) /\
            multi_set_u k s [] = ([Scalar (Some VNone) n s], Ok tt)
  | Err AdaptErr => multi_set_value k v [] = ([Scalar (Some VNone) v []], Ok tt) /\
                    multi_set_u k s [] = ([Scalar (Some VNone) VNone s], Ok tt)
  | Err x => multi_set_value k v [] = ([], Err x) /\ multi_set_u k s [] = ([], Err x)
  end.
Proof.
  unfold multi_set_value, multi_set_u, scalar_new, scalar_set. destruct (adapt k VNone) as [n | []]; cbn; try (split; reflexivity).
  destruct n; split; reflexivity.
Qed.
Lemma unstripped_iff k : unstripped k = true <-> verbatim k.
Proof.
  split.
  - induction k as [[] | | | | c IH valid | c IH values | own]; cbn [unstripped negb]; intros H; try discriminate;
      constructor; apply IH, H.
  - induction 1; cbn [unstripped]; auto.
Qed.
Lemma scalar_state object k sub st v b e : nested_set object (NScalar k) (RScalar sub st) (DVal v) = (e, Ok b) ->
  scalar_set k st v = (match e with RScalar _ st' => st' | _ => st end, Ok b) /\
  is_scalar e = true /\ (mark e = true <-> verbatim k /\ record_value e <> DVal VNone).
Proof.
  rewrite scalar_part. destruct (scalar_set k st v) as [st' r]. cbn [fst snd]. intros H. injection H as <- ->.
  split; [reflexivity | split; [reflexivity |]]. cbn [mark record_value].
  rewrite andb_true_iff, unstripped_iff, negb_true_iff. split.
  - intros [H1 H2]. split; [exact H1 |]. intros H. injection H as H. rewrite H in H2. discriminate.
  - intros [H1 H2]. split; [exact H1 |]. destruct (s_value st'); try reflexivity. congruence.
Qed.
Lemma scalar_raises object k sub st v x e : nested_set object (NScalar k) (RScalar sub st) (DVal v) = (e, Err x) ->
  e = RScalar sub (fst (scalar_set k st v)) /\ snd (scalar_set k st v) = Err x.
Proof. rewrite scalar_part. destruct (scalar_set k st v) as [st' r]. cbn [fst snd]. intros H. injection H as <- ->. split; reflexivity. Qed.
Lemma emptiness sparse c l items sub st :
  (container_is_empty sparse (RSeq c l) = true <-> l = []) /\
  (container_is_empty sparse (RDict items) = true <-> sparse = true /\ items = []) /\
  (record_bool (RSeq c l) = true <-> l <> []) /\ (record_bool (RDict items) = true <-> items <> []) /\
  (record_bool (RScalar sub st) = true <-> s_u st <> [] /\ vtruth (s_value st) = true).
Proof.
  split; [destruct l; cbn; intuition congruence |]. split; [destruct items; cbn; intuition congruence |].
  split; [destruct l; cbn; intuition congruence |]. split; [destruct items; cbn; intuition congruence |].
  unfold record_bool, scalar_bool. destruct (s_u st); intuition congruence.
Qed.
Lemma scalar_object object k sub st d : (forall v, d <> DVal v) ->
  nested_set object (NScalar k) (RScalar sub st) d = nested_set object (NScalar k) (RScalar sub st) (DVal (object d)).
Proof. intros H. destruct d; [exfalso; apply (H v); reflexivity | reflexivity | reflexivity]. Qed.
Lemma new_members own fields c m : NoDup (map fname fields) ->
  (exists items, empty (NDict own fields) = RDict items /\ map fst items = map fname (filter held fields) /\
     forall f, In f fields -> held f = true -> aget name_eqb (fname f) items = Some (empty (fschema f))) /\
  empty (NSeq c m) = RSeq c [].
Proof.
  intros D. split; [| reflexivity]. eexists. split; [reflexivity |]. split; [apply start_keys |].
  intros f Hf Hh. pose proof (start_get fields f D Hf) as G. rewrite Hh in G. exact G.
Qed.
