(* The methods that copy classes, one by one: calls. *)
From Verif Require Import PyBase PyBaseFacts PyList ModelUtil ModelSeq ModelProps SpecProps ProofMap ProofProps ProofProps2 ModelDsl SpecDsl ProofDsl ProofDsl2.

Section P.
Context {V : Type}.
Notation kd := (classes V).
Notation val := (value V).
Variable text_of : val -> str.
Notation call := (call text_of).
Notation body := (body text_of).
Implicit Types (k : kd) (a : str) (v : val).

Lemma call_cloned k c m M args : kwf k -> copyable k c -> getattr k c m = Some (VCloner M) ->
  exists k1 n fields, cloned k c k1 n (base_attrs k c fields) /\ (k_form k c = true -> base_fields k [c] [] = Ok fields)
  /\ call k c m args = (fst (body k1 n M args), rmap (fun _ => n) (snd (body k1 n M args))).
Proof.
  intros W C G. unfold ModelDsl.call. rewrite G. pose proof (clone_spec k c W) as S.
  destruct (clone k c) as [(k1, n)|x].
  - destruct S as (fields & S1 & S2). exists k1, n, fields. split; [easy|]. split; [easy|].
    now destruct (body k1 n M args).
  - destruct S as (F & B). destruct (base_fields_ok k c C F) as (c' & B'). congruence.
Qed.
Lemma set_made k c k1 n fields a v : kwf k -> cloned k c k1 n (base_attrs k c fields) ->
  (k_form k c = true -> base_fields k [c] [] = Ok fields) ->
  made k c (setattr k1 n a v, Ok n) [(a, v)].
Proof.
  intros W C B. exists (setattr k1 n a v), n. split; [easy|].
  pose proof (overlay_set k c k1 n _ a v (cl_over _ _ _ _ _ C)) as O.
  split; [apply O|]. split; [apply O|]. split.
  - apply (derived_one k c _ n fields a v W O); [apply (cl_form _ _ _ _ _ C)|easy].
  - intros key. exact (clone_sees k c k1 n _ key W C).
Qed.
Lemma clone_refused k c k1 n own x : cloned k c k1 n own -> refused k (k1, Err x) x.
Proof. intros C. exists k1. split; [easy|]. split; apply (cl_over _ _ _ _ _ C). Qed.

Lemma named_call k c m v : kwf k -> copyable k c -> getattr k c m = Some (VCloner MNamed) ->
  made k c (call k c m (AOne v)) [(lit "name", match v with VText _ | VNone => v | _ => VText (text_of v) end)].
Proof.
  intros W C G. destruct (call_cloned k c m MNamed (AOne v) W C G) as (k1 & n & fields & K & B & ->).
  cbn [ModelDsl.body fst snd rmap]. now apply (set_made k c k1 n fields).
Qed.
Lemma types_found l (P Q : Prop) : (if existsb (@is_type V) l then P else Q) ->
  ((exists x, In (VClass x) l) -> P) /\ (~ (exists x, In (VClass x) l) -> Q).
Proof.
  intros H. split.
  - intros (x & I). replace (existsb is_type l) with true in H; [easy|]. symmetry. apply existsb_exists. now exists (VClass x).
  - intros N. replace (existsb is_type l) with false in H; [easy|]. symmetry. destruct (existsb is_type l) eqn:E; [|easy].
    apply existsb_exists in E as (v & I & T). destruct v; try easy. destruct N. eauto.
Qed.
Lemma elements_found l (P Q : Prop) : (if existsb (@is_elem V) l then P else Q) ->
  ((exists x, In (VElem x) l) -> P) /\ (~ (exists x, In (VElem x) l) -> Q).
Proof.
  intros H. split.
  - intros (x & I). replace (existsb is_elem l) with true in H; [easy|]. symmetry. apply existsb_exists. now exists (VElem x).
  - intros N. replace (existsb is_elem l) with false in H; [easy|]. symmetry. destruct (existsb is_elem l) eqn:E; [|easy].
    apply existsb_exists in E as (v & I & T). destruct v; try easy. destruct N. eauto.
Qed.
Lemma validated_call k c m M a l : kwf k -> copyable k c -> getattr k c m = Some (VCloner M) ->
  (M = MValidatedBy /\ a = lit "validators") \/ (M = MDescentBy /\ a = lit "descent_validators") ->
  ((exists x, In (VClass x) l) -> refused k (call k c m (AVals l)) TypeErr)
  /\ (~ (exists x, In (VClass x) l) -> made k c (call k c m (AVals l)) [(a, VSeq false l)]).
Proof.
  intros W C G H. apply types_found. destruct (call_cloned k c m M (AVals l) W C G) as (k1 & n & fields & K & B & ->).
  destruct H as [(-> & ->)|(-> & ->)]; cbn [ModelDsl.body]; unfold validated_by;
    (destruct (existsb is_type l); cbn [fst snd rmap]; [now apply (clone_refused k c k1 n (base_attrs k c fields))|now apply (set_made k c k1 n fields)]).
Qed.
Lemma valued_call k c m l : kwf k -> copyable k c -> getattr k c m = Some (VCloner MValued) ->
  made k c (call k c m (AVals l)) [(lit "valid_values", VSeq true l)].
Proof.
  intros W C G. destruct (call_cloned k c m MValued (AVals l) W C G) as (k1 & n & fields & K & B & ->).
  cbn [ModelDsl.body fst snd rmap]. now apply (set_made k c k1 n fields).
Qed.
Lemma setslice_splice {A} (l xs : list A) position :
  let p := match position with Some p => p | None => (-1)%Z end in
  let p' := if (p <? 0)%Z then (Z.of_nat (List.length l) + 1 + p)%Z else p in
  exists l', pl_setslice l (Slice (Some p') (Some p') None) xs = Ok l' /\ splice l position xs l'.
Proof.
  intros p p'. unfold pl_setslice, slice_indices. cbn [bind]. 
  set (len := Z.of_nat (List.length l)).
  assert (P : exists i, (0 <= i <= len)%Z /\
     pl_setslice l (Slice (Some p') (Some p') None) xs = Ok (firstn (Z.to_nat i) l ++ xs ++ skipn (Z.to_nat i) l)
     /\ i = (if (0 <=? p)%Z then Z.min p len
           else if (0 <=? len + 1 + p)%Z then (len + 1 + p)%Z
           else Z.max 0 (len + (len + 1 + p)))).
  { unfold pl_setslice, slice_indices, clampZ. cbn. fold len. subst p'. fold len.
    eexists. split; [|split; [rewrite Z.max_id; reflexivity|]].
    - repeat match goal with |- context[(?a <? ?b)%Z] => destruct (Z.ltb_spec a b) end; lia.
    - repeat match goal with |- context[(?a <? ?b)%Z] => destruct (Z.ltb_spec a b)
                           | |- context[(?a <=? ?b)%Z] => destruct (Z.leb_spec a b) end; lia. }
  destruct P as (i & Hi & E & Ei). exists (firstn (Z.to_nat i) l ++ xs ++ skipn (Z.to_nat i) l). split; [exact E|].
  exists (firstn (Z.to_nat i) l), (skipn (Z.to_nat i) l). split; [now rewrite firstn_skipn|]. split; [|easy].
  fold p len. rewrite <- Ei. rewrite firstn_length. lia.
Qed.
Lemma including_call k c m M a l position extra : kwf k -> copyable k c -> getattr k c m = Some (VCloner M) ->
  (M = MIncluding /\ a = lit "validators") \/ (M = MIncludingDescent /\ a = lit "descent_validators") ->
  match getattr k c a with
  | Some (VSeq _ have) =>
      if extra then refused k (call k c m (ASplice l position extra)) TypeErr
      else exists l', splice have position l l' /\ made k c (call k c m (ASplice l position extra)) [(a, VSeq false l')]
  | Some _ => refused k (call k c m (ASplice l position extra)) TypeErr
  | None => refused k (call k c m (ASplice l position extra)) (if extra then TypeErr else AttributeErr)
  end.
Proof.
  intros W C G H. destruct (call_cloned k c m M (ASplice l position extra) W C G) as (k1 & n & fields & K & B & ->).
  assert (Ga : getattr k1 n a = getattr k c a).
  { rewrite (overlay_get k c k1 n _ W (cl_over _ _ _ _ _ K)).
    destruct H as [(_ & ->)|(_ & ->)]; unfold base_attrs; now destruct (k_form k c). }
  assert (E : body k1 n M (ASplice l position extra) = including k1 n a l position extra) by now destruct H as [(-> & ->)|(-> & ->)].
  rewrite E. clear E H. unfold including. rewrite Ga.
  destruct extra.
  { destruct (getattr k c a) as [v|]; [destruct v|]; now apply (clone_refused k c k1 n (base_attrs k c fields)). }
  destruct (getattr k c a) as [v|].
  2: { now apply (clone_refused k c k1 n (base_attrs k c fields)). }
  destruct v as [| | | | | |b have| | | |]; cbn [iterate]; try (now apply (clone_refused k c k1 n (base_attrs k c fields))).
  destruct (setslice_splice have l position) as (l' & -> & S). exists l'. split; [exact S|].
  cbn [fst snd rmap]. now apply (set_made k c k1 n fields).
Qed.
Lemma to_call k c m path sep : kwf k -> copyable k c -> getattr k c m = Some (VCloner MTo) ->
  match bind (match sep with
        | Some s => Ok s
        | None => match getattr k c (lit "sep") with Some (VText s) => Ok s | Some _ => Err TypeErr | None => Err AttributeErr end
        end) (fun s => match path with inl p => parse_element_path p s | inr l => Ok l end) with
  | Ok l => made k c (call k c m (ATo path sep)) [(lit "target_path", VPath l)]
  | Err x => refused k (call k c m (ATo path sep)) x
  end.
Proof.
  intros W C G. destruct (call_cloned k c m MTo (ATo path sep) W C G) as (k1 & n & fields & K & B & ->).
  assert (Ga : getattr k1 n (lit "sep") = getattr k c (lit "sep")).
  { rewrite (overlay_get k c k1 n _ W (cl_over _ _ _ _ _ K)). unfold base_attrs. now destruct (k_form k c). }
  cbn [ModelDsl.body]. unfold ref_to. rewrite Ga. destruct (bind _ _) as [l'|x]; cbn [fst snd rmap].
  - now apply (set_made k c k1 n fields).
  - now apply (clone_refused k c k1 n (base_attrs k c fields)).
Qed.
Lemma extends_names k k' l ns : kwf k -> extends k k' -> names_of k l = Ok ns -> names_of k' l = Ok ns.
Proof.
  intros W E. revert ns. induction l as [|f l IH]; intros ns; [easy|]. cbn [names_of].
  destruct (name_of k f) as [n0|x] eqn:N; [|easy]. rewrite (extends_name k k' f n0 W E N). cbn [bind].
  destruct (names_of k l) as [ns'|x]; [|easy]. now rewrite (IH ns' eq_refl).
Qed.
Lemma distinct_spec l : distinct l = true <-> NoDup l.
Proof.
  induction l as [|n l IH]; cbn [distinct]; [split; [constructor|easy]|]. rewrite Bool.andb_true_iff, IH, Bool.negb_true_iff.
  split.
  - intros (A & B). constructor; [|easy]. intros I. apply (memb_In name_eqb name_eqb_eq) in I. congruence.
  - intros N. inversion N as [|? ? N1 N2]; subst. split; [|easy]. destruct (memb name_eqb n l) eqn:E; [|easy].
    apply (memb_In name_eqb name_eqb_eq) in E. easy.
Qed.
Lemma dict_of_call k c m l : kwf k -> copyable k c -> getattr k c m = Some (VCloner MDictOf) ->
  ((exists x, In (VElem x) l) -> refused k (call k c m (AVals l)) TypeErr)
  /\ (~ (exists x, In (VElem x) l) -> forall ns, names_of k l = Ok ns ->
       (NoDup ns -> made k c (call k c m (AVals l)) [(lit "field_schema", VSeq true l)])
       /\ (~ NoDup ns -> refused k (call k c m (AVals l)) TypeErr)).
Proof.
  intros W C G. apply elements_found. destruct (call_cloned k c m MDictOf (AVals l) W C G) as (k1 & n & fields & K & B & ->).
  cbn [ModelDsl.body]. unfold dict_of. destruct (existsb is_elem l).
  { now apply (clone_refused k c k1 n (base_attrs k c fields)). }
  intros ns N. rewrite (extends_names k k1 l ns W (ov_ext _ _ _ _ _ (cl_over _ _ _ _ _ K)) N).
  pose proof (distinct_spec ns) as D. destruct (distinct ns); cbn [fst snd rmap].
  - split; [|intros X; now destruct X; apply D]. intros _. now apply (set_made k c k1 n fields).
  - split; [intros X; now apply D in X|]. intros _. now apply (clone_refused k c k1 n (base_attrs k c fields)).
Qed.

(* a class made earlier looks the same once others are made *)
Lemma derived_later k c k1 n changes k2 : kwf k1 -> derived k c k1 n changes -> extends k1 k2 -> derived k c k2 n changes.
Proof.
  intros W D E. assert (L : n < k_next k1) by apply (dv_fresh _ _ _ _ _ D). split.
  - pose proof (dv_fresh _ _ _ _ _ D). pose proof (ex_next _ _ E). lia.
  - rewrite (ex_mro _ _ E n L). apply D.
  - rewrite (ex_form _ _ E n L). apply D.
  - intros a v. rewrite (extends_getattr k1 k2 n a W E L). apply D.
  - intros a. rewrite (extends_getattr k1 k2 n a W E L). apply D.
  - rewrite (extends_getattr k1 k2 n _ W E L). apply D.
  - rewrite (extends_getattr k1 k2 n _ W E L). apply D.
Qed.
(* a class copied from an extension of k *)
Lemma derived_earlier k c k0 k1 n changes : kwf k -> extends k k0 -> c < k_next k -> derived k0 c k1 n changes -> copyable k c ->
  derived k c k1 n changes.
Proof.
  intros W E L D Cp. split.
  - pose proof (dv_fresh _ _ _ _ _ D). pose proof (ex_next _ _ E). lia.
  - rewrite <- (ex_mro _ _ E c L). apply D.
  - rewrite <- (ex_form _ _ E c L). apply D.
  - apply D.
  - intros a. rewrite <- (ex_form _ _ E c L), <- (extends_getattr k k0 c a W E L). apply D.
  - rewrite <- (extends_getattr k k0 c _ W E L). apply D.
  - intros F H. rewrite <- (ex_form _ _ E c L) in F. destruct (dv_fields _ _ _ _ _ D F H) as (l & fs & A & B & (ns & N1 & N2) & O).
    rewrite (extends_getattr k k0 c _ W E L) in A. rewrite (ex_form _ _ E c L) in F. destruct (Cp F) as (l' & ns' & A' & B').
    assert (l' = l) by congruence. subst l'. exists l, fs. split; [easy|]. split; [easy|].
    assert (Nm : forall f, In f l -> exists m, name_of k f = Ok m).
    { clear - B'. revert ns' B'. induction l as [|g l IH]; intros ns'; [easy|]. cbn [names_of].
      destruct (name_of k g) as [m|] eqn:M; [|easy]. cbn [bind]. destruct (names_of k l) as [ns''|] eqn:Q; [|easy].
      intros _ f [<-|I]; [now exists m|]. now apply (IH ns''). }
    assert (Fn : forall x, first_named k0 x l = first_named k x l).
    { intros x. unfold first_named. clear - Nm W E. induction l as [|g l IH]; [easy|]. cbn [find].
      destruct (Nm g (or_introl eq_refl)) as (m & M). rewrite (named_so_ok k x m g M), (named_so_ok k0 x m g (extends_name k k0 g m W E M)).
      destruct (name_eqb x m); [easy|]. apply IH. intros. apply Nm. now right. }
    assert (In' : forall f, In f fs -> exists m, name_of k0 f = Ok m).
    { clear - N1. revert ns N1. induction fs as [|g fs IH]; intros ns; [easy|]. cbn [names_of].
      destruct (name_of k0 g) as [m|] eqn:M; [|easy]. cbn [bind]. destruct (names_of k0 fs) as [ns''|] eqn:Q; [|easy].
      intros _ f [<-|I]; [now exists m|]. now apply (IH ns''). }
    assert (Mem : forall f, In f fs -> name_of k f = name_of k0 f).
    { intros f I. destruct (In' f I) as (m & M). assert (X : first_named k0 m l = Some f) by now apply O.
      apply find_some in X. destruct X as (X & _). destruct (Nm f X) as (m' & M').
      rewrite M'. symmetry. now apply (extends_name k k0 f m' W E). }
    split.
    + exists ns. split; [|easy]. rewrite <- N1. clear - Mem. induction fs as [|g fs IH]; [easy|]. cbn [names_of].
      rewrite Mem by now left. destruct (name_of k0 g); [|easy]. cbn [bind]. rewrite IH; [easy|]. intros. apply Mem. now right.
    + intros x f. rewrite <- Fn, <- O. split; intros (I & M); (split; [easy|]); [now rewrite <- Mem|now rewrite Mem].
Qed.
Lemma seq_of_call k c m l : kwf k -> copyable k c -> getattr k c m = Some (VCloner MSeqOf) ->
  ((exists x, In (VElem x) l) -> refused k (call k c m (AVals l)) TypeErr)
  /\ (~ (exists x, In (VElem x) l) -> match l with
  | [] => refused k (call k c m (AVals l)) TypeErr
  | [f] => made k c (call k c m (AVals l)) [(lit "member_schema", f)]
  | _ => dict_class < k_next k -> copyable k dict_class -> forall ns, names_of k l = Ok ns ->
         (NoDup ns -> exists k' n d, call k c m (AVals l) = (k', Ok n) /\ kwf k' /\ extends k k'
                      /\ derived k c k' n [(lit "member_schema", VClass d)] /\ same_props k c k' n
                      /\ d <> n /\ derived k dict_class k' d [(lit "field_schema", VSeq true l)] /\ same_props k dict_class k' d)
         /\ (~ NoDup ns -> refused k (call k c m (AVals l)) TypeErr)
  end).
Proof.
  intros W C G. apply elements_found. destruct (call_cloned k c m MSeqOf (AVals l) W C G) as (k1 & n & fields & K & B & ->).
  cbn [ModelDsl.body]. unfold seq_of. destruct (existsb is_elem l) eqn:El.
  { now apply (clone_refused k c k1 n (base_attrs k c fields)). }
  destruct l as [|f [|f' l]].
  { now apply (clone_refused k c k1 n (base_attrs k c fields)). }
  { cbn [fst snd rmap]. now apply (set_made k c k1 n fields). }
  intros Ld Cd ns N. set (l0 := f :: f' :: l) in *.
  assert (O1 := cl_over _ _ _ _ _ K). assert (E1 := ov_ext _ _ _ _ _ O1). assert (W1 := ov_wf _ _ _ _ _ O1).
  assert (Cd1 : copyable k1 dict_class).
  { intros F. rewrite (ex_form _ _ E1 _ Ld) in F. destruct (Cd F) as (lf & nf & A & A').
    exists lf, nf. rewrite (extends_getattr k k1 _ _ W E1 Ld). split; [easy|]. now apply (extends_names k k1). }
  pose proof (clone_spec k1 dict_class W1) as S. destruct (clone k1 dict_class) as [(k2, d)|x].
  2: { destruct S as (F & B'). destruct (base_fields_ok k1 dict_class Cd1 F). congruence. }
  destruct S as (fields2 & K2 & B2). assert (O2 := cl_over _ _ _ _ _ K2). assert (E2 := ov_ext _ _ _ _ _ O2).
  assert (E02 : extends k k2) by now apply extends_trans with k1.
  unfold dict_of. rewrite El, (extends_names k k2 l0 ns W E02 N).
  pose proof (distinct_spec ns) as D. destruct (distinct ns); cbn [fst snd rmap].
  2: { split; [intros X; now apply D in X|]. intros _. exists k2. split; [easy|]. split; [apply O2|easy]. }
  split; [|intros X; now destruct X; apply D]. intros _.
  set (k3 := setattr k2 d (lit "field_schema") (VSeq true l0)). set (k4 := setattr k3 n (lit "member_schema") (VClass d)).
  destruct (set_made k1 dict_class k2 d fields2 (lit "field_schema") (VSeq true l0) W1 K2 B2) as (k3' & d' & Eq & W3 & E3 & D3 & P3).
  fold k3 in Eq. injection Eq as <- <-.
  assert (Nn : n < k_next k1 /\ d = k_next k1 /\ k_next k2 = S d).
  { pose proof (cl_next _ _ _ _ _ K). pose proof (cl_n _ _ _ _ _ K2). pose proof (cl_next _ _ _ _ _ K2). lia. }
  assert (O3 : overlay k c k3 n (base_attrs k c fields)).
  { split; [easy|now apply extends_trans with k1| | |].
    - change (k_next k3) with (k_next k2). pose proof (ov_new _ _ _ _ _ O1). lia.
    - rewrite (ex_mro _ _ E3) by lia. apply O1.
    - rewrite (ex_attrs _ _ E3) by lia. apply O1. }
  pose proof (overlay_set _ _ _ _ _ (lit "member_schema") (VClass d) O3) as O4. fold k4 in O4.
  assert (E34 : forall x, x <> n -> x < k_next k3 -> mro k4 x = mro k3 x /\ k_attrs k4 x = k_attrs k3 x).
  { intros x Ne _. split; [easy|]. cbn [k4 setattr set_attrs k_attrs]. now apply fset_neq. }
  exists k4, n, d. split; [easy|]. split; [apply O4|]. split; [apply O4|]. split; [|split; [|split; [|split]]].
  - apply (derived_one k c k4 n fields _ _ W O4); [|easy]. change (k_form k4 n) with (k_form k2 n).
    rewrite (ex_form _ _ E2) by lia. apply (cl_form _ _ _ _ _ K).
  - intros key. change (class_sees (k_props k4) n key) with (class_sees (k_props k2) n key).
    rewrite (extends_sees k1 k2 n key W1 E2) by lia. apply (clone_sees k c k1 n _ key W K).
  - lia.
  - apply (derived_earlier k dict_class k1 k4 d _ W E1 Ld); [|easy].
    assert (Gd : forall a, getattr k4 d a = getattr k3 d a).
    { intros a. unfold getattr. change (mro k4 d) with (mro k3 d).
      rewrite (first_attr_ext (k_attrs k4) (k_attrs k3)); [easy|].
      intros b I. apply E34.
      - intros ->. change (mro k3 d) with (mro k2 d) in I. rewrite (ov_mro _ _ _ _ _ O2) in I. destruct I as [I|I]; [lia|].
        rewrite (ex_mro _ _ E1 _ Ld) in I. apply mro_below in I; [|easy]. pose proof (ov_new _ _ _ _ _ O1). lia.
      - now apply mro_below in I. }
    split; intros; rewrite ?Gd; try apply D3; easy.
  - intros key. change (class_sees (k_props k4) d key) with (class_sees (k_props k3) d key). rewrite P3.
    now apply extends_sees.
Qed.
End P.
