(* with_properties; every call and declaration leaves what existed alone. *)
From Verif Require Import PyBase PyBaseFacts PyList ModelUtil ModelSeq ModelProps SpecProps ProofMap ProofProps ProofProps2 ModelDsl SpecDsl ProofDsl ProofDsl2 ProofDsl3 ProofDsl4.

Section P.
Context {V : Type}.
Notation kd := (classes V).
Notation val := (value V).
Implicit Types (k : kd).
Variable text_of : val -> str.
Notation call := (call text_of).
Notation body := (body text_of).
Notation declared := (declared text_of).
Notation declare := (declare text_of).

Lemma with_properties_call k c m l : kwf k -> copyable k c -> getattr k c m = Some (VCloner MWithProperties) ->
  if hasattr k c (lit "properties")
  then exists k' n, call k c m (AProps l) = (k', Ok n) /\ kwf k' /\ extends k k' /\ derived k c k' n []
       /\ forall key, class_sees (k_props k') n key = match last_for key l with Some v => Some v | None => class_sees (k_props k) c key end
  else refused k (call k c m (AProps l)) AttributeErr.
Proof.
  intros W C G. destruct (call_cloned text_of k c m MWithProperties (AProps l) W C G) as (k1 & n & fields & K & B & ->).
  cbn [ModelDsl.body]. assert (O := cl_over _ _ _ _ _ K). unfold hasattr. rewrite str_eqb_refl.
  destruct (with_properties_ok k k1 n l (ov_wf _ _ _ _ _ O) (ov_ext _ _ _ _ _ O) (ov_new _ _ _ _ _ O)) as (W' & E').
  pose proof (clone_desc k c k1 n _ W K) as Dc. destruct (desc (k_props k) c) as [d|] eqn:D.
  - pose proof (class_step_spec (k_props k1) n d (PUpdate l) (kw_sound _ (ov_wf _ _ _ _ _ O)) Dc) as S.
    unfold with_world in *. destruct (class_step n (PUpdate l) (k_props k1)) as (w', r) eqn:Cs. cbn [fst snd] in *.
    destruct S as (S1 & ((A1 & A2 & A3) & A4 & A5 & A6) & A7). cbn [class_answers answers] in A7. subst r.
    set (k' := Classes w' (k_attrs k1) (k_form k1) (k_next k1) (k_desc k1)) in *.
    assert (Mr : mro k' n = n :: mro k c). { unfold mro, k'. cbn [k_props]. rewrite A1. apply O. }
    exists k', n. split; [easy|]. split; [easy|]. split; [easy|]. split.
    + apply (derived_overlay k c k' n (base_attrs k c fields) fields []); try easy.
      * split; try apply O; easy.
      * apply (cl_form _ _ _ _ _ K).
    + intros key. unfold class_sees. replace (desc (k_props k') n) with (Some d).
      2: { unfold desc, k'. cbn [k_props]. rewrite A1, A2. now symmetry. }
      rewrite D. fold (@class_sees V). rewrite (says_eq k' d n key), (says_eq k d c key), Mr. cbn [upto first_some k_props k'].
      rewrite A5. cbn [class_after after]. rewrite (cl_says _ _ _ _ _ K). destruct (last_for key l) as [v|] eqn:Lf; [easy|].
      cbn [first_some]. rewrite A2, (cl_none _ _ _ _ _ K).
      assert (Lt : forall b, In b (mro k c) -> b < k_next k) by (intros b I; now apply (mro_below k c b W)).
      f_equal. rewrite (upto_ext (w_own (k_props k1)) (w_own (k_props k)) d (mro k c)).
      2: { intros b I. apply (ex_own _ _ (ov_ext _ _ _ _ _ O)). now apply Lt. }
      apply first_some_ext. intros b I. rewrite A6.
      * apply (ex_says _ _ (ov_ext _ _ _ _ _ O)). apply Lt. revert I. clear. induction (mro k c) as [|x r IH]; [easy|]. cbn [upto].
        intros [->|I]; [now left|]. right. apply IH. destruct (w_own (k_props k) x) as [d'|]; [|easy]. now destruct (Nat.eqb d' d).
      * intros [= ->]. assert (n < k_next k); [|pose proof (ov_new _ _ _ _ _ O); lia].
        apply Lt. revert I. clear. induction (mro k c) as [|x r IH]; [easy|]. cbn [upto].
        intros [->|I]; [now left|]. right. apply IH. destruct (w_own (k_props k) x) as [d'|]; [|easy]. now destruct (Nat.eqb d' d).
  - unfold with_world in *. unfold class_step in *. rewrite Dc in *. cbn [fst snd] in *. now exists (Classes (k_props k1) (k_attrs k1) (k_form k1) (k_next k1) (k_desc k1)).
Qed.

(* every call *)
Definition kept (k : kd) (r : kd * res nat) : Prop :=
  kwf (fst r) /\ extends k (fst r) /\ forall n, snd r = Ok n -> k_next k <= n < k_next (fst r).
Lemma keep_set k0 k n a v : kwf k -> extends k0 k -> k_next k0 <= n -> kwf (setattr k n a v) /\ extends k0 (setattr k n a v).
Proof. intros W E L. split; [now apply setattr_wf|]. now apply setattr_extends. Qed.
Lemma dict_of_ok k0 k n l : kwf k -> extends k0 k -> k_next k0 <= n ->
  kwf (fst (dict_of k n l)) /\ extends k0 (fst (dict_of k n l)) /\ k_next (fst (dict_of k n l)) = k_next k.
Proof.
  intros W E L. unfold dict_of. destruct (existsb is_elem l); [easy|]. destruct (names_of k l); [|easy].
  destruct (distinct a); [|easy]. cbn [fst]. destruct (keep_set k0 k n (lit "field_schema") (VSeq true l) W E L). easy.
Qed.
Lemma seq_of_ok k0 k n l : kwf k -> extends k0 k -> k_next k0 <= n < k_next k ->
  kwf (fst (seq_of k n l)) /\ extends k0 (fst (seq_of k n l)) /\ k_next k <= k_next (fst (seq_of k n l)).
Proof.
  intros W E L. unfold seq_of. destruct (existsb is_elem l); [easy|]. destruct l as [|f [|f' l]]; [easy| |].
  - cbn [fst]. destruct (keep_set k0 k n (lit "member_schema") f W E (proj1 L)). easy.
  - pose proof (clone_spec k dict_class W) as S. destruct (clone k dict_class) as [(k1, d)|]; [|easy].
    destruct S as (fields & K & _). assert (O := cl_over _ _ _ _ _ K).
    assert (E1 : extends k0 k1) by (eapply extends_trans; [exact E|apply O]).
    assert (Ld : k_next k0 <= d). { pose proof (ov_new _ _ _ _ _ O). lia. }
    destruct (dict_of_ok k0 k1 d (f :: f' :: l) (ov_wf _ _ _ _ _ O) E1 Ld) as (A & B & C).
    pose proof (ov_new _ _ _ _ _ O).
    destruct (dict_of k1 d (f :: f' :: l)) as (k2, [u|]); cbn [fst] in *; [|repeat (split; [easy|]); lia].
    destruct (keep_set k0 k2 n (lit "member_schema") (VClass d) A B (proj1 L)) as (P & Q).
    split; [easy|]. split; [easy|]. change (k_next (setattr k2 n (lit "member_schema") (VClass d))) with (k_next k2). lia.
Qed.
Lemma body_ok k0 k n M a : kwf k -> extends k0 k -> k_next k0 <= n < k_next k -> fresh_maps k n ->
  kwf (fst (body k n M a)) /\ extends k0 (fst (body k n M a)) /\ k_next k <= k_next (fst (body k n M a)).
Proof.
  intros W E L F. assert (Set_ : forall at_ v, kwf (setattr k n at_ v) /\ extends k0 (setattr k n at_ v) /\ k_next k <= k_next (setattr k n at_ v)).
  { intros at_ v. destruct (keep_set k0 k n at_ v W E (proj1 L)). easy. }
  assert (Inc : forall at_ l p e, let k' := fst (including k n at_ l p e) in kwf k' /\ extends k0 k' /\ k_next k <= k_next k').
  { intros at_ l p e. unfold including. destruct e; [easy|]. destruct (getattr k n at_); [|easy].
    destruct (iterate v); [|easy]. destruct (pl_setslice _ _ _); [|easy]. apply Set_. }
  assert (Val_ : forall at_ l, let k' := fst (validated_by k n at_ l) in kwf k' /\ extends k0 k' /\ k_next k <= k_next k').
  { intros at_ l. unfold validated_by. destruct (existsb is_type l); [easy|]. apply Set_. }
  destruct M, a; cbn [ModelDsl.body]; try easy; try apply Inc; try apply Val_; try apply Set_.
  - unfold using_on. destruct (prepare l); [|easy]. destruct (set_all_ok k0 n a k W E L F) as (A & B & C). rewrite C. easy.
  - destruct (with_properties_ok k0 k n l W E L) as (A & B). unfold with_world in *.
    destruct (class_step n (PUpdate l) (k_props k)). easy.
  - now apply seq_of_ok.
  - destruct (dict_of_ok k0 k n l W E (proj1 L)) as (A & B & C). rewrite C. easy.
  - unfold ref_to. destruct (bind _ _); [apply Set_|easy].
Qed.
Lemma call_kept k c m a : kwf k -> kept k (call k c m a).
Proof.
  intros W. unfold ModelDsl.call. destruct (getattr k c m) as [[]|];
    try (split; [easy|]; split; [apply extends_refl|easy]).
  pose proof (clone_spec k c W) as S. destruct (clone k c) as [(k1, n)|].
  - destruct S as (fields & K & _). assert (O := cl_over _ _ _ _ _ K).
    destruct (body_ok k k1 n m0 a (ov_wf _ _ _ _ _ O) (ov_ext _ _ _ _ _ O) (ov_new _ _ _ _ _ O) (cl_map _ _ _ _ _ K)) as (A & B & C).
    destruct (body k1 n m0 a) as (k2, r). cbn [fst snd] in *. split; [easy|]. split; [easy|]. intros n' H. cbn [fst snd] in *.
    pose proof (ov_new _ _ _ _ _ O). destruct r; [|easy]. injection H as <-. lia.
  - split; [easy|]. split; [apply extends_refl|easy].
Qed.
Lemma call_no_method k c m a : kwf k -> (forall M, getattr k c m <> Some (VCloner M)) -> exists x, refused k (call k c m a) x.
Proof.
  intros W H. unfold ModelDsl.call. destruct (getattr k c m) as [[]|] eqn:G;
    try (eexists; eexists; split; [reflexivity|]; split; [easy|apply extends_refl]).
  now destruct (H m0).
Qed.

(* the C3 linearisation *)
Lemma find_head_in ls rest h : find_head ls rest = Some h -> good_head ls h = true /\ exists t, In (h :: t) rest.
Proof.
  induction rest as [|l rest IH]; [easy|]. cbn [find_head]. destruct l as [|x l].
  - intros H. destruct (IH H) as (A & t & I). split; [easy|]. exists t. now right.
  - destruct (good_head ls x) eqn:E; intros H.
    + injection H as <-. split; [easy|]. exists l. now left.
    + destruct (IH H) as (A & t & I). split; [easy|]. exists t. now right.
Qed.
Definition drop (h : nat) (l : list nat) : list nat := match l with x :: t => if Nat.eqb x h then t else l | [] => [] end.
Lemma merge_spec fuel : forall ls lin, merge fuel ls = Ok lin ->
  NoDup lin /\ forall x, In x lin <-> exists l, In l ls /\ In x l.
Proof.
  induction fuel as [|fuel IH]; intros ls lin; cbn [merge]; [easy|].
  destruct (forallb _ ls) eqn:Fa.
  - intros [= <-]. split; [constructor|]. intros x. split; [easy|]. intros (l & I & J). rewrite forallb_forall in Fa.
    specialize (Fa l I). now destruct l.
  - destruct (find_head ls ls) as [h|] eqn:Fh; [|easy]. destruct (find_head_in ls ls h Fh) as (Gh & t & It).
    fold (drop h). destruct (merge fuel (map _ ls)) as [lin'|] eqn:M; [|easy]. cbn [rmap bind]. intros [= <-].
    change (merge fuel (map (drop h) ls) = Ok lin') in M.
    assert (Dr : forall l, In l ls -> forall x, In x (drop h l) <-> In x l /\ x <> h).
    { intros l I x. unfold good_head in Gh. rewrite forallb_forall in Gh. specialize (Gh l I).
      destruct l as [|y l]; [easy|]. cbn [drop].
      assert (Nh : ~ In h l). { intros J. apply (memb_In Nat.eqb Nat.eqb_eq) in J. rewrite J in Gh. easy. }
      destruct (Nat.eqb_spec y h) as [->|Ne].
      - split; [|intros ([->|J] & ?); easy]. intros J. split; [now right|]. now intros ->.
      - split; [|easy]. intros J. split; [easy|]. intros ->. destruct J as [|J]; [now apply Ne|easy]. }
    destruct (IH (map (drop h) ls) lin') as (A & B).
    + exact M.
    + split.
      * constructor; [|easy]. intros J. apply B in J as (l & J1 & J2). apply in_map_iff in J1 as (l0 & <- & J1). now apply (Dr l0 J1) in J2.
      * intros x. split.
        -- intros [<-|J]; [exists (h :: t); split; [easy|now left]|]. apply B in J as (l & J1 & J2).
           apply in_map_iff in J1 as (l0 & <- & J1). apply (Dr l0 J1) in J2. exists l0. easy.
        -- intros (l & J1 & J2). destruct (Nat.eq_dec x h) as [->|Ne]; [now left|]. right. apply B. exists (drop h l).
           split; [now apply in_map|]. now apply (Dr l J1).
Qed.
Lemma linearise_ok k bases lin : kwf k -> (forall b, In b bases -> b < k_next k) -> linearise k bases = Ok lin ->
  NoDup lin /\ forall b, In b lin <-> exists c, In c bases /\ In b (mro k c).
Proof.
  intros W L H. apply merge_spec in H. destruct H as (A & B). split; [easy|]. intros x. rewrite B. split.
  - intros (l & I & J). apply in_app_iff in I as [I|[<-|[]]].
    + apply in_map_iff in I as (c & <- & I). now exists c.
    + exists x. split; [easy|]. destruct (kw_mro _ W x (L x J)) as (r & -> & _). now left.
  - intros (c & I & J). exists (mro k c). split; [|easy]. apply in_app_iff. left. now apply in_map.
Qed.
(* a single base *)
Lemma merge_one l : forall fuel x, ~ In x l -> NoDup l -> S (S (List.length l)) <= fuel -> merge fuel [x :: l; [x]] = Ok (x :: l).
Proof.
  assert (G : forall l fuel, NoDup l -> S (List.length l) <= fuel -> merge fuel [l; []] = Ok l).
  { clear. induction l as [|x l IH]; intros fuel N L; (destruct fuel as [|fuel]; [cbn in L; lia|]); [easy|].
    inversion N as [|? ? N1 N2]; subst. cbn [merge forallb andb find_head good_head].
    assert (Hx : memb Nat.eqb x l = false). { destruct (memb Nat.eqb x l) eqn:E; [|easy]. now apply (memb_In Nat.eqb Nat.eqb_eq) in E. }
    unfold good_head. cbn [forallb]. rewrite Hx. cbn [negb andb map]. rewrite Nat.eqb_refl. rewrite IH; [easy|easy|]. cbn in L. lia. }
  intros fuel x I N L. destruct fuel as [|fuel]; [lia|]. cbn [merge forallb andb find_head].
  assert (Hx : memb Nat.eqb x l = false). { destruct (memb Nat.eqb x l) eqn:E; [|easy]. now apply (memb_In Nat.eqb Nat.eqb_eq) in E. }
  unfold good_head. cbn [forallb]. rewrite Hx. change (memb Nat.eqb x []) with false. cbn [negb andb map]. rewrite Nat.eqb_refl. rewrite G; [easy|easy|lia].
Qed.
Lemma linearise_one k b : kwf k -> b < k_next k -> linearise k [b] = Ok (mro k b).
Proof.
  intros W L. unfold linearise. cbn [map app]. destruct (kw_mro _ W b L) as (r & E & N & _). rewrite E. inversion N; subst.
  apply merge_one; [easy..|]. unfold list_sum. cbn. lia.
Qed.
End P.
