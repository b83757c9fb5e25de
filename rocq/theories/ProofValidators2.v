(* Proofs about the validators of sequences, groups of elements, phone numbers
   and check digits. *)
From Verif Require ProofFlat3.
From Verif Require Import PyBase PyBaseFacts ModelUtil SpecUtil ProofUtil ModelScalar SpecScalar ProofScalar ProofScalar2 ProofScalar3
  ModelMessage SpecMessage ProofMessage ModelValidators SpecValidators ProofValidators.

(* ---- sizes of sequences ---- *)
Lemma has_at_least_decides self child m n : getattr self (lit "minimum") = Ok (Plain (VInt m)) ->
  has_at_least self (Some child) (QList n)
  = Ok (if (m <=? Z.of_nat n)%Z then Pass else Fail (lit "failure") [(lit "child_label", child)]).
Proof.
  intros G. unfold has_at_least. rewrite (value_of _ _ _ G). cbn [bind vtruth].
  destruct (Z.eqb_spec m 0) as [->|Z0]; cbn [negb].
  - replace (0 <=? Z.of_nat n)%Z with true by lia. easy.
  - cbn [q_none q_len bind either]. rewrite lt_int. cbn [bind]. rewrite Z.ltb_antisym.
    now destruct (m <=? Z.of_nat n)%Z.
Qed.
Lemma has_at_least_unset self child m : getattr self (lit "minimum") = Ok (Plain (VInt m)) ->
  has_at_least self (Some child) (QVal VNone)
  = Ok (if (m =? 0)%Z then Pass else Fail (lit "failure") [(lit "child_label", child)]).
Proof.
  intros G. unfold has_at_least. rewrite (value_of _ _ _ G). cbn [bind vtruth].
  now destruct (m =? 0)%Z.
Qed.
Lemma has_at_most_decides self child m n : getattr self (lit "maximum") = Ok (Plain (VInt m)) ->
  has_at_most self (Some child) (QList n)
  = Ok (if (Nat.eqb n 0) || (Z.of_nat n <=? m)%Z then Pass else Fail (lit "failure") [(lit "child_label", child)]).
Proof.
  intros G. unfold has_at_most. rewrite (value_of _ _ _ G). cbn [bind q_truth q_len both].
  destruct (Nat.eqb_spec n 0) as [->|Z0]; cbn [negb orb bind both]; [easy|].
  rewrite gt_int. cbn [bind]. rewrite Z.ltb_antisym. now destruct (Z.of_nat n <=? m)%Z.
Qed.
Lemma has_at_most_unset self child m : getattr self (lit "maximum") = Ok (Plain m) ->
  has_at_most self (Some child) (QVal VNone) = Ok Pass.
Proof. intros G. unfold has_at_most. rewrite (value_of _ _ _ G). easy. Qed.
Lemma has_between_decides self child lo hi n : getattr self (lit "minimum") = Ok (Plain (VInt lo)) ->
  getattr self (lit "maximum") = Ok (Plain (VInt hi)) ->
  has_between self (Some child) (QList n)
  = Ok (if (lo <=? Z.of_nat n)%Z && (Z.of_nat n <=? hi)%Z then Pass
        else Fail (if (lo =? hi)%Z then lit "exact" else lit "range") [(lit "child_label", child)]).
Proof.
  intros G H. unfold has_between. rewrite (value_of _ _ _ G), (value_of _ _ _ H). cbn [bind q_none q_len both].
  rewrite !le_int. cbn [bind both].
  replace (py_eq (VInt lo) (VInt hi)) with (lo =? hi)%Z by reflexivity.
  destruct (lo <=? Z.of_nat n)%Z; cbn [bind both andb]; [|now destruct (lo =? hi)%Z].
  rewrite ?le_int. cbn [bind]. now destruct (Z.of_nat n <=? hi)%Z, (lo =? hi)%Z.
Qed.
Lemma has_between_unset self child lo hi : getattr self (lit "minimum") = Ok (Plain (VInt lo)) ->
  getattr self (lit "maximum") = Ok (Plain (VInt hi)) ->
  has_between self (Some child) (QVal VNone) = has_between self (Some child) (QList 0).
Proof. easy. Qed.
(* a sequence without member schema *)
Lemma sizes_need_schema self q :
  has_at_least self None q = Err AssertErr /\ has_at_most self None q = Err AssertErr /\ has_between self None q = Err AssertErr.
Proof. easy. Qed.
(* the defaults *)
Lemma has_at_least_default x label child m n errors : plain x label -> exists self,
  new_validator has_at_least_cls [(lit "minimum", Plain (VInt m))] = Ok self
  /\ judged (report self x errors (has_at_least self (Some child) (QList n))) errors (m <= Z.of_nat n)%Z
       (label ++ lit " must contain at least "
        ++ if (m =? 1)%Z then lit "one " ++ vtext child else dec_z m ++ lit " " ++ vtext child ++ lit "s").
Proof.
  intros P. eexists. split; [reflexivity|].
  apply (judged_plural _ x label errors (m <=? Z.of_nat n)%Z _ (lit "failure")
           (lit "%(label)s must contain at least one %(child_label)s")
           (lit "%(label)s must contain at least %(minimum)s %(child_label)ss") (lit "minimum") (VInt m) _
           [(lit "child_label", child)]); [now apply has_at_least_decides|lia|exact P|reflexivity| |].
  - apply (cn_number _ _ _ (VInt m)); [|reflexivity]. eapply (plain_self _ _ _ _ _ _ P); reflexivity.
  - replace (py_eq (VInt m) (VInt 1)) with (m =? 1)%Z by reflexivity. destruct (m =? 1)%Z.
    + rewrite <- (app_nil_r (vtext child)). known [(lit "label", VText label); (lit "child_label", child)] P.
    + known [(lit "label", VText label); (lit "child_label", child); (lit "minimum", VInt m)] P.
Qed.
Lemma has_at_most_default x label child m n errors : plain x label -> exists self,
  new_validator has_at_most_cls [(lit "maximum", Plain (VInt m))] = Ok self
  /\ judged (report self x errors (has_at_most self (Some child) (QList n))) errors (n = 0%nat \/ Z.of_nat n <= m)%Z
       (label ++ lit " must contain at most "
        ++ if (m =? 1)%Z then lit "one " ++ vtext child else dec_z m ++ lit " " ++ vtext child ++ lit "s").
Proof.
  intros P. eexists. split; [reflexivity|].
  apply (judged_plural _ x label errors (Nat.eqb n 0 || (Z.of_nat n <=? m)%Z) _ (lit "failure")
           (lit "%(label)s must contain at most one %(child_label)s")
           (lit "%(label)s must contain at most %(maximum)s %(child_label)ss") (lit "maximum") (VInt m) _
           [(lit "child_label", child)]); [now apply has_at_most_decides|lia|exact P|reflexivity| |].
  - apply (cn_number _ _ _ (VInt m)); [|reflexivity]. eapply (plain_self _ _ _ _ _ _ P); reflexivity.
  - replace (py_eq (VInt m) (VInt 1)) with (m =? 1)%Z by reflexivity. destruct (m =? 1)%Z.
    + rewrite <- (app_nil_r (vtext child)). known [(lit "label", VText label); (lit "child_label", child)] P.
    + known [(lit "label", VText label); (lit "child_label", child); (lit "maximum", VInt m)] P.
Qed.
Lemma has_between_new lo hi :
  ((0 <= lo <= hi)%Z -> new_has_between (between_kw lo hi) = new_validator has_between_cls (between_kw lo hi))
  /\ (~ (0 <= lo <= hi)%Z -> new_has_between (between_kw lo hi) = Err TypeErr).
Proof.
  unfold new_has_between. set (r := new_validator has_between_cls (between_kw lo hi)). vm_compute in r. subst r.
  cbn [bind]. match goal with |- context [self_value ?s "minimum"] => change (self_value s "minimum") with (Ok (VInt lo)); change (self_value s "maximum") with (Ok (VInt hi)) end.
  cbn [bind]. rewrite ge_int. cbn [both bind].
  split; intros H.
  - replace (lo <=? hi)%Z with true by lia. cbn [both bind]. rewrite ge_int. cbn [bind].
    replace (0 <=? lo)%Z with true by lia. easy.
  - destruct (lo <=? hi)%Z eqn:E; cbn [both bind]; [|easy]. rewrite ge_int. cbn [bind].
    replace (0 <=? lo)%Z with false by lia. easy.
Qed.
Lemma has_between_default x label child lo hi n errors : plain x label -> (0 <= lo <= hi)%Z -> exists self,
  new_has_between (between_kw lo hi) = Ok self
  /\ judged (report self x errors (has_between self (Some child) (QList n))) errors (lo <= Z.of_nat n <= hi)%Z
       (label ++ lit " must contain " ++
        if (lo =? hi)%Z
        then lit "exactly " ++ (if (lo =? 1)%Z then lit "one " ++ vtext child else dec_z lo ++ lit " " ++ vtext child ++ lit "s")
        else lit "at least " ++ dec_z lo ++ lit " and at most " ++ dec_z hi ++ lit " " ++ vtext child
             ++ (if (hi =? 1)%Z then [] else lit "s")).
Proof.
  intros P L. eexists. split; [rewrite (proj1 (has_between_new lo hi) L); reflexivity|].
  destruct (Z.eqb_spec lo hi) as [->|D].
  - apply (judged_plural _ x label errors ((hi <=? Z.of_nat n)%Z && (Z.of_nat n <=? hi)%Z) _ (lit "exact")
             (lit "%(label)s must contain exactly one %(child_label)s")
             (lit "%(label)s must contain exactly %(minimum)s %(child_label)ss") (lit "minimum") (VInt hi) _
             [(lit "child_label", child)]).
    + rewrite (has_between_decides _ _ hi hi) by reflexivity. now rewrite Z.eqb_refl.
    + lia.
    + exact P.
    + reflexivity.
    + apply (cn_number _ _ _ (VInt hi)); [|reflexivity]. eapply (plain_self _ _ _ _ _ _ P); reflexivity.
    + replace (py_eq (VInt hi) (VInt 1)) with (hi =? 1)%Z by reflexivity. destruct (hi =? 1)%Z.
      * rewrite <- (app_nil_r (vtext child)). known [(lit "label", VText label); (lit "child_label", child)] P.
      * known [(lit "label", VText label); (lit "child_label", child); (lit "minimum", VInt hi)] P.
  - apply (judged_plural _ x label errors ((lo <=? Z.of_nat n)%Z && (Z.of_nat n <=? hi)%Z) _ (lit "range")
             (lit "%(label)s must contain at least %(minimum)s and at most %(maximum)s %(child_label)s")
             (lit "%(label)s must contain at least %(minimum)s and at most %(maximum)s %(child_label)ss") (lit "maximum") (VInt hi) _
             [(lit "child_label", child)]).
    + rewrite (has_between_decides _ _ lo hi) by reflexivity. now replace (lo =? hi)%Z with false by lia.
    + lia.
    + exact P.
    + reflexivity.
    + apply (cn_number _ _ _ (VInt hi)); [|reflexivity]. eapply (plain_self _ _ _ _ _ _ P); reflexivity.
    + replace (py_eq (VInt hi) (VInt 1)) with (hi =? 1)%Z by reflexivity. destruct (hi =? 1)%Z.
      * known [(lit "label", VText label); (lit "child_label", child); (lit "minimum", VInt lo); (lit "maximum", VInt hi)] P.
      * known [(lit "label", VText label); (lit "child_label", child); (lit "minimum", VInt lo); (lit "maximum", VInt hi)] P.
Qed.
(* text-valued sequences: the characters are counted, numbers raise *)
Lemma text_counted self child m s : getattr self (lit "minimum") = Ok (Plain (VInt m)) ->
  has_at_least self (Some child) (QVal (VText s)) = has_at_least self (Some child) (QList (List.length s)).
Proof.
  intros G. unfold has_at_least. rewrite (value_of _ _ _ G). easy.
Qed.
Lemma number_uncounted self child m z : getattr self (lit "minimum") = Ok (Plain (VInt m)) -> m <> 0%Z ->
  has_at_least self (Some child) (QVal (VInt z)) = Err TypeErr.
Proof.
  intros G N0. unfold has_at_least. rewrite (value_of _ _ _ G). cbn [bind vtruth]. replace (m =? 0)%Z with false by lia. easy.
Qed.

(* ---- NotDuplicated ---- *)
Lemma dup_false op el after : forall before i, ~ In el before ->
  dup_loop op el i false (before ++ el :: after) = Ok (false, S (i + List.length before)).
Proof.
  induction before as [|s l IH]; intros i H; cbn [app dup_loop List.length].
  - rewrite Nat.eqb_refl, Nat.add_0_r. easy.
  - destruct (Nat.eqb_spec s el) as [->|D]; [now elim H; left|]. rewrite IH by (intros K; apply H; now right).
    do 2 f_equal. lia.
Qed.
Lemma dup_prefix op el rest : forall a i, ~ In el a -> Forall (fun s => op el s = Ok false) a ->
  dup_loop op el i true (a ++ rest) = dup_loop op el (i + List.length a) true rest.
Proof.
  induction a as [|s l IH]; intros i H F; cbn [app dup_loop List.length]; [now rewrite Nat.add_0_r|].
  inversion F as [|? ? F1 F2]; subst. destruct (Nat.eqb_spec s el) as [->|D]; [now elim H; left|].
  rewrite F1. cbn [bind negb]. rewrite IH by (auto; intros K; apply H; now right). f_equal. lia.
Qed.
Lemma dup_unique op el before after label : ~ In el before -> Forall (fun s => op el s = Ok false) before ->
  not_duplicated op (Some (before ++ el :: after, label)) el = Ok Pass.
Proof.
  intros H F. unfold not_duplicated. rewrite dup_prefix by easy. cbn [dup_loop]. now rewrite Nat.eqb_refl.
Qed.
Lemma dup_found op el a s b after label : ~ In el (a ++ s :: b) -> Forall (fun s => op el s = Ok false) a ->
  op el s = Ok true ->
  not_duplicated op (Some ((a ++ s :: b) ++ el :: after, label)) el
  = Ok (repeated (S (List.length (a ++ s :: b))) label).
Proof.
  intros H F E. unfold not_duplicated. rewrite <- app_assoc. rewrite dup_prefix; [|intros K; apply H, in_or_app; now left|easy].
  cbn [app dup_loop]. destruct (Nat.eqb_spec s el) as [->|D]; [elim H; apply in_or_app; right; now left|].
  rewrite E. cbn [bind negb]. rewrite dup_false by (intros K; apply H, in_or_app; right; now right).
  cbn [bind negb]. unfold repeated. rewrite app_length. cbn [List.length]. do 4 f_equal. do 2 f_equal. lia.
Qed.
Lemma dup_raises op el a s b label e : ~ In el (a ++ [s]) -> Forall (fun s => op el s = Ok false) a -> op el s = Err e ->
  not_duplicated op (Some (a ++ s :: b, label)) el = Err e.
Proof.
  intros H F E. unfold not_duplicated. rewrite dup_prefix; [|intros K; apply H, in_or_app; now left|easy].
  cbn [dup_loop]. destruct (Nat.eqb_spec s el) as [->|D]; [elim H; apply in_or_app; right; now left|].
  now rewrite E.
Qed.
Lemma decides_split op el same : forall l, decides op el l same ->
  (Forall (fun s => op el s = Ok false) l /\ Forall (fun s => ~ same s) l)
  \/ exists a s b, l = a ++ s :: b /\ Forall (fun s => op el s = Ok false) a /\ op el s = Ok true /\ same s.
Proof.
  induction 1 as [|s l (b & E & I) H [(F & G)|(a & t & r & -> & F & T & S)]].
  - now left.
  - destruct b.
    + right. exists [], s, l. repeat split; try easy. now apply I.
    + left. split; constructor; try easy. intros K. now apply I in K.
  - right. destruct b.
    + exists [], s, (a ++ t :: r). repeat split; try easy. now apply I.
    + exists (s :: a), t, r. repeat split; auto.
Qed.
Lemma dup_iff op el before after label same : ~ In el before -> decides op el before same ->
  (Forall (fun s => ~ same s) before -> not_duplicated op (Some (before ++ el :: after, label)) el = Ok Pass)
  /\ (Exists same before ->
      not_duplicated op (Some (before ++ el :: after, label)) el = Ok (repeated (S (List.length before)) label)).
Proof.
  intros H D. destruct (decides_split _ _ _ _ D) as [(F & G)|(a & s & b & -> & F & T & S)]; split; intros K.
  - now apply dup_unique.
  - apply Exists_exists in K as (s & I & K). rewrite Forall_forall in G. now elim (G s).
  - rewrite Forall_forall in K. elim (K s); [|easy]. apply in_or_app. right. now left.
  - now apply dup_found.
Qed.
(* an element that its parent does not list is compared with every member, and its position is zero *)
Lemma dup_stray op el l label same : ~ In el l -> decides op el l same ->
  (Forall (fun s => ~ same s) l -> not_duplicated op (Some (l, label)) el = Ok Pass)
  /\ (Exists same l -> not_duplicated op (Some (l, label)) el = Ok (repeated 0 label)).
Proof.
  intros H D.
  assert (Z0 : forall b i, ~ In el b -> dup_loop op el i false b = Ok (false, 0)).
  { induction b as [|t b IH]; intros i K; cbn [dup_loop]; [easy|].
    destruct (Nat.eqb_spec t el) as [->|_]; [now elim K; left|]. apply IH. intros I. apply K. now right. }
  destruct (decides_split _ _ _ _ D) as [(F & G)|(a & s & b & -> & F & T & S)]; split; intros K.
  - unfold not_duplicated. rewrite <- (app_nil_r l). now rewrite dup_prefix.
  - apply Exists_exists in K as (s & I & K). rewrite Forall_forall in G. now elim (G s).
  - rewrite Forall_forall in K. elim (K s); [|easy]. apply in_or_app. right. now left.
  - unfold not_duplicated. rewrite dup_prefix; [|intros I; apply H, in_or_app; now left|easy].
    cbn [dup_loop]. destruct (Nat.eqb_spec s el) as [->|E]; [elim H; apply in_or_app; right; now left|].
    rewrite T. cbn [bind negb]. rewrite Z0; [easy|]. intros I. apply H, in_or_app. right. now right.
Qed.
(* every member passes iff no two are the same *)
Lemma dup_all op same l label : NoDup l -> (forall e s, In e l -> In s l -> exists b, op e s = Ok b /\ (b = true <-> same e s)) ->
  ((forall e, In e l -> not_duplicated op (Some (l, label)) e = Ok Pass) <-> ForallOrdPairs (fun s e => ~ same e s) l).
Proof.
  intros N D.
  assert (G : forall a b, l = a ++ b ->
    ((forall e, In e b -> not_duplicated op (Some (l, label)) e = Ok Pass)
     <-> (forall e s, In s a -> In e b -> ~ same e s) /\ ForallOrdPairs (fun s e => ~ same e s) b)).
  { intros a b. revert a. induction b as [|e b IH]; intros a ->.
    - split; [intros _; split; [intros e s _ []|constructor]|intros _ e []].
    - assert (M : forall s, In s a -> In s (a ++ e :: b)) by (intros; apply in_or_app; now left).
      assert (Me : In e (a ++ e :: b)) by (apply in_or_app; right; now left).
      assert (Na : ~ In e a) by (intros K; apply (NoDup_remove_2 a b e N), in_or_app; now left).
      assert (De : decides op e a (same e)) by (apply Forall_forall; intros s Is; apply (D e s); auto).
      specialize (IH (a ++ [e])). rewrite <- app_assoc in IH. specialize (IH eq_refl).
      destruct (dup_iff op e a b label (same e) Na De) as (Gp & Gf).
      split.
      + intros H. destruct (proj1 IH) as (X & Y); [intros t It; apply H; now right|].
        split.
        * intros t s Is [<-|It]; [|apply X; [apply in_or_app; now left|easy]].
          intros K. rewrite (H e) in Gf by now left. assert (Exists (same e) a) as Ex by (apply Exists_exists; eauto).
          apply Gf in Ex. discriminate.
        * constructor; [|easy]. apply Forall_forall. intros t It. apply X; [apply in_or_app; right; now left|easy].
      + intros (X & Y) t [<-|It].
        * apply Gp, Forall_forall. intros s Is. apply X; [easy|now left].
        * apply IH; [|easy]. inversion Y as [|? ? Y1 Y2]; subst. split; [|easy].
          intros u s Is Iu. apply in_app_or in Is as [Is|[<-|[]]]; [apply X; [easy|now right]|].
          rewrite Forall_forall in Y1. now apply Y1. }
  rewrite (G [] l eq_refl). split; [now intros []|]. intros H. split; [|easy]. intros e s [].
Qed.
Lemma not_duplicated_default op x label container el before after same errors : plain x label ->
  ~ In el before -> decides op el before same ->
  exists self, new_validator not_duplicated_cls [] = Ok self
  /\ judged (report self x errors (not_duplicated op (Some (before ++ el :: after, container)) el)) errors
       (Forall (fun s => ~ same s) before)
       (label ++ lit " may not be repeated within " ++ vtext container ++ lit ".").
Proof.
  intros P H D. eexists. split; [reflexivity|]. destruct (dup_iff op el before after container same H D) as (G1 & G2).
  destruct (decides_split _ _ _ _ D) as [(F & G)|(a & s & b & -> & F & T & S)].
  - split; [|easy]. intros _. now rewrite (G1 G).
  - apply (judged_intro _ x label errors false _ (lit "failure") (lit "%(label)s may not be repeated within %(container_label)s.") _
             [(lit "position", VInt (Z.of_nat (Datatypes.S (List.length (a ++ s :: b))))); (lit "container_label", container)]).
    + apply G2. apply Exists_exists. exists s. split; [apply in_or_app; right; now left|easy].
    + split; [easy|]. intros K. rewrite Forall_forall in K. elim (K s); [|easy]. apply in_or_app; right; now left.
    + exact P.
    + reflexivity.
    + easy.
    + known [(lit "label", VText label); (lit "container_label", container)] P.
Qed.
Lemma not_duplicated_orphan op el : not_duplicated op None el = Err TypeErr.
Proof. easy. Qed.

(* ---- MapEqual and its kin ---- *)
Lemma map_res_iff {A B} (f : A -> res B) l r : map_res f l = Ok r <-> Forall2 (fun a b => f a = Ok b) l r.
Proof.
  revert r; induction l as [|a l IH]; intros r; cbn [map_res].
  - split; [now intros [= <-]|now inversion 1].
  - split.
    + destruct (f a) as [b|] eqn:E; cbn [bind]; [|easy]. destruct (map_res f l) as [bs|] eqn:E2; cbn [rmap]; [|easy].
      intros [= <-]. constructor; [easy|]. now apply IH.
    + inversion 1 as [|? b ? bs E F]; subst. rewrite E. cbn [bind]. apply IH in F. now rewrite F.
Qed.
Lemma map_res_err {A B} (f : A -> res B) l a r e bs : Forall2 (fun a b => f a = Ok b) l bs -> f a = Err e ->
  map_res f (l ++ a :: r) = Err e.
Proof.
  induction 1 as [|x y l bs E F IH]; intros H; cbn [app map_res].
  - now rewrite H.
  - rewrite E. cbn [bind]. now rewrite IH.
Qed.
Lemma all_equal_iff t sample els vs : Forall2 (fun e v => apply_transform t e = Ok v) els vs ->
  exists b, all_equal t sample els = Ok b /\ (b = true <-> Forall (fun v => equal_values v sample) vs).
Proof.
  induction 1 as [|e v els vs E F (b & IH & I)]; cbn [all_equal].
  - exists true. now split.
  - rewrite E. cbn [bind]. destruct (py_eq v sample) eqn:Q.
    + exists b. split; [easy|]. rewrite I. apply py_eq_iff in Q. split; [now constructor|now inversion 1].
    + exists false. split; [easy|]. split; [easy|]. inversion 1 as [|? ? K]; subst. apply py_eq_iff in K. congruence.
Qed.
Lemma map_equal_iff t find_one paths e els v vs : Forall2 (fun p e => find_one p = Ok e) paths (e :: els) ->
  apply_transform t e = Ok v -> Forall2 (fun e v => apply_transform t e = Ok v) els vs ->
  exists b : bool, map_equal t find_one paths = Ok (if b then Pass else unequal (e :: els) e)
  /\ (b = true <-> Forall (fun w => equal_values w v) vs).
Proof.
  intros F E G. unfold map_equal. apply map_res_iff in F. rewrite F. cbn [bind]. rewrite E. cbn [bind].
  destruct (all_equal_iff t v els vs G) as (b & A & I). rewrite A. cbn [bind]. exists b. split; [|easy]. now destruct b.
Qed.
Lemma map_equal_value_u find_one paths e els : Forall2 (fun p e => find_one p = Ok e) paths (e :: els) ->
  (exists b : bool, map_equal MValue find_one paths = Ok (if b then Pass else unequal (e :: els) e)
     /\ (b = true <-> Forall (fun f => equal_values (fd_value f) (fd_value e)) els))
  /\ (exists b : bool, map_equal MU find_one paths = Ok (if b then Pass else unequal (e :: els) e)
     /\ (b = true <-> Forall (fun f => fd_u f = fd_u e) els)).
Proof.
  intros F. split.
  - destruct (map_equal_iff MValue find_one paths e els (fd_value e) (map fd_value els) F eq_refl) as (b & A & I).
    { clear. induction els; constructor; easy. }
    exists b. split; [easy|]. rewrite I. now rewrite Forall_map.
  - destruct (map_equal_iff MU find_one paths e els (VText (fd_u e)) (map (fun f => VText (fd_u f)) els) F eq_refl) as (b & A & I).
    { clear. induction els; constructor; easy. }
    exists b. split; [easy|]. rewrite I, Forall_map. split; apply Forall_impl; intros f; rewrite <- py_eq_iff; cbn [py_eq].
    + apply str_eqb_eq.
    + intros ->. apply str_eqb_refl.
Qed.
Lemma map_equal_find_raises t find_one l a r e bs : Forall2 (fun p e => find_one p = Ok e) l bs -> find_one a = Err e ->
  map_equal t find_one (l ++ a :: r) = Err e.
Proof. intros F E. unfold map_equal. now rewrite (map_res_err find_one l a r e bs). Qed.
Lemma map_equal_transform_raises t find_one paths a e b vs v0 x : Forall2 (fun p e => find_one p = Ok e) paths (a ++ e :: b) ->
  Forall2 (fun e v => apply_transform t e = Ok v) a vs -> Forall (fun v => equal_values v v0) (tl vs) -> (forall w, hd_error vs = Some w -> w = v0) ->
  apply_transform t e = Err x -> map_equal t find_one paths = Err x.
Proof.
  intros F G Q H E. unfold map_equal. apply map_res_iff in F. rewrite F. cbn [bind].
  destruct G as [|f w a vs Ew G].
  - cbn [app]. now rewrite E.
  - cbn [app tl] in *. rewrite Ew. cbn [bind]. rewrite (H w eq_refl). clear Ew H F.
    assert (all_equal t v0 (a ++ e :: b) = Err x) as ->; [|easy].
    induction G as [|g u a vs Eu G IH]; cbn [app all_equal]; [now rewrite E|].
    inversion Q as [|? ? Q1 Q2]; subst. rewrite Eu. cbn [bind]. apply py_eq_iff in Q1. rewrite Q1. now apply IH.
Qed.
Lemma map_equal_no_transform find_one paths e els : Forall2 (fun p e => find_one p = Ok e) paths (e :: els) ->
  map_equal MDefault find_one paths = Err TypeErr.
Proof. intros F. unfold map_equal. apply map_res_iff in F. rewrite F. easy. Qed.
Lemma transformed_iff t e r : transformed t e r <-> apply_transform t e = r.
Proof. split; [now destruct 1|]. intros <-. destruct t; now constructor. Qed.
Lemma transformed_all t els vs : Forall2 (fun e v => transformed t e (Ok v)) els vs -> Forall2 (fun e v => apply_transform t e = Ok v) els vs.
Proof. induction 1; constructor; [now apply transformed_iff|assumption]. Qed.
Lemma map_equal_transformed t find_one paths e els v vs : Forall2 (fun p e => find_one p = Ok e) paths (e :: els) ->
  transformed t e (Ok v) -> Forall2 (fun e v => transformed t e (Ok v)) els vs ->
  exists b : bool, map_equal t find_one paths = Ok (if b then Pass else unequal (e :: els) e)
  /\ (b = true <-> Forall (fun w => equal_values w v) vs).
Proof. intros F T A. apply transformed_iff in T. apply transformed_all in A. now apply map_equal_iff. Qed.
Lemma map_equal_transformed_raises t find_one paths a e b vs v0 x : Forall2 (fun p e => find_one p = Ok e) paths (a ++ e :: b) ->
  Forall2 (fun e v => transformed t e (Ok v)) a vs -> Forall (fun v => equal_values v v0) (tl vs) -> (forall w, hd_error vs = Some w -> w = v0) ->
  transformed t e (Err x) -> map_equal t find_one paths = Err x.
Proof. intros F A H1 H2 T. apply transformed_iff in T. apply transformed_all in A. now apply (map_equal_transform_raises t find_one paths a e b vs v0 x). Qed.
Lemma map_equal_new cls paths :
  ((2 <= List.length paths)%nat -> map_equal_paths cls paths = Ok paths)
  /\ (List.length paths = 1%nat -> map_equal_paths cls paths = Err AssertErr)
  /\ (paths = [] -> cls <> [] -> map_equal_paths cls paths = Ok cls)
  /\ (paths = [] -> cls = [] -> map_equal_paths cls paths = Err AssertErr).
Proof.
  repeat split.
  - destruct paths as [|a [|b l]]; cbn; intros; [lia|lia|easy].
  - destruct paths as [|a [|b l]]; cbn; intros; easy.
  - intros ->. now destruct cls.
  - intros -> ->. easy.
Qed.
Lemma map_equal_message x label errors t find_one paths e els v vs : plain x label ->
  Forall2 (fun p e => find_one p = Ok e) paths (e :: els) ->
  apply_transform t e = Ok v -> Forall2 (fun e v => apply_transform t e = Ok v) els vs ->
  judged (report map_equal_cls x errors (map_equal t find_one paths)) errors (Forall (fun w => equal_values w v) vs)
    (join (lit ", ") (map fd_label (removelast (e :: els))) ++ lit " and " ++ fd_label (last (e :: els) e) ++ lit " do not match.").
Proof.
  intros P F E G. destruct (map_equal_iff t find_one paths e els v vs F E G) as (b & A & I). rewrite A.
  apply (judged_intro _ x label errors b _ (lit "unequal") (lit "%(labels)s and %(last_label)s do not match.") _
    [(lit "labels", VText (join (lit ", ") (map fd_label (removelast (e :: els)))));
                        (lit "last_label", VText (fd_label (last (e :: els) e)))]); [reflexivity|exact I|exact P|reflexivity|easy|].
  known [(lit "labels", VText (join (lit ", ") (map fd_label (removelast (e :: els)))));
                        (lit "last_label", VText (fd_label (last (e :: els) e)))] P.
Qed.
Lemma map_equal_transformed_message x label errors t find_one paths e els v vs : plain x label ->
  Forall2 (fun p e => find_one p = Ok e) paths (e :: els) ->
  transformed t e (Ok v) -> Forall2 (fun e v => transformed t e (Ok v)) els vs ->
  judged (report map_equal_cls x errors (map_equal t find_one paths)) errors (Forall (fun w => equal_values w v) vs)
    (join (lit ", ") (map fd_label (removelast (e :: els))) ++ lit " and " ++ fd_label (last (e :: els) e) ++ lit " do not match.").
Proof. intros P F T A. apply transformed_iff in T. apply transformed_all in A. now apply (map_equal_message x label). Qed.

(* ---- Luhn10 ---- *)
Lemma luhn_number_judged v n b : number v n -> luhn_returns n b ->
  exists f0, forall f, (f0 <= f)%nat -> luhn f v = Ok (if b then Pass else Fail (lit "invalid") []).
Proof.
  intros K (f0 & H). exists f0. intros f L. specialize (H f L).
  destruct K; cbn [luhn vnum]; rewrite H; cbn [bind]; now destruct b.
Qed.
Lemma luhn_other f : luhn f VNone = Ok (Fail (lit "invalid") [])
  /\ (forall s, s <> [] -> ~ In (ch "%") s -> luhn f (VText s) = Err TypeErr)
  /\ (forall s, In (ch "%") s -> luhn f (VText s) = Err NotImplErr)
  /\ (forall v, (forall n, ~ number v n) -> (forall s, v <> VText s) -> (forall o, v <> VObj o) -> truthy v -> luhn f v = Err TypeErr)
  /\ (forall o, truthy (VObj o) -> luhn f (VObj o) = Err NotImplErr)
  /\ (forall v, (forall n, ~ number v n) -> v <> VNone -> ~ truthy v -> luhn f v = Ok Pass).
Proof.
  assert (N : forall v, (forall n, ~ number v n) -> vnum v = None).
  { intros v H. destruct (vnum v) as [n|] eqn:E; [|easy]. apply number_iff in E. now elim (H n). }
  split; [easy|]. split; [|split; [|split; [|split]]].
  - intros [|c s] D H; [easy|]. cbn [luhn vnum vtruth negb]. destruct (memb N.eqb (ch "%") (c :: s)) eqn:E; [|easy]. apply (memb_In N.eqb N.eqb_eq) in E. now elim H.
  - intros [|c s] H; [easy|]. cbn [luhn vnum vtruth negb]. apply (memb_In N.eqb N.eqb_eq) in H. now rewrite H.
  - intros v H T O K. apply vtruth_iff in K. specialize (N v H).
    destruct v; try easy; try (now elim (T s)); try (now elim (O o)); cbn [luhn]; now rewrite N, K.
  - intros o K. apply vtruth_iff in K. cbn [luhn vnum]. now rewrite K.
  - intros v H D T. specialize (N v H). assert (vtruth v = false) as K.
    { destruct (vtruth v) eqn:E; [|easy]. apply vtruth_iff in E. now elim T. }
    destruct v; try easy; cbn [luhn]; now rewrite N, K.
Qed.
Lemma luhn_message x label errors f v : plain x label -> forall b : bool, luhn f v = Ok (if b then Pass else Fail (lit "invalid") []) ->
  judged (report luhn_cls x errors (luhn f v)) errors (b = true) (lit "The " ++ label ++ lit " was not entered correctly.").
Proof.
  intros P b E. rewrite E. apply (judged_intro _ x label errors b _ (lit "invalid") (lit "The %(label)s was not entered correctly.") _ []);
    [reflexivity|easy|exact P|reflexivity|easy|]. known [(lit "label", VText label)] P.
Qed.

Lemma luhn_judged x label errors v ds : plain x label -> digit_list ds -> number v (decimal_value ds) -> exists f0, forall f, (f0 <= f)%nat ->
  judged (report luhn_cls x errors (luhn f v)) errors (luhn_valid ds) (lit "The " ++ label ++ lit " was not entered correctly.").
Proof.
  intros P D K. destruct (luhn10_decides ds D) as (b & R & I). destruct (luhn_number_judged v _ b K R) as (f0 & H).
  exists f0. intros f L. destruct (luhn_message x label errors f v P b (H f L)) as (A & B). split; rewrite <- I; easy.
Qed.

(* ---- phone numbers ---- *)
Lemma clean_iff s t : clean_digits s = t <-> digit_chars s t.
Proof.
  split.
  - intros <-. induction s as [|c s IH]; cbn [clean_digits filter]; [constructor|].
    destruct (is_digit c) eqn:E.
    + constructor; [|easy]. apply is_digit_iff in E as (d & E). exists d. now apply digit_val_iff.
    + constructor; [|easy]. destruct (digit_val c) as [d|] eqn:F; [|easy]. apply digit_val_iff in F.
      assert (is_digit c = true) by (apply is_digit_iff; eauto). congruence.
  - induction 1 as [|c s t (d & E) H IH|c s t E H IH]; cbn [clean_digits filter]; [easy| |].
    + replace (is_digit c) with true; [now f_equal|]. symmetry. apply is_digit_iff. exists d. now apply digit_val_iff.
    + replace (is_digit c) with false; [easy|]. symmetry. destruct (is_digit c) eqn:F; [|easy].
      apply is_digit_iff in F as (d & F). apply digit_val_iff in F. congruence.
Qed.
Definition chars (ds : list N) : str := map (fun d => 48 + d)%N ds.
Lemma ascii_digits t ds : Forall (fun c => 48 <= c <= 57)%N t -> Forall2 (fun c d => digit_val c = Some d) t ds ->
  t = chars ds /\ Forall (fun d => d < 10)%N ds.
Proof.
  intros F G. revert F. induction G as [|c d t ds E G IH]; intros F; [easy|]. inversion F as [|? ? F1 F2]; subst.
  destruct (IH F2) as (-> & H). assert (c = 48 + d)%N as ->.
  { replace c with (48 + (c - 48))%N in E by lia. rewrite digit_val_ascii in E by lia. injection E as <-. lia. }
  split; [easy|]. constructor; [lia|easy].
Qed.
Lemma chars_digits ds : Forall (fun d => d < 10)%N ds -> Forall2 digit (chars ds) ds.
Proof. induction 1; constructor; [|easy]. apply digit_val_iff. now apply digit_val_ascii. Qed.
Lemma chars_ascii ds : Forall (fun d => d < 10)%N ds -> Forall (fun c => 48 <= c <= 57)%N (chars ds).
Proof. induction 1; constructor; [lia|easy]. Qed.
Lemma chars_numeral ds : Forall (fun d => d < 10)%N ds -> numeral (chars ds) (positional (rev ds)).
Proof. intros H. exists ds. split; [now apply chars_digits|easy]. Qed.
Lemma positional_zeros l : forall z, Forall (fun d => d = 0%N) z -> positional (l ++ z) = positional l.
Proof.
  induction l as [|d l IH]; cbn [app positional].
  - induction 1 as [|d z -> H IH]; [easy|]. cbn [positional]. rewrite IH. easy.
  - intros z H. now rewrite IH.
Qed.
Lemma dec_chars ds : Forall (fun d => d < 10)%N ds -> (ds = [0%N] \/ exists d r, ds = d :: r /\ d <> 0%N) ->
  dec (positional (rev ds)) = chars ds.
Proof.
  intros H K. apply (ProofFlat3.plain_inj _ _ (positional (rev ds))).
  - apply dec_plain.
  - split.
    + now apply chars_ascii.
    + destruct K as [->|(d & r & -> & D)]; [now left|]. right. cbn [chars map hd]. lia.
  - apply numeral_iff, dec_val.
  - now apply chars_numeral.
Qed.
Definition phone_digits (s : str) : res (option str) :=
  let value := clean_digits s in
  if str_eqb value [] then Ok None
  else rmap Some (if forallb ascii_digit value then Ok value else rmap dec_z (py_int value)).
Lemma ascii_all t : forallb ascii_digit t = true <-> Forall (fun c => 48 <= c <= 57)%N t.
Proof. rewrite forallb_forall, Forall_forall. unfold ascii_digit. split; intros H x I; specialize (H x I); lia. Qed.
Lemma digit_lt10 t ds : Forall2 (fun c d => digit_val c = Some d) t ds -> Forall (fun d => d < 10)%N ds.
Proof. induction 1 as [|c d t ds E F IH]; constructor; [|easy]. apply digit_val_iff in E. now apply digit_lt in E. Qed.
Lemma phone_digits_spec s ds : number_digits s ds ->
  Forall (fun d => d < 10)%N ds /\ phone_digits s = Ok (match ds with [] => None | _ => Some (chars ds) end).
Proof.
  unfold phone_digits. intros [t ds' C A F|t zeros ds' C A F Z K].
  - apply clean_iff in C as ->. destruct (ascii_digits t ds' A F) as (-> & L). split; [easy|].
    apply ascii_all in A. rewrite A. now destruct ds'.
  - apply clean_iff in C as ->. assert (L : Forall (fun d => d < 10)%N (zeros ++ ds')) by (now apply digit_lt10 in F).
    apply Forall_app in L as (_ & L). split; [easy|].
    destruct t as [|c t]; [now elim A|]. cbn [str_eqb].
    destruct (forallb ascii_digit (c :: t)) eqn:E; [apply ascii_all in E; now elim A|].
    assert (N0 : numeral (c :: t) (positional (rev (zeros ++ ds')))).
    { exists (zeros ++ ds'). split; [|easy]. clear -F. induction F as [|x y l l' E F IH]; constructor; [now apply digit_val_iff|easy]. }
    rewrite rev_app_distr, positional_zeros in N0 by now apply Forall_rev.
    rewrite (py_int_digits (c :: t) _ ltac:(easy) N0). cbn [rmap].
    assert (dec_z (Z.of_N (positional (rev ds'))) = dec (positional (rev ds'))) as -> by (now destruct (positional (rev ds'))).
    rewrite dec_chars by easy. destruct ds' as [|d r]; [|easy]. destruct K as [K|(d & r & K & _)]; discriminate.
Qed.
Lemma number_digits_fun s ds es : number_digits s ds -> number_digits s es -> ds = es.
Proof.
  intros A B. apply phone_digits_spec in A as (_ & A), B as (_ & B). rewrite A in B.
  assert (J : forall a b, chars a = chars b -> a = b).
  { induction a as [|x a IH]; intros [|y b] E; try easy. injection E as E1 E2. f_equal; [lia|auto]. }
  destruct ds, es; try easy. injection B as E1 E2. f_equal; [lia|now apply J].
Qed.
Lemma leading_zeros ds : ds <> [] -> exists zeros r, ds = zeros ++ r /\ Forall (fun d => d = 0%N) zeros /\
  (r = [0%N] \/ exists d q, r = d :: q /\ d <> 0%N).
Proof.
  induction ds as [|d ds IH]; intros H; [easy|]. destruct (N.eq_dec d 0) as [->|D].
  - destruct ds as [|e ds].
    + exists [], [0%N]. split; [easy|]. split; [easy|]. now left.
    + destruct IH as (z & r & -> & F & K); [easy|]. exists (0%N :: z), r. split; [easy|]. split; [now constructor|easy].
  - exists [], (d :: ds). split; [easy|]. split; [easy|]. right. eauto.
Qed.
Lemma number_digits_total s : exists ds, number_digits s ds.
Proof.
  assert (C : digit_chars s (clean_digits s)) by now apply clean_iff.
  assert (V : exists ds, Forall2 (fun c d => digit_val c = Some d) (clean_digits s) ds).
  { clear C. induction s as [|c s (ds & IH)]; cbn [clean_digits filter]; [now exists []|].
    destruct (is_digit c) eqn:E; [|now exists ds]. apply is_digit_iff in E as (d & E). exists (d :: ds).
    constructor; [now apply digit_val_iff|easy]. }
  destruct V as (ds & V). destruct (forallb ascii_digit (clean_digits s)) eqn:E.
  - exists ds. apply (nd_ascii s _ _ C); [now apply ascii_all|easy].
  - destruct ds as [|d ds]; [inversion V as [X|]; rewrite <- X in E; discriminate|].
    destruct (leading_zeros (d :: ds)) as (z & r & Q & Z & K); [easy|]. rewrite Q in V. exists r.
    apply (nd_other s _ z r C); try easy. intros X. apply ascii_all in X. congruence.
Qed.
Lemma pad_chars w ds : List.length ds = S w -> Forall (fun d => d < 10)%N ds -> dec_pad (S w) (positional (rev ds)) = chars ds.
Proof.
  intros L H. apply (ascii_field_unique (S w) _ _ (positional (rev ds))).
  - apply dec_pad_field. rewrite <- L, <- rev_length. apply Forall_rev in H. revert H. clear.
    induction (rev ds) as [|d l IH]; intros H; cbn [positional List.length]; [easy|].
    inversion H as [|? ? H1 H2]; subst. specialize (IH H2). rewrite Nat2N.inj_succ, N.pow_succ_r'. lia.
  - split; [split|now apply chars_ascii].
    + unfold chars. now rewrite map_length.
    + now apply chars_numeral.
Qed.
Lemma part_chars w ds : List.length ds = S w -> Forall (fun d => d < 10)%N ds -> exists z, py_int (chars ds) = Ok z /\ dec_pad (S w) (Z.to_N z) = chars ds.
Proof.
  intros L H. exists (Z.of_N (positional (rev ds))). split.
  - apply py_int_digits; [now destruct ds|now apply chars_numeral].
  - rewrite N2Z.id. now apply pad_chars.
Qed.
Lemma phone_line_spec ds : Forall (fun d => d < 10)%N ds -> (10 <= List.length ds)%nat ->
  exists line, phone_line (chars ds) = Ok line /\ dial (firstn 10 ds) line.
Proof.
  intros H L. do 10 (destruct ds as [|? ds]; [cbn in L; lia|]).
  assert (H' : Forall (fun d => d < 10)%N [n; n0; n1; n2; n3; n4; n5; n6; n7; n8]).
  { change (n :: n0 :: n1 :: n2 :: n3 :: n4 :: n5 :: n6 :: n7 :: n8 :: ds) with ([n; n0; n1; n2; n3; n4; n5; n6; n7; n8] ++ ds) in H.
    now apply Forall_app in H. }
  repeat match goal with K : Forall _ (_ :: _) |- _ => inversion K; clear K; subst end.
  destruct (part_chars 2 [n; n0; n1]) as (a & A1 & A2); [easy|auto|].
  destruct (part_chars 2 [n2; n3; n4]) as (b & B1 & B2); [easy|auto|].
  destruct (part_chars 3 [n5; n6; n7; n8]) as (c & C1 & C2); [easy|auto|].
  unfold phone_line. cbn [chars map firstn skipn] in *. rewrite A1, B1, C1. cbn [bind]. rewrite A2, B2, C2.
  eexists. split; [reflexivity|]. exists n, n0, n1, n2, n3, n4, n5, n6, n7, n8. easy.
Qed.
Lemma phone_cases ext k st s ds : phone_subject st = VText s -> number_digits s ds ->
  ((List.length ds < 10)%nat -> phone ext k st = (st, Ok (Fail (lit "invalid") [])))
  /\ ((List.length ds = 10%nat \/ ((10 <= List.length ds)%nat /\ ext = ExtStrip)) ->
      exists line, dial (firstn 10 ds) line
      /\ phone ext k st = (fst (scalar_set k st (VText line)), rmap (fun _ => Pass) (snd (scalar_set k st (VText line)))))
  /\ ((10 < List.length ds)%nat -> ext = ExtNone -> phone ext k st = (st, Ok (Fail (lit "noext") [])))
  /\ ((10 < List.length ds)%nat -> ext = ExtKeep -> phone ext k st = (st, Err TypeErr)).
Proof.
  intros S D. apply phone_digits_spec in D as (H & D). unfold phone. fold (phone_subject st). rewrite S.
  fold (phone_digits s). rewrite D.
  assert (Lc : List.length (chars ds) = List.length ds) by apply map_length.
  split; [|split; [|split]].
  - intros L. destruct ds as [|d ds]; [easy|]. rewrite Lc. apply Nat.ltb_lt in L. rewrite L. easy.
  - intros L. destruct (phone_line_spec ds H ltac:(lia)) as (line & P & Q). exists line. split; [easy|].
    destruct ds as [|d ds]; [cbn in L; lia|]. rewrite Lc, P.
    replace (List.length (d :: ds) <? 10)%nat with false by lia.
    replace ((List.length (d :: ds) =? 10)%nat || match ext with ExtStrip => true | _ => false end) with true
      by (destruct L as [L|(_ & ->)]; [lia|now rewrite orb_true_r]).
    now destruct (scalar_set k st (VText line)).
  - intros L ->. destruct ds as [|d ds]; [easy|]. rewrite Lc.
    replace (List.length (d :: ds) <? 10)%nat with false by lia. replace (List.length (d :: ds) =? 10)%nat with false by lia. easy.
  - intros L ->. destruct ds as [|d ds]; [easy|]. rewrite Lc.
    replace (List.length (d :: ds) <? 10)%nat with false by lia. replace (List.length (d :: ds) =? 10)%nat with false by lia. easy.
Qed.
Lemma phone_not_text ext k st : (forall s, phone_subject st <> VText s) -> phone ext k st = (st, Err TypeErr).
Proof. intros H. unfold phone. fold (phone_subject st). destruct (phone_subject st) eqn:E; try easy. now elim (H s). Qed.
(* a String element *)
Lemma dial_digits ds line : Forall (fun d => d < 10)%N ds -> dial ds line -> number_digits line ds /\ trimmed line line.
Proof.
  intros H (a & b & c & d & e & f & g & h & i & j & -> & ->). split.
  - repeat match goal with K : Forall _ (_ :: _) |- _ => inversion K; clear K; subst end.
    assert (G : forall n s t, (n < 10)%N -> digit_chars s t -> digit_chars (48 + n :: s)%N (48 + n :: t)%N).
    { intros n s t L. apply dc_digit. exists n. now apply digit_val_ascii. }
    apply (nd_ascii _ (chars [a; b; c; d; e; f; g; h; i; j])).
    + cbn [lit app chars map]. apply dc_other; [reflexivity|]. do 3 (apply G; [easy|]). do 2 (apply dc_other; [reflexivity|]).
      do 3 (apply G; [easy|]). apply dc_other; [reflexivity|]. do 4 (apply G; [easy|]). constructor.
    + apply chars_ascii. auto 20.
    + cbn [chars map]. repeat (constructor; [now apply digit_val_ascii|]). constructor.
  - exists [], []. rewrite app_nil_r. split; [easy|]. split; [constructor|]. split; [constructor|]. split.
    + intros x r [= <- _]. reflexivity.
    + intros x r E. apply (f_equal (fun l => last l 0%N)) in E. rewrite last_last in E. change (48 + j = x)%N in E. subst x.
      apply (digit_plain _ j). apply digit_val_iff, digit_val_ascii. rewrite Forall_forall in H. apply H. cbn [In]. tauto.
Qed.
Lemma phone_string ext sp st s ds : phone_subject st = VText s -> number_digits s ds ->
  (List.length ds = 10%nat \/ ((10 <= List.length ds)%nat /\ ext = ExtStrip)) ->
  exists line, dial (firstn 10 ds) line
  /\ phone ext (KString sp) st = (Scalar (Some (VText line)) (VText line) line, Ok Pass)
  /\ phone ext (KString sp) (Scalar (Some (VText line)) (VText line) line) = (Scalar (Some (VText line)) (VText line) line, Ok Pass).
Proof.
  intros S D L. destruct (phone_cases ext (KString sp) st s ds S D) as (_ & C & _).
  destruct (C L) as (line & Q & E). exists line. split; [easy|].
  assert (H : Forall (fun d => d < 10)%N (firstn 10 ds)).
  { apply phone_digits_spec in D as (H & _). rewrite <- (firstn_skipn 10 ds) in H. now apply Forall_app in H. }
  destruct (dial_digits _ _ H Q) as (D2 & T).
  assert (G : forall st, scalar_set (KString sp) st (VText line) = (Scalar (Some (VText line)) (VText line) line, Ok true)).
  { intros st'. unfold scalar_set. apply trimmed_eq in T. destruct sp; cbn [adapt vtext]; [rewrite <- T; cbn [is_none serialize vtext]; rewrite <- T|]; reflexivity. }
  rewrite G in E. split; [easy|].
  destruct (phone_cases ext (KString sp) (Scalar (Some (VText line)) (VText line) line) line (firstn 10 ds) eq_refl D2) as (_ & C2 & _).
  assert (L2 : List.length (firstn 10 ds) = 10%nat) by (rewrite firstn_length; lia).
  destruct (C2 (or_introl L2)) as (line2 & Q2 & E2).
  rewrite firstn_all2 in Q2 by lia.
  assert (line2 = line) as ->.
  { clear -Q Q2. destruct Q as (a & b & c & d & e & f & g & h & i & j & X1 & ->), Q2 as (a' & b' & c' & d' & e' & f' & g' & h' & i' & j' & X & ->).
    rewrite X1 in X. now injection X as -> -> -> -> -> -> -> -> -> ->. }
  rewrite G in E2. easy.
Qed.
Lemma phone_messages ext x label k st s ds errors : plain x label -> phone_subject st = VText s -> number_digits s ds ->
  ((List.length ds < 10)%nat ->
    exists errors', report phone_cls x errors (snd (phone ext k st)) = (errors', Ok false)
    /\ records errors (lit "The " ++ label ++ lit " is not valid.") errors')
  /\ ((10 < List.length ds)%nat -> ext = ExtNone ->
    exists errors', report phone_cls x errors (snd (phone ext k st)) = (errors', Ok false)
    /\ records errors (label ++ lit " must be a ten-digit phone number without extension.") errors').
Proof.
  intros P S D. destruct (phone_cases ext k st s ds S D) as (A & _ & B & _). split; intros L; [|intros E].
  - rewrite (A L). cbn [snd]. apply (judged_intro phone_cls x label errors false False (lit "invalid") (lit "The %(label)s is not valid.") _ []);
      try easy. known [(lit "label", VText label)] P.
  - rewrite (B L E). cbn [snd]. apply (judged_intro phone_cls x label errors false False (lit "noext") (lit "%(label)s must be a ten-digit phone number without extension.") _ []);
      try easy. known [(lit "label", VText label)] P.
Qed.

(* ---- NANPnxx ---- *)
Lemma nxx_number st n : number (s_value st) n ->
  ((200 <= n)%Z /\ ~ In n blocked_nxx -> nanp_nxx st = (Scalar (s_raw st) (s_value st) (vtext (s_value st)), Ok Pass))
  /\ (~ ((200 <= n)%Z /\ ~ In n blocked_nxx) -> nanp_nxx st = (st, Ok Quiet)).
Proof.
  intros K. assert (N0 : is_none (s_value st) = false) by (now destruct K).
  unfold nanp_nxx. rewrite N0.
  assert (E : py_lt (s_value st) (VInt 200) = Ok (n <? 200)%Z).
  { destruct K; rewrite <- ?lt_int; reflexivity. }
  assert (M : py_in (s_value st) (map VInt nxx_blocked) = true <-> In n blocked_nxx).
  { unfold py_in. rewrite existsb_exists. split.
    - intros (v & I & Q). apply in_map_iff in I as (z & <- & I). destruct K; cbn [py_eq] in Q.
      + apply Z.eqb_eq in Q as ->. exact I.
      + change (1 =? z = true)%Z in Q. apply Z.eqb_eq in Q. subst z. exact I.
      + change (0 =? z = true)%Z in Q. apply Z.eqb_eq in Q. subst z. exact I.
    - intros I. exists (VInt n). split; [now apply in_map|]. destruct K; cbn; [apply Z.eqb_refl|easy|easy]. }
  rewrite E. cbn [either bind]. split.
  - intros (L & I). replace (n <? 200)%Z with false by lia. cbn [either bind].
    destruct (py_in (s_value st) (map VInt nxx_blocked)) eqn:F; [|easy]. elim I. now apply M.
  - intros H. destruct (Z.ltb_spec n 200) as [L|L]; cbn [either bind]; [easy|].
    destruct (py_in (s_value st) (map VInt nxx_blocked)) eqn:F; [easy|]. elim H. split; [lia|]. intros I. apply M in I. congruence.
Qed.
Lemma nxx_silent st n self x errors : number (s_value st) n -> ~ ((200 <= n)%Z /\ ~ In n blocked_nxx) ->
  report self x errors (snd (nanp_nxx st)) = (errors, Ok false).
Proof. intros K H. destruct (nxx_number st n K) as (_ & E). now rewrite (E H). Qed.
Lemma nxx_none st : s_value st = VNone -> nanp_nxx st = (st, Ok Quiet).
Proof. unfold nanp_nxx. now intros ->. Qed.
Lemma nxx_other st : s_value st <> VNone -> (forall n, ~ number (s_value st) n) -> nanp_nxx st = (st, Err TypeErr).
Proof.
  intros H K. unfold nanp_nxx. replace (is_none (s_value st)) with false by (now destruct (s_value st)).
  destruct (none_all (s_value st) (VInt 200)) as (E & _); [|now rewrite E].
  intros C. inversion C as [a b p q A B| | | |]; subst. now apply (K p).
Qed.
Lemma npa_nxx_spec find_one npa nxx :
  (forall a b, find_one npa = Ok a -> find_one nxx = Ok b -> nanp_npa_nxx find_one npa nxx = Err AttributeErr)
  /\ (forall e, find_one npa = Err e -> nanp_npa_nxx find_one npa nxx = Err e)
  /\ (forall a e, find_one npa = Ok a -> find_one nxx = Err e -> nanp_npa_nxx find_one npa nxx = Err e).
Proof. unfold nanp_npa_nxx. repeat split; intros *; intros E; rewrite E; cbn [bind]; try intros F; rewrite ?F; easy. Qed.

(* ---- bounds may be given by position, by keyword, or not at all ---- *)
Lemma lengths_given v w :
  (forall self, new_shorter_than None [(lit "maxlength", Plain v)] = Ok self -> getattr self (lit "maxlength") = Ok (Plain v))
  /\ (forall self, new_longer_than None [(lit "minlength", Plain v)] = Ok self -> getattr self (lit "minlength") = Ok (Plain v))
  /\ (forall self, new_length_between None (Some w) [(lit "minlength", Plain v)] = Ok self ->
        getattr self (lit "minlength") = Ok (Plain v) /\ getattr self (lit "maxlength") = Ok (Plain w))
  /\ (forall self, new_length_between (Some v) None [(lit "maxlength", Plain w)] = Ok self ->
        getattr self (lit "minlength") = Ok (Plain v) /\ getattr self (lit "maxlength") = Ok (Plain w)).
Proof. repeat split; intros; try (injection H as <-); reflexivity. Qed.
Lemma lengths_unset :
  (forall self, new_shorter_than None [] = Ok self -> getattr self (lit "maxlength") = Ok (Plain (VInt 0)))
  /\ (forall self, new_longer_than None [] = Ok self -> getattr self (lit "minlength") = Ok (Plain (VInt 0)))
  /\ (forall self, new_length_between None None [] = Ok self ->
        getattr self (lit "minlength") = Ok (Plain (VInt 0)) /\ getattr self (lit "maxlength") = Ok (Plain (VInt 0))).
Proof. repeat split; intros; try (injection H as <-); reflexivity. Qed.
Lemma bounds_by_keyword b kw k a : In (k, a) kw ->
  (k = lit "boundary" -> new_less_than b kw = Err TypeErr /\ new_greater_than b kw = Err TypeErr)
  /\ (k = lit "maximum" -> new_at_most b kw = Err TypeErr) /\ (k = lit "minimum" -> new_at_least b kw = Err TypeErr)
  /\ (k = lit "minimum" \/ k = lit "maximum" -> forall c, new_between b c kw = Err TypeErr).
Proof.
  intros I. unfold new_less_than, new_greater_than, new_at_most, new_at_least, new_between.
  repeat split; intros; subst; try (rewrite new_refused; [reflexivity|exists (lit "boundary"), a; split; [easy|]; vm_compute; discriminate]).
  - rewrite new_refused; [reflexivity|]. exists (lit "maximum"), a. split; [easy|]. vm_compute. discriminate.
  - rewrite new_refused; [reflexivity|]. exists (lit "minimum"), a. split; [easy|]. vm_compute. discriminate.
  - rewrite new_refused; [reflexivity|]. exists k, a. split; [easy|]. destruct H as [-> | ->]; vm_compute; discriminate.
Qed.
Lemma sizes_unset :
  (forall self, new_validator has_at_least_cls [] = Ok self -> getattr self (lit "minimum") = Ok (Plain (VInt 1)))
  /\ (forall self, new_validator has_at_most_cls [] = Ok self -> getattr self (lit "maximum") = Ok (Plain (VInt 1)))
  /\ (forall self, new_has_between [] = Ok self -> getattr self (lit "minimum") = Ok (Plain (VInt 1)) /\ getattr self (lit "maximum") = Ok (Plain (VInt 1))).
Proof. repeat split; intros; try (injection H as <-); reflexivity. Qed.
