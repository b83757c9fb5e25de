(* Where the Genshi directives may stand. *)
From Verif Require Import PyBase PyBaseFacts ModelMarkup ModelGenshi SpecGenshi ProofGenshi4 ProofGenshi5 ModelAttach SpecAttach.
From Coq Require Import Permutation Sorted Lia.

Lemma pieces_concat raw : pieces_say raw (List.concat (map piece_text raw)).
Proof. induction raw as [|[s|v] raw IH]; cbn; constructor; exact IH. Qed.
Lemma pieces_fun raw t : pieces_say raw t -> t = List.concat (map piece_text raw).
Proof. induction 1 as [|s l t _ IH|v l t _ IH]; cbn; congruence. Qed.
Lemma raw_value_kept raw : (exists v, In (PExpr v) raw) -> raw_value raw = raw.
Proof.
  intros (v & H). unfold raw_value. destruct (forallb is_text raw) eqn:E; [|easy].
  rewrite forallb_forall in E. now apply E in H.
Qed.
Lemma raw_value_says raw t : pieces_say raw t -> pieces_say (raw_value raw) t.
Proof.
  intros H. unfold raw_value. destruct (forallb is_text raw); [|exact H]. apply pieces_fun in H as ->.
  rewrite <- (app_nil_r (List.concat _)) at 2. repeat constructor.
Qed.
Lemma raw_value_joined raw : (forall v, ~ In (PExpr v) raw) -> exists t, raw_value raw = [PText t].
Proof.
  intros H. unfold raw_value. replace (forallb is_text raw) with true; [now eexists|]. symmetry. apply forallb_forall. intros [t|v] I; [easy|]. now destruct (H v).
Qed.
Lemma settings_made l s : manipulator l [] = Ok s -> settings_of l s.
Proof.
  intros E. apply manipulator_spec in E as (pairs & F & G & N). exists pairs. split; [exact F|]. split; [apply N; constructor|].
  intros k. rewrite G. now destruct (aget str_eqb k (rev pairs)).
Qed.
Lemma registered_parts : registered = (tag_names ++ lit "bind" :: control_attributes)%list.
Proof. reflexivity. Qed.
Lemma known n : memb str_eqb n registered = true <-> In n tag_names \/ n = lit "bind" \/ In n control_attributes.
Proof.
  rewrite (memb_In _ str_eqb_eq), registered_parts, in_app_iff. cbn [In]. intuition congruence.
Qed.
Lemma attach_cases n w :
  (In n tag_names /\ exists make, (n = lit "with" /\ make = DWith \/ n = lit "set" /\ make = DSet) /\ attach n w = attach_tag make w)
  \/ (n = lit "bind" /\ attach n w = attach_attribute (fun _ v => DBind v) w)
  \/ (In n control_attributes /\ attach n w = attach_attribute (fun raw _ => DControl n (raw_value raw)) w)
  \/ (n <> lit "bind" /\ ~ In n tag_names /\ ~ In n control_attributes /\ attach n w = inr NoDirective).
Proof.
  unfold attach. destruct (str_eqb_spec n (lit "with")) as [->|N1].
  { left. split; [now left|]. exists DWith. tauto. }
  destruct (str_eqb_spec n (lit "set")) as [->|N2].
  { left. split; [right; now left|]. exists DSet. tauto. }
  destruct (str_eqb_spec n (lit "bind")) as [->|N3]; [tauto|].
  assert (~ In n tag_names) as NT by (intros [E|[E|[]]]; congruence).
  destruct (memb str_eqb n registered) eqn:M.
  - apply known in M as [M|[M|M]]; try easy. tauto.
  - right. right. right. split; [easy|]. split; [easy|]. split; [|easy]. intros I.
    assert (memb str_eqb n registered = true) by (apply known; tauto). congruence.
Qed.
Lemma attach_made n w d : attach n w = inl d -> stands n w d.
Proof.
  destruct (attach_cases n w) as [(I & make & Hm & ->)|[(-> & ->)|[(I & ->)|(_ & _ & _ & ->)]]]; [| | |discriminate].
  - unfold attach_tag. destruct w as [l|raw v]; [|discriminate]. destruct (manipulator l []) as [s|] eqn:E; [|discriminate]. intros [= <-].
    apply settings_made in E. destruct Hm as [[-> ->]|[-> ->]]; now constructor.
  - destruct w as [l|raw v]; [discriminate|]. intros [= <-]. constructor.
  - destruct w as [l|raw v]; [discriminate|]. intros [= <-]. constructor; [exact I|apply raw_value_says|apply raw_value_kept|apply raw_value_joined].
Qed.
Lemma not_both n : In n tag_names -> n = lit "bind" \/ In n control_attributes -> False.
Proof.
  intros [<-|[<-|[]]] [E|E]; try (vm_compute in E; discriminate); vm_compute in E; intuition discriminate.
Qed.
Lemma attach_refused n w r : attach n w = inr r <-> refused n w r.
Proof.
  split.
  - destruct (attach_cases n w) as [(I & make & Hm & ->)|[(-> & ->)|[(I & ->)|(A & B & C & ->)]]].
    + unfold attach_tag. destruct w as [l|raw v]; [|intros [= <-]; now constructor]. destruct (manipulator l []) as [s|e] eqn:E; [discriminate|]. intros [= <-].
      apply manipulator_error in E as (l1 & v & l2 & -> & E & P). now constructor.
    + destruct w as [l|raw v]; [intros [= <-]; constructor; tauto|discriminate].
    + destruct w as [l|raw v]; [intros [= <-]; constructor; tauto|discriminate].
    + intros [= <-]. now constructor.
  - assert (nb : ~ In (lit "bind") control_attributes) by (vm_compute; intuition discriminate).
    intros H. destruct (attach_cases n w) as [(I & make & Hm & ->)|[(Eb & ->)|[(I & ->)|(A & B & C & ->)]]]; destruct H as [n w N1 N2 N3|n raw v J|n l J|n l1 v l2 e J E P]; try easy; try tauto; try (subst n; tauto); try (exfalso; eapply not_both; eauto; fail). all: cycle 1. all: try (exfalso; subst n; vm_compute in J; intuition discriminate).
    assert (manipulator (l1 ++ (lit "tabindex", v) :: l2) [] = Err e) as X.
    { apply manipulator_error. exists l1, v, l2. now split. }
    unfold attach_tag. now rewrite X.
Qed.

(* ---------------- order ---------------- *)
Lemma place_earlier l n m : place n l < place m l -> In m l -> exists a b c, l = (a ++ n :: b ++ m :: c)%list.
Proof.
  induction l as [|x l IH]; [easy|]. cbn [place]. destruct (str_eqb_spec n x) as [En|Nn]; destruct (str_eqb_spec m x) as [Em|Nm]; try lia.
  - intros _ [E|I]; [congruence|]. subst x. apply in_split in I as (b & c & ->). now exists [], b, c.
  - intros L [E|I]; [congruence|]. destruct (IH ltac:(lia) I) as (a & b & c & ->). now exists (x :: a)%list, b, c.
Qed.
Lemma place_inj l n m : In n l -> In m l -> place n l = place m l -> n = m.
Proof.
  induction l as [|x l IH]; [easy|]. cbn [place]. destruct (str_eqb_spec n x) as [En|Nn]; destruct (str_eqb_spec m x) as [Em|Nm]; try congruence; try discriminate.
  intros [E|I] [E'|I'] P; try congruence. injection P as P. now apply IH.
Qed.
Definition by_place (p q : str * written) : Prop := place (fst p) registered <= place (fst q) registered.
Lemma insert_perm p l : Permutation (insert_directive p l) (p :: l).
Proof.
  induction l as [|q l IH]; [easy|]. cbn [insert_directive]. destruct (_ <=? _); [easy|]. rewrite IH. apply perm_swap.
Qed.
Lemma in_place_perm l : Permutation (in_place l) l.
Proof. induction l as [|p l IH]; [easy|]. cbn [in_place]. rewrite insert_perm. now constructor. Qed.
Lemma insert_sorted p l : StronglySorted by_place l -> StronglySorted by_place (insert_directive p l).
Proof.
  induction 1 as [|q l S IH F]; cbn [insert_directive]; [repeat constructor|].
  destruct (Nat.leb_spec (place (fst p) registered) (place (fst q) registered)) as [L|L].
  - constructor; [now constructor|]. constructor; [exact L|]. eapply Forall_impl; [|exact F]. unfold by_place. intros x. lia.
  - constructor; [exact IH|]. eapply Permutation_Forall; [symmetry; apply insert_perm|]. constructor; [unfold by_place; lia|exact F].
Qed.
Lemma in_place_sorted l : StronglySorted by_place (in_place l).
Proof. induction l as [|p l IH]; [constructor|]. now apply insert_sorted. Qed.
Lemma insert_swap p q l : place (fst p) registered <> place (fst q) registered ->
  insert_directive p (insert_directive q l) = insert_directive q (insert_directive p l).
Proof.
  intros N. induction l as [|x l IH]; cbn [insert_directive].
  - destruct (Nat.leb_spec (place (fst p) registered) (place (fst q) registered)), (Nat.leb_spec (place (fst q) registered) (place (fst p) registered)); try lia; reflexivity.
  - destruct (Nat.leb_spec (place (fst q) registered) (place (fst x) registered)) as [A|A], (Nat.leb_spec (place (fst p) registered) (place (fst x) registered)) as [B|B]; cbn [insert_directive].
    + destruct (Nat.leb_spec (place (fst p) registered) (place (fst q) registered)), (Nat.leb_spec (place (fst q) registered) (place (fst p) registered)); try lia.
      * replace (place (fst q) registered <=? place (fst x) registered) with true by (symmetry; now apply Nat.leb_le). reflexivity.
      * replace (place (fst p) registered <=? place (fst x) registered) with true by (symmetry; now apply Nat.leb_le). reflexivity.
    + destruct (Nat.leb_spec (place (fst p) registered) (place (fst q) registered)); [lia|].
      destruct (Nat.leb_spec (place (fst p) registered) (place (fst x) registered)); [lia|].
      destruct (Nat.leb_spec (place (fst q) registered) (place (fst x) registered)); [reflexivity|lia].
    + destruct (Nat.leb_spec (place (fst q) registered) (place (fst p) registered)); [lia|].
      destruct (Nat.leb_spec (place (fst q) registered) (place (fst x) registered)); [lia|].
      destruct (Nat.leb_spec (place (fst p) registered) (place (fst x) registered)); [reflexivity|lia].
    + destruct (Nat.leb_spec (place (fst p) registered) (place (fst x) registered)); [lia|].
      destruct (Nat.leb_spec (place (fst q) registered) (place (fst x) registered)); [lia|]. now rewrite IH.
Qed.
Lemma in_place_order l l' : Permutation l l' -> NoDup (map fst l) -> (forall p, In p l -> In (fst p) registered) -> in_place l = in_place l'.
Proof.
  intros P. induction P as [|x l l' P IH|x y l|l l1 l2 P1 IH1 P2 IH2]; intros N K.
  - easy.
  - cbn [in_place]. inversion N; subst. rewrite IH; [easy|easy|]. intros p I. apply K. now right.
  - cbn [in_place]. apply insert_swap. intros E. apply place_inj in E; [|apply K; simpl; tauto..]. inversion N; subst. simpl in *. firstorder congruence.
  - rewrite IH1 by easy. apply IH2.
    + eapply Permutation_NoDup; [apply Permutation_map; exact P1|exact N].
    + intros p I. apply K. eapply Permutation_in; [symmetry; exact P1|exact I].
Qed.
Lemma prepare_order l l' : Permutation l l' -> NoDup (map fst l) -> prepare l = prepare l'.
Proof.
  intros P N. unfold prepare.
  assert (forallb (fun p : str * written => memb str_eqb (fst p) registered) l = forallb (fun p => memb str_eqb (fst p) registered) l') as E.
  { apply Bool.eq_iff_eq_true. rewrite !forallb_forall. split; intros H p I; apply H; [eapply Permutation_in; [symmetry; exact P|exact I]|eapply Permutation_in; eassumption]. }
  rewrite <- E. destruct (forallb _ l) eqn:F; [|easy]. rewrite (in_place_order l l'); [easy|easy|easy|].
  intros p I. rewrite forallb_forall in F. apply F in I. now apply (memb_In _ str_eqb_eq) in I.
Qed.
Lemma attach_all_made l ds : attach_all l = inl ds -> Forall2 (fun p d => stands (fst p) (snd p) d) l ds.
Proof.
  revert ds. induction l as [|[n w] l IH]; intros ds; cbn [attach_all]; [intros [= <-]; constructor|].
  destruct (attach n w) as [d|] eqn:A; [|discriminate]. destruct (attach_all l) as [ds'|]; [|discriminate]. intros [= <-].
  constructor; [now apply attach_made|now apply IH].
Qed.
Lemma attach_all_refused l r : attach_all l = inr r ->
  exists l1 p l2, l = (l1 ++ p :: l2)%list /\ refused (fst p) (snd p) r /\ Forall (fun q => exists d, stands (fst q) (snd q) d) l1.
Proof.
  induction l as [|[n w] l IH]; cbn [attach_all]; [discriminate|]. destruct (attach n w) as [d|e] eqn:A.
  - destruct (attach_all l) as [ds'|e]; [discriminate|]. intros [= ->]. destruct (IH eq_refl) as (l1 & p & l2 & -> & R & F).
    exists ((n, w) :: l1)%list, p, l2. split; [easy|]. split; [exact R|]. constructor; [|exact F]. exists d. now apply attach_made.
  - intros [= ->]. exists [], (n, w), l. split; [easy|]. split; [now apply attach_refused|constructor].
Qed.
Lemma sorted_later l : StronglySorted by_place l -> (forall p, In p l -> In (fst p) registered) -> StronglySorted not_later l.
Proof.
  induction 1 as [|p l S IH F]; intros K; [constructor|]. constructor; [apply IH; intros q I; apply K; now right|].
  apply Forall_forall. intros q I. rewrite Forall_forall in F. apply F in I as L. unfold by_place in L. unfold not_later.
  destruct (Nat.eq_dec (place (fst p) registered) (place (fst q) registered)) as [E|E].
  - left. apply place_inj in E; [easy|apply K; now left|apply K; now right].
  - right. destruct (place_earlier registered (fst p) (fst q)) as (a & b & c & H); [lia|apply K; now right|]. exists a, b, c. exact H.
Qed.
Lemma prepare_made l ds : prepare l = inl ds ->
  exists l', Permutation l' l /\ StronglySorted not_later l' /\ Forall2 (fun p d => stands (fst p) (snd p) d) l' ds.
Proof.
  unfold prepare. destruct (forallb _ l) eqn:F; [|discriminate]. intros H. exists (in_place l). split; [apply in_place_perm|]. split.
  - apply sorted_later; [apply in_place_sorted|]. intros p I. eapply Permutation_in in I; [|apply in_place_perm]. rewrite forallb_forall in F. apply F in I.
    now apply (memb_In _ str_eqb_eq) in I.
  - now apply attach_all_made.
Qed.
Lemma prepare_refused l r : prepare l = inr r -> exists n w, In (n, w) l /\ refused n w r.
Proof.
  unfold prepare. destruct (forallb _ l) eqn:F.
  - intros H. apply attach_all_refused in H as (l1 & [n w] & l2 & E & R & _). exists n, w. split; [|exact R].
    eapply Permutation_in; [apply in_place_perm|]. rewrite E. apply in_or_app. right. now left.
  - intros [= <-].
    assert (exists p : str * written, In p l /\ memb str_eqb (fst p) registered = false) as ([n w] & I & M).
    { clear -F. induction l as [|x l IH]; [discriminate|]. cbn [forallb] in F. destruct (memb str_eqb (fst x) registered) eqn:M.
      - destruct (IH F) as (p & I & E). exists p. split; [now right|exact E].
      - exists x. split; [now left|exact M]. }
    exists n, w. split; [exact I|]. cbn [fst] in M.
    assert (~ (In n tag_names \/ n = lit "bind" \/ In n control_attributes)) as K by (intros K; apply known in K; congruence). constructor; tauto.
Qed.
Lemma refused_prepare l n w r : In (n, w) l -> refused n w r -> exists r', prepare l = inr r'.
Proof.
  intros I R. destruct (prepare l) as [ds|r'] eqn:P; [exfalso|now exists r'].
  unfold prepare in P. destruct (forallb _ l); [|discriminate].
  assert (In (n, w) (in_place l)) as I' by (eapply Permutation_in; [symmetry; apply in_place_perm|exact I]).
  revert ds P I'. generalize (in_place l) as k. induction k as [|[n' w'] k IH]; intros ds P I'; [easy|]. cbn [attach_all] in P.
  destruct (attach n' w') as [d|] eqn:A; [|discriminate]. destruct (attach_all k) as [ds'|] eqn:Ak; [|discriminate].
  destruct I' as [E|I']; [|now apply (IH ds')]. injection E as -> ->. apply attach_refused in R. congruence.
Qed.

(* ---------------- a bound tag ---------------- *)
Lemma control_placed k : In k control_attributes -> place (lit "bind") registered < place k registered.
Proof. intros I. simpl in I. repeat (destruct I as [<-|I]; [vm_compute; lia|]). easy. Qed.
Lemma controls_attached l : (forall p, In p l -> exists k raw v, p = (k, AsAttr raw v) /\ In k control_attributes) ->
  exists ds pairs, attach_all l = inl ds /\ Forall2 control_says ds pairs /\ Forall2 attribute_says l pairs.
Proof.
  induction l as [|p l IH]; intros K; [exists [], []; repeat split; constructor|].
  destruct (K p (or_introl eq_refl)) as (k & raw & v & -> & I). destruct IH as (ds & pairs & E & F1 & F2); [intros q J; apply K; now right|].
  cbn [attach_all]. assert (attach k (AsAttr raw v) = inl (DControl k (raw_value raw))) as ->.
  { destruct (attach_cases k (AsAttr raw v)) as [(J & _)|[(-> & ->)|[(J & ->)|(A & B & C & _)]]]; [exfalso; eapply not_both; eauto| |easy|easy].
    exfalso. vm_compute in I. intuition discriminate. }
  rewrite E. exists (DControl k (raw_value raw) :: ds)%list, ((to_context k, MText (List.concat (map piece_text raw))) :: pairs)%list.
  split; [easy|]. split; constructor; try easy.
  - constructor; [apply setting_spec|]. apply raw_value_says, pieces_concat.
  - constructor; [exact I|apply setting_spec|apply pieces_concat].
Qed.
Lemma controls_split ds pairs : Forall2 control_says ds pairs -> splits ds [] ds.
Proof. induction 1 as [|d p ds pairs C _ IH]; constructor; [|exact IH]. inversion C; subst. discriminate. Qed.
Lemma bound_first l raw b : NoDup (map fst l) -> In (lit "bind", AsAttr raw b) l ->
  (forall n w, In (n, w) l -> n <> lit "bind" -> In n control_attributes /\ exists raw' v, w = AsAttr raw' v) ->
  exists controls rest pairs, prepare l = inl (DBind b :: controls)
    /\ Permutation ((lit "bind", AsAttr raw b) :: rest) l
    /\ Forall2 control_says controls pairs /\ Forall2 attribute_says rest pairs
    /\ splits (DBind b :: controls) [] (DBind b :: controls).
Proof.
  intros N I C. pose proof (in_place_perm l) as P. pose proof (in_place_sorted l) as S.
  assert (forall n w, In (n, w) l -> memb str_eqb n registered = true) as K.
  { intros n w J. apply known. destruct (str_eqb_spec n (lit "bind")) as [->|D]; [tauto|]. apply C in J; tauto. }
  unfold prepare. replace (forallb _ l) with true by (symmetry; apply forallb_forall; intros [n w] J; now apply (K n w)).
  assert (In (lit "bind", AsAttr raw b) (in_place l)) as I' by (eapply Permutation_in; [symmetry; exact P|exact I]).
  assert (NoDup (map fst (in_place l))) as N' by (eapply Permutation_NoDup; [apply Permutation_map; symmetry; exact P|exact N]).
  assert (exists rest, in_place l = ((lit "bind", AsAttr raw b) :: rest)%list) as [rest E].
  { destruct (in_place l) as [|[n w] k] eqn:E; [easy|]. destruct I' as [I'|I']; [exists k; now rewrite I'|]. exfalso.
    inversion S as [|? ? S' F]; subst. rewrite Forall_forall in F. apply F in I' as L. unfold by_place in L. cbn [fst] in L.
    assert (n <> lit "bind") as D.
    { intros ->. inversion N'; subst. match goal with X : ~ In _ _ |- _ => apply X end. change (lit "bind") with (fst (lit "bind", AsAttr raw b)). now apply in_map. }
    assert (In n control_attributes) as Cn. { destruct (C n w) as [Cn _]; [|exact D|exact Cn]. eapply Permutation_in; [exact P|now left]. }
    apply control_placed in Cn. lia. }
  rewrite E in *. destruct (controls_attached rest) as (ds & pairs & A & F1 & F2).
  { intros [n w] J. assert (n <> lit "bind") as D.
    { intros ->. inversion N'; subst. match goal with X : ~ In _ _ |- _ => apply X end. change (lit "bind") with (fst (lit "bind", w)). now apply in_map. }
    destruct (C n w) as (Cn & raw' & v & ->); [eapply Permutation_in; [exact P|now right]|exact D|]. eauto 6. }
  exists ds, rest, pairs. split; [|split; [exact P|split; [exact F1|split; [exact F2|constructor; [discriminate|now apply (controls_split _ pairs)]]]]]. cbn [attach_all].
  replace (attach (lit "bind") (AsAttr raw b)) with (@inl directive refusal (DBind b)) by reflexivity. now rewrite A.
Qed.
Lemma setup_needs has : setup has = Ok tt /\ has = true \/ setup has = Err RuntimeErr /\ has = false.
Proof. destruct has; [left|right]; easy. Qed.
