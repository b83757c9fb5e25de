(* Proofs about the validators of numbers, texts and sequences. *)
From Verif Require Import PyBase PyBaseFacts ModelUtil ModelScalar SpecScalar ProofScalar3 ModelMessage SpecMessage ProofMessage
  ModelValidators SpecValidators.

(* ---- order ---- *)
Lemma number_iff a z : number a z <-> vnum a = Some z.
Proof.
  split; [now destruct 1|]. destruct a as [|[]|z'| | | | |]; cbn; intros H; try discriminate; injection H as <-; constructor.
Qed.
Lemma str_cmp_spec a : forall b, match str_cmp a b with Lt => lex a b | Eq => a = b | Gt => lex b a end.
Proof.
  induction a as [|x a IH]; intros [|y b]; cbn [str_cmp]; try easy; try constructor.
  destruct (N.compare_spec x y) as [-> | H | H].
  - specialize (IH b). destruct (str_cmp a b); [now subst|now apply lx_same|now apply lx_same].
  - now constructor. - now constructor.
Qed.
Lemma lex_irrefl a : ~ lex a a.
Proof. induction a as [|x a IH]; intros H; inversion H; subst; [lia|auto]. Qed.
Lemma lex_asym a : forall b, lex a b -> ~ lex b a.
Proof. induction a as [|x a IH]; intros b H K; inversion H; subst; inversion K; subst; try lia. eapply IH; eassumption. Qed.
Lemma str_cmp_lt a b : str_cmp a b = Lt <-> lex a b.
Proof.
  pose proof (str_cmp_spec a b) as C. destruct (str_cmp a b); split; intros H; try easy.
  - subst. now apply lex_irrefl in H. - now apply lex_asym in H.
Qed.
Lemma str_cmp_gt a b : str_cmp a b = Gt <-> lex b a.
Proof.
  pose proof (str_cmp_spec a b) as C. destruct (str_cmp a b); split; intros H; try easy.
  - subst. now apply lex_irrefl in H. - now apply lex_asym in H.
Qed.
Lemma lex_cons x y a b : lex (x :: a) (y :: b) <-> (x < y)%N \/ (x = y /\ lex a b).
Proof.
  split.
  - intros H; inversion H; subst; [now left|now right]. - intros [H|(-> & H)]; [now constructor|now apply lx_same].
Qed.
Lemma lex_nil a : ~ lex a [].
Proof. intros H; inversion H. Qed.
Lemma lex_date a b : lex (date_key a) (date_key b) <-> earlier_date a b.
Proof.
  unfold date_key, earlier_date. rewrite !lex_cons. pose proof (lex_nil []). tauto.
Qed.
Lemma lex_time a b : lex (time_key a) (time_key b) <-> earlier_time a b.
Proof. unfold time_key, earlier_time. rewrite !lex_cons. pose proof (lex_nil []). tauto. Qed.
Lemma lex_datetime a t b u : lex (date_key a ++ time_key t) (date_key b ++ time_key u) <->
  earlier_date a b \/ (a = b /\ earlier_time t u).
Proof.
  rewrite <- lex_time. destruct a as [y m d], b as [y' m' d']. unfold earlier_date. cbn [date_key d_y d_m d_d app]. rewrite !lex_cons.
  split.
  - intros [H|(-> & [H|(-> & [H|(-> & H)])])]; [left; lia|left; lia|left; lia|now right].
  - intros [H|(E & H)]; [intuition lia|]. injection E as -> -> ->. right. split; [easy|]. right. split; [easy|]. now right.
Qed.
Lemma comparable_sym a b : comparable a b -> comparable b a.
Proof. intros [x y p q H K| | | | ]; try constructor. now apply (cp_number y x q p). Qed.
Ltac nonum := match goal with H : number _ _ |- _ => solve [inversion H] end.
Lemma cmp_spec a b : comparable a b -> exists c, py_cmp a b = Ok c /\ (c = Lt <-> less a b) /\ (c = Gt <-> less b a).
Proof.
  intros [x y p q H K|s t|d e|d t e u|t u]; unfold py_cmp.
  - pose proof (proj1 (number_iff _ _) H) as E1. pose proof (proj1 (number_iff _ _) K) as E2. rewrite E1, E2.
    exists (p ?= q)%Z. split; [easy|]. rewrite Z.compare_lt_iff, Z.compare_gt_iff. split; split.
    + intros L. now apply (ls_number x y p q).
    + intros L. inversion L as [a' b' p' q' H' K' L'| | | | ]; subst; try (inversion H; fail).
      apply number_iff in H', K'. congruence.
    + intros L. now apply (ls_number y x q p).
    + intros L. inversion L as [a' b' p' q' H' K' L'| | | | ]; subst; try (inversion H; fail).
      apply number_iff in H', K'. congruence.
  - cbn [vnum]. eexists. split; [reflexivity|]. rewrite str_cmp_lt, str_cmp_gt. split; split; intros L; try (now constructor); inversion L; subst; try easy; nonum.
  - cbn [vnum]. eexists. split; [reflexivity|]. rewrite str_cmp_lt, str_cmp_gt, !lex_date. split; split; intros L; try (now constructor); inversion L; subst; try easy; nonum.
  - cbn [vnum]. eexists. split; [reflexivity|]. rewrite str_cmp_lt, str_cmp_gt, !lex_datetime. split; split; intros L; try (now constructor); inversion L; subst; try easy; nonum.
  - cbn [vnum]. eexists. split; [reflexivity|]. rewrite str_cmp_lt, str_cmp_gt, !lex_time. split; split; intros L; try (now constructor); inversion L; subst; try easy; nonum.
Qed.
Lemma cmp_none a b : ~ comparable a b -> py_cmp a b = Err TypeErr.
Proof.
  intros N. unfold py_cmp. destruct (vnum a) as [x|] eqn:E1, (vnum b) as [y|] eqn:E2; try easy.
  - apply number_iff in E1, E2. elim N. now apply (cp_number a b x y).
  - destruct a, b; try easy; elim N; constructor.
Qed.
Lemma lt_spec a b : comparable a b -> exists r, py_lt a b = Ok r /\ (r = true <-> less a b).
Proof. intros C. destruct (cmp_spec a b C) as (c & E & L & G). unfold py_lt. rewrite E. exists (match c with Lt => true | _ => false end). split; [easy|]. rewrite <- L. destruct c; easy. Qed.
Lemma gt_spec a b : comparable a b -> exists r, py_gt a b = Ok r /\ (r = true <-> less b a).
Proof. intros C. destruct (cmp_spec a b C) as (c & E & L & G). unfold py_gt. rewrite E. exists (match c with Gt => true | _ => false end). split; [easy|]. rewrite <- G. destruct c; easy. Qed.
Lemma le_spec a b : comparable a b -> exists r, py_le a b = Ok r /\ (r = true <-> ~ less b a).
Proof. intros C. destruct (cmp_spec a b C) as (c & E & L & G). unfold py_le. rewrite E. exists (match c with Gt => false | _ => true end). split; [easy|]. rewrite <- G. destruct c; easy. Qed.
Lemma ge_spec a b : comparable a b -> exists r, py_ge a b = Ok r /\ (r = true <-> ~ less a b).
Proof. intros C. destruct (cmp_spec a b C) as (c & E & L & G). unfold py_ge. rewrite E. exists (match c with Lt => false | _ => true end). split; [easy|]. rewrite <- L. destruct c; easy. Qed.
Lemma none_all a b : ~ comparable a b -> py_lt a b = Err TypeErr /\ py_gt a b = Err TypeErr /\ py_le a b = Err TypeErr /\ py_ge a b = Err TypeErr.
Proof. intros N. apply cmp_none in N. unfold py_lt, py_gt, py_le, py_ge. now rewrite N. Qed.
Lemma lt_int x y : py_lt (VInt x) (VInt y) = Ok (x <? y)%Z.
Proof. unfold py_lt, py_cmp. cbn. unfold Z.ltb. now destruct (x ?= y)%Z. Qed.
Lemma gt_int x y : py_gt (VInt x) (VInt y) = Ok (y <? x)%Z.
Proof. unfold py_gt, py_cmp. cbn. rewrite <- Z.gtb_ltb. unfold Z.gtb. now destruct (x ?= y)%Z. Qed.
Lemma le_int x y : py_le (VInt x) (VInt y) = Ok (x <=? y)%Z.
Proof. unfold py_le, py_cmp. cbn. unfold Z.leb. now destruct (x ?= y)%Z. Qed.
Lemma ge_int x y : py_ge (VInt x) (VInt y) = Ok (y <=? x)%Z.
Proof. unfold py_ge, py_cmp. cbn. rewrite <- Z.geb_leb. unfold Z.geb. now destruct (x ?= y)%Z. Qed.

(* ---- reports ---- *)
Lemma judged_intro self x label errors (b : bool) (ok : Prop) key s t info r :
  r = Ok (if b then Pass else Fail key info) -> (b = true <-> ok) -> plain x label ->
  getattr self key = Ok (Plain (VText s)) -> s <> [] -> renders (field_of None (asked self x info)) s t ->
  judged (report self x errors r) errors ok t.
Proof.
  intros -> I P G N R. split.
  - intros O. apply I in O. now rewrite O.
  - intros O. destruct b; [now elim O; apply I|]. cbn [report]. now apply (note_plain x label self errors key info s t).
Qed.
Lemma judged_plural self x label errors (b : bool) (ok : Prop) key a c k n t info r :
  r = Ok (if b then Pass else Fail key info) -> (b = true <-> ok) -> plain x label ->
  getattr self key = Ok (Plural a c k) -> counts None (asked self x info) k n ->
  renders (field_of None (asked self x info)) (if py_eq n (VInt 1) then a else c) t ->
  judged (report self x errors r) errors ok t.
Proof.
  intros -> I P G C R. split.
  - intros O. apply I in O. now rewrite O.
  - intros O. destruct b; [now elim O; apply I|]. cbn [report].
    now apply (note_plural x label self errors key info a c k n (if py_eq n (VInt 1) then a else c) t).
Qed.
(* the fields of a literal message *)
Ltac known l P :=
  apply (renders_compute _ l);
  [let k := fresh in let v := fresh in let E := fresh in intros k v E; cbn [In] in E;
   repeat (destruct E as [E|E]; [injection E as <- <-;
     first [apply (plain_label _ _ _ _ P); reflexivity
           |eapply (plain_info _ _ _ _ _ _ P); reflexivity
           |eapply (plain_self _ _ _ _ _ _ P); reflexivity
           |eapply (plain_element _ _ _ _ _ _ P); [reflexivity|reflexivity|assumption]]|]); now elim E
  |vm_compute; reflexivity].

(* ---- lengths ---- *)
Lemma value_of self k v : getattr self (lit k) = Ok (Plain v) -> self_value self k = Ok v.
Proof. unfold self_value. intros ->. easy. Qed.
Lemma shorter_decides self n u : getattr self (lit "maxlength") = Ok (Plain (VInt n)) ->
  shorter_than self u = Ok (if (Z.of_nat (List.length u) <=? n)%Z then Pass else Fail (lit "exceeded") []).
Proof.
  intros G. unfold shorter_than, len_val. rewrite (value_of _ _ _ G). cbn [bind]. rewrite gt_int. cbn [bind].
  rewrite Z.ltb_antisym. now destruct (Z.of_nat (List.length u) <=? n)%Z.
Qed.
Lemma longer_decides self n u : getattr self (lit "minlength") = Ok (Plain (VInt n)) ->
  longer_than self u = Ok (if (n <=? Z.of_nat (List.length u))%Z then Pass else Fail (lit "short") []).
Proof.
  intros G. unfold longer_than, len_val. rewrite (value_of _ _ _ G). cbn [bind]. rewrite lt_int. cbn [bind].
  rewrite Z.ltb_antisym. now destruct (n <=? Z.of_nat (List.length u))%Z.
Qed.
Lemma length_between_decides self lo hi u : getattr self (lit "minlength") = Ok (Plain (VInt lo)) ->
  getattr self (lit "maxlength") = Ok (Plain (VInt hi)) ->
  length_between self u = Ok (if (lo <=? Z.of_nat (List.length u))%Z && (Z.of_nat (List.length u) <=? hi)%Z
                              then Pass else Fail (lit "breached") []).
Proof.
  intros G H. unfold length_between, len_val. rewrite (value_of _ _ _ G), (value_of _ _ _ H). cbn [bind either].
  rewrite lt_int, gt_int. cbn [bind either]. rewrite !Z.ltb_antisym.
  destruct (lo <=? Z.of_nat (List.length u))%Z, (Z.of_nat (List.length u) <=? hi)%Z; reflexivity.
Qed.
Lemma shorter_default x label n u errors : plain x label -> exists self,
  new_shorter_than (Some (VInt n)) [] = Ok self
  /\ judged (report self x errors (shorter_than self u)) errors (Z.of_nat (List.length u) <= n)%Z
       (label ++ lit " may not exceed " ++ dec_z n ++ lit " characters.").
Proof.
  intros P. eexists. split; [reflexivity|].
  eapply (judged_intro _ x label); [now apply shorter_decides|lia|exact P|reflexivity|easy|].
  known [(lit "label", VText label); (lit "maxlength", VInt n)] P.
Qed.
Lemma longer_default x label n u errors : plain x label -> exists self,
  new_longer_than (Some (VInt n)) [] = Ok self
  /\ judged (report self x errors (longer_than self u)) errors (n <= Z.of_nat (List.length u))%Z
       (label ++ lit " must be at least " ++ dec_z n ++ lit " characters.").
Proof.
  intros P. eexists. split; [reflexivity|].
  eapply (judged_intro _ x label); [now apply longer_decides|lia|exact P|reflexivity|easy|].
  known [(lit "label", VText label); (lit "minlength", VInt n)] P.
Qed.
Lemma length_between_default x label lo hi u errors : plain x label -> exists self,
  new_length_between (Some (VInt lo)) (Some (VInt hi)) [] = Ok self
  /\ judged (report self x errors (length_between self u)) errors (lo <= Z.of_nat (List.length u) <= hi)%Z
       (label ++ lit " must be between " ++ dec_z lo ++ lit " and " ++ dec_z hi ++ lit " characters long.").
Proof.
  intros P. eexists. split; [reflexivity|].
  eapply (judged_intro _ x label); [now apply length_between_decides|lia|exact P|reflexivity|easy|].
  known [(lit "label", VText label); (lit "minlength", VInt lo); (lit "maxlength", VInt hi)] P.
Qed.

(* ---- values ---- *)
Lemma less_decides self v b : getattr self (lit "boundary") = Ok (Plain b) ->
  (comparable v b -> exists r : bool, less_than self v = Ok (if r then Pass else Fail (lit "failure") []) /\ (r = true <-> less v b))
  /\ (~ comparable v b -> less_than self v = Err TypeErr).
Proof.
  intros G. unfold less_than. rewrite (value_of _ _ _ G). cbn [bind]. split.
  - intros C. destruct (lt_spec v b C) as (r & E & I). exists r. rewrite E. cbn [bind]. split; [now destruct r|easy].
  - intros C. destruct (none_all v b C) as (E & _). now rewrite E.
Qed.
Lemma greater_decides self v b : getattr self (lit "boundary") = Ok (Plain b) ->
  (comparable v b -> exists r : bool, greater_than self v = Ok (if r then Pass else Fail (lit "failure") []) /\ (r = true <-> less b v))
  /\ (~ comparable v b -> greater_than self v = Err TypeErr).
Proof.
  intros G. unfold greater_than. rewrite (value_of _ _ _ G). cbn [bind]. split.
  - intros C. destruct (gt_spec v b C) as (r & E & I). exists r. rewrite E. cbn [bind]. split; [now destruct r|easy].
  - intros C. destruct (none_all v b C) as (_ & E & _). now rewrite E.
Qed.
Lemma at_most_decides self v b : getattr self (lit "maximum") = Ok (Plain b) ->
  (comparable v b -> exists r : bool, at_most self v = Ok (if r then Pass else Fail (lit "failure") []) /\ (r = true <-> ~ less b v))
  /\ (~ comparable v b -> at_most self v = Err TypeErr).
Proof.
  intros G. unfold at_most. rewrite (value_of _ _ _ G). cbn [bind]. split.
  - intros C. destruct (le_spec v b C) as (r & E & I). exists r. rewrite E. cbn [bind]. split; [now destruct r|easy].
  - intros C. destruct (none_all v b C) as (_ & _ & E & _). now rewrite E.
Qed.
Lemma at_least_decides self v b : getattr self (lit "minimum") = Ok (Plain b) ->
  (comparable v b -> exists r : bool, at_least self v = Ok (if r then Pass else Fail (lit "failure") []) /\ (r = true <-> ~ less v b))
  /\ (~ comparable v b -> at_least self v = Err TypeErr).
Proof.
  intros G. unfold at_least. rewrite (value_of _ _ _ G). cbn [bind]. split.
  - intros C. destruct (ge_spec v b C) as (r & E & I). exists r. rewrite E. cbn [bind]. split; [now destruct r|easy].
  - intros C. destruct (none_all v b C) as (_ & _ & _ & E). now rewrite E.
Qed.
Lemma between_inclusive self v lo hi i : getattr self (lit "minimum") = Ok (Plain lo) -> getattr self (lit "maximum") = Ok (Plain hi) ->
  getattr self (lit "inclusive") = Ok (Plain i) -> truthy i ->
  (comparable lo v -> comparable v hi ->
   exists r : bool, between self v = Ok (if r then Pass else Fail (lit "failure_inclusive") []) /\ (r = true <-> ~ less v lo /\ ~ less hi v))
  /\ (~ comparable lo v -> between self v = Err TypeErr)
  /\ (comparable lo v -> less v lo -> between self v = Ok (Fail (lit "failure_inclusive") [])).
Proof.
  intros G H I T. apply vtruth_iff in T. unfold between. rewrite I, (value_of _ _ _ G), (value_of _ _ _ H). cbn [bind attr_truth].
  rewrite T. split; [|split].
  - intros C1 C2. destruct (le_spec lo v C1) as (r1 & E1 & I1), (le_spec v hi C2) as (r2 & E2 & I2).
    exists (r1 && r2). unfold both. rewrite E1. cbn [bind]. split.
    + destruct r1; [rewrite E2; cbn [bind]; now destruct r2|easy].
    + rewrite andb_true_iff. tauto.
  - intros C. destruct (none_all _ _ C) as (_ & _ & E & _). unfold both. now rewrite E.
  - intros C L. destruct (le_spec lo v C) as (r1 & E1 & I1). unfold both. rewrite E1. destruct r1; [|easy].
    destruct (proj1 I1 eq_refl L).
Qed.
Lemma between_exclusive self v lo hi i : getattr self (lit "minimum") = Ok (Plain lo) -> getattr self (lit "maximum") = Ok (Plain hi) ->
  getattr self (lit "inclusive") = Ok (Plain i) -> ~ truthy i ->
  (comparable lo v -> comparable v hi ->
   exists r : bool, between self v = Ok (if r then Pass else Fail (lit "failure_exclusive") []) /\ (r = true <-> less lo v /\ less v hi))
  /\ (~ comparable lo v -> between self v = Err TypeErr)
  /\ (comparable lo v -> ~ less lo v -> between self v = Ok (Fail (lit "failure_exclusive") [])).
Proof.
  intros G H I T. assert (T' : vtruth i = false) by (destruct (vtruth i) eqn:E; [elim T; now apply vtruth_iff|easy]).
  unfold between. rewrite I, (value_of _ _ _ G), (value_of _ _ _ H). cbn [bind attr_truth]. rewrite T'. split; [|split].
  - intros C1 C2. destruct (lt_spec lo v C1) as (r1 & E1 & I1), (lt_spec v hi C2) as (r2 & E2 & I2).
    exists (r1 && r2). unfold both. rewrite E1. cbn [bind]. split.
    + destruct r1; [rewrite E2; cbn [bind]; now destruct r2|easy].
    + rewrite andb_true_iff. tauto.
  - intros C. destruct (none_all _ _ C) as (E & _). unfold both. now rewrite E.
  - intros C L. destruct (lt_spec lo v C) as (r1 & E1 & I1). unfold both. rewrite E1. destruct r1; [|easy].
    elim L. now apply I1.
Qed.
Lemma less_default x label v b errors : plain x label -> comparable v b -> exists self, new_less_than b [] = Ok self
  /\ judged (report self x errors (less_than self v)) errors (less v b) (label ++ lit " must be less than " ++ vtext b ++ lit ".").
Proof.
  intros P C. eexists. split; [reflexivity|].
  destruct (less_decides (set_attr less_than_cls "boundary" b) v b eq_refl) as (H & _). destruct (H C) as (r & E & I).
  eapply (judged_intro _ x label); [exact E|exact I|exact P|reflexivity|easy|].
  known [(lit "label", VText label); (lit "boundary", b)] P.
Qed.
Lemma greater_than_default x label v b errors : plain x label -> comparable v b -> exists self, new_greater_than b [] = Ok self
  /\ judged (report self x errors (greater_than self v)) errors (less b v) (label ++ lit " must be greater than " ++ vtext b ++ lit ".").
Proof.
  intros P C. eexists. split; [reflexivity|].
  destruct (greater_decides (set_attr greater_than_cls "boundary" b) v b eq_refl) as (H & _). destruct (H C) as (r & E & I).
  eapply (judged_intro _ x label); [exact E|exact I|exact P|reflexivity|easy|].
  known [(lit "label", VText label); (lit "boundary", b)] P.
Qed.
Lemma at_most_default x label v b errors : plain x label -> comparable v b -> exists self, new_at_most b [] = Ok self
  /\ judged (report self x errors (at_most self v)) errors (~ less b v) (label ++ lit " must be less than or equal to " ++ vtext b ++ lit ".").
Proof.
  intros P C. eexists. split; [reflexivity|].
  destruct (at_most_decides (set_attr at_most_cls "maximum" b) v b eq_refl) as (H & _). destruct (H C) as (r & E & I).
  eapply (judged_intro _ x label); [exact E|exact I|exact P|reflexivity|easy|].
  known [(lit "label", VText label); (lit "maximum", b)] P.
Qed.
Lemma at_least_default x label v b errors : plain x label -> comparable v b -> exists self, new_at_least b [] = Ok self
  /\ judged (report self x errors (at_least self v)) errors (~ less v b) (label ++ lit " must be greater than or equal to " ++ vtext b ++ lit ".").
Proof.
  intros P C. eexists. split; [reflexivity|].
  destruct (at_least_decides (set_attr at_least_cls "minimum" b) v b eq_refl) as (H & _). destruct (H C) as (r & E & I).
  eapply (judged_intro _ x label); [exact E|exact I|exact P|reflexivity|easy|].
  known [(lit "label", VText label); (lit "minimum", b)] P.
Qed.
Lemma between_default x label v lo hi errors : plain x label -> comparable lo v -> comparable v hi ->
  (exists self, new_between lo hi [] = Ok self
   /\ judged (report self x errors (between self v)) errors (~ less v lo /\ ~ less hi v)
        (label ++ lit " must be in the range " ++ vtext lo ++ lit " to " ++ vtext hi ++ lit "."))
  /\ (exists self, new_between lo hi [(lit "inclusive", Plain (VBool false))] = Ok self
   /\ judged (report self x errors (between self v)) errors (less lo v /\ less v hi)
        (label ++ lit " must be greater than " ++ vtext lo ++ lit " and less than " ++ vtext hi ++ lit ".")).
Proof.
  intros P C1 C2. split; (eexists; split; [reflexivity|]).
  - destruct (between_inclusive (set_attr (set_attr between_cls "minimum" lo) "maximum" hi) v lo hi _ eq_refl eq_refl eq_refl tr_bool) as (H & _).
    destruct (H C1 C2) as (r & E & I). eapply (judged_intro _ x label); [exact E|exact I|exact P|reflexivity|easy|].
    known [(lit "label", VText label); (lit "minimum", lo); (lit "maximum", hi)] P.
  - assert (T : ~ truthy (VBool false)) by (intros T; inversion T).
    destruct (between_exclusive (set_attr (set_attr ((lit "inclusive", Plain (VBool false)) :: between_cls) "minimum" lo) "maximum" hi) v lo hi _ eq_refl eq_refl eq_refl T) as (H & _).
    destruct (H C1 C2) as (r & E & I). eapply (judged_intro _ x label); [exact E|exact I|exact P|reflexivity|easy|].
    known [(lit "label", VText label); (lit "minimum", lo); (lit "maximum", hi)] P.
Qed.
(* construction with other attributes: only those of the class may be given *)
Lemma boundary_refused kw k a : In (k, a) kw -> k = lit "boundary" -> forall b, new_less_than b kw = Err TypeErr.
Proof. intros I -> b. unfold new_less_than. rewrite new_refused; [easy|]. exists (lit "boundary"), a. split; [easy|]. intros c. vm_compute. discriminate. Qed.

(* ---- simple validators ---- *)
Lemma present_judged x label u errors : plain x label ->
  judged (report present_cls x errors (present u)) errors (u <> []) (label ++ lit " may not be blank.").
Proof.
  intros P. eapply (judged_intro _ x label errors (negb (str_eqb u [])) _ (lit "missing") _ _ []); [|rewrite negb_true_iff; apply str_eqb_neq|exact P|reflexivity|easy|].
  - unfold present. now destruct (str_eqb u []).
  - known [(lit "label", VText label)] P.
Qed.
Lemma is_true_judged x label v errors : plain x label ->
  judged (report is_true_cls x errors (is_true v)) errors (truthy v) (label ++ lit " must be True.").
Proof.
  intros P. eapply (judged_intro _ x label errors (vtruth v) _ (lit "false") _ _ []); [|apply vtruth_iff|exact P|reflexivity|easy|].
  - unfold is_true. now destruct (vtruth v).
  - known [(lit "label", VText label)] P.
Qed.
Lemma is_false_judged x label v errors : plain x label ->
  judged (report is_false_cls x errors (is_false v)) errors (~ truthy v) (label ++ lit " must be False.").
Proof.
  intros P. eapply (judged_intro _ x label errors (negb (vtruth v)) _ (lit "true") _ _ []); [| |exact P|reflexivity|easy|].
  - unfold is_false. now destruct (vtruth v).
  - rewrite <- vtruth_iff. destruct (vtruth v); easy.
  - known [(lit "label", VText label)] P.
Qed.
Lemma value_in_judged x label v options errors : plain x label -> offers (x_element x) (lit "value") v ->
  judged (report value_in_cls x errors (value_in options v)) errors (exists o, In o options /\ equal_values v o)
         (vtext v ++ lit " is not a valid value for " ++ label ++ lit ".").
Proof.
  intros P O. eapply (judged_intro _ x label errors (py_in v options) _ (lit "fail") _ _ []); [| |exact P|reflexivity|easy|].
  - unfold value_in. now destruct (py_in v options).
  - unfold py_in. rewrite existsb_exists. split; intros (o & I & E); exists o; (split; [easy|]); now apply py_eq_iff.
  - known [(lit "label", VText label); (lit "value", v)] P.
Qed.
Lemma converted_judged x label v errors : plain x label ->
  judged (report converted_cls x errors (converted v)) errors (v <> VNone) (label ++ lit " is not correct.").
Proof.
  intros P. eapply (judged_intro _ x label errors (negb (is_none v)) _ (lit "incorrect") _ _ []); [| |exact P|reflexivity|easy|].
  - unfold converted. now destruct (is_none v).
  - destruct v; cbn; split; intros; congruence.
  - known [(lit "label", VText label)] P.
Qed.
