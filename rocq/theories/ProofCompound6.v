(* the statements of PropertiesCompound put together, witnesses *)
From Verif Require Import PyBase PyBaseFacts ModelScalar SpecScalar ProofScalar ProofScalar2 ProofScalar3 ModelCompound SpecCompound
  ProofCompound ProofCompound2.

Lemma nothing b p : calm_parts p -> (forall d, ~ holds_date p d) -> date_value b p = Ok VNone /\ date_u b p = Ok [].
Proof. intros C H. split; [now apply value_none|now apply u_none]. Qed.
Lemma read_raises b p e : date_value b p = Err e \/ date_u b p = Err e ->
  exists st o, In st [p_y p; p_m p; p_d p] /\ s_value st = VObj o /\ o_int o = Err e /\ e <> TypeErr /\ e <> AdaptErr.
Proof.
  intros H. apply (compose_raises b). unfold date_value, date_u in H.
  destruct (date_compose b p) as [x|e']; [destruct H; discriminate|]. cbn in H. destruct H; congruence.
Qed.
Lemma set_reads b k p v d : real_val v -> means_date b v d ->
  takes (k_y k) (Z.of_N (d_y d)) -> takes (k_m k) (Z.of_N (d_m d)) -> takes (k_d k) (Z.of_N (d_d d)) ->
  exists p', date_set b k p v = (p', Ok true) /\ holds_date p' d /\ forall s, date_value s p' = Ok (VDate d).
Proof.
  intros R M Y Mo D. destruct (set_date b k p v d R M Y Mo D) as (p' & E & H). exists p'.
  split; [easy|]. split; [easy|]. intros s. now apply value_iff.
Qed.
Lemma set_default_reads b p v d : real_val v -> means_date b v d ->
  exists y m dd, date_set b default_kinds p v = (Parts y m dd, Ok true)
    /\ s_value y = VInt (Z.of_N (d_y d)) /\ s_value m = VInt (Z.of_N (d_m d)) /\ s_value dd = VInt (Z.of_N (d_d d))
    /\ ascii_field 4 (s_u y) (d_y d) /\ ascii_field 2 (s_u m) (d_m d) /\ ascii_field 2 (s_u dd) (d_d d)
    /\ forall s, date_value s (Parts y m dd) = Ok (VDate d).
Proof.
  intros R M. unfold date_set. rewrite (explode_means b default_kinds p v d R M). unfold date_numbers.
  erewrite set_parts_ok; [|apply padded_set|apply padded_set|apply padded_set].
  eexists _, _, _. split; [reflexivity|]. cbn [s_value s_u]. rewrite !pad_z_nat.
  assert (Rd : real_date d) by (destruct M; easy).
  pose proof Rd as Rd0. destruct Rd as (Hy & n & Hm & Hd). pose proof (month_length_range _ _ _ Hm).
  assert (n <= 31)%N by (destruct Hm; lia).
  repeat (split; [easy|]). split; [apply dec_pad_field; simpl; lia|]. split; [apply dec_pad_field; simpl; lia|].
  split; [apply dec_pad_field; simpl; lia|]. intros s. apply value_iff. split; [easy|]. cbn. repeat split; constructor.
Qed.
Lemma set_other_reads b k p v : real_val v -> v <> VNone -> (forall d, ~ means_date b v d) ->
  clears (k_y k) -> clears (k_m k) -> clears (k_d k) ->
  exists p', date_set b k p v = (p', Ok true)
    /\ Forall (fun st => s_value st = VNone /\ s_u st = []) [p_y p'; p_m p'; p_d p']
    /\ forall s, date_value s p' = Ok VNone /\ date_u s p' = Ok [].
Proof.
  intros R N M Y Mo D. destruct (set_garbage b k p v R N M Y Mo D) as (p' & E & F). exists p'. split; [easy|]. split; [easy|].
  inversion F as [|? ? (Fy & _) F1]; subst. inversion F1 as [|? ? (Fm & _) F2]; subst. inversion F2 as [|? ? (Fd & _) _]; subst.
  intros s. apply nothing.
  - repeat split; intros o e; [rewrite Fy|rewrite Fm|rewrite Fd]; discriminate.
  - intros d (_ & Hy & _). rewrite Fy in Hy. inversion Hy.
Qed.
Lemma child_raises b k p v d e : real_val v -> means_date b v d -> e <> AdaptErr -> e <> TypeErr ->
  let out := if match e with NotImplErr => true | _ => false end then Err e else Ok false in
  (forall st, scalar_set (k_y k) (p_y p) (VInt (Z.of_N (d_y d))) = (st, Err e) ->
     date_set b k p v = (Parts st (p_m p) (p_d p), out))
  /\ (forall sy by_ st, scalar_set (k_y k) (p_y p) (VInt (Z.of_N (d_y d))) = (sy, Ok by_) ->
      scalar_set (k_m k) (p_m p) (VInt (Z.of_N (d_m d))) = (st, Err e) ->
      date_set b k p v = (Parts sy st (p_d p), out))
  /\ (forall sy by_ sm bm st, scalar_set (k_y k) (p_y p) (VInt (Z.of_N (d_y d))) = (sy, Ok by_) ->
      scalar_set (k_m k) (p_m p) (VInt (Z.of_N (d_m d))) = (sm, Ok bm) ->
      scalar_set (k_d k) (p_d p) (VInt (Z.of_N (d_d d))) = (st, Err e) ->
      date_set b k p v = (Parts sy sm st, out)).
Proof.
  intros R M N1 N2 out. split; [|split].
  - intros st Y. now apply (set_raises_y b k p v d st e).
  - intros sy by_ st Y Mo. now apply (set_raises_m b k p v d sy by_ st e).
  - intros sy by_ sm bm st Y Mo D. now apply (set_raises_d b k p v d sy by_ sm bm st e).
Qed.
Lemma part_text w st z : (0 < w)%nat -> exists u,
  scalar_set (KNumber (padded_int w) true) st (VInt z) = (Scalar (Some (VInt z)) (VInt z) u, Ok true) /\ padded w u z.
Proof. intros W. exists (pad_z w z). split; [easy|now apply pad_z_padded]. Qed.
Lemma part_parse w st s t z : (0 < w)%nat -> trimmed s t -> integer_text t z -> exists u,
  scalar_set (KNumber (padded_int w) true) st (VText s) = (Scalar (Some (VText s)) (VInt z) u, Ok true) /\ padded w u z.
Proof.
  intros W T I. exists (pad_z w z). split; [|now apply pad_z_padded].
  assert (E : py_int (strip s) = Ok z).
  { apply py_int_iff. exists t. split; [|easy]. apply trimmed_eq in T. subst t. apply trimmed_eq. symmetry. apply strip_idem. }
  unfold scalar_set, adapt, padded_int, int_conv. cbn [nt_conv]. rewrite E. easy.
Qed.
Lemma date_hypotheses : means_date true (VText (lit " 2008-02-29 ")) (Date 2008 2 29) /\ takes (k_d default_kinds) 29
  /\ clears (k_d default_kinds).
Proof.
  split; [|split; [apply padded_takes|apply number_clears]].
  apply adapt_means; [easy|]. exists (VDate (Date 2008 2 29)). split; [vm_compute; reflexivity|now left].
Qed.
Lemma reports_failure : exists p v, real_val v /\ (forall d, ~ means_date true v d)
  /\ snd (date_set true default_kinds p v) = Ok true.
Proof.
  exists blank_parts, (VText (lit "soon")). split; [easy|]. split; [|vm_compute; reflexivity].
  intros d M. apply adapt_means in M as (w & A & _); [|easy]. vm_compute in A. discriminate A.
Qed.

(* ---- threads ---- *)
Lemma inherited_early : exists run todo sched a b t c,
  rev (c_trace (crun run (c_start todo) sched)) = (a ++ Makes t c :: b)%list
  /\ (forall t', ~ In (InitEnds t' c true) a) /\ In (InitBegins 0 c) a /\ t <> 0%nat.
Proof.
  exists (fun _ _ => Run [CallsInherited; Works] true), (fun t => if (t <? 2)%nat then [0%nat] else []),
    [0; 0; 0; 0; 0; 1; 1; 1]%nat, [InitBegins 0 0], [], 1%nat, 0%nat.
  split; [vm_compute; reflexivity|]. split; [intros t' [X|[]]; discriminate X|]. split; [now left|easy].
Qed.
Lemma inherited_failing : exists run todo sched a b t c,
  rev (c_trace (crun run (c_start todo) sched)) = (a ++ Makes t c :: b)%list
  /\ (forall t', ~ In (InitEnds t' c true) (a ++ b)) /\ In (Raises t c) a.
Proof.
  exists (fun _ _ => Run [CallsInherited; Works] false), (fun t => if (t <? 1)%nat then [0%nat; 0%nat] else []),
    (repeat 0%nat 12), [InitBegins 0 0; InitEnds 0 0 false; Raises 0 0], [], 0%nat, 0%nat.
  split; [vm_compute; reflexivity|]. split; [|right; right; now left].
  intros t' [X|[X|[X|[]]]]; discriminate X.
Qed.
Lemma recursive_twice : exists run todo sched a b t c,
  rev (c_trace (crun run (c_start todo) sched)) = (a ++ InitEnds t c true :: b)%list /\ In (InitEnds t c true) b.
Proof.
  exists (fun _ n => Run (match n with O => [Constructs 0] | _ => [] end) true), (fun t => if (t <? 1)%nat then [0%nat] else []),
    (repeat 0%nat 20), [InitBegins 0 0; InitBegins 0 0], [Makes 0 0; InitEnds 0 0 true; Makes 0 0], 0%nat, 0%nat.
  split; [vm_compute; reflexivity|]. right. now left.
Qed.

(* ---- joined strings ---- *)
Lemma text_set sep k prune old s l vs sts bs : sep <> [] -> pieces sep s l -> kept_values prune (map VText l) vs ->
  Forall2 (fun v x => member_of k v (fst x) (snd x)) vs (combine sts bs) -> List.length sts = List.length bs ->
  joined_set sep Static k prune old (JText s) = (sts, Ok (forallb (fun b => b) bs)).
Proof. intros N P K F L. apply (set_ok sep Static k prune old _ (map VText l) vs); try easy. now apply values_text. Qed.
Lemma pieces_exist sep s : sep <> [] -> exists l, pieces sep s l /\ joins sep l s /\ forall l', pieces sep s l' -> l' = l.
Proof.
  intros N. exists (split sep s). split; [now apply split_pieces|]. split; [apply joins_iff; now apply join_split|].
  intros l' P. symmetry. now apply split_iff.
Qed.
Lemma regex_set sep f k prune old s vs sts bs : kept_values prune (f s) vs ->
  Forall2 (fun v x => member_of k v (fst x) (snd x)) vs (combine sts bs) -> List.length sts = List.length bs ->
  joined_set sep (Regex f) k prune old (JText s) = (sts, Ok (forallb (fun b => b) bs)).
Proof. intros K F L. now apply (set_ok sep (Regex f) k prune old _ (f s) vs). Qed.
Lemma items_set sep how k prune old l vs sts bs : kept_values prune l vs ->
  Forall2 (fun v x => member_of k v (fst x) (snd x)) vs (combine sts bs) -> List.length sts = List.length bs ->
  joined_set sep how k prune old (JItems l) = (sts, Ok (forallb (fun b => b) bs)).
Proof. intros K F L. now apply (set_ok sep how k prune old _ l vs). Qed.
Lemma refused sep how k prune old s :
  joined_set sep how k prune old JNotIterable = (old, Err TypeErr)
  /\ joined_set [] Static k prune old (JText s) = (old, Err ValueErr).
Proof. easy. Qed.
Lemma items_raise sep how k prune old l l1 v l2 st e sts bs : kept_values prune l (l1 ++ v :: l2) ->
  Forall2 (fun v x => member_of k v (fst x) (snd x)) l1 (combine sts bs) -> List.length sts = List.length bs ->
  scalar_set k blank v = (st, Err e) ->
  joined_set sep how k prune old (JItems l) = (sts, Err e).
Proof. intros K F L E. now apply (set_raises sep how k prune old _ l l1 v l2 st e sts bs). Qed.
Lemma flat_both nm sep how k prune old pre a post : Forall (fun p => fst p <> nm) pre ->
  joined_set_flat nm sep how k prune old (pre ++ (nm, a) :: post) =
  (fst (joined_set sep how k prune old a), rmap (fun _ => tt) (snd (joined_set sep how k prune old a)))
  /\ joined_set_flat nm sep how k prune old pre = (old, Ok tt).
Proof. intros H. split; [now apply flat_first|now apply flat_absent]. Qed.
Definition txt (s : string) : scalar := Scalar (Some (VText (lit s))) (VText (lit s)) (lit s).
Lemma joined_hypotheses : Forall (stable (KString true)) (map txt ["a"; "bc"]%string)
  /\ Forall (fun st => apart (lit ", ") (s_u st)) (map txt ["a"; "bc"]%string) /\ pieces (lit ",") (lit "a,,bc") [lit "a"; []; lit "bc"].
Proof.
  assert (A : forall c, ~ (c = 44 \/ c = 32 \/ False)%N \/ (c = 44 \/ c = 32)%N) by (intros c; lia).
  split; [|split].
  - repeat (apply Forall_cons; [eexists; split; [vm_compute; reflexivity|easy]|]). constructor.
  - apply Forall_cons; [|apply Forall_cons; [|constructor]]; intros c Hc Hi; cbn in Hc, Hi; lia.
  - apply split_iff; [easy|]. vm_compute. reflexivity.
Qed.
Lemma overlapping : exists sep sts, Forall (stable (KString true)) sts /\ Forall (fun st => ~ occurs sep (s_u st)) sts
  /\ sep <> [] /\ exists sts', joined_set sep Static (KString true) true [] (JText (joined_value sep sts)) = (sts', Ok true)
  /\ ~ same_members sts' sts.
Proof.
  exists (lit "aa"), (map txt ["xa"; "b"]%string). split.
  { repeat (apply Forall_cons; [eexists; split; [vm_compute; reflexivity|easy]|]). constructor. }
  split.
  { assert (X : forall s, split (lit "aa") s = [s] -> ~ occurs (lit "aa") s).
    { intros s E O. apply split_iff in E; [|easy]. inversion E; [easy|]. subst. match goal with H : pieces _ _ [] |- _ => inversion H end. }
    repeat (apply Forall_cons; [apply X; vm_compute; reflexivity|]). constructor. }
  split; [easy|]. eexists. split; [vm_compute; reflexivity|]. intros [_ E]. vm_compute in E. discriminate E.
Qed.
Lemma not_normal : exists s sts sts', joined_set (lit ",") Static (KString true) true [] (JText s) = (sts, Ok true)
  /\ joined_set (lit ",") Static (KString true) true sts (JText (joined_value (lit ",") sts)) = (sts', Ok true)
  /\ joined_value (lit ",") sts' <> joined_value (lit ",") sts.
Proof.
  exists (lit "a, ,b"). eexists _, _. split; [vm_compute; reflexivity|]. split; [vm_compute; reflexivity|]. vm_compute. discriminate.
Qed.
