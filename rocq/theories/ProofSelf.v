From Verif Require Import PyBase PyBaseFacts PyList PyListFacts ModelSeq SpecSeq ProofSeq ProofSeq2 ProofSeq3 ModelSelf SpecSelf.
From Verif Require ModelScalar.

Section P.
Context {V M : Type} (sch : mschema V M).
Implicit Types (h : heap M) (q : seqst M).

Lemma cycles_snoc {A} (b l : list A) i e : b <> [] -> cycles b l -> List.length l = List.length b + i ->
  nth_error l i = Some e -> cycles b (l ++ [e]).
Proof.
  intros Hb Hc Hl He k Hk. rewrite app_length in Hk. cbn in Hk.
  assert (Hi : i < List.length l) by (apply nth_error_Some; congruence).
  destruct (Nat.eq_dec k (List.length l)) as [->|Hn].
  - rewrite nth_error_app2, Nat.sub_diag by lia. cbn. rewrite Hl, Nat.add_comm.
    assert (List.length b <> 0) by (destruct b; cbn; congruence).
    replace (i + List.length b) with (i + 1 * List.length b) by lia. rewrite Nat.mod_add by lia. rewrite <- (Hc i Hi). now rewrite He.
  - rewrite nth_error_app1 by lia. apply Hc. lia.
Qed.
Lemma cycles_refl {A} (b : list A) : cycles b b.
Proof. intros k Hk. now rewrite Nat.mod_small. Qed.

Lemma append_elem q s : list_bounded q -> In s (q_items q) ->
  let '(q', r) := l_append sch q (AElem (h_elem (q_h q) s)) in
  r = Ok tt /\ list_bounded q' /\ contents_kept q q' /\ List.length (q_items q') = S (List.length (q_items q))
  /\ l_members q' = l_members q ++ [h_elem (q_h q) s] /\ (numbered q -> numbered q').
Proof.
  intros (Hb1 & Hb2) Hs. unfold l_append, new_slot. cbn.
  assert (Hold : forall x, In x (q_items q) -> x <> h_next (q_h q)) by (intros x Hx; destruct (Hb1 x Hx); lia).
  assert (Hel : forall x, In x (q_items q) -> h_elem (q_h q) x < h_next (q_h q)) by (intros x Hx; now destruct (Hb1 x Hx)).
  pose proof (Hel s Hs) as Hse.
  split; [reflexivity|]. split; [split|split; [|split; [|split]]]; cbn.
  - intros x Hx. apply in_app_or in Hx. destruct Hx as [Hx|[<-|[]]].
    + rewrite fset_other by auto. destruct (Hb1 x Hx). lia.
    + rewrite fset_same. lia.
  - intros x y Hx Hy. apply in_app_or in Hx, Hy.
    destruct Hx as [Hx|[<-|[]]]; destruct Hy as [Hy|[<-|[]]].
    + rewrite fset_other by auto. now apply Hb2.
    + rewrite fset_other by auto. specialize (Hel x Hx). lia.
    + rewrite fset_same. now apply Hb2.
    + rewrite fset_same. lia.
  - split; auto.
  - rewrite app_length. cbn. lia.
  - unfold l_members. cbn. rewrite map_app. cbn. rewrite fset_same. f_equal.
    apply map_ext_in. intros x Hx. now rewrite fset_other by auto.
  - intros Hn i x Hx. cbn in *. destruct (Nat.lt_ge_cases i (List.length (q_items q))) as [L|G].
    + rewrite nth_error_app1 in Hx by lia. pose proof (nth_error_In _ _ Hx) as Hin.
      rewrite !fset_other by auto. destruct (Hn i x Hx) as [N1 N2]. split; [exact N1|].
      rewrite fset_other by (intros E; subst x; now apply (Hb2 s (h_elem (q_h q) s) Hs)).
      now rewrite fset_other by auto.
    + rewrite nth_error_app2 in Hx by lia. destruct (i - List.length (q_items q)) as [|m] eqn:E; cbn in Hx.
      * injection Hx as <-. rewrite fset_same. replace i with (List.length (q_items q)) by lia. split; [reflexivity|]. rewrite fset_other by lia. now rewrite fset_same.
      * destruct m; discriminate.
Qed.

Lemma kept_refl q : contents_kept q q. Proof. now split. Qed.

Lemma extend_from_endless b fuel : b <> [] -> forall i q, list_bounded q -> cycles b (l_members q) ->
  List.length (q_items q) = List.length b + i ->
  let '(q', r) := l_extend_from sch fuel i q in
  r = Err OutOfFuel /\ List.length (q_items q') = List.length b + i + fuel /\ cycles b (l_members q')
  /\ list_bounded q' /\ (numbered q -> numbered q')
  /\ q_self q' = q_self q /\ (forall s, In s (q_items q) -> h_con (q_h q') (h_elem (q_h q) s) = h_con (q_h q) (h_elem (q_h q) s)).
Proof.
  intros Hb. induction fuel as [|fuel IH]; intros i q Bq Hc Hl.
  - cbn. destruct (nth_error (q_items q) i) eqn:E.
    + repeat (split; [auto; lia|]). auto.
    + apply nth_error_None in E. destruct b; [congruence|cbn in Hl; lia].
  - cbn [l_extend_from]. destruct (nth_error (q_items q) i) as [s|] eqn:E.
    2:{ apply nth_error_None in E. destruct b; [congruence|cbn in Hl; lia]. }
    pose proof (nth_error_In _ _ E) as Hin. pose proof (append_elem q s Bq Hin) as HA.
    destruct (l_append sch q (AElem (h_elem (q_h q) s))) as [q1 r1] eqn:EA.
    destruct HA as (-> & B1 & (K1 & K2) & L1 & M1 & N1).
    specialize (IH (S i) q1 B1). destruct (l_extend_from sch fuel (S i) q1) as [q' r].
    assert (Hc1 : cycles b (l_members q1)).
    { rewrite M1. apply cycles_snoc with (i := i); auto.
      - unfold l_members. now rewrite map_length.
      - unfold l_members. rewrite nth_error_map, E. reflexivity. }
    destruct (IH Hc1 ltac:(lia)) as (-> & L2 & C2 & B2 & N2 & S2 & K).
    split; [reflexivity|]. split; [lia|]. split; [exact C2|]. split; [exact B2|]. split; [auto|]. split; [congruence|].
    intros x Hx. destruct Bq as [Bq _]. destruct (Bq x Hx) as [_ Hx2].
    assert (Hm : In (h_elem (q_h q) x) (l_members q1)).
    { rewrite M1. apply in_or_app. left. now apply (in_map (h_elem (q_h q))). }
    unfold l_members in Hm. apply in_map_iff in Hm. destruct Hm as (y & Hy & Hiny).
    rewrite <- (K2 _ Hx2). rewrite <- Hy at 1. rewrite (K y Hiny). now rewrite Hy.
Qed.

Lemma list_extend_endless q fuel : list_bounded q -> q_items q <> [] ->
  let '(q', r) := l_extend_self sch fuel q in
  r = Err OutOfFuel /\ List.length (l_members q') = List.length (l_members q) + fuel
  /\ cycles (l_members q) (l_members q') /\ (numbered q -> numbered q') /\ q_self q' = q_self q.
Proof.
  intros Bq Hne. unfold l_extend_self.
  assert (Hm : l_members q <> []) by (unfold l_members; destruct (q_items q); cbn; congruence).
  pose proof (extend_from_endless (l_members q) fuel Hm 0 q Bq (cycles_refl _)) as HE.
  destruct (l_extend_from sch fuel 0 q) as [q' r].
  destruct HE as (-> & L & C & _ & N & S' & _); [unfold l_members; rewrite map_length; lia|].
  split; [reflexivity|]. split; [|auto]. unfold l_members in *. rewrite !map_length in *. lia.
Qed.
Lemma list_extend_empty q fuel : q_items q = [] -> l_extend_self sch fuel q = (q, Ok tt).
Proof. intros E. unfold l_extend_self. destruct fuel; cbn; now rewrite E. Qed.

Lemma a_from_endless b fuel : b <> [] -> forall i q, cycles b (q_items q) ->
  List.length (q_items q) = List.length b + i ->
  let '(q', r) := a_extend_from sch fuel i q in
  r = Err OutOfFuel /\ List.length (q_items q') = List.length b + i + fuel /\ cycles b (q_items q')
  /\ (array_ok q -> array_ok q') /\ q_self q' = q_self q /\ h_con (q_h q') = h_con (q_h q) /\ h_next (q_h q') = h_next (q_h q).
Proof.
  intros Hb. induction fuel as [|fuel IH]; intros i q Hc Hl.
  - cbn. destruct (nth_error (q_items q) i) eqn:E.
    + repeat (split; [auto; lia|]). auto.
    + apply nth_error_None in E. destruct b; [congruence|cbn in Hl; lia].
  - cbn [a_extend_from]. destruct (nth_error (q_items q) i) as [e|] eqn:E.
    2:{ apply nth_error_None in E. destruct b; [congruence|cbn in Hl; lia]. }
    cbn.
    specialize (IH (S i) (Seq (set_parent (q_h q) e (Some (q_self q))) (q_self q) (q_items q ++ [e]))).
    destruct (a_extend_from sch fuel (S i) _) as [q' r]. cbn in IH.
    destruct IH as (-> & L & C & A & S' & K & N).
    + apply cycles_snoc with (i := i); auto.
    + rewrite app_length. cbn. lia.
    + split; [reflexivity|]. split; [lia|]. split; [exact C|]. split; [|auto].
      intros Ha. apply A. intros x Hx. cbn in *. unfold fset. destruct (Nat.eqb_spec x e); [reflexivity|].
      apply in_app_or in Hx. destruct Hx as [Hx|[<-|[]]]; [now apply Ha|congruence].
Qed.
Lemma array_extend_endless q fuel : q_items q <> [] ->
  let '(q', r) := a_extend_self sch fuel q in
  r = Err OutOfFuel /\ List.length (q_items q') = List.length (q_items q) + fuel
  /\ cycles (q_items q) (q_items q') /\ (array_ok q -> array_ok q') /\ contents_kept q q'.
Proof.
  intros Hne. unfold a_extend_self.
  pose proof (a_from_endless (q_items q) fuel Hne 0 q (cycles_refl _)) as HE.
  destruct (a_extend_from sch fuel 0 q) as [q' r].
  destruct HE as (-> & L & C & A & S' & K & _); [lia|].
  split; [reflexivity|]. split; [lia|]. split; [exact C|]. split; [exact A|]. split; [exact S'|]. intros e _. now rewrite K.
Qed.
Lemma array_extend_empty q fuel : q_items q = [] -> a_extend_self sch fuel q = (q, Ok tt).
Proof. intros E. unfold a_extend_self. destruct fuel; cbn; now rewrite E. Qed.


(* set *)
Lemma list_set_self q : l_set_self sch q = (Seq (q_h q) (q_self q) [], Ok true).
Proof.
  unfold l_set_self, l_delslice, whole_slice. rewrite del_whole. cbn.
  unfold l_set_elements, l_set, l_delslice, whole_slice. cbn. reflexivity.
Qed.
Lemma array_set_self q : a_set_self sch q = (Seq (q_h q) (q_self q) [], Ok true).
Proof.
  unfold a_set_self, a_delslice, whole_slice. rewrite del_whole. cbn.
  unfold a_set_elements, a_set, a_delslice, whole_slice. cbn. reflexivity.
Qed.
Lemma linv_of q : list_ok q -> list_bounded q -> linv q.
Proof.
  intros (N & H) (B1 & B2). split; [split; [exact N|split; [|exact B2]]|].
  - intros s Hs. destruct (B1 s Hs). destruct (In_nth_error _ _ Hs) as [i Hi]. destruct (H i s Hi) as (_ & ? & ?). auto.
  - intros i s Hi. now destruct (H i s Hi).
Qed.
Lemma set_all_elems (l : list M) : set_all (taking sch) l None
  = let '(ms, c, x) := each_set sch l in (ms, c, x).
Proof.
  induction l as [|m l IH]; [reflexivity|]. cbn. destruct (ms_set_el sch (ms_new sch) m) as [m' [b|x]]; [|reflexivity].
  rewrite IH. destruct (each_set sch l) as [[ms c] x]. reflexivity.
Qed.
Lemma list_set_elements q es : list_ok q -> list_bounded q ->
  let '(q', r) := l_set_elements sch q es in
  list_ok q' /\ q_self q' = q_self q
  /\ let '(ms, c, x) := each_set sch (map (h_con (q_h q)) es) in
     match x with
     | None => list_values q' = ms /\ r = Ok c
     | Some x => list_values q' = [] /\ r = match x with TypeErr => Ok false | _ => Err x end
     end.
Proof.
  intros Ho Hb. unfold l_set_elements. pose proof (set_spec (taking sch) q (Iter (map (h_con (q_h q)) es) None) (linv_of q Ho Hb)) as H.
  destruct (l_set (taking sch) q _) as [q' r]. destruct H as [[G1 G2] H].
  split; [now apply linv_ok|]. split; [exact G2|].
  unfold set_plain in H. cbn [it_items it_end] in H. rewrite set_all_elems in H.
  destruct (each_set sch _) as [[ms c] x].
  destruct x as [x|]; [|destruct H as [<- H]; destruct r; cbn in H; try discriminate; split; [reflexivity|congruence]].
  destruct x; destruct H as [-> H]; destruct r; cbn in H; try discriminate; split; try reflexivity; try congruence.
Qed.
Lemma array_set_elements q es : array_bounded q ->
  let '(q', r) := a_set_elements sch q es in
  array_ok q' /\ q_self q' = q_self q
  /\ let '(ms, c, x) := each_set sch (map (h_con (q_h q)) es) in
     match x with
     | None => array_values q' = ms /\ r = Ok c
     | Some x => array_values q' = [] /\ r = match x with TypeErr => Ok false | _ => Err x end
     end.
Proof.
  intros Hb. unfold a_set_elements. pose proof (a_set_spec (taking sch) q (Iter (map (h_con (q_h q)) es) None) Hb) as H.
  destruct (a_set (taking sch) q _) as [q' r]. destruct H as (_ & G2 & G1 & H).
  split; [exact G1|]. split; [exact G2|].
  unfold set_plain in H. cbn [it_items it_end] in H. rewrite set_all_elems in H.
  destruct (each_set sch _) as [[ms c] x].
  destruct x as [x|]; [|destruct H as [<- H]; destruct r; cbn in H; try discriminate; split; [reflexivity|congruence]].
  destruct x; destruct H as [-> H]; destruct r; cbn in H; try discriminate; split; try reflexivity; try congruence.
Qed.

(* slices *)
Lemma new_slots_elems es : forall q, (forall e, In e es -> e < h_next (q_h q)) ->
  exists h, new_slots sch q (map AElem es) = (h, Ok (seq (h_next (q_h q)) (List.length es)))
  /\ h_next h = h_next (q_h q) + List.length es /\ h_con h = h_con (q_h q)
  /\ (forall i, i < h_next (q_h q) -> h_elem h i = h_elem (q_h q) i /\ h_name h i = h_name (q_h q) i
                                      /\ (~ In i es -> h_parent h i = h_parent (q_h q) i))
  /\ map (h_elem h) (seq (h_next (q_h q)) (List.length es)) = es
  /\ (forall i, h_next (q_h q) <= i < h_next h -> h_parent h i = Some (q_self q))
  /\ (NoDup es -> forall i, h_next (q_h q) <= i < h_next h -> h_parent h (h_elem h i) = Some i).
Proof.
  induction es as [|e es IH]; intros q He; cbn [map new_slots List.length seq].
  - exists (q_h q). split; [reflexivity|]. split; [lia|]. split; [reflexivity|]. split; [auto|]. split; [reflexivity|].
    split; [intros; lia|]. intros _ i Hi. lia.
  - cbn [new_slot as_element alloc_slot].
    set (q1 := with_heap q _). destruct (IH q1) as (h & -> & N & C & O' & E & P & D).
    { intros x Hx. cbn. specialize (He x (or_intror Hx)). lia. }
    pose proof (He e (or_introl eq_refl)) as Hee.
    cbn in N, C, O', P, E, D. exists h. cbn [rmap].
    split; [reflexivity|]. split; [lia|]. split; [exact C|]. split; [|split; [|split]].
    + intros i Hi. destruct (O' i ltac:(lia)) as (A1 & A2 & A3). rewrite A1, A2.
      rewrite !fset_other in * by lia. split; [reflexivity|]. split; [reflexivity|].
      intros Hn. rewrite A3 by (intros ?; apply Hn; now right).
      rewrite fset_other by (intros ->; apply Hn; now left). now rewrite fset_other by lia.
    + cbn. destruct (O' (h_next (q_h q)) ltac:(lia)) as (A1 & _). rewrite A1, fset_same. f_equal. exact E.
    + intros i Hi. destruct (Nat.eq_dec i (h_next (q_h q))) as [->|Hne].
      * destruct (O' (h_next (q_h q)) ltac:(lia)) as (_ & _ & A3). rewrite A3.
        -- rewrite fset_other by lia. now rewrite fset_same.
        -- intros Hx. specialize (He _ (or_intror Hx)). lia.
      * apply P. lia.
    + intros Hnd i Hi. inversion Hnd as [|? ? Hni Hnd']; subst.
      destruct (Nat.eq_dec i (h_next (q_h q))) as [->|Hne].
      * destruct (O' (h_next (q_h q)) ltac:(lia)) as (A1 & _). rewrite A1, fset_same.
        destruct (O' e ltac:(lia)) as (_ & _ & A3). rewrite (A3 Hni). now rewrite fset_same.
      * apply D; [exact Hnd'|lia].
Qed.
Lemma renumber_frame q : q_items (renumber q) = q_items q /\ q_self (renumber q) = q_self q
  /\ h_parent (q_h (renumber q)) = h_parent (q_h q) /\ h_elem (q_h (renumber q)) = h_elem (q_h q) /\ h_con (q_h (renumber q)) = h_con (q_h q).
Proof. destruct (renumber_from_frame (q_h q) 0 (q_items q)) as (A & B & C & D & _). cbn. auto. Qed.

Lemma list_slice_self q sl : NoDup (q_items q) -> list_bounded q -> numbered q ->
  let '(q', r) := l_setslice_self sch q sl in
  contents_kept q q'
  /\ match pl_setslice (l_members q) sl (l_members q) with
     | Ok ms => r = Ok tt /\ l_members q' = ms /\ numbered q'
     | Err x => r = Err x /\ l_members q' = l_members q /\ numbered q'
     end.
Proof.
  intros Hnd (Hb1 & Hb2) Hn. unfold l_setslice_self, l_setslice. cbn [it_items it_end].
  assert (Hm : forall e, In e (l_members q) -> e < h_next (q_h q)).
  { intros e He. unfold l_members in He. apply in_map_iff in He. destruct He as (s & <- & Hs). now destruct (Hb1 s Hs). }
  destruct (new_slots_elems (l_members q) q Hm) as (h & -> & N & C & O' & E & P & D).
  set (ss := seq (h_next (q_h q)) (List.length (l_members q))) in *.
  assert (Hold : map (h_elem h) (q_items q) = l_members q).
  { unfold l_members. apply map_ext_in. intros s Hs. destruct (Hb1 s Hs) as [Hs1 _]. now destruct (O' s Hs1). }
  assert (Hps : forall s, In s (q_items q) -> h_parent h s = Some (q_self q)).
  { intros s Hs. destruct (Hb1 s Hs) as [Hs1 _]. destruct (O' s Hs1) as (_ & _ & A3). rewrite A3.
    - destruct (In_nth_error _ _ Hs) as [i Hi]. now destruct (Hn i s Hi).
    - unfold l_members. intros Hx. apply in_map_iff in Hx. destruct Hx as (y & Hy & Hiny). now apply (Hb2 y s Hiny Hs). }
  assert (Hnum : numbered (with_heap q h)).
  { intros i s Hi. cbn in *. pose proof (nth_error_In _ _ Hi) as Hs. destruct (Hn i s Hi) as [A1 _].
    destruct (Hb1 s Hs) as [Hs1 _]. destruct (O' s Hs1) as (_ & -> & _). split; [exact A1|now apply Hps]. }
  assert (Hpl : pl_setslice (l_members q) sl (l_members q) = rmap (map (h_elem h)) (pl_setslice (q_items q) sl ss)).
  { rewrite <- pl_setslice_map. now rewrite Hold, E. }
  rewrite Hpl. destruct (pl_setslice (q_items q) sl ss) as [l|x] eqn:El; cbn [rmap].
  - destruct (renumber_frame (Seq h (q_self q) l)) as (F1 & F2 & F3 & F4 & F5). cbn [q_h q_items q_self] in *.
    split; [split; [exact F2|intros e _; rewrite F5; now rewrite C]|]. split; [reflexivity|].
    split; [unfold l_members; rewrite F1, F4; reflexivity|].
    pose proof (subm_setslice _ _ _ _ El) as Hsub.
    assert (NoDup l).
    { apply (subm_NoDup _ _ Hsub). assert (Hfresh : forall x, In x ss -> ~ In x (q_items q)).
      { intros x Hx Hx2. unfold ss in Hx. apply in_seq in Hx. destruct (Hb1 x Hx2). lia. }
      assert (Hnds : NoDup ss) by apply seq_NoDup. revert Hfresh Hnds. generalize ss as t. clear - Hnd.
      induction t as [|x t IH]; intros Hf Hd; cbn; [exact Hnd|]. inversion Hd; subst. constructor.
      - intros Hx. apply in_app_or in Hx. destruct Hx as [Hx|Hx]; [easy|]. apply (Hf x); [now left|exact Hx].
      - apply IH; [|assumption]. intros y Hy. apply Hf. now right. }
    intros i s Hi. rewrite F1 in Hi. rewrite F3, F2. split.
    + cbn. now apply (renumber_from_names h 0).
    + apply nth_error_In in Hi. apply (subm_incl _ _ Hsub) in Hi. apply in_app_or in Hi. destruct Hi as [Hi|Hi]; [|now apply Hps].
      apply P. unfold ss in Hi. apply in_seq in Hi. rewrite N. lia.
  - split; [split; [reflexivity|intros e _; cbn; now rewrite C]|]. split; [reflexivity|].
    split; [unfold l_members at 1; cbn; exact Hold|exact Hnum].
Qed.
Lemma set_whole {A} (l xs : list A) : pl_setslice l whole_slice xs = Ok xs.
Proof.
  unfold pl_setslice, whole_slice, slice_indices. cbn. f_equal.
  replace (Z.to_nat (Z.max 0 (Z.of_nat (List.length l)))) with (List.length l) by lia.
  now rewrite skipn_all, app_nil_r.
Qed.
Lemma members_NoDup q : list_ok q -> NoDup (l_members q).
Proof.
  intros (N & H). unfold l_members. assert (Hj : forall s s', In s (q_items q) -> In s' (q_items q) ->
    h_elem (q_h q) s = h_elem (q_h q) s' -> s = s').
  { intros s s' Hs Hs' He. destruct (In_nth_error _ _ Hs) as [i Hi]. destruct (In_nth_error _ _ Hs') as [j Hjj].
    destruct (H i s Hi) as (_ & _ & A). destruct (H j s' Hjj) as (_ & _ & B). congruence. }
  revert Hj N. generalize (q_items q) as l. clear. induction l as [|s l IH]; intros Hj N; cbn; [constructor|].
  inversion N; subst. constructor.
  - intros Hx. apply in_map_iff in Hx. destruct Hx as (y & Hy & Hin). apply Hj in Hy; [subst; easy|now right|now left].
  - apply IH; [|assumption]. intros; apply Hj; auto; now right.
Qed.
Lemma list_whole_self q : list_ok q -> list_bounded q ->
  let '(q', r) := l_setslice_self sch q whole_slice in
  r = Ok tt /\ list_ok q' /\ l_members q' = l_members q /\ contents_kept q q'.
Proof.
  intros Ho Hb. pose proof (members_NoDup q Ho) as Hmd. pose proof Ho as (Hnd & Hk).
  assert (Hn : numbered q) by (intros i s Hi; destruct (Hk i s Hi) as (? & ? & _); auto).
  pose proof (list_slice_self q whole_slice Hnd Hb Hn) as HS. destruct Hb as (Hb1 & Hb2).
  unfold l_setslice_self, l_setslice in *. cbn [it_items it_end] in *.
  assert (Hm : forall e, In e (l_members q) -> e < h_next (q_h q)).
  { intros e He. unfold l_members in He. apply in_map_iff in He. destruct He as (s & <- & Hs). now destruct (Hb1 s Hs). }
  destruct (new_slots_elems (l_members q) q Hm) as (h & Eq & N & C & O' & E & P & D). rewrite Eq in *.
  rewrite !set_whole in *. set (ss := seq (h_next (q_h q)) (List.length (l_members q))) in *.
  destruct HS as (K & R & M' & U). split; [reflexivity|]. split; [|auto].
  destruct (renumber_frame (Seq h (q_self q) ss)) as (F1 & F2 & F3 & F4 & F5).
  split; [rewrite F1; apply seq_NoDup|].
  intros i s Hi. destruct (U i s Hi) as [U1 U2]. split; [exact U1|]. split; [exact U2|].
  rewrite F1 in Hi. apply nth_error_In in Hi. cbn in Hi. unfold ss in Hi. apply in_seq in Hi.
  rewrite F3, F4. cbn. apply D; [exact Hmd|lia].
Qed.
Lemma adopt_elems es : forall q, exists h, adopt_all sch q (map AElem es) = (h, Ok es)
  /\ h_con h = h_con (q_h q) /\ (forall e, In e es -> h_parent h e = Some (q_self q))
  /\ (forall e, h_parent (q_h q) e = Some (q_self q) -> h_parent h e = Some (q_self q)).
Proof.
  induction es as [|e es IH]; intros q; cbn [map adopt_all as_element].
  - exists (q_h q). repeat (split; auto; try easy).
  - destruct (IH (with_heap q (set_parent (q_h q) e (Some (q_self q))))) as (h & -> & C & P & K). cbn in C, P, K.
    exists h. cbn. split; [reflexivity|]. split; [exact C|]. split.
    + intros x [->|Hx]; [|now apply P]. apply K. now rewrite fset_same.
    + intros x Hx. apply K. unfold fset. now destruct (Nat.eqb x e).
Qed.
Lemma array_slice_self q sl : let '(q', r) := a_setslice_self sch q sl in
  contents_kept q q' /\ (array_ok q -> array_ok q')
  /\ match pl_setslice (q_items q) sl (q_items q) with
     | Ok l => r = Ok tt /\ q_items q' = l
     | Err x => r = Err x /\ q_items q' = q_items q
     end.
Proof.
  unfold a_setslice_self, a_setslice. cbn [it_items it_end]. destruct (adopt_elems (q_items q) q) as (h & -> & C & P & K).
  destruct (pl_setslice (q_items q) sl (q_items q)) as [l|x] eqn:El.
  - split; [split; [reflexivity|intros e _; cbn; now rewrite C]|]. split; [|auto].
    intros Ha e He. cbn in *. apply (subm_incl _ _ (subm_setslice _ _ _ _ El)) in He. apply P.
    apply in_app_or in He. now destruct He.
  - split; [split; [reflexivity|intros e _; cbn; now rewrite C]|]. split; [|auto].
    intros Ha e He. cbn in *. now apply P.
Qed.

(* methods of list *)
Lemma list_raw q : list_bounded q ->
  (forall x, In x (raw_reversed q) \/ In x (raw_copy q) \/ (exists n, In x (raw_mul q n)) -> ~ In x (l_members q))
  /\ map (h_elem (q_h q)) (raw_reversed q) = rev (l_members q)
  /\ map (h_elem (q_h q)) (raw_copy q) = l_members q
  /\ (forall n, map (h_elem (q_h q)) (raw_mul q n) = List.concat (repeat (l_members q) (Z.to_nat n)))
  /\ (forall other, exists l, raw_add q other = l ++ other /\ map (h_elem (q_h q)) l = l_members q
                              /\ forall x, In x l -> ~ In x (l_members q)).
Proof.
  intros (Hb1 & Hb2).
  assert (Hx : forall x, In x (q_items q) -> ~ In x (l_members q)).
  { intros x Hx Hin. unfold l_members in Hin. apply in_map_iff in Hin. destruct Hin as (s & Hs & Hi). now apply (Hb2 s x Hi Hx). }
  split; [|split; [|split; [|split]]].
  - intros x [H|[H|[n H]]]; apply Hx.
    + unfold raw_reversed in H. now apply in_rev in H.
    + exact H.
    + unfold raw_mul in H. apply in_concat in H. destruct H as (l & Hl & H). apply repeat_spec in Hl. now subst.
  - unfold raw_reversed. now rewrite map_rev.
  - reflexivity.
  - intros n. unfold raw_mul. generalize (Z.to_nat n) as k. induction k as [|k IH]; [reflexivity|]. cbn. rewrite map_app, IH. reflexivity.
  - intros other. exists (q_items q). auto.
Qed.
End P.

(* three numbers in a List, and the slice [::2] of two positions *)
Definition three : seqst ModelScalar.scalar :=
  run_list integers sample [SetIt (Iter [ModelScalar.VInt 1; ModelScalar.VInt 2; ModelScalar.VInt 3] None)].
Definition every_other : slice := Slice None None (Some 2%Z).
Lemma failed_slice : exists q sl, list_ok q /\ list_bounded q
  /\ let '(q', r) := l_setslice_self integers q sl in r = Err ValueErr /\ ~ list_ok q'.
Proof.
  exists three, every_other.

  pose proof (list_step_ok _ _ integers sample (SetIt (Iter [ModelScalar.VInt 1; ModelScalar.VInt 2; ModelScalar.VInt 3] None))) as H.
  destruct H as (H1 & H2 & _).
  - split; [constructor|]. intros i s Hi. destruct i; discriminate.
  - split; [intros s []|intros s s' []].
  - exact I.
  - split; [exact H1|]. split; [exact H2|].
    destruct (l_setslice_self integers three every_other) as [q' r] eqn:E. vm_compute in E. injection E as <- <-.
    split; [reflexivity|]. intros (_ & H). destruct (H 0 _ eq_refl) as (_ & _ & H3). vm_compute in H3. discriminate.
Qed.
