From Verif Require Import PyBase PyBaseFacts ModelValidate SpecValidate ProofValidate.

Section More.
  Context {S val : Type} (w : world S val).

  (* ---------------- chain protocol ---------------- *)
  Lemma run_chain_protocol vs s V el s' o ev :
    run_chain w vs s V el = (s', o, ev) ->
    exists runs, chain_protocol vs runs o /\ threaded w V el s runs s' ev.
  Proof.
    revert s s' o ev; induction vs as [|fn vs IH]; intros s s' o ev H; cbn [run_chain] in H.
    - injection H as <- <- <-. exists []. split; constructor.
    - destruct (w_run w fn s V el) as [s1 r] eqn:Er. unfold send in H.
      assert (forall s2, exists runs ev2 s3 o3, run_chain w vs s2 V el = (s3, o3, ev2)
                /\ chain_protocol vs runs o3 /\ threaded w V el s2 runs s3 ev2) as G.
      { intros s2. destruct (run_chain w vs s2 V el) as [[s3 o3] ev2] eqn:E.
        destruct (IH _ _ _ _ E) as (runs & H1 & H2). exists runs, ev2, s3, o3. easy. }
      destruct (w_receivers w s1) eqn:Ew.
      + destruct (G (w_notify w (Some fn) s1 el r)) as (runs & ev2 & s3 & o3 & E & H1 & H2).
        destruct r; rewrite ?E in H; injection H as <- <- <-;
          try (eexists; split; [apply cp_stop; constructor
                               |eapply th_sent; [exact Er|exact Ew|constructor]]);
          (eexists; split; [eapply cp_next; [constructor|exact H1]
                           |eapply th_sent; [exact Er|exact Ew|exact H2]]).
      + destruct (G s1) as (runs & ev2 & s3 & o3 & E & H1 & H2).
        destruct r; rewrite ?E in H; injection H as <- <- <-;
          try (eexists; split; [apply cp_stop; constructor
                               |eapply th_quiet; [exact Er|exact Ew|constructor]]);
          (eexists; split; [eapply cp_next; [constructor|exact H1]
                           |eapply th_quiet; [exact Er|exact Ew|exact H2]]).
  Qed.

  Lemma validate_element_protocol vs s V el s' o ev :
    validate_element w vs s V el = (s', o, ev) ->
    (w_is_empty w s el = true /\ w_optional w s el = true /\ s' = s /\ o = OTrue /\ ev = [])
    \/ (w_is_empty w s el && w_optional w s el = false /\ vs = []
        /\ o = (if w_is_empty w s el then OFalse else OTrue)
        /\ (if w_receivers w s
            then ev = [ESent None el (if w_is_empty w s el then VRFalse else VRTrue)]
                 /\ s' = w_notify w None s el (if w_is_empty w s el then VRFalse else VRTrue)
            else ev = [] /\ s' = s))
    \/ (w_is_empty w s el && w_optional w s el = false /\ vs <> []
        /\ exists runs, runs <> [] /\ chain_protocol vs runs o
                        /\ threaded w V el s runs s' ev).
  Proof.
    unfold validate_element. destruct (w_is_empty w s el && w_optional w s el) eqn:E.
    - apply andb_true_iff in E as [E1 E2]. intros [= <- <- <-]. left. easy.
    - right. destruct vs as [|v vs].
      + left. unfold send in H. revert H. unfold send.
        destruct (w_receivers w s), (w_is_empty w s el); cbn; intros [= <- <- <-]; easy.
      + right. split; [easy|]. split; [easy|].
        destruct (run_chain_protocol _ _ _ _ _ _ _ H) as (runs & H1 & H2).
        exists runs. split; [|easy]. inversion H1; easy.
  Qed.

  (* ---------------- fuel ---------------- *)
  Lemma descend_mono fuel : forall fuel' queue (st : vstate S val) r,
    fuel <= fuel' -> descend w fuel queue st = r -> r <> Err OutOfFuel ->
    descend w fuel' queue st = r.
  Proof.
    induction fuel as [|fuel IH]; intros fuel' queue st r Hle H Hr.
    - destruct queue; cbn [descend] in H; [|congruence].
      destruct fuel'; exact H.
    - destruct fuel' as [|fuel']; [lia|]. destruct queue as [|el queue]; [exact H|].
      cbn [descend] in *. destruct (memb Nat.eqb el (vs_seen st)).
      + eapply IH; eauto. lia.
      + destruct (validate_pass w true (vs_s st) (vs_V st) el) as [[s1 o] ev].
        destruct (match o with OUneval => Ok (vs_valid st) | _ => and_valid (vs_valid st) o end);
          [|exact H].
        destruct o; (eapply IH; [lia|exact H|exact Hr]).
  Qed.

  Lemma validate_mono fuel fuel' s V root r :
    fuel <= fuel' -> validate w fuel s V root = r -> r <> Err OutOfFuel ->
    validate w fuel' s V root = r.
  Proof.
    unfold validate. intros Hle H Hr.
    destruct (descend w fuel [root] (VState s V true [] [] [])) as [st|e] eqn:E.
    - rewrite (descend_mono _ fuel' _ _ _ Hle E) by easy. exact H.
    - rewrite (descend_mono _ fuel' _ _ _ Hle E); [exact H|]. simpl in H. congruence.
  Qed.

  Lemma ascend_no_fuel els (st : vstate S val) : ascend w els st <> Err OutOfFuel.
  Proof.
    revert st; induction els as [|el els IH]; intros st; cbn [ascend]; [easy|].
    destruct (validate_pass w false (vs_s st) (vs_V st) el) as [[s1 o] ev].
    destruct o; try apply IH; (destruct (v_bool (vs_V st el)); [|apply IH]);
      unfold and_valid; destruct (vs_valid st); try easy; apply IH.
  Qed.

  Definition unseen (U seen : list id) : nat :=
    List.length (filter (fun x => negb (memb Nat.eqb x seen)) U).
  Lemma unseen_cons U seen el :
    ~ In el seen -> In el U -> unseen U (el :: seen) < unseen U seen.
  Proof.
    intros Hn Hin. unfold unseen.
    assert (forall V, List.length (filter (fun x => negb (memb Nat.eqb x (el :: seen))) V)
              <= List.length (filter (fun x => negb (memb Nat.eqb x seen)) V)) as Hle.
    { induction V as [|x V IH]; simpl; [lia|].
      destruct (memb Nat.eqb x (el :: seen)) eqn:E1, (memb Nat.eqb x seen) eqn:E2; simpl; try lia.
      apply memb_nat in E2. apply memb_nat_false in E1. exfalso. apply E1. now right. }
    induction U as [|x U IH]; [easy|]. destruct Hin as [->|Hin].
    - cbn [filter]. assert (memb Nat.eqb el (el :: seen) = true) as -> by (apply memb_nat; now left).
      assert (memb Nat.eqb el seen = false) as -> by now apply memb_nat_false.
      simpl. specialize (Hle U). lia.
    - specialize (IH Hin). cbn [filter].
      destruct (memb Nat.eqb x (el :: seen)) eqn:E1, (memb Nat.eqb x seen) eqn:E2; simpl; try lia.
      apply memb_nat in E2. apply memb_nat_false in E1. exfalso. apply E1. now right.
  Qed.

  Lemma descend_terminates U :
    (forall s x, In x U -> incl (w_children w s x) U) ->
    forall n queue (st : vstate S val), unseen U (vs_seen st) <= n -> incl queue U ->
    exists F, descend w F queue st <> Err OutOfFuel.
  Proof.
    intros HU. induction n as [n IHn] using lt_wf_ind.
    induction queue as [|el queue IHq]; intros st Hn Hq.
    - exists 0. easy.
    - assert (In el U) as Hel by (apply Hq; now left).
      assert (incl queue U) as Hq' by (intros x Hx; apply Hq; now right).
      destruct (memb Nat.eqb el (vs_seen st)) eqn:Em.
      + destruct (IHq st Hn Hq') as [F HF]. exists (Datatypes.S F). cbn [descend].
        rewrite Em. exact HF.
      + apply memb_nat_false in Em as Em'.
        pose proof (unseen_cons U _ _ Em' Hel) as Hlt.
        destruct (validate_pass w true (vs_s st) (vs_V st) el) as [[s1 o] ev] eqn:Ep.
        destruct (match o with OUneval => Ok (vs_valid st) | _ => and_valid (vs_valid st) o end)
          as [valid|e] eqn:Ev.
        * set (mk := fun tr : list (event val) => VState s1 (upd (vs_V st) el (match o with OUneval => Uneval | _ => of_bool (o_bool o) end))
                      valid (vs_elements st ++ [el]) (el :: vs_seen st) tr).
          destruct (IHn _ (Nat.lt_le_trans _ _ _ Hlt Hn) queue
                      (mk (vs_trace st ++ ev ++ [EEval el true o])) (Nat.le_refl _) Hq') as [F1 HF1].
          destruct (IHn _ (Nat.lt_le_trans _ _ _ Hlt Hn) (queue ++ w_children w s1 el)
                      (mk ((vs_trace st ++ ev ++ [EEval el true o]) ++ [EKids el (w_children w s1 el)]))
                      (Nat.le_refl _)) as [F2 HF2].
          { apply incl_app; [exact Hq'|]. now apply HU. }
          exists (Datatypes.S (F1 + F2)). cbn [descend]. rewrite Em, Ep, Ev.
          fold (mk (vs_trace st ++ ev ++ [EEval el true o])).
          fold (mk ((vs_trace st ++ ev ++ [EEval el true o]) ++ [EKids el (w_children w s1 el)])).
          assert (forall F q x, F <= F1 + F2 -> descend w F q x <> Err OutOfFuel ->
                    descend w (F1 + F2) q x <> Err OutOfFuel) as G.
          { intros F q x HF Hx. rewrite (descend_mono F (F1 + F2) q x _ HF eq_refl Hx). exact Hx. }
          destruct o; (eapply G; [|first [exact HF1|exact HF2]]; lia).
        * exists 1. cbn [descend]. rewrite Em, Ep, Ev. unfold and_valid in Ev.
          destruct o, (vs_valid st); congruence.
  Qed.

  Lemma validate_terminates U s V root :
    (forall s x, In x U -> incl (w_children w s x) U) -> In root U ->
    exists F r, r <> Err OutOfFuel /\ forall fuel, F <= fuel -> validate w fuel s V root = r.
  Proof.
    intros HU Hr.
    destruct (descend_terminates U HU _ [root] (VState s V true [] [] []) (Nat.le_refl _)) as [F HF].
    { intros x [<-|[]]. easy. }
    assert (validate w F s V root <> Err OutOfFuel) as H.
    { unfold validate. destruct (descend w F [root] _) as [st|e]; simpl; [|congruence].
      pose proof (ascend_no_fuel (rev (vs_elements st)) st).
      destruct (ascend w (rev (vs_elements st)) st); simpl; congruence. }
    exists F, (validate w F s V root). split; [exact H|].
    intros fuel Hf. eapply validate_mono; eauto.
  Qed.

  Lemma reach_closed (U : list id) (kids : id -> list id) root x :
    (forall y, In y U -> incl (kids y) U) -> In root U -> reachable kids root x -> In x U.
  Proof.
    intros HU Hr [n Hn]. induction Hn as [|n x y z Hw IH Hz]; [easy|].
    exact (HU y (IH Hr) z Hz).
  Qed.

  Lemma validate_bounded U fuel s V root b st :
    (forall s x, In x U -> incl (w_children w s x) U) -> In root U ->
    validate w fuel s V root = Ok (b, st) ->
    List.length (evals (vs_trace st)) <= 2 * List.length U.
  Proof.
    intros HU Hr H. destruct (validate_bfs w _ _ _ _ _ _ H) as (D & HB & E).
    apply (f_equal (@List.length _)) in E. rewrite app_length, !map_length, rev_length in E.
    assert (List.length D <= List.length U); [|lia].
    apply NoDup_incl_length; [apply HB|].
    intros x Hx. apply (bf_reach _ _ _ HB) in Hx.
    eapply reach_closed; [|exact Hr|exact Hx].
    intros y Hy z Hz.
    destruct (in_dec Nat.eq_dec y D) as [HyD|HyD].
    - assert (In (y, true) (map fst (evals (vs_trace st)))) as Hev.
      { destruct (validate_bfs w _ _ _ _ _ _ H) as (D' & HB' & E').
        rewrite E', in_app_iff. left. apply in_map_iff. exists y. split; [easy|].
        apply (bf_reach _ _ _ HB'). now apply (bf_reach _ _ _ HB). }
      apply in_map_iff in Hev as ([[y' b1] o] & [= -> ->] & Hev).
      pose proof (validate_kids w _ _ _ _ _ _ _ _ H Hev) as Hk.
      destruct o; first [rewrite Hk in Hz; easy
                        |destruct Hk as [s' Hk]; rewrite Hk in Hz; eapply HU; eassumption].
    - (* never visited: nothing queued *)
      exfalso. apply validate_inv in H as (st0 & Hd & Ha & _).
      destruct (bf_reach _ _ _ HB y) as [_ B].
      rewrite (a_kids _ _ _ Ha) in Hz.
      destruct (in_dec Nat.eq_dec y (vs_elements st0)) as [Hy'|Hy'].
      + apply HyD, B. destruct (d_eq _ _ _ _ _ Hd) as (popped & P1 & P2).
        assert (reachable (kids_of (vs_trace st0)) root y) as [n Hn].
        { apply (d_reach _ _ _ _ _ Hd). unfold id in *. rewrite P1. apply in_app_iff. left.
          rewrite P2 in Hy'. apply firsts_In in Hy'. tauto. }
        exists n. eapply walk_mono; [|exact Hn]. intros q p. now rewrite (a_kids _ _ _ Ha).
      + rewrite (d_kids_out _ _ _ _ _ Hd) in Hz by easy. easy.
  Qed.

  Lemma visited_static ch fuel s V root b st :
    (forall s' x, w_children w s' x = ch x) ->
    validate w fuel s V root = Ok (b, st) ->
    forall x, (exists d o, In (x, d, o) (evals (vs_trace st)))
              <-> unskipped_walk ch (vs_trace st) root x.
  Proof.
    intros Hch H. destruct (validate_bfs w _ _ _ _ _ _ H) as (D & HB & E).
    assert (forall x, In x D -> exists o, In (x, true, o) (evals (vs_trace st))) as Hev.
    { intros x Hx. assert (In (x, true) (map fst (evals (vs_trace st)))) as Hi.
      { rewrite E, in_app_iff. left. apply in_map_iff. eauto. }
      apply in_map_iff in Hi as ([[y b1] o] & [= -> ->] & Hi). eauto. }
    assert (forall x, (exists d o, In (x, d, o) (evals (vs_trace st))) <-> In x D) as Hvis.
    { intros x. split.
      - intros (d & o & Hin). apply (in_map fst) in Hin. rewrite E, in_app_iff in Hin.
        destruct Hin as [Hin|Hin]; apply in_map_iff in Hin as (y & [= <- _] & Hy);
          [easy|now apply in_rev].
      - intros Hx. apply Hev in Hx as [o Ho]. eauto. }
    assert (forall y, In y D -> ~ skipped (vs_trace st) y -> kids_of (vs_trace st) y = ch y) as Hk1.
    { intros y Hy Hs. destruct (Hev y Hy) as [o Ho].
      pose proof (validate_kids w _ _ _ _ _ _ _ _ H Ho) as Hk. unfold skipped in Hs.
      destruct o; first [now (destruct Hk as [s' Hk]; rewrite Hk; apply Hch)|exfalso; tauto]. }
    assert (forall y, In y D -> skipped (vs_trace st) y -> kids_of (vs_trace st) y = []) as Hk2.
    { intros y Hy [Hs|Hs]; pose proof (validate_kids w _ _ _ _ _ _ _ _ H Hs) as Hk; exact Hk. }
    intros x. rewrite Hvis, (bf_reach _ _ _ HB). split.
    - intros [n Hn]. remember root as r eqn:Er in Hn.
      induction Hn as [y|n r' y z Hw IH Hz]; subst; [constructor|].
      assert (In y D) as Hy by (apply (bf_reach _ _ _ HB); now exists n).
      eapply uw_step; [now apply IH| |].
      + intros Hs. rewrite (Hk2 _ Hy Hs) in Hz. easy.
      + destruct (Hev y Hy) as [o Ho].
        pose proof (validate_kids w _ _ _ _ _ _ _ _ H Ho) as Hk.
        destruct o; first [rewrite Hk in Hz; easy
                          |destruct Hk as [s' Hk]; rewrite Hk, Hch in Hz; exact Hz].
    - intros Hu. remember root as r eqn:Er in Hu.
      induction Hu as [y|r' y z Hw IH Hs Hz]; subst; [exists 0; constructor|].
      destruct IH as [n Hn]; [easy|]. exists (Datatypes.S n). econstructor; [exact Hn|].
      rewrite Hk1; [exact Hz| |exact Hs]. apply (bf_reach _ _ _ HB). now exists n.
  Qed.

  Lemma skipped_branch_static ch fuel s V root b st x :
    (forall s' x, w_children w s' x = ch x) ->
    validate w fuel s V root = Ok (b, st) ->
    ~ unskipped_walk ch (vs_trace st) root x ->
    vs_V st x = V x /\ forall e, In e (vs_trace st) -> ~ touches x e.
  Proof.
    intros Hch H Hx. rewrite <- (visited_static ch _ _ _ _ _ _ Hch H) in Hx.
    apply (validate_untouched w _ _ _ _ _ _ _ H).
    destruct (validate_bfs w _ _ _ _ _ _ H) as (D & HB & E).
    rewrite <- (bf_reach _ _ _ HB). intros Hin. apply Hx.
    assert (In (x, true) (map fst (evals (vs_trace st)))) as Hi.
    { rewrite E, in_app_iff. left. apply in_map_iff. eauto. }
    apply in_map_iff in Hi as ([[y b1] o] & [= -> ->] & Hi). eauto.
  Qed.
End More.

(* ---------------- order of a tree ---------------- *)
Lemma order_cases {A} (eq_dec : forall x y : A, {x = y} + {x <> y}) (l : list A) x y :
  In x l -> In y l ->
  x = y \/ (exists a b c, l = a ++ x :: b ++ y :: c) \/ (exists a b c, l = a ++ y :: b ++ x :: c).
Proof.
  intros Hx Hy. destruct (eq_dec x y) as [->|Hne]; [now left|right].
  apply in_split in Hx as (l1 & l2 & ->). apply in_app_iff in Hy as [Hy|[Hy|Hy]].
  - apply in_split in Hy as (a & b & ->). right. exists a, b, l2. now rewrite <- app_assoc.
  - congruence.
  - apply in_split in Hy as (a & b & ->). left. now exists l1, a, b.
Qed.

Lemma bfs_parent_first kids (root : nat) D x y :
  breadth_first kids root D -> y <> root -> In x D -> In y (kids x) ->
  (forall p, In p D -> In y (kids p) -> p = x) ->
  exists a b c, D = a ++ x :: b ++ y :: c.
Proof.
  intros HB Hy Hx Hk Hu.
  assert (In y D) as HyD.
  { apply (bf_reach _ _ _ HB). apply (bf_reach _ _ _ HB) in Hx as [n Hn].
    exists (S n). econstructor; eassumption. }
  apply (bf_reach _ _ _ HB) in HyD as Hr. destruct Hr as [n Hn].
  revert Hn. induction n as [n IH] using lt_wf_ind. intros Hn.
  destruct n as [|n]; [inversion Hn; subst; easy|].
  apply walk_S_inv in Hn as (p & Hp & Hyp).
  assert (p = x) as -> by (apply Hu; [apply (bf_reach _ _ _ HB); now exists n|easy]).
  destruct (order_cases Nat.eq_dec D x y Hx HyD) as [->|[Hxy|(a & b & c & E)]].
  - eapply IH; [|exact Hp]. lia.
  - exact Hxy.
  - destruct (bf_dist _ _ _ HB _ _ _ _ _ _ E Hp) as (m & Hm & Hwm).
    eapply IH; [|exact Hwm]. lia.
Qed.

Lemma validate_children_first {S val} (w : world S val) fuel s V root b st x y :
  validate w fuel s V root = Ok (b, st) ->
  (exists d o, In (x, d, o) (evals (vs_trace st))) ->
  y <> root -> In y (kids_of (vs_trace st) x) ->
  (forall p, In y (kids_of (vs_trace st) p) -> p = x) ->
  exists t1 o1 t2 o2 t3, evals (vs_trace st) = t1 ++ (y, false, o1) :: t2 ++ (x, false, o2) :: t3.
Proof.
  intros H (d & o & Hin) Hy Hk Hu. destruct (validate_bfs w _ _ _ _ _ _ H) as (D & HB & E).
  assert (In x D) as Hx.
  { apply (in_map fst) in Hin. rewrite E, in_app_iff in Hin.
    destruct Hin as [Hin|Hin]; apply in_map_iff in Hin as (z & [= <- _] & Hz);
      [easy|now apply in_rev]. }
  destruct (bfs_parent_first _ _ _ x y HB Hy Hx Hk) as (a & b' & c & ED).
  { intros p _. apply Hu. }
  rewrite ED in E at 2. rewrite rev_app_distr in E. simpl in E.
  rewrite rev_app_distr in E. simpl in E. rewrite <- !app_assoc in E. simpl in E.
  rewrite !map_app in E. simpl in E. rewrite map_app in E. simpl in E.
  rewrite app_assoc in E.
  apply map_eq_app in E as (t1 & r1 & -> & E1 & E2).
  apply map_eq_cons in E2 as ([[y' d1] o1] & r2 & -> & E3 & E4).
  apply map_eq_app in E4 as (t2 & r3 & -> & E5 & E6).
  apply map_eq_cons in E6 as ([[x' d2] o2] & t3 & -> & E7 & E8).
  simpl in E3, E7. injection E3 as -> ->. injection E7 as -> ->.
  exists t1, o1, t2, o2, t3. easy.
Qed.

(* ---------------- recurse=False ---------------- *)
Lemma validate_flat_agrees {S val} (w : world S val) fuel s V el b st :
  (forall s, w_children w s el = []) ->
  validate w fuel s V el = Ok (b, st) ->
  let '(v, s', V', tr) := validate_flat w s V el in
  s' = vs_s st /\ evals tr = evals (vs_trace st)
  /\ (forall x, x <> el -> V' x = vs_V st x) /\ V' el = v
  /\ (vs_V st el = v <->
      ~ (exists d u, In (el, true, d) (evals tr) /\ In (el, false, u) (evals tr)
                     /\ o_bool d = false /\ u <> OUneval /\ o_bool u = true)).
Proof.
  intros Hch H. unfold validate in H. destruct fuel as [|fuel]; [easy|].
  cbn [descend] in H. cbn [vs_seen vs_s vs_V vs_elements vs_trace vs_valid] in H.
  change (memb Nat.eqb el []) with false in H. cbv iota in H. unfold validate_flat.
  pose proof (pass_local w true s V el) as Hl1.
  destruct (validate_pass w true s V el) as [[s1 o] ev]. cbn [snd] in Hl1.
  cbn [app] in H. rewrite Hch in H.
  set (V1 := upd V el (match o with OUneval => Uneval | _ => of_bool (o_bool o) end)) in *.
  assert (V1 el = stat o) as EV1 by (unfold V1, upd; now rewrite Nat.eqb_refl).
  pose proof (pass_local w false s1 V1 el) as Hl2.
  destruct (validate_pass w false s1 V1 el) as [[s2 u] ev2] eqn:Eu. cbn [snd] in Hl2.
  assert (exists valid tl, (tl = [] \/ exists k, tl = [EKids el k]) /\
    bind (ascend w [el] (VState s1 V1 valid [el] [el] ((ev ++ [EEval el true o]) ++ tl)))
         (fun st' => Ok (vs_valid st', st')) = Ok (b, st)) as (valid & tl & Htl & HA).
  { destruct (match o with OUneval => Ok true | _ => and_valid true o end) as [valid|e]; [|easy].
    exists valid.
    destruct o; destruct fuel; cbn [descend bind vs_elements rev app] in H;
      (exists [EKids el []]; split; [eauto|exact H]) || (exists []; split; [auto|rewrite app_nil_r; exact H]). }
  cbn [ascend vs_s vs_V vs_trace vs_valid vs_elements vs_seen] in HA.
  rewrite Eu in HA.
  assert (vs_s st = s2 /\ (forall x, x <> el -> vs_V st x = V1 x)
          /\ vs_V st el = final (stat o) u
          /\ vs_trace st = ((ev ++ [EEval el true o]) ++ tl) ++ ev2 ++ [EEval el false u])
    as (F1 & F2 & F3 & F4).
  { rewrite EV1, stat_bool in HA.
    assert (final (stat o) OUneval = stat o) as Ef by reflexivity.
    destruct u; [injection HA as _ <-; cbn; repeat split; auto|..];
      (destruct (o_bool o) eqn:Eo;
       [destruct (and_valid valid _) eqn:Ea; [|easy]; injection HA as _ <-; cbn;
        repeat split; auto;
        [intros x Hx; unfold upd; destruct (Nat.eqb_spec x el); congruence
        |unfold upd; rewrite Nat.eqb_refl, stat_bool, Eo; reflexivity]
       |injection HA as _ <-; cbn; repeat split; auto; rewrite stat_bool, Eo; exact EV1]). }
  assert (evals (ev ++ EEval el true o :: ev2 ++ [EEval el false u])
          = [(el, true, o); (el, false, u)]) as Eev.
  { change (EEval el true o :: ev2 ++ [EEval el false u])
      with ([EEval el true o] ++ ev2 ++ [EEval el false u]).
    rewrite !evals_app, (local_evals _ _ Hl1), (local_evals _ _ Hl2). easy. }
  cbn [app]. split; [easy|]. split.
  { rewrite Eev, F4, !evals_app, (local_evals _ _ Hl1), (local_evals _ _ Hl2).
    destruct Htl as [->|[k ->]]; easy. }
  split.
  { intros x Hx. rewrite F2 by easy. destruct u; try reflexivity;
      unfold upd at 1; destruct (Nat.eqb_spec x el); congruence. }
  split; [reflexivity|]. rewrite Eev, F3.
  assert (match u with OUneval => V1 | _ => upd V1 el (of_bool (o_bool u)) end el
          = match u with OUneval => stat o | _ => of_bool (o_bool u) end) as ->.
  { destruct u; try exact EV1; unfold upd; now rewrite Nat.eqb_refl. }
  split.
  - intros E (d & u' & Hd & Hu & Ed & Hun & Eu').
    destruct Hd as [[= <-]|[[=]|[]]]. destruct Hu as [[=]|[[= <-]|[]]].
    unfold final in E. rewrite stat_bool, Ed in E.
    destruct o, u; simpl in *; try easy; congruence.
  - intros Hn. unfold final. rewrite stat_bool.
    destruct (o_bool o) eqn:Eo; [destruct u; easy|].
    destruct (o_bool u) eqn:Eu2.
    + destruct u; try easy; exfalso; apply Hn; exists o; eexists;
        (split; [now left|]; split; [right; left; reflexivity|]; easy).
    + destruct u, o; simpl in *; easy.
Qed.

(* ---------------- all_children ---------------- *)
Lemma all_children_loop_eq ch fuel : forall seen queue D,
  all_children_loop ch fuel seen queue = Ok D -> D = firsts seen (queue ++ flat_map ch D).
Proof.
  induction fuel as [|fuel IH]; intros seen queue D H; destruct queue as [|el queue];
    cbn [all_children_loop] in H; try (injection H as <-; easy); try easy.
  destruct (memb Nat.eqb el seen) eqn:Em.
  - apply IH in H. cbn [app firsts]. rewrite Em. exact H.
  - destruct (all_children_loop ch fuel (el :: seen) (queue ++ ch el)) as [D'|e] eqn:E; [|easy].
    injection H as <-. apply IH in E. cbn [app firsts flat_map]. rewrite Em. f_equal.
    rewrite <- app_assoc in E. exact E.
Qed.
Lemma all_children_loop_reach ch root fuel : forall seen queue D,
  (forall x, In x queue -> reachable ch root x) ->
  all_children_loop ch fuel seen queue = Ok D -> forall x, In x D -> reachable ch root x.
Proof.
  induction fuel as [|fuel IH]; intros seen queue D Hq H; destruct queue as [|el queue];
    cbn [all_children_loop] in H; try (injection H as <-; easy); try easy.
  destruct (memb Nat.eqb el seen) eqn:Em.
  - eapply IH; [|exact H]. intros x Hx. apply Hq. now right.
  - destruct (all_children_loop ch fuel (el :: seen) (queue ++ ch el)) as [D'|e] eqn:E; [|easy].
    injection H as <-. intros x [<-|Hx]; [apply Hq; now left|].
    eapply IH; [|exact E|exact Hx]. intros y Hy. apply in_app_iff in Hy as [Hy|Hy].
    + apply Hq. now right.
    + destruct (Hq el (or_introl eq_refl)) as [n Hn]. exists (S n). econstructor; eassumption.
Qed.
Lemma all_children_bfs ch fuel self D :
  all_children ch fuel self = Ok D -> breadth_first ch self (self :: D).
Proof.
  unfold all_children. intros H. apply bfs_from_equation.
  - cbn [firsts flat_map]. change (memb Nat.eqb self []) with false. cbv iota. f_equal.
    now apply all_children_loop_eq in H.
  - intros x [<-|Hx]; [exists 0; constructor|].
    eapply all_children_loop_reach; [|exact H|exact Hx]. intros y Hy. exists 1.
    econstructor; [constructor|exact Hy].
Qed.

Lemma all_children_mono ch fuel : forall fuel' seen queue r,
  fuel <= fuel' -> all_children_loop ch fuel seen queue = r -> r <> Err OutOfFuel ->
  all_children_loop ch fuel' seen queue = r.
Proof.
  induction fuel as [|fuel IH]; intros fuel' seen queue r Hle H Hr.
  - destruct queue; cbn in H; [|congruence]. destruct fuel'; exact H.
  - destruct fuel' as [|fuel']; [lia|]. destruct queue as [|el queue]; [exact H|].
    cbn [all_children_loop] in *. destruct (memb Nat.eqb el seen).
    + eapply IH; eauto. lia.
    + destruct (all_children_loop ch fuel (el :: seen) (queue ++ ch el)) as [D|e] eqn:E.
      * rewrite (IH fuel' _ _ (Ok D)); easy || lia.
      * rewrite (IH fuel' _ _ (Err e)); try easy; try lia. simpl in H. congruence.
Qed.

Lemma all_children_loop_err ch fuel : forall seen queue e,
  all_children_loop ch fuel seen queue = Err e -> e = OutOfFuel.
Proof.
  induction fuel as [|fuel IH]; intros seen queue e H; destruct queue as [|el queue];
    cbn [all_children_loop] in H; try congruence.
  destruct (memb Nat.eqb el seen); [eauto|].
  destruct (all_children_loop ch fuel (el :: seen) (queue ++ ch el)) eqn:E; simpl in H; [easy|].
  injection H as <-. eauto.
Qed.

Lemma all_children_terminates ch U self :
  (forall x, In x U -> incl (ch x) U) -> In self U ->
  exists F D, forall fuel, F <= fuel -> all_children ch fuel self = Ok D.
Proof.
  intros HU Hs.
  assert (forall n seen queue, unseen U seen <= n -> incl queue U ->
            exists F, all_children_loop ch F seen queue <> Err OutOfFuel) as G.
  { induction n as [n IHn] using lt_wf_ind. intros seen queue Hn Hq. revert seen Hn.
    induction queue as [|el queue IHq]; intros seen Hn; [now exists 0|].
    assert (In el U) as Hel by (apply Hq; now left).
    assert (incl queue U) as Hq' by (intros x Hx; apply Hq; now right).
    destruct (memb Nat.eqb el seen) eqn:Em.
    - destruct (IHq Hq' seen Hn) as [F HF]. exists (S F). cbn. rewrite Em. exact HF.
    - apply memb_nat_false in Em as Em'. pose proof (unseen_cons U _ _ Em' Hel) as Hlt.
      destruct (IHn _ (Nat.lt_le_trans _ _ _ Hlt Hn) (el :: seen) (queue ++ ch el) (Nat.le_refl _)) as [F HF].
      { apply incl_app; auto. }
      exists (S F). cbn. rewrite Em.
      destruct (all_children_loop ch F (el :: seen) (queue ++ ch el)) eqn:E; [easy|].
      simpl. congruence. }
  destruct (G _ [self] (ch self) (Nat.le_refl _)) as [F HF]; [now apply HU|].
  destruct (all_children_loop ch F [self] (ch self)) as [D|e] eqn:E.
  - exists F, D. intros fuel Hf. unfold all_children. eapply all_children_mono; eauto.
  - apply all_children_loop_err in E as ->. easy.
Qed.

Lemma bfs_cons_reach ch (self : nat) D x :
  breadth_first ch self (self :: D) -> (reachable ch self x <-> x = self \/ In x D).
Proof. intros HB. rewrite <- (bf_reach _ _ _ HB). simpl. intuition. Qed.

Lemma get_all_valid_spec ch fuel V self b :
  get_all_valid ch fuel V self = Ok b ->
  (b = true <-> forall x, reachable ch self x -> v_bool (V x) = true).
Proof.
  unfold get_all_valid. destruct (v_bool (V self)) eqn:Ev; cbn [negb].
  - destruct (all_children ch fuel self) as [D|e] eqn:E; simpl; [|easy].
    intros [= <-]. apply all_children_bfs in E. rewrite forallb_forall. split.
    + intros H x Hx. apply (bfs_cons_reach _ _ _ _ E) in Hx as [->|Hx]; auto.
    + intros H x Hx. apply H. apply (bfs_cons_reach _ _ _ _ E). now right.
  - intros [= <-]. split; [easy|]. intros H. rewrite H in Ev; [easy|]. exists 0. constructor.
Qed.
Lemma set_all_valid_spec ch fuel V self v V' :
  set_all_valid ch fuel V self v = Ok V' ->
  forall x, (reachable ch self x -> V' x = v) /\ (~ reachable ch self x -> V' x = V x).
Proof.
  unfold set_all_valid. destruct (all_children ch fuel self) as [D|e] eqn:E; simpl; [|easy].
  intros [= <-] x. apply all_children_bfs in E. rewrite (bfs_cons_reach _ _ _ _ E).
  assert (forall D V1, fold_left (fun V el => upd V el v) D V1 x
           = if memb Nat.eqb x D then v else V1 x) as G.
  { clear. induction D as [|y D IH]; intros V1; [easy|]. cbn [fold_left]. rewrite IH.
    unfold upd. destruct (Nat.eqb_spec x y) as [->|Hne].
    - assert (memb Nat.eqb y (y :: D) = true) as -> by (apply memb_nat; now left).
      now destruct (memb Nat.eqb y D).
    - rewrite (memb_nat_ext x (y :: D) D); [easy|]. simpl.
      split; [intros [H|H]; [congruence|exact H]|now right]. }
  rewrite G. unfold upd. split.
  - intros [->|H].
    + destruct (memb Nat.eqb self D); [easy|]. now rewrite Nat.eqb_refl.
    + apply memb_nat in H. now rewrite H.
  - intros H. assert (memb Nat.eqb x D = false) as -> by (apply memb_nat_false; tauto).
    destruct (Nat.eqb_spec x self); tauto.
Qed.

(* ---------------- corollaries used by the property file ---------------- *)
Lemma validate_markings_iff {S val} (w : world S val) fuel s V root b st :
  validate w fuel s V root = Ok (b, st) ->
  forall x,
    (exists d u, In (x, true, d) (evals (vs_trace st))
       /\ In (x, false, u) (evals (vs_trace st))
       /\ (vs_V st x = Invalid <-> o_bool d = false \/ o_bool u = false)
       /\ (vs_V st x = Uneval <-> d = OUneval /\ u = OUneval))
    \/ ((forall d o, ~ In (x, d, o) (evals (vs_trace st))) /\ vs_V st x = V x).
Proof.
  intros H x. destruct (validate_markings w _ _ _ _ _ _ H) as [HM _].
  destruct (HM x) as [(d & u & H1 & H2 & H3)|Hno]; [left|right; exact Hno].
  exists d, u. split; [easy|]. split; [easy|]. rewrite H3.
  destruct d, u; simpl; (split; split; intros Hx; try easy; try (now left); try (now right));
    intuition congruence.
Qed.
Lemma validate_pass_cases {S val} (w : world S val) descending s V el :
  validate_pass w descending s V el =
  match (if descending then w_down w s el else w_up w s el) with
  | None => (s, OUneval, [])
  | Some vs =>
      if descending && w_container w el && (match vs with [] => true | _ => false end)
      then (s, OUneval, [])
      else validate_element w vs s V el
  end.
Proof.
  unfold validate_pass. destruct descending; cbn [andb].
  - destruct (w_down w s el) as [[|v vs]|]; [..|easy]; now destruct (w_container w el).
  - now destruct (w_up w s el).
Qed.
Lemma chain_falsy {S val} (w : world S val) vs s V el s' ev :
  run_chain w vs s V el = (s', OFalsyObj, ev) ->
  exists v s V el s', w_run w v s V el = (s', VRFalsy).
Proof.
  revert s s' ev; induction vs as [|v vs IH]; intros s s' ev H; cbn [run_chain] in H; [easy|].
  destruct (w_run w v s V el) as [s1 r] eqn:E. destruct (send w (Some v) s1 el r) as [s2 sent].
  destruct r; try easy.
  - destruct (run_chain w vs s2 V el) as [[s3 o3] ev3] eqn:E3. injection H as <- -> <-. eauto.
  - destruct (run_chain w vs s2 V el) as [[s3 o3] ev3] eqn:E3. injection H as <- -> <-. eauto.
  - exists v, s, V, el, s1. exact E.
Qed.
Lemma pass_falsy {S val} (w : world S val) d s V el s' ev :
  validate_pass w d s V el = (s', OFalsyObj, ev) ->
  exists v s V el s', w_run w v s V el = (s', VRFalsy).
Proof.
  rewrite validate_pass_cases. intros H.
  destruct (if d then w_down w s el else w_up w s el) as [vs|]; [|easy].
  destruct (d && w_container w el && _); [easy|].
  unfold validate_element in H. destruct (w_is_empty w s el && w_optional w s el); [easy|].
  destruct vs as [|v vs]; [|eapply chain_falsy; exact H].
  destruct (send w None s el _) as [s1 ev1]. destruct (w_is_empty w s el); easy.
Qed.
Lemma validate_errors {S val} (w : world S val) fuel s V root e :
  validate w fuel s V root = Err e -> e = OutOfFuel
  \/ (e = TypeErr /\ exists v s V el s', w_run w v s V el = (s', VRFalsy)).
Proof.
  unfold validate.
  assert (forall fuel q (st : vstate S val) e, descend w fuel q st = Err e -> e = OutOfFuel
     \/ (e = TypeErr /\ exists v s V el s', w_run w v s V el = (s', VRFalsy))) as Hd.
  { clear. induction fuel as [|fuel IH]; intros q st e H; destruct q as [|el q];
      cbn [descend] in H; try easy; [injection H as <-; now left|].
    destruct (memb Nat.eqb el (vs_seen st)); [eauto|].
    destruct (validate_pass w true (vs_s st) (vs_V st) el) as [[s1 o] ev] eqn:Ep.
    destruct (match o with OUneval => Ok (vs_valid st) | _ => and_valid (vs_valid st) o end) eqn:Ea.
    - destruct o; eauto.
    - unfold and_valid in Ea. destruct o, (vs_valid st); try easy.
      injection H as <-. injection Ea as <-. right. split; [easy|]. eapply pass_falsy, Ep. }
  assert (forall els (st : vstate S val) e, ascend w els st = Err e ->
     (e = TypeErr /\ exists v s V el s', w_run w v s V el = (s', VRFalsy))) as Ha.
  { clear. induction els as [|el els IH]; intros st e H; cbn [ascend] in H; [easy|].
    destruct (validate_pass w false (vs_s st) (vs_V st) el) as [[s1 o] ev] eqn:Ep.
    destruct o; eauto; (destruct (v_bool (vs_V st el)); [|eauto]);
      unfold and_valid in H; destruct (vs_valid st); eauto.
    injection H as <-. split; [easy|]. eapply pass_falsy, Ep. }
  destruct (descend w fuel [root] _) as [st|e'] eqn:E; simpl; intros H.
  - destruct (ascend w _ st) eqn:E2; simpl in H; [easy|]. injection H as ->. right. eauto.
  - injection H as ->. eauto.
Qed.
Lemma flat_disagrees : exists (w : world unit vres) el,
  (forall s, w_children w s el = [])
  /\ exists st, validate w 10 tt (fun _ => Uneval) el = Ok (false, st) /\ vs_V st el = Invalid
  /\ fst (fst (fst (validate_flat w tt (fun _ => Uneval) el))) = Valid.
Proof.
  exists (World (fun _ _ => []) (fun _ _ => false) (fun _ _ => false) (fun _ => true)
            (fun _ _ => Some [VRFalse]) (fun _ _ => Some [VRTrue])
            (fun v s _ _ => (s, v)) (fun _ => false) (fun _ s _ _ => s)), 0.
  split; [easy|]. eexists. split; [reflexivity|]. split; reflexivity.
Qed.
Lemma all_children_bfs_self ch fuel self D :
  all_children ch fuel self = Ok D -> breadth_first ch self (self :: D) /\ ~ In self D.
Proof.
  intros H. apply all_children_bfs in H. split; [exact H|].
  pose proof (bf_nodup _ _ _ H) as Hn. now inversion Hn.
Qed.
