(* Proofs: validators and receivers that assign .valid and raise. *)
From Verif Require Import PyBase PyBaseFacts ModelValidate SpecValidate ProofValidate ProofValidate2 ModelRaise SpecRaise ProofRaise ModelAssign SpecAssign.

Section Same.
  Context {S val : Type} (wr : rworld S val).
  Notation w := (onlookers wr).
  Definition agree (V : id -> vstat) (x : (S * (id -> vstat)) * res outcome * list (aevent val)) (y : S * res outcome * list (event val)) : Prop :=
    let '(s, o, ev) := x in let '(s', o', ev') := y in s = (s', V) /\ o = o' /\ ev = map AEv ev'.
  Lemma happened_app (a b : list (aevent val)) : happened (a ++ b) = happened a ++ happened b.
  Proof. apply flat_map_app. Qed.
  Lemma happened_AEv (l : list (event val)) : happened (map AEv l) = l.
  Proof. induction l as [|e l IH]; [easy|]. cbn. now f_equal. Qed.
  Lemma send_agree fn s V el r : send_a w fn (s, V) el r
    = let '(s', ev) := send (r_world wr) fn s el r in ((s', V), None, map AEv ev).
  Proof. unfold send_a, send. cbn [onlookers a_receivers a_notify fst snd]. now destruct (w_receivers (r_world wr) s). Qed.
  Lemma chain_agree vs : forall s V el, agree V (run_chain_a w vs (s, V) el) (run_chain_r wr vs s V el).
  Proof.
    induction vs as [|fn vs IH]; intros s V el; [easy|]. cbn [run_chain_a run_chain_r]. cbn [onlookers a_run fst snd].
    destruct (r_raise wr fn s V el) as [[s1 e]|]; [easy|]. destruct (w_run (r_world wr) fn s V el) as [s1 r].
    fold w. rewrite send_agree. destruct (send (r_world wr) (Some fn) s1 el r) as [s2 sent].
    destruct r; try easy; specialize (IH s2 V el); destruct (run_chain_a w vs (s2, V) el) as [[s3 o] ev], (run_chain_r wr vs s2 V el) as [[s3' o'] ev'];
      destruct IH as (-> & -> & ->); cbn [agree]; repeat split; now rewrite map_app.
  Qed.
  Lemma element_agree vs s V el : agree V (validate_element_a w vs (s, V) el) (validate_element_r wr vs s V el).
  Proof.
    unfold validate_element_a, validate_element_r. cbn [onlookers a_is_empty a_optional fst]. destruct (_ && _)%bool; [easy|].
    destruct vs as [|v vs]; [|apply chain_agree]. fold w. rewrite send_agree. now destruct (send (r_world wr) None s el _).
  Qed.
  Lemma pass_agree d s V el : agree V (validate_pass_a w d (s, V) el) (validate_pass_r wr d s V el).
  Proof.
    unfold validate_pass_a, validate_pass_r. cbn [onlookers a_down a_up a_container fst]. fold w. destruct d.
    - destruct (w_down (r_world wr) s el) as [vs|]; [|easy]. destruct (w_container (r_world wr) el), vs; try easy; apply element_agree.
    - destruct (w_up (r_world wr) s el) as [vs|]; [|easy]. apply element_agree.
  Qed.
  Definition same_state (a : astate (S * (id -> vstat)) val) (b : vstate S val) : Prop :=
    as_s a = (vs_s b, vs_V b) /\ as_valid a = vs_valid b /\ as_elements a = vs_elements b /\ as_seen a = vs_seen b /\ happened (as_trace a) = vs_trace b.
  Definition same_end (x : astate (S * (id -> vstat)) val * option exn) (y : vstate S val * option exn) : Prop :=
    same_state (fst x) (fst y) /\ snd x = snd y.
  Lemma descend_agree : forall fuel q a b, same_state a b -> same_end (descend_a w fuel q a) (descend_r wr fuel q b).
  Proof.
    induction fuel as [|fuel IH]; intros q a b H; (destruct q as [|el q]; [easy|]); [easy|]. cbn [descend_a descend_r].
    destruct H as (Hs & Hv & He & Hse & Ht). rewrite Hse. destruct (memb Nat.eqb el (vs_seen b)); [apply IH; repeat split; easy|]. rewrite Hs.
    pose proof (pass_agree true (vs_s b) (vs_V b) el) as P. destruct (validate_pass_a w true (vs_s b, vs_V b) el) as [[s1 o] ev].
    destruct (validate_pass_r wr true (vs_s b) (vs_V b) el) as [[s1' o'] ev']. destruct P as (-> & -> & ->).
    destruct o' as [o|e].
    - rewrite Hv. cbv zeta. fold (status o).
      assert (G : forall v k (t : list (event val)), happened k = t -> same_state (AState (s1', upd (vs_V b) el (status o)) v (as_elements a ++ [el]) (el :: vs_seen b)
                 ((as_trace a ++ map AEv ev' ++ [AEv (EEval el true o); AMark el (status o)]) ++ k))
                 (VState s1' (upd (vs_V b) el (status o)) v (vs_elements b ++ [el]) (el :: vs_seen b) ((vs_trace b ++ ev' ++ [EEval el true o]) ++ t))).
      { intros v k t <-. repeat split; cbn [as_elements vs_elements as_trace vs_trace]; [now rewrite He|]. now rewrite !happened_app, happened_AEv, Ht. }
      assert (G0 : forall v, same_state (AState (s1', upd (vs_V b) el (status o)) v (as_elements a ++ [el]) (el :: vs_seen b)
                 (as_trace a ++ map AEv ev' ++ [AEv (EEval el true o); AMark el (status o)]))
                 (VState s1' (upd (vs_V b) el (status o)) v (vs_elements b ++ [el]) (el :: vs_seen b) (vs_trace b ++ ev' ++ [EEval el true o]))).
      { intros v. specialize (G v [] [] eq_refl). now rewrite !app_nil_r in G. }
      destruct (match o with OUneval => Ok (vs_valid b) | _ => and_valid (vs_valid b) o end) as [v|e]; [|split; [apply G0|easy]].
      cbn [onlookers a_mark a_children fst snd]. fold w. destruct o; apply IH; first [apply G0|apply G; reflexivity].
    - split; [|easy]. repeat split; cbn [fst as_elements vs_elements as_trace vs_trace]; [exact Hv|now rewrite He|]. now rewrite !happened_app, happened_AEv, Ht.
  Qed.
  Lemma ascend_agree : forall els a b, same_state a b -> same_end (ascend_a w els a) (ascend_r wr els b).
  Proof.
    induction els as [|el els IH]; intros a b H; [easy|]. cbn [ascend_a ascend_r]. destruct H as (Hs & Hv & He & Hse & Ht). rewrite Hs.
    pose proof (pass_agree false (vs_s b) (vs_V b) el) as P. destruct (validate_pass_a w false (vs_s b, vs_V b) el) as [[s1 o] ev].
    destruct (validate_pass_r wr false (vs_s b) (vs_V b) el) as [[s1' o'] ev']. destruct P as (-> & -> & ->). cbv zeta.
    assert (G : forall s V v k (t : list (event val)), happened k = t -> same_state (AState (s, V) v (as_elements a) (as_seen a) (as_trace a ++ map AEv ev' ++ k))
                 (VState s V v (vs_elements b) (vs_seen b) (vs_trace b ++ ev' ++ t))).
    { intros s V v k t <-. repeat split; try easy. cbn [as_trace vs_trace]. now rewrite !happened_app, happened_AEv, Ht. }
    destruct o' as [o|e].
    - rewrite Hv. cbn [onlookers a_valid a_mark fst snd]. fold w. rewrite <- !app_assoc.
      destruct o; try (apply IH, G; reflexivity); (destruct (v_bool (vs_V b el)); [|apply IH, G; reflexivity]);
        (destruct (and_valid (vs_valid b) _); [apply IH, G; reflexivity|split; [apply G; reflexivity|reflexivity]]).
    - split; [|easy]. rewrite Hv. cbn [fst]. specialize (G s1' (vs_V b) (vs_valid b) [] [] eq_refl). now rewrite !app_nil_r in G.
  Qed.
  Theorem onlookers_same fuel s V root : let '(a, r) := validate_a w fuel (s, V) root in let '(b, r') := validate_r wr fuel s V root in
    r = r' /\ as_s a = (vs_s b, vs_V b) /\ happened (as_trace a) = vs_trace b.
  Proof.
    unfold validate_a, validate_r. pose proof (descend_agree fuel [root] (AState (s, V) true [] [] []) (VState s V true [] [] [])) as D.
    destruct D as [D1 D2]; [easy|]. destruct (descend_a w fuel [root] _) as [a x], (descend_r wr fuel [root] _) as [b y]. cbn [fst snd] in D1, D2. subst y.
    destruct x as [e|]; [split; [easy|]; split; apply D1|]. pose proof (ascend_agree (rev (vs_elements b)) a b D1) as [A1 A2].
    replace (as_elements a) with (vs_elements b) by (symmetry; apply D1).
    destruct (ascend_a w (rev (vs_elements b)) a) as [a' x], (ascend_r wr (rev (vs_elements b)) b) as [b' y]. cbn [fst snd] in A1, A2. subst y.
    destruct x as [e|]; (split; [|split; apply A1]); [easy|]. f_equal. apply A1.
  Qed.
  Theorem onlookers_flat s V el : let '(r, s', ev) := validate_flat_a w (s, V) el in
    (r, fst s', snd s', happened ev) = validate_flat_r wr s V el.
  Proof.
    unfold validate_flat_a, validate_flat_r. pose proof (pass_agree true s V el) as P.
    destruct (validate_pass_a w true (s, V) el) as [[s1 o] ev], (validate_pass_r wr true s V el) as [[s1' o'] ev']. destruct P as (-> & -> & ->).
    destruct o' as [o|e]; [|now rewrite happened_AEv]. cbn [onlookers a_mark fst snd]. fold w. fold (status o).
    pose proof (pass_agree false s1' (upd V el (status o)) el) as P.
    destruct (validate_pass_a w false (s1', upd V el (status o)) el) as [[s2 u] ev2], (validate_pass_r wr false s1' (upd V el (status o)) el) as [[s2' u'] ev2']. destruct P as (-> & -> & ->).
    destruct u' as [u|e]; [|rewrite !happened_app, !happened_AEv; cbn; now rewrite <- app_assoc].
    destruct u; cbn [onlookers a_mark a_valid fst snd]; rewrite !happened_app, !happened_AEv; cbn; now rewrite <- app_assoc.
  Qed.
End Same.

Section Histories.
  Context {S val : Type} (w : aworld S val).
  Lemma history_app s t1 s1 t2 s2 : history w s t1 s1 -> history w s1 t2 s2 -> history w s (t1 ++ t2) s2.
  Proof. intros H1 H2. induction H1; cbn [app]; [exact H2|eapply h_quiet|eapply h_heard|eapply h_empty|eapply h_down|eapply h_kids|eapply h_up_none|eapply h_up_kept|eapply h_up]; eauto. Qed.
  (* no event but calls and notifications about el *)
  Definition plain (el : id) (e : aevent val) : Prop := match e with AEv e => local el e | AMark _ _ => False end.
  Inductive pbroken : S -> list (aevent val) -> S -> exn -> Prop :=
  | p_validator fn el s tr s1 s2 e : history w s tr s1 -> a_run w fn s1 el = (s2, Err e) -> pbroken s tr s2 e
  | p_receiver fn el r s tr s1 s2 s3 e : history w s tr s1 -> a_run w fn s1 el = (s2, Ok r) -> a_receivers w s2 = true ->
      a_notify w (Some fn) s2 el r = (s3, Some e) ->
      pbroken s (tr ++ [AEv (ERun fn el r); AEv (ESent (Some fn) el r)]) s3 e
  | p_receiver_empty el s tr s1 s2 e : history w s tr s1 -> a_receivers w s1 = true ->
      a_notify w None s1 el (if a_is_empty w s1 el then VRFalse else VRTrue) = (s2, Some e) ->
      pbroken s (tr ++ [AEv (ESent None el (if a_is_empty w s1 el then VRFalse else VRTrue))]) s2 e.
  Lemma pbroken_app s t1 s1 t2 s2 e : history w s t1 s1 -> pbroken s1 t2 s2 e -> pbroken s (t1 ++ t2) s2 e.
  Proof.
    intros H1 H2. destruct H2 as [fn el s0 tr s' s2 e H R|fn el r s0 tr s' s2 s3 e H R Rc Nt|el s0 tr s' s2 e H Rc Nt].
    - eapply p_validator; [eapply history_app; eauto|eauto].
    - rewrite app_assoc. eapply p_receiver; eauto. eapply history_app; eauto.
    - rewrite app_assoc. eapply p_receiver_empty; eauto. eapply history_app; eauto.
  Qed.
  Lemma pbroken_broken s t s2 e : pbroken s t s2 e -> broken w s t s2 e.
  Proof. intros H2. destruct H2; [eapply b_validator|eapply b_receiver|eapply b_receiver_empty]; eauto. Qed.
  Definition pass_fine (el : id) (s : S) (x : S * res outcome * list (aevent val)) : Prop :=
    let '(s', o, ev) := x in Forall (plain el) ev /\ match o with Ok _ => history w s ev s' | Err e => pbroken s ev s' e end.
  Lemma chain_history vs : forall s el, pass_fine el s (run_chain_a w vs s el).
  Proof.
    induction vs as [|fn vs IH]; intros s el; [split; constructor|]. cbn [run_chain_a]. destruct (a_run w fn s el) as [s1 [r|e]] eqn:R; [|split; [constructor|econstructor; eauto; constructor]].
    unfold send_a. destruct (a_receivers w s1) eqn:Rc.
    - destruct (a_notify w (Some fn) s1 el r) as [s2 [e|]] eqn:Nt.
      + split; [repeat constructor|]. apply (p_receiver fn el r s [] s s1 s2 e); eauto. constructor.
      + assert (H0 : history w s [AEv (ERun fn el r); AEv (ESent (Some fn) el r)] s2) by (eapply h_heard; eauto; constructor).
        assert (F0 : Forall (plain el) [AEv (ERun fn el r); AEv (ESent (Some fn) el r)]) by (repeat constructor).
        destruct r; try (split; assumption); specialize (IH s2 el); destruct (run_chain_a w vs s2 el) as [[s3 o] ev]; destruct IH as [F H];
          (split; [apply Forall_app; split; assumption|destruct o; [eapply history_app|eapply pbroken_app]; eassumption]).
    - assert (H0 : history w s [AEv (ERun fn el r)] s1) by (eapply h_quiet; eauto; constructor).
      assert (F0 : Forall (plain el) [AEv (ERun fn el r)]) by (repeat constructor).
      destruct r; try (split; assumption); specialize (IH s1 el); destruct (run_chain_a w vs s1 el) as [[s3 o] ev]; destruct IH as [F H];
        (split; [apply Forall_app; split; assumption|destruct o; [eapply history_app|eapply pbroken_app]; eassumption]).
  Qed.
  Lemma element_history vs s el : pass_fine el s (validate_element_a w vs s el).
  Proof.
    unfold validate_element_a. destruct (_ && _)%bool; [split; constructor|]. destruct vs as [|v vs]; [|apply chain_history]. unfold send_a.
    replace (if negb (a_is_empty w s el) then VRTrue else VRFalse) with (if a_is_empty w s el then VRFalse else VRTrue) by now destruct (a_is_empty w s el).
    destruct (a_receivers w s) eqn:Rc; [|split; constructor]. destruct (a_notify w None s el _) as [s2 [e|]] eqn:Nt.
    - split; [repeat constructor|]. apply (p_receiver_empty el s [] s s2 e); eauto. constructor.
    - split; [repeat constructor|]. econstructor; eauto. constructor.
  Qed.
  Lemma pass_history d s el : pass_fine el s (validate_pass_a w d s el).
  Proof.
    unfold validate_pass_a. destruct d.
    - destruct (a_down w s el) as [vs|]; [|split; constructor]. destruct (a_container w el), vs; try (split; constructor); apply element_history.
    - destruct (a_up w s el) as [vs|]; [|split; constructor]. apply element_history.
  Qed.
  Lemma status_gives o : gives o (status o).
  Proof. destruct o; constructor; easy. Qed.
  Lemma bool_gives o : o <> OUneval -> gives o (of_bool (o_bool o)).
  Proof. destruct o; try easy; constructor; easy. Qed.
  (* no element was marked invalid *)
  Definition bad_mark (e : aevent val) : bool := match e with AMark _ Invalid => true | _ => false end.
  Definition clean (tr : list (aevent val)) : bool := forallb (fun e => negb (bad_mark e)) tr.
  Lemma clean_app a b : clean (a ++ b) = (clean a && clean b)%bool.
  Proof. apply forallb_app. Qed.
  Lemma plain_clean el ev : Forall (plain el) ev -> clean ev = true.
  Proof. induction 1 as [|e ev H _ IH]; [easy|]. cbn. destruct e; [exact IH|contradiction]. Qed.
  Lemma clean_spec tr : clean tr = true <-> forall x, ~ In (AMark x Invalid) tr.
  Proof.
    unfold clean. rewrite forallb_forall. split.
    - intros H x Hx. apply H in Hx. discriminate.
    - intros H e He. destruct e as [e|x []]; try easy. now apply H in He.
  Qed.
  Definition sound (s0 : S) (st : astate S val) : Prop := history w s0 (as_trace st) (as_s st) /\ as_valid st = clean (as_trace st).
  Definition ended (s0 : S) (x : astate S val * option exn) : Prop :=
    match x with
    | (st, None) => sound s0 st
    | (st, Some e) => (e = OutOfFuel /\ sound s0 st) \/ broken w s0 (as_trace st) (as_s st) e
    end.
  Lemma and_falsy b o e : and_valid b o = Err e -> b = true /\ o = OFalsyObj /\ e = TypeErr.
  Proof. unfold and_valid. destruct b, o; try discriminate. now intros [= <-]. Qed.
  Lemma clean_status o el : clean [AEv (EEval el true o); AMark el (status o)] = o_bool o.
  Proof. now destruct o. Qed.
  Lemma descend_history s0 : forall fuel q st, sound s0 st -> ended s0 (descend_a w fuel q st).
  Proof.
    induction fuel as [|fuel IH]; intros q st Hs; (destruct q as [|el q]; [exact Hs|]); [left; now split|]. cbn [descend_a].
    destruct (memb Nat.eqb el (as_seen st)); [now apply IH|]. destruct Hs as [H V].
    pose proof (pass_history true (as_s st) el) as P. destruct (validate_pass_a w true (as_s st) el) as [[s1 [o|e]] ev]; destruct P as [F P].
    - cbv zeta. set (s2 := a_mark w s1 el (status o)). set (tr := as_trace st ++ ev ++ [AEv (EEval el true o); AMark el (status o)]).
      assert (Ht : history w s0 tr s2). { apply history_app with (s1 := as_s st); [easy|]. apply history_app with (s1 := s1); [easy|]. constructor; [apply status_gives|]. constructor. }
      assert (Ct : clean tr = (as_valid st && o_bool o)%bool). { unfold tr. now rewrite !clean_app, (plain_clean _ _ F), clean_status, V. }
      destruct (match o with OUneval => Ok (as_valid st) | _ => and_valid (as_valid st) o end) as [v|e] eqn:A.
      + assert (v = clean tr) as ->. { rewrite Ct. destruct o; try (now apply and_valid_ok in A). injection A as <-. cbn. now rewrite andb_true_r. }
        destruct o; apply IH; (split; cbn [as_trace as_s as_valid]; [|rewrite ?clean_app; cbn; now rewrite ?andb_true_r]);
          try exact Ht; (eapply history_app; [exact Ht|]); repeat constructor.
      + right. cbn [as_trace as_s]. destruct o; try discriminate; apply and_falsy in A as (A & E & ->); try discriminate.
        unfold tr in *. rewrite app_assoc in *. constructor; [exact Ht|]. apply clean_spec. rewrite clean_app, (plain_clean _ _ F), <- V, A. easy.
    - right. cbn [as_trace as_s]. apply pbroken_broken. eapply pbroken_app; eauto.
  Qed.
  Lemma ascend_history s0 : forall els st, sound s0 st -> ended s0 (ascend_a w els st).
  Proof.
    induction els as [|el els IH]; intros st Hs; [exact Hs|]. cbn [ascend_a]. destruct Hs as [H V].
    pose proof (pass_history false (as_s st) el) as P. destruct (validate_pass_a w false (as_s st) el) as [[s1 [o|e]] ev]; destruct P as [F P]; cbv zeta.
    - assert (H1 : history w s0 (as_trace st ++ ev) s1) by (eapply history_app; eauto).
      assert (Keep : (o = OUneval \/ a_valid w s1 el = Invalid) -> forall e s, sound s0 (AState s1 (as_valid st) e s (as_trace st ++ ev ++ [AEv (EEval el false o)]))).
      { intros K e s. split; cbn [as_trace as_s as_valid].
        - rewrite app_assoc. eapply history_app; [exact H1|]. destruct K as [-> |K]; [apply h_up_none|apply h_up_kept; [exact K|]]; constructor.
        - rewrite !clean_app, (plain_clean _ _ F), V. cbn. now rewrite !andb_true_r. }
      assert (Go : o <> OUneval -> v_bool (a_valid w s1 el) = true ->
        let s2 := a_mark w s1 el (of_bool (o_bool o)) in let tr := (as_trace st ++ ev ++ [AEv (EEval el false o)]) ++ [AMark el (of_bool (o_bool o))] in
        ended s0 match and_valid (as_valid st) o with
                 | Ok valid => ascend_a w els (AState s2 valid (as_elements st) (as_seen st) tr)
                 | Err e => (AState s2 (as_valid st) (as_elements st) (as_seen st) tr, Some e)
                 end).
      { intros No B s2 tr.
        assert (Et : tr = (as_trace st ++ ev) ++ [AEv (EEval el false o); AMark el (of_bool (o_bool o))]) by (unfold tr; now rewrite <- !app_assoc).
        assert (Ht : history w s0 tr s2).
        { rewrite Et. eapply history_app; [exact H1|]. apply h_up; [easy|intros E; now rewrite E in B|now apply bool_gives|]. constructor. }
        assert (Ct : clean tr = (as_valid st && o_bool o)%bool). { rewrite Et, !clean_app, (plain_clean _ _ F), V, andb_true_r. f_equal. now destruct o. }
        destruct (and_valid (as_valid st) o) as [v|e] eqn:A.
        - apply IH. split; [exact Ht|]. cbn [as_valid as_trace]. rewrite Ct. now apply and_valid_ok.
        - right. cbn [as_trace as_s]. apply and_falsy in A as (A & -> & ->). rewrite Et in *. constructor; [exact Ht|].
          apply clean_spec. now rewrite clean_app, (plain_clean _ _ F), <- V, A. }
      cbv zeta in Go. destruct (v_bool (a_valid w s1 el)) eqn:B.
      + destruct o; try (apply Go; easy). apply IH, Keep. now left.
      + assert (a_valid w s1 el = Invalid) as Iv by (destruct (a_valid w s1 el); easy). destruct o; apply IH, Keep; auto.
    - right. cbn [as_trace as_s]. apply pbroken_broken. eapply pbroken_app; eauto.
  Qed.
  Lemma validate_ended fuel s root st r : validate_a w fuel s root = (st, r) ->
    match r with
    | Ok b => history w s (as_trace st) (as_s st) /\ b = clean (as_trace st)
    | Err e => (e = OutOfFuel /\ sound s st) \/ broken w s (as_trace st) (as_s st) e
    end.
  Proof.
    unfold validate_a. intros E. assert (H0 : sound s (AState s true [] [] [])) by (split; [constructor|easy]).
    pose proof (descend_history s fuel [root] _ H0) as D. destruct (descend_a w fuel [root] _) as [st1 [e|]]; [injection E as <- <-; exact D|].
    pose proof (ascend_history s (rev (as_elements st1)) _ D) as A. destruct (ascend_a w _ st1) as [st2 [e|]]; injection E as <- <-; exact A.
  Qed.
  Theorem validate_history fuel s root st r : validate_a w fuel s root = (st, r) ->
    match r with
    | Ok _ => history w s (as_trace st) (as_s st)
    | Err e => (e = OutOfFuel /\ history w s (as_trace st) (as_s st)) \/ broken w s (as_trace st) (as_s st) e
    end.
  Proof. intros E. apply validate_ended in E. destruct r; [apply E|]. destruct E as [[-> [H _]]|H]; auto. Qed.
  Theorem validate_verdict_a fuel s root st b : validate_a w fuel s root = (st, Ok b) ->
    (b = true <-> forall x, ~ In (AMark x Invalid) (as_trace st)).
  Proof. intros E. apply validate_ended in E as [_ ->]. apply clean_spec. Qed.
End Histories.
