(* Proofs: validators that assign .valid: the order of visits. *)
From Verif Require Import PyBase PyBaseFacts ModelValidate SpecValidate ProofValidate ProofValidate2 ModelRaise SpecRaise ModelAssign SpecAssign ProofAssign.

Section Order.
  Context {S val : Type} (w : aworld S val).
  (* the invariants of ProofValidate hold of the same visits with other markings *)
  Definition shadow : world S val :=
    World (a_children w) (a_is_empty w) (a_optional w) (a_container w) (a_down w) (a_up w) (fun _ s _ _ => (s, VRTrue)) (a_receivers w) (fun _ s _ _ => s).
  Definition ghost (st : astate S val) (V : id -> vstat) : vstate S val :=
    VState (as_s st) V (as_valid st) (as_elements st) (as_seen st) (happened (as_trace st)).
  Lemma plain_local el (ev : list (aevent val)) : Forall (plain el) ev -> Forall (local el) (happened ev).
  Proof. induction 1 as [|e ev H _ IH]; [constructor|]. destruct e; [|contradiction]. cbn. now constructor. Qed.
  Lemma descend_visits V0 root fuel : forall queue st st' V,
    dinv shadow V0 root queue (ghost st V) -> descend_a w fuel queue st = (st', None) -> exists V', dinv shadow V0 root [] (ghost st' V').
  Proof.
    induction fuel as [|fuel IH]; intros queue st st' V Hi H; (destruct queue as [|el queue]; cbn [descend_a] in H; [injection H as <-; eauto|]); [discriminate|].
    destruct (memb Nat.eqb el (as_seen st)) eqn:Em.
    - apply memb_nat in Em. apply (d_seen _ _ _ _ _ Hi) in Em. eapply IH; [|exact H]. eapply dinv_seen; eassumption.
    - apply memb_nat_false in Em. pose proof (d_seen _ _ _ _ _ Hi el) as Ds. cbn [ghost vs_seen] in Ds. rewrite Ds in Em.
      pose proof (pass_history w true (as_s st) el) as P. destruct (validate_pass_a w true (as_s st) el) as [[s1 [o|e]] ev]; [|discriminate].
      destruct P as [F _]. apply plain_local in F. cbv zeta in H.
      destruct (match o with OUneval => Ok (as_valid st) | _ => and_valid (as_valid st) o end) as [valid|e] eqn:Hval; [|discriminate].
      set (s2 := a_mark w s1 el (status o)) in H.
      pose proof (fun kids s' Hk tail Ht => dinv_step shadow V0 root el queue (ghost st V) s2 o (happened ev) valid kids s' Hi Em F Hval Hk tail Ht) as Step.
      destruct (is_skip o) eqn:Esk.
      + specialize (Step [] s1 eq_refl [] (or_intror (conj eq_refl eq_refl))). rewrite !app_nil_r in Step.
        destruct o; try discriminate Esk; (eapply IH; [|exact H]); unfold ghost; cbn [as_s as_valid as_elements as_seen as_trace];
          rewrite !happened_app; exact Step.
      + specialize (Step (a_children w s2 el) s2 eq_refl [EKids el (a_children w s2 el)] (or_introl eq_refl)).
        destruct o; try discriminate Esk; (eapply IH; [|exact H]); unfold ghost; cbn [as_s as_valid as_elements as_seen as_trace];
          rewrite !happened_app, <- app_assoc; exact Step.
  Qed.
  Record upinv (st0 : astate S val) (rest : list id) (st : astate S val) : Prop := {
    u_kids : forall x, kids_of (happened (as_trace st)) x = kids_of (happened (as_trace st0)) x;
    u_evals : exists done ups, done ++ rest = rev (as_elements st0)
        /\ evals (happened (as_trace st)) = evals (happened (as_trace st0)) ++ ups
        /\ map fst ups = map (fun x => (x, false)) done }.
  Lemma ascend_visits st0 : forall rest st st', upinv st0 rest st -> ascend_a w rest st = (st', None) -> upinv st0 [] st'.
  Proof.
    induction rest as [|el rest IH]; intros st st' Hi H; cbn [ascend_a] in H; [injection H as <-; exact Hi|].
    pose proof (pass_history w false (as_s st) el) as P. destruct (validate_pass_a w false (as_s st) el) as [[s1 [o|e]] ev]; [|discriminate].
    destruct P as [F _]. apply plain_local in F. cbv zeta in H. destruct Hi as [Hk (done & ups & E1 & E2 & E3)].
    assert (Step : forall s v more, happened more = [] -> upinv st0 rest (AState s v (as_elements st) (as_seen st) ((as_trace st ++ ev ++ [AEv (EEval el false o)]) ++ more))).
    { intros s v more Hm. split; cbn [as_trace].
      - intros x. rewrite !happened_app, Hm, !kids_app, (local_kids _ _ _ F). cbn. rewrite !app_nil_r. apply Hk.
      - exists (done ++ [el]), (ups ++ [(el, false, o)]). rewrite <- app_assoc. split; [exact E1|].
        rewrite !happened_app, Hm, !evals_app, (local_evals _ _ F), E2, !map_app, E3. cbn. rewrite ?app_nil_r, <- ?app_assoc. split; reflexivity. }
    assert (Step0 : forall s v, upinv st0 rest (AState s v (as_elements st) (as_seen st) (as_trace st ++ ev ++ [AEv (EEval el false o)]))).
    { intros s v. specialize (Step s v [] eq_refl). now rewrite app_nil_r in Step. }
    destruct o; try (eapply IH; [apply Step0|exact H]); (destruct (v_bool (a_valid w s1 el)); [|eapply IH; [apply Step0|exact H]]);
      (destruct (and_valid (as_valid st) _); [|discriminate]); (eapply IH; [|exact H]); now apply Step.
  Qed.
  Lemma validate_visits fuel s root st b : validate_a w fuel s root = (st, Ok b) -> exists st0 V, dinv shadow (fun _ => Uneval) root [] (ghost st0 V) /\ upinv st0 [] st.
  Proof.
    unfold validate_a. intros H. destruct (descend_a w fuel [root] _) as [st0 [e|]] eqn:D; [discriminate|].
    destruct (ascend_a w (rev (as_elements st0)) st0) as [st1 [e|]] eqn:A; [discriminate|]. injection H as <- _.
    destruct (descend_visits (fun _ => Uneval) root fuel [root] (AState s true [] [] []) st0 (fun _ => Uneval) (dinv_init shadow s (fun _ => Uneval) root) D) as (V & Hd).
    exists st0, V. split; [exact Hd|]. eapply ascend_visits; [|exact A]. split; [easy|]. exists [], []. now rewrite app_nil_r.
  Qed.
  Theorem validate_order_a fuel s root st b : validate_a w fuel s root = (st, Ok b) ->
    exists D, breadth_first (kids_of (happened (as_trace st))) root D
      /\ map fst (evals (happened (as_trace st))) = map (fun x => (x, true)) D ++ map (fun x => (x, false)) (rev D).
  Proof.
    intros H. apply validate_visits in H as (st0 & V & Hd & [Hk (done & ups & E1 & E2 & E3)]). rewrite app_nil_r in E1. exists (as_elements st0). split.
    - destruct (d_eq _ _ _ _ _ Hd) as (popped & P1 & P2). rewrite app_nil_r in P1. cbn [ghost vs_trace vs_elements] in P1, P2.
      assert (breadth_first (kids_of (happened (as_trace st0))) root (as_elements st0)) as HB.
      { apply bfs_from_equation.
        - transitivity (firsts [] popped); [exact P2|]. f_equal. symmetry. exact P1.
        - intros x Hx. apply (d_reach _ _ _ _ _ Hd). cbn [ghost vs_trace vs_elements]. fold id. rewrite P1. rewrite P2 in Hx. apply firsts_In in Hx. tauto. }
      assert (forall n x y, walk (kids_of (happened (as_trace st0))) n x y <-> walk (kids_of (happened (as_trace st))) n x y) as Hw.
      { intros n x y. split; apply walk_mono; intros z q; rewrite Hk; easy. }
      destruct HB. split; auto.
      + intros x. rewrite bf_reach. unfold reachable. split; intros [n Hn]; exists n; now apply Hw.
      + intros D1 y D2 z D3 n ED Hz. apply Hw in Hz. destruct (bf_dist _ _ _ _ _ _ ED Hz) as (m & L & Hm). exists m. split; [exact L|]. now apply Hw.
      + intros D1 p D2 l1 z l2 y ED. rewrite Hk. intros Ep Hy. destruct (bf_siblings _ _ _ _ _ _ _ ED Ep Hy) as [?|[?|(q & Hq & Hi)]]; auto.
        right. right. exists q. now rewrite Hk.
    - pose proof (d_evals _ _ _ _ _ Hd) as Ev. cbn [ghost vs_trace vs_elements] in Ev. now rewrite E2, map_app, Ev, E3, <- E1.
  Qed.
  Theorem validate_kids_a fuel s root st b x o : validate_a w fuel s root = (st, Ok b) -> In (x, true, o) (evals (happened (as_trace st))) ->
    match o with
    | OSkipAll | OSkipAllFalse => kids_of (happened (as_trace st)) x = []
    | _ => exists s', kids_of (happened (as_trace st)) x = a_children w s' x
    end.
  Proof.
    intros H Hin. apply validate_visits in H as (st0 & V & Hd & [Hk (done & ups & E1 & E2 & E3)]). rewrite E2, in_app_iff in Hin. destruct Hin as [Hin|Hin].
    - destruct (d_skip _ _ _ _ _ Hd _ _ _ Hin) as [D1 D2]. rewrite Hk. destruct o; cbn in *; auto.
    - apply (in_map fst) in Hin. rewrite E3 in Hin. apply in_map_iff in Hin as (y & [=] & _).
  Qed.
End Order.

Section Rest.
  Context {S val : Type} (w : aworld S val).
  (* ---- the validators of one evaluation ---- *)
  Lemma calls_app (a b : list (aevent val)) : calls (a ++ b) = calls a ++ calls b.
  Proof. apply flat_map_app. Qed.
  Lemma interrupted_next fn r vs el s' e runs : continues r -> interrupted w vs el s' e runs -> interrupted w (fn :: vs) el s' e ((fn, r) :: runs).
  Proof.
    intros C [runs' fn' rest s1 E F R|runs' fn' r' rest s1 E F R]; subst.
    - apply (in_validator _ _ _ _ _ _ fn' rest s1); [easy|now constructor|exact R].
    - apply (in_receiver _ _ _ _ _ ((fn, r) :: runs') fn' r' rest s1); [easy|now constructor|exact R].
  Qed.
  Lemma chain_calls vs : forall s el s' r ev, run_chain_a w vs s el = (s', r, ev) ->
    match r with Ok o => chain_protocol vs (calls ev) o | Err e => interrupted w vs el s' e (calls ev) end.
  Proof.
    induction vs as [|fn vs IH]; intros s el s' r ev E; cbn [run_chain_a] in E; [injection E as <- <- <-; constructor|].
    destruct (a_run w fn s el) as [s1 [r1|e]] eqn:R; [|injection E as <- <- <-; apply (in_validator _ _ _ _ _ [] fn vs s); [easy|constructor|exact R]].
    assert (Cs : forall s2 x sent, send_a w (Some fn) s1 el r1 = (s2, x, sent) -> calls sent = [] /\ (forall e, x = Some e -> a_notify w (Some fn) s1 el r1 = (s2, Some e))).
    { unfold send_a. destruct (a_receivers w s1); [|now intros s2 x sent [= <- <- <-]]. destruct (a_notify w (Some fn) s1 el r1). intros s2 x sent [= <- <- <-].
      split; [easy|]. now intros e ->. }
    destruct (send_a w (Some fn) s1 el r1) as [[s2 x] sent]. destruct (Cs _ _ _ eq_refl) as [C0 Cx]. clear Cs.
    assert (Ce : calls (AEv (ERun fn el r1) :: sent) = [(fn, r1)]) by (cbn; now f_equal).
    destruct x as [e|].
    - injection E as <- <- <-. rewrite Ce. apply (in_receiver _ _ _ _ _ [] fn r1 vs s1); [easy|constructor|now apply Cx].
    - assert (G : continues r1 -> (let '(s3, o, ev') := run_chain_a w vs s2 el in (s3, o, (AEv (ERun fn el r1) :: sent) ++ ev')) = (s', r, ev) ->
                match r with Ok o => chain_protocol (fn :: vs) (calls ev) o | Err e => interrupted w (fn :: vs) el s' e (calls ev) end).
      { intros Cn E'. destruct (run_chain_a w vs s2 el) as [[s3 o] ev'] eqn:Er. injection E' as <- <- <-. apply IH in Er. change (AEv (ERun fn el r1) :: sent ++ ev') with ((AEv (ERun fn el r1) :: sent) ++ ev'). rewrite calls_app, Ce. cbn [app].
        destruct o; [now constructor|now apply interrupted_next]. }
      destruct r1; try (apply G; [constructor|exact E]); injection E as <- <- <-; rewrite Ce; repeat constructor.
  Qed.
  Theorem element_protocol_a vs s el s' r ev : validate_element_a w vs s el = (s', r, ev) ->
    (a_is_empty w s el = true /\ a_optional w s el = true /\ s' = s /\ r = Ok OTrue /\ ev = [])
    \/ ((a_is_empty w s el && a_optional w s el)%bool = false /\ vs = [] /\
        let answer := if a_is_empty w s el then VRFalse else VRTrue in
        let told := if a_receivers w s then a_notify w None s el answer else (s, None) in
        ev = (if a_receivers w s then [AEv (ESent None el answer)] else []) /\ s' = fst told
        /\ r = match snd told with None => Ok (if a_is_empty w s el then OFalse else OTrue) | Some e => Err e end)
    \/ ((a_is_empty w s el && a_optional w s el)%bool = false /\ vs <> [] /\
        match r with Ok o => chain_protocol vs (calls ev) o | Err e => interrupted w vs el s' e (calls ev) end).
  Proof.
    unfold validate_element_a. intros H. destruct (a_is_empty w s el) eqn:Em, (a_optional w s el) eqn:Op; cbn [andb negb]; [left; now injection H as <- <- <-|..];
      (destruct vs as [|v vs]; [right; left; split; [easy|]; split; [easy|]; cbv zeta|right; right; split; [easy|]; split; [easy|]; now apply chain_calls in H]);
      unfold send_a in H; destruct (a_receivers w s); try (now injection H as <- <- <-); destruct (a_notify w None s el _) as [s1 [e|]]; now injection H as <- <- <-.
  Qed.
  Theorem pass_direction_a d s el : validate_pass_a w d s el =
    match (if d then a_down w s el else a_up w s el) with
    | None => (s, Ok OUneval, [])
    | Some vs => if d && a_container w el && (match vs with [] => true | _ => false end) then (s, Ok OUneval, []) else validate_element_a w vs s el
    end.
  Proof.
    unfold validate_pass_a. destruct d; cbn [andb]; [|easy]. destruct (a_down w s el) as [vs|]; [|easy]. now destruct (a_container w el), vs.
  Qed.
  (* ---- elements whose marking is left alone ---- *)
  Lemma gives_down v o v' : gives o v' -> remarks v true o v'.
  Proof. destruct 1; constructor; easy. Qed.
  Lemma gives_up v o v' : o <> OUneval -> v <> Invalid -> gives o v' -> remarks v false o v'.
  Proof. intros No Nv. destruct 1; try easy; constructor; easy. Qed.
  Lemma own_step x el d o s (tr : list (aevent val)) s' v1 : (x = el -> remarks (a_valid w s x) d o v1) -> (x <> el -> v1 = a_valid w s x) ->
    remarked x v1 (evals (happened tr)) (a_valid w s' x) -> remarked x (a_valid w s x) ((el, d, o) :: evals (happened tr)) (a_valid w s' x).
  Proof.
    intros H1 H2 H. destruct (Nat.eq_dec el x) as [-> |Ne]; [econstructor; [now apply H1|exact H]|constructor; [easy|]]. rewrite <- H2; [exact H|congruence].
  Qed.
  Lemma history_spared x s tr s' : assigns w -> spares w x -> history w s tr s' -> remarked x (a_valid w s x) (evals (happened tr)) (a_valid w s' x).
  Proof.
    intros A [Sr Sn] H. induction H as [s|fn el r s s1 tr s' R Rc H IH|fn el r s s1 s2 tr s' R Rc Nt H IH|el s s1 tr s' Rc Nt H IH|el o v s tr s' G H IH|el s tr s' H IH|el s tr s' H IH|el o s tr s' Iv H IH|el o v s tr s' No Nv G H IH].
    - constructor.
    - apply Sr in R. rewrite <- R. exact IH.
    - apply Sr in R. apply Sn in Nt. rewrite <- R, <- Nt. exact IH.
    - apply Sn in Nt. rewrite <- Nt. exact IH.
    - cbn [happened flat_map app evals]. change (flat_map _ (flat_map _ tr)) with (evals (happened tr)). apply own_step with (v1 := a_valid w (a_mark w s el v) x); [intros ->|intros Ne|exact IH].
      + rewrite A, Nat.eqb_refl. now apply gives_down.
      + rewrite A. now apply Nat.eqb_neq in Ne as ->.
    - exact IH.
    - apply own_step with (v1 := a_valid w s x); [constructor|easy|exact IH].
    - apply own_step with (v1 := a_valid w s x); [intros ->; rewrite Iv; constructor|easy|exact IH].
    - apply own_step with (v1 := a_valid w (a_mark w s el v) x); [intros ->|intros Ne|exact IH].
      + rewrite A, Nat.eqb_refl. now apply gives_up.
      + rewrite A. now apply Nat.eqb_neq in Ne as ->.
  Qed.
  Theorem validate_spared fuel s root st b x : assigns w -> spares w x -> validate_a w fuel s root = (st, Ok b) ->
    remarked x (a_valid w s x) (evals (happened (as_trace st))) (a_valid w (as_s st) x).
  Proof. intros A Sp E. apply validate_history in E. now apply history_spared. Qed.
  (* ---- recurse=False ---- *)
  Theorem flat_a s el : match validate_flat_a w s el with
    | (Ok v, s', tr) => exists ev1 s1 d v1 ev2 s2 u, history w s ev1 s1 /\ gives d v1 /\ history w (a_mark w s1 el v1) ev2 s2
        /\ evals (happened (ev1 ++ ev2)) = [] /\ v = a_valid w s' el
        /\ ((u = OUneval /\ s' = s2 /\ tr = ev1 ++ [AEv (EEval el true d); AMark el v1] ++ ev2 ++ [AEv (EEval el false u)])
            \/ (u <> OUneval /\ exists v2, gives u v2 /\ s' = a_mark w s2 el v2
                 /\ tr = ev1 ++ [AEv (EEval el true d); AMark el v1] ++ ev2 ++ [AEv (EEval el false u); AMark el v2]))
    | (Err e, s', tr) => broken w s tr s' e
    end.
  Proof.
    unfold validate_flat_a. pose proof (pass_history w true s el) as P. destruct (validate_pass_a w true s el) as [[s1 [d|e]] ev1]; destruct P as [F1 P1]; [|now apply pbroken_broken].
    pose proof (pass_history w false (a_mark w s1 el (status d)) el) as P. destruct (validate_pass_a w false _ el) as [[s2 [u|e]] ev2]; destruct P as [F2 P2].
    - assert (E0 : evals (happened (ev1 ++ ev2)) = []).
      { rewrite happened_app, evals_app. apply plain_local in F1, F2. now rewrite (local_evals _ _ F1), (local_evals _ _ F2). }
      pose proof (status_gives d) as Gd.
      assert (K : forall r s' tr, r = a_valid w s' el -> (u = OUneval /\ s' = s2 /\ tr = ev1 ++ [AEv (EEval el true d); AMark el (status d)] ++ ev2 ++ [AEv (EEval el false u)])
            \/ (u <> OUneval /\ exists v2, gives u v2 /\ s' = a_mark w s2 el v2
                 /\ tr = ev1 ++ [AEv (EEval el true d); AMark el (status d)] ++ ev2 ++ [AEv (EEval el false u); AMark el v2]) ->
         exists ev1 s1 d v1 ev2 s2 u, history w s ev1 s1 /\ gives d v1 /\ history w (a_mark w s1 el v1) ev2 s2
        /\ evals (happened (ev1 ++ ev2)) = [] /\ r = a_valid w s' el
        /\ ((u = OUneval /\ s' = s2 /\ tr = ev1 ++ [AEv (EEval el true d); AMark el v1] ++ ev2 ++ [AEv (EEval el false u)])
            \/ (u <> OUneval /\ exists v2, gives u v2 /\ s' = a_mark w s2 el v2
                 /\ tr = ev1 ++ [AEv (EEval el true d); AMark el v1] ++ ev2 ++ [AEv (EEval el false u); AMark el v2]))).
      { intros r s' tr Er C. exists ev1, s1, d, (status d), ev2, s2, u. auto 10. }
      destruct u; (apply K; [reflexivity|]);
        first [left; now rewrite <- app_assoc|right; split; [easy|]; eexists; split; [now apply bool_gives|]; split; [reflexivity|now rewrite <- app_assoc]].
    - apply pbroken_broken. eapply pbroken_app; [|exact P2]. eapply history_app; [exact P1|]. apply h_down; [apply status_gives|constructor].
  Qed.
  (* ---- termination ---- *)
  Lemma descend_mono_a fuel : forall fuel' queue (st : astate S val), fuel <= fuel' -> snd (descend_a w fuel queue st) <> Some OutOfFuel ->
    descend_a w fuel' queue st = descend_a w fuel queue st.
  Proof.
    induction fuel as [|fuel IH]; intros fuel' queue st L H; destruct queue as [|el queue]; [now destruct fuel'|now cbn in H|now destruct fuel'|].
    destruct fuel' as [|fuel']; [lia|]. apply le_S_n in L. cbn [descend_a] in *. destruct (memb Nat.eqb el (as_seen st)); [now apply IH|].
    destruct (validate_pass_a w true (as_s st) el) as [[s1 [o|e]] ev]; [|easy].
    destruct (match o with OUneval => Ok (as_valid st) | _ => and_valid (as_valid st) o end); [|easy]. cbv zeta in *. destruct o; now apply IH.
  Qed.
  Lemma pbroken_pythonic s tr s' e : pythonic w -> pbroken w s tr s' e -> e <> OutOfFuel.
  Proof. intros [P1 P2] [] ->; first [eapply P1; eassumption|eapply P2; eassumption]. Qed.
  Lemma descend_ends U : pythonic w -> (forall s x, In x U -> incl (a_children w s x) U) ->
    forall n queue (st : astate S val), unseen U (as_seen st) <= n -> incl queue U -> exists F, snd (descend_a w F queue st) <> Some OutOfFuel.
  Proof.
    intros Py HU. induction n as [n IHn] using lt_wf_ind. induction queue as [|el queue IHq]; intros st Hn Hq; [now exists 0|].
    assert (In el U) as Hel by (apply Hq; now left). assert (incl queue U) as Hq' by (intros x Hx; apply Hq; now right).
    destruct (memb Nat.eqb el (as_seen st)) eqn:Em.
    - destruct (IHq st Hn Hq') as [F HF]. exists (Datatypes.S F). cbn [descend_a]. now rewrite Em.
    - apply memb_nat_false in Em as Em'. pose proof (unseen_cons U _ _ Em' Hel) as Hlt.
      pose proof (pass_history w true (as_s st) el) as P. destruct (validate_pass_a w true (as_s st) el) as [[s1 [o|e]] ev] eqn:Ep; destruct P as [_ P].
      + destruct (match o with OUneval => Ok (as_valid st) | _ => and_valid (as_valid st) o end) as [valid|e] eqn:Ev.
        * set (s2 := a_mark w s1 el (status o)). set (mk := fun tr : list (aevent val) => AState s2 valid (as_elements st ++ [el]) (el :: as_seen st) tr).
          set (t1 := as_trace st ++ ev ++ [AEv (EEval el true o); AMark el (status o)]).
          destruct (IHn _ (Nat.lt_le_trans _ _ _ Hlt Hn) queue (mk t1) (Nat.le_refl _) Hq') as [F1 HF1].
          destruct (IHn _ (Nat.lt_le_trans _ _ _ Hlt Hn) (queue ++ a_children w s2 el) (mk (t1 ++ [AEv (EKids el (a_children w s2 el))])) (Nat.le_refl _)) as [F2 HF2].
          { apply incl_app; [exact Hq'|]. now apply HU. }
          exists (Datatypes.S (F1 + F2)). cbn [descend_a]. rewrite Em, Ep, Ev. cbv zeta. fold s2. fold t1.
          change (AState s2 valid (as_elements st ++ [el]) (el :: as_seen st) t1) with (mk t1).
          change (AState s2 valid (as_elements st ++ [el]) (el :: as_seen st) (t1 ++ [AEv (EKids el (a_children w s2 el))])) with (mk (t1 ++ [AEv (EKids el (a_children w s2 el))])).
          assert (G : forall F q x, F <= F1 + F2 -> snd (descend_a w F q x) <> Some OutOfFuel -> snd (descend_a w (F1 + F2) q x) <> Some OutOfFuel).
          { intros F q x HF Hx. now rewrite (descend_mono_a F (F1 + F2) q x HF Hx). }
          destruct o; (eapply G; [|first [exact HF1|exact HF2]]; lia).
        * exists 1. cbn [descend_a]. rewrite Em, Ep, Ev. cbn [snd]. destruct o; try discriminate; apply and_falsy in Ev as (_ & _ & ->); discriminate.
      + exists 1. cbn [descend_a]. rewrite Em, Ep. cbn [snd]. apply pbroken_pythonic in P; [congruence|exact Py].
  Qed.
  Lemma ascend_ends : pythonic w -> forall els (st : astate S val), snd (ascend_a w els st) <> Some OutOfFuel.
  Proof.
    intros Py. induction els as [|el els IH]; intros st; [easy|]. cbn [ascend_a]. pose proof (pass_history w false (as_s st) el) as P.
    destruct (validate_pass_a w false (as_s st) el) as [[s1 [o|e]] ev]; destruct P as [_ P]; cbv zeta.
    - destruct o; try apply IH; (destruct (v_bool (a_valid w s1 el)); [|apply IH]); (destruct (and_valid (as_valid st) _) eqn:A; [apply IH|]);
        apply and_falsy in A as (_ & _ & ->); discriminate.
    - cbn [snd]. apply pbroken_pythonic in P; [congruence|exact Py].
  Qed.
  Theorem validate_ends_a (U : list id) s root : pythonic w -> (forall s x, In x U -> incl (a_children w s x) U) -> In root U ->
    exists F st r, r <> Err OutOfFuel /\ forall fuel, F <= fuel -> validate_a w fuel s root = (st, r).
  Proof.
    intros Py HU Hr. destruct (descend_ends U Py HU _ [root] (AState s true [] [] []) (Nat.le_refl _)) as [F HF]; [now intros x [<-|[]]|].
    exists F, (fst (validate_a w F s root)), (snd (validate_a w F s root)). split.
    - unfold validate_a. destruct (descend_a w F [root] _) as [st [e|]]; cbn [snd] in *; [congruence|].
      pose proof (ascend_ends Py (rev (as_elements st)) st) as A. destruct (ascend_a w _ st) as [st' [e|]]; cbn [snd] in *; congruence.
    - intros fuel L. unfold validate_a. rewrite (descend_mono_a F fuel _ _ L HF). now destruct (match descend_a w F [root] _ with (a, Some _) => _ | _ => _ end).
  Qed.
End Rest.
