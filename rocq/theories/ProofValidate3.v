(* Validation forgets earlier verdicts. *)
From Verif Require Import PyBase PyBaseFacts ModelValidate SpecValidate ProofValidate ProofValidate2.

#[local] Arguments validate_pass : simpl never.

Section Forget.
  Context {S val : Type} (w : world S val).
  Hypothesis blind : forall v s V V' el, w_run w v s V el = w_run w v s V' el.

  Lemma run_chain_blind V V' el : forall vs s, run_chain w vs s V el = run_chain w vs s V' el.
  Proof.
    induction vs as [|v vs IH]; intros s; simpl; [easy|].
    rewrite (blind v s V V' el). destruct (w_run w v s V' el) as [s1 r].
    destruct (send w (Some v) s1 el r) as [s2 sent]. destruct r; try easy; now rewrite IH.
  Qed.
  Lemma validate_element_blind V V' vs s el : validate_element w vs s V el = validate_element w vs s V' el.
  Proof. unfold validate_element. destruct vs; [easy|]. now rewrite (run_chain_blind V V'). Qed.
  Lemma validate_pass_blind V V' d s el : validate_pass w d s V el = validate_pass w d s V' el.
  Proof.
    unfold validate_pass. destruct d.
    - destruct (w_down w s el) as [vs|]; [|easy]. destruct (w_container w el), vs; try easy;
        apply validate_element_blind.
    - destruct (w_up w s el); [|easy]. apply validate_element_blind.
  Qed.

  (* two runs that differ in markings only, and not in those of [P] *)
  Definition same (P : id -> Prop) (st st' : vstate S val) : Prop :=
    vs_s st = vs_s st' /\ vs_valid st = vs_valid st' /\ vs_elements st = vs_elements st'
    /\ vs_seen st = vs_seen st' /\ vs_trace st = vs_trace st' /\ (forall x, P x -> vs_V st x = vs_V st' x).
  Definition same_res (R : vstate S val -> vstate S val -> Prop) (r r' : res (vstate S val)) : Prop :=
    match r, r' with Ok a, Ok b => R a b | Err e, Err e' => e = e' | _, _ => False end.
  Definition sameE (st st' : vstate S val) : Prop := same (fun x => In x (vs_elements st)) st st'.

  Lemma upd_agree (P : id -> Prop) V V' el v (Q : id -> Prop) :
    (forall x, P x -> V x = V' x) -> (forall x, Q x -> x = el \/ P x) ->
    forall x, Q x -> upd V el v x = upd V' el v x.
  Proof.
    intros HV HQ x Hx. unfold upd. destruct (Nat.eqb_spec x el) as [|Hne]; [easy|].
    destruct (HQ x Hx); [contradiction|]. now apply HV.
  Qed.

  Lemma descend_same fuel : forall queue st st', sameE st st' ->
    same_res sameE (descend w fuel queue st) (descend w fuel queue st').
  Proof.
    induction fuel as [|fuel IH]; intros queue [s V vl els seen tr] [s' V' vl' els' seen' tr'] H;
      destruct queue as [|el queue]; simpl; try exact H; [reflexivity|].
    destruct H as (E1 & E2 & E3 & E4 & E5 & HV). simpl in *. subst s' vl' els' seen' tr'.
    destruct (memb Nat.eqb el seen).
    - apply IH. repeat split; auto.
    - rewrite (validate_pass_blind V V').
      destruct (validate_pass w true s V' el) as [[s1 o] ev].
      assert (HU : forall v x, In x (els ++ [el]) -> upd V el v x = upd V' el v x).
      { intros v. apply (upd_agree (fun x => In x els)); [exact HV|].
        intros x Hx. apply in_app_iff in Hx. destruct Hx as [Hx|[<-|[]]]; auto. }
      destruct o; simpl; try (destruct (and_valid vl _)); try reflexivity;
        apply IH; repeat split; exact (HU _) || auto.
  Qed.
  Lemma ascend_same (P : id -> Prop) els : forall st st', (forall x, In x els -> P x) -> same P st st' ->
    same_res (same P) (ascend w els st) (ascend w els st').
  Proof.
    induction els as [|el els IH]; intros [s V vl es seen tr] [s' V' vl' es' seen' tr'] HP H; simpl; [exact H|].
    destruct H as (E1 & E2 & E3 & E4 & E5 & HV). simpl in *. subst s' vl' es' seen' tr'.
    rewrite (validate_pass_blind V V').
    destruct (validate_pass w false s V' el) as [[s1 o] ev].
    rewrite (HV el (HP el (or_introl eq_refl))).
    assert (HP' : forall x, In x els -> P x) by auto.
    assert (HU : forall v x, P x -> upd V el v x = upd V' el v x).
    { intros v. apply (upd_agree P); auto. }
    destruct o; simpl; try (destruct (v_bool (V' el))); try (destruct (and_valid vl _)); try reflexivity;
      (apply IH; [exact HP'|repeat split; exact (HU _) || auto]).
  Qed.
End Forget.

Lemma validate_forgets {S val} (w : world S val) fuel s V V' root :
  (forall v s V V' el, w_run w v s V el = w_run w v s V' el) ->
  match validate w fuel s V root, validate w fuel s V' root with
  | Ok (b, st), Ok (b', st') =>
      b = b' /\ vs_s st = vs_s st' /\ vs_trace st = vs_trace st'
      /\ forall x d o, In (x, d, o) (evals (vs_trace st)) -> vs_V st x = vs_V st' x
  | Err e, Err e' => e = e'
  | _, _ => False
  end.
Proof.
  intros blind.
  assert (Hd := descend_same w blind fuel [root] (VState s V true [] [] []) (VState s V' true [] [] [])).
  assert (H0 : sameE (VState s V true [] [] [] : vstate S val) (VState s V' true [] [] [])) by now repeat split.
  specialize (Hd H0).
  assert (Ha : same_res (fun u1 u2 => vs_valid u1 = vs_valid u2 /\ vs_s u1 = vs_s u2 /\ vs_trace u1 = vs_trace u2)
                 (bind (descend w fuel [root] (VState s V true [] [] [])) (fun st => ascend w (rev (vs_elements st)) st))
                 (bind (descend w fuel [root] (VState s V' true [] [] [])) (fun st => ascend w (rev (vs_elements st)) st))).
  { destruct (descend w fuel [root] (VState s V true [] [] [])) as [d1|e1],
      (descend w fuel [root] (VState s V' true [] [] [])) as [d2|e2]; simpl in *; try easy.
    destruct Hd as (A1 & A2 & A3 & A4 & A5 & A6). rewrite <- A3.
    assert (Hx := ascend_same w blind (fun x => In x (vs_elements d1)) (rev (vs_elements d1)) d1 d2
             (fun x Hx => proj2 (in_rev _ _) Hx) (conj A1 (conj A2 (conj A3 (conj A4 (conj A5 A6)))))).
    destruct (ascend w (rev (vs_elements d1)) d1) as [u1|f1], (ascend w (rev (vs_elements d1)) d2) as [u2|f2];
      simpl in *; try easy. destruct Hx as (B1 & B2 & B3 & B4 & B5 & B6). auto. }
  destruct (validate w fuel s V root) as [[b st]|e] eqn:E1, (validate w fuel s V' root) as [[b' st']|e'] eqn:E2;
    assert (F1 := E1); assert (F2 := E2); unfold validate in E1, E2;
    destruct (descend w fuel [root] (VState s V true [] [] [])) as [d1|e1],
      (descend w fuel [root] (VState s V' true [] [] [])) as [d2|e2]; simpl in *; try easy; try congruence;
    destruct (ascend w (rev (vs_elements d1)) d1) as [u1|f1], (ascend w (rev (vs_elements d2)) d2) as [u2|f2];
      simpl in *; try easy; try congruence.
  injection E1 as <- <-. injection E2 as <- <-. destruct Ha as (B1 & B2 & B3).
  split; [easy|]. split; [easy|]. split; [easy|]. intros x d o Hin.
  destruct (proj1 (validate_markings w _ _ _ _ _ _ F1) x) as [(d1' & o1 & H1 & H2 & ->)|[Hn _]]; [|now destruct (Hn d o)].
  destruct (proj1 (validate_markings w _ _ _ _ _ _ F2) x) as [(d2' & o2 & H3 & H4 & ->)|[Hn _]];
    [|rewrite B3 in Hin; now destruct (Hn d o)].
  rewrite <- B3 in H3, H4.
  now rewrite (evals_once w _ _ _ _ _ _ _ _ _ _ F1 H1 H3), (evals_once w _ _ _ _ _ _ _ _ _ _ F1 H2 H4).
Qed.

(* validators and receivers that also leave everything else as it is *)
Lemma validate_again {S val} (w : world S val) fuel s V root b st :
  (forall v s V V' el, w_run w v s V el = w_run w v s V' el) ->
  (forall v s V el, fst (w_run w v s V el) = s) -> (forall fn s el r, w_notify w fn s el r = s) ->
  validate w fuel s V root = Ok (b, st) ->
  vs_s st = s /\ exists st', validate w fuel (vs_s st) (vs_V st) root = Ok (b, st')
    /\ vs_trace st' = vs_trace st /\ forall x, vs_V st' x = vs_V st x.
Proof.
  intros blind Hr Hn H.
  assert (Hs : vs_s st = s).
  { assert (Hc : forall vs s V el, fst (fst (run_chain w vs s V el)) = s).
    { induction vs as [|v vs IH]; intros s0 V0 el; simpl; [easy|].
      specialize (Hr v s0 V0 el). destruct (w_run w v s0 V0 el) as [s1 r]. simpl in Hr. subst s1.
      unfold send. destruct (w_receivers w s0); rewrite ?Hn; destruct r; try easy;
        specialize (IH s0 V0 el); destruct (run_chain w vs s0 V0 el) as [[s3 o] ev]; exact IH. }
    assert (Hp : forall d s V el, fst (fst (validate_pass w d s V el)) = s).
    { intros d s0 V0 el.
      assert (He : forall vs, fst (fst (validate_element w vs s0 V0 el)) = s0).
      { intros vs. unfold validate_element. destruct (_ && _); [easy|]. destruct vs; [|apply Hc].
        unfold send. destruct (w_receivers w s0); rewrite ?Hn; easy. }
      unfold validate_pass. destruct d.
      - destruct (w_down w s0 el) as [vs|]; [|easy]. destruct (w_container w el), vs; easy || apply He.
      - destruct (w_up w s0 el); [apply He|easy]. }
    assert (Hd : forall fuel q st st', descend w fuel q st = Ok st' -> vs_s st' = vs_s st).
    { induction fuel0 as [|fuel0 IH]; intros q [s0 V0 vl els seen tr] st' E; destruct q as [|el q]; simpl in E;
        try (injection E as <-; easy); try easy.
      destruct (memb Nat.eqb el seen); [now apply IH in E|].
      specialize (Hp true s0 V0 el). destruct (validate_pass w true s0 V0 el) as [[s1 o] ev]. simpl in Hp. subst s1.
      destruct o; simpl in E; try (destruct (and_valid vl _); [|easy]); now apply IH in E. }
    assert (Ha : forall els st st', ascend w els st = Ok st' -> vs_s st' = vs_s st).
    { induction els as [|el els IH]; intros [s0 V0 vl es seen tr] st' E; simpl in E; [now injection E as <-|].
      specialize (Hp false s0 V0 el). destruct (validate_pass w false s0 V0 el) as [[s1 o] ev]. simpl in Hp. subst s1.
      destruct o; try (destruct (v_bool (V0 el))); try (destruct (and_valid vl _); [|easy]); now apply IH in E. }
    unfold validate in H. destruct (descend w fuel [root] (VState s V true [] [] [])) as [d|] eqn:Ed; [|easy].
    simpl in H. destruct (ascend w (rev (vs_elements d)) d) as [u|] eqn:Eu; [|easy]. simpl in H.
    injection H as <- <-. rewrite (Ha _ _ _ Eu), (Hd _ _ _ _ Ed). easy. }
  split; [exact Hs|]. rewrite Hs.
  assert (Hf := validate_forgets w fuel s V (vs_V st) root blind). rewrite H in Hf.
  destruct (validate w fuel s (vs_V st) root) as [[b' st']|e] eqn:E; [|easy].
  destruct Hf as (<- & _ & Ht & Hx). exists st'. split; [easy|]. split; [easy|]. intros x.
  destruct (proj1 (validate_markings w _ _ _ _ _ _ E) x) as [(d & o & H1 & _)|[_ Hno]]; [|exact Hno].
  rewrite <- Ht in H1. symmetry. eapply Hx, H1.
Qed.
