From Verif Require Import PyBase PyBaseFacts ModelValidate SpecValidate.

(* ------------------- first occurrences ------------------- *)
Fixpoint firsts (seen l : list nat) : list nat :=
  match l with
  | [] => []
  | x :: r => if memb Nat.eqb x seen then firsts seen r
              else x :: firsts (x :: seen) r
  end.
Lemma memb_nat x l : memb Nat.eqb x l = true <-> In x l.
Proof. apply memb_In. intros; apply Nat.eqb_eq. Qed.
Lemma memb_nat_false x l : memb Nat.eqb x l = false <-> ~ In x l.
Proof. rewrite <- memb_nat. destruct (memb Nat.eqb x l); split; congruence. Qed.
Lemma memb_nat_ext x l l' :
  (In x l <-> In x l') -> memb Nat.eqb x l = memb Nat.eqb x l'.
Proof.
  intros H. destruct (memb Nat.eqb x l) eqn:E; symmetry.
  - apply memb_nat. apply H. now apply memb_nat.
  - apply memb_nat_false. intros H'. apply memb_nat_false in E. tauto.
Qed.

Lemma firsts_In seen l x : In x (firsts seen l) <-> In x l /\ ~ In x seen.
Proof.
  revert seen; induction l as [|y l IH]; intros seen; simpl; [tauto|].
  destruct (memb Nat.eqb y seen) eqn:E.
  - apply memb_nat in E. rewrite IH. intuition. subst. tauto.
  - apply memb_nat_false in E. simpl. rewrite IH. simpl.
    destruct (Nat.eq_dec y x) as [->|Hne]; intuition.
Qed.
Lemma firsts_NoDup seen l : NoDup (firsts seen l).
Proof.
  revert seen; induction l as [|y l IH]; intros seen; simpl; [constructor|].
  destruct (memb Nat.eqb y seen); [apply IH|]. constructor; [|apply IH].
  rewrite firsts_In. simpl. tauto.
Qed.
Lemma firsts_snoc seen l x :
  firsts seen (l ++ [x]) =
  firsts seen l ++ (if memb Nat.eqb x (seen ++ l) then [] else [x]).
Proof.
  revert seen; induction l as [|y l IH]; intros seen.
  - simpl. rewrite app_nil_r. destruct (memb Nat.eqb x seen); easy.
  - simpl. destruct (memb Nat.eqb y seen) eqn:E.
    + rewrite IH. f_equal. apply memb_nat in E.
      rewrite (memb_nat_ext x (seen ++ y :: l) (seen ++ l)); [easy|].
      rewrite !in_app_iff. simpl. intuition. subst. tauto.
    + rewrite IH. simpl. f_equal. f_equal.
      rewrite (memb_nat_ext x (y :: seen ++ l) (seen ++ y :: l)); [easy|].
      simpl. rewrite !in_app_iff. simpl. tauto.
Qed.
Lemma firsts_order seen l E1 y E2 z E3 l1 l2 :
  firsts seen l = E1 ++ y :: E2 ++ z :: E3 -> l = l1 ++ z :: l2 -> In y l1.
Proof.
  revert seen E1 l1; induction l as [|x r IH]; intros seen E1 l1 HE Hl.
  - now destruct l1.
  - simpl in HE.
    assert (In z (firsts seen (x :: r))) as Hz.
    { simpl. destruct (memb Nat.eqb x seen) eqn:Em; rewrite HE;
        apply in_app_iff; right; right; apply in_app_iff; right; now left. }
    destruct (memb Nat.eqb x seen) eqn:Em.
    + destruct l1 as [|x1 l1].
      * injection Hl as -> _. apply firsts_In in Hz. apply memb_nat in Em. tauto.
      * injection Hl as -> Hl. right. eapply IH; eassumption.
    + destruct E1 as [|e E1].
      * injection HE as -> HE. destruct l1 as [|x1 l1].
        -- injection Hl as -> _. exfalso.
           assert (In z (firsts (z :: seen) r)) as H
             by (rewrite HE; apply in_app_iff; right; now left).
           apply firsts_In in H. apply H. now left.
        -- injection Hl as -> _. now left.
      * injection HE as -> HE. destruct l1 as [|x1 l1].
        -- injection Hl as -> _. exfalso.
           assert (In z (firsts (z :: seen) r)) as H.
           { rewrite HE. apply in_app_iff; right; right. apply in_app_iff; right; now left. }
           apply firsts_In in H. apply H. now left.
        -- injection Hl as -> Hl. right. eapply IH; eassumption.
Qed.

Lemma walk_S_inv {A} (kids : A -> list A) n x z :
  walk kids (S n) x z -> exists y, walk kids n x y /\ In z (kids y).
Proof. intros H. inversion H; subst. eauto. Qed.

(* ------------------- breadth first from the equation ------------------- *)
Lemma bfs_from_equation kids root D :
  D = firsts [] (root :: flat_map kids D) ->
  (forall x, In x D -> reachable kids root x) ->
  breadth_first kids root D.
Proof.
  intros HD Hr.
  assert (NoDup D) as Hnd by (rewrite HD; apply firsts_NoDup).
  assert (forall x, In x D <-> In x (root :: flat_map kids D)) as Hin.
  { intros x. rewrite HD at 1. rewrite firsts_In. simpl. tauto. }
  assert (exists rest, D = root :: rest) as Hhd.
  { rewrite HD. simpl. eauto. }
  assert (forall x, In x D <-> reachable kids root x) as Hreach.
  { intros x; split; [apply Hr|]. intros [n Hn].
    remember root as r eqn:Er in Hn. induction Hn as [x|n x y z Hw IH Hz].
    - subst. apply Hin. now left.
    - apply Hin. right. apply in_flat_map. exists y. split; auto. }
  assert (forall D1 p D2 l1 z l2 y,
        D = D1 ++ p :: D2 -> kids p = l1 ++ z :: l2 ->
        (exists E1 E2 E3, D = E1 ++ y :: E2 ++ z :: E3) ->
        y = root \/ In y l1 \/ (exists q, In q D1 /\ In y (kids q))) as Hsib.
  { intros D1 p D2 l1 z l2 y E Ek (E1 & E2 & E3 & EE).
    assert (In y (root :: flat_map kids D1 ++ l1)) as Hy.
    { eapply (firsts_order [] (root :: flat_map kids D) E1 y E2 z E3
                _ (l2 ++ flat_map kids D2)).
      - rewrite <- HD. exact EE.
      - rewrite E, flat_map_app. simpl. rewrite Ek.
        rewrite <- !app_assoc. simpl. rewrite <- ?app_assoc. easy. }
    destruct Hy as [Hy|Hy]; [now left|right].
    apply in_app_iff in Hy as [Hy|Hy]; [right|now left].
    apply in_flat_map in Hy as (q & Hq & Hy). eauto. }
  split; auto.
  intros D1 y D2 z D3 n E Hw. revert D1 y D2 z D3 E Hw.
  induction n as [|n IH]; intros D1 y D2 z D3 E Hw.
  - inversion Hw; subst z. destruct Hhd as [rest Hhd].
    exfalso. rewrite E in Hnd. rewrite app_comm_cons, app_assoc in Hnd.
    apply NoDup_remove_2 in Hnd. apply Hnd.
    rewrite Hhd in E. destruct D1 as [|d D1]; injection E as -> _;
      apply in_app_iff; left; simpl; auto.
  - apply walk_S_inv in Hw as (p & Hw' & Hz).
    assert (In p D) as Hp by (apply Hreach; now exists n).
    apply in_split in Hp as (F1 & F2 & EF). apply in_split in Hz as (l1 & l2 & El).
    destruct (Hsib F1 p F2 l1 z l2 y EF El) as [->|[Hy|(q & Hq & Hy)]].
    + now exists D1, D2, D3.
    + exists 0. split; [lia|constructor].
    + exists (S n). split; [lia|]. econstructor; [exact Hw'|].
      rewrite El. apply in_app_iff. now left.
    + apply in_split in Hq as (G1 & G2 & EG).
      destruct (IH G1 q G2 p F2) as (m & Hm & Hwq).
      * rewrite EF, EG, <- app_assoc. easy.
      * exact Hw'.
      * exists (S m). split; [lia|]. econstructor; eassumption.
Qed.

(* ------------------- pass events ------------------- *)
Section Run.
  Context {S val : Type} (w : world S val).

  Definition local (el : id) (e : event val) : Prop :=
    match e with ERun _ x _ | ESent _ x _ => x = el | _ => False end.

  Lemma send_local fn s el r : Forall (local el) (snd (send w fn s el r)).
  Proof. unfold send. destruct (w_receivers w s); simpl; repeat constructor. Qed.

  Lemma chain_local vs s V el : Forall (local el) (snd (run_chain w vs s V el)).
  Proof.
    revert s; induction vs as [|fn vs IH]; intros s; simpl; [constructor|].
    destruct (w_run w fn s V el) as [s1 r].
    pose proof (send_local (Some fn) s1 el r) as Hs.
    destruct (send w (Some fn) s1 el r) as [s2 sent]. cbn [snd] in Hs.
    specialize (IH s2).
    destruct (run_chain w vs s2 V el) as [[s3 o3] ev3]. cbn [snd] in IH.
    destruct r; cbn [snd];
      try (constructor; [reflexivity|exact Hs]);
      rewrite app_comm_cons; apply Forall_app; split; auto;
      constructor; easy.
  Qed.
  Lemma velem_local vs s V el : Forall (local el) (snd (validate_element w vs s V el)).
  Proof.
    unfold validate_element. destruct (_ && _); [constructor|].
    destruct vs as [|v vs]; [|apply chain_local].
    pose proof (send_local None s el (if negb (w_is_empty w s el) then VRTrue else VRFalse)) as H.
    destruct (send _ _ _ _ _). exact H.
  Qed.
  Lemma pass_local d s V el : Forall (local el) (snd (validate_pass w d s V el)).
  Proof.
    unfold validate_pass. destruct d.
    - destruct (w_down w s el) as [vs|]; [|constructor].
      destruct (w_container w el), vs; try constructor; apply velem_local.
    - destruct (w_up w s el); [apply velem_local|constructor].
  Qed.

  Lemma local_evals el ev : Forall (local el) ev -> evals ev = [].
  Proof. induction 1 as [|e ev H _ IH]; [easy|]. destruct e; simpl in *; easy. Qed.
  Lemma local_kids el ev x : Forall (local el) ev -> kids_of ev x = [].
  Proof. induction 1 as [|e ev H _ IH]; [easy|]. destruct e; simpl in *; easy. Qed.
  Lemma evals_app (a b : list (event val)) : evals (a ++ b) = evals a ++ evals b.
  Proof. apply flat_map_app. Qed.
  Lemma kids_app (a b : list (event val)) x : kids_of (a ++ b) x = kids_of a x ++ kids_of b x.
  Proof. apply flat_map_app. Qed.

  Definition stat (o : outcome) : vstat :=
    match o with OUneval => Uneval | _ => of_bool (o_bool o) end.
  Lemma stat_bool o : v_bool (stat o) = o_bool o.
  Proof. destruct o; easy. Qed.
  Definition is_skip (o : outcome) : bool :=
    match o with OSkipAll | OSkipAllFalse => true | _ => false end.

  (* what evaluation events say about el on the way down *)
  Record dinv (V0 : id -> vstat) (root : id) (queue : list id) (st : vstate S val) : Prop := {
    d_nodup : NoDup (vs_elements st);
    d_seen : forall x, In x (vs_seen st) <-> In x (vs_elements st);
    d_kids_out : forall x, ~ In x (vs_elements st) -> kids_of (vs_trace st) x = [];
    d_eq : exists popped,
        root :: flat_map (kids_of (vs_trace st)) (vs_elements st) = popped ++ queue
        /\ vs_elements st = firsts [] popped;
    d_reach : forall x, In x (root :: flat_map (kids_of (vs_trace st)) (vs_elements st)) ->
        reachable (kids_of (vs_trace st)) root x;
    d_evals : map fst (evals (vs_trace st)) = map (fun x => (x, true)) (vs_elements st);
    d_V_in : forall x d o, In (x, d, o) (evals (vs_trace st)) -> vs_V st x = stat o;
    d_V_out : forall x, ~ In x (vs_elements st) -> vs_V st x = V0 x;
    d_valid : vs_valid st = forallb (fun e => o_bool (snd e)) (evals (vs_trace st));
    d_touch : forall x e, In e (vs_trace st) -> touches x e -> In x (vs_elements st);
    d_skip : forall x d o, In (x, d, o) (evals (vs_trace st)) ->
        (is_skip o = true -> kids_of (vs_trace st) x = []) /\
        (is_skip o = false -> exists s, kids_of (vs_trace st) x = w_children w s x) }.

  Lemma dinv_init s V root : dinv V root [root] (VState s V true [] [] []).
  Proof.
    split; simpl; try easy.
    - constructor. - now exists []. - intros x [<-|[]]. exists 0. constructor.
  Qed.

  Lemma walk_mono (k k' : id -> list id) n x y :
    (forall z, incl (k z) (k' z)) -> walk k n x y -> walk k' n x y.
  Proof.
    intros H. induction 1 as [|n x y z Hw IH Hz]; [constructor|].
    econstructor; [exact IH|]. now apply H.
  Qed.

  Lemma dinv_seen V0 root el queue st :
    dinv V0 root (el :: queue) st -> In el (vs_elements st) -> dinv V0 root queue st.
  Proof.
    intros H Hin. destruct H. split; auto.
    destruct d_eq0 as (popped & E1 & E2). exists (popped ++ [el]).
    rewrite <- app_assoc. split; [exact E1|].
    rewrite firsts_snoc. simpl.
    assert (memb Nat.eqb el popped = true) as ->.
    { apply memb_nat. rewrite E2 in Hin. apply firsts_In in Hin. tauto. }
    now rewrite app_nil_r.
  Qed.

  Lemma and_valid_ok b o v : and_valid b o = Ok v -> v = b && o_bool o.
  Proof. unfold and_valid. destruct b, o; simpl; congruence. Qed.

  (* visiting a new element *)
  Lemma dinv_step V0 root el queue st s1 o ev valid kids s' :
    dinv V0 root (el :: queue) st -> ~ In el (vs_elements st) ->
    Forall (local el) ev ->
    (match o with OUneval => Ok (vs_valid st) | _ => and_valid (vs_valid st) o end) = Ok valid ->
    (if is_skip o then kids = [] else kids = w_children w s' el) ->
    forall tail, (tail = [EKids el kids] \/ (tail = [] /\ kids = [])) ->
    dinv V0 root (queue ++ kids)
      (VState s1 (upd (vs_V st) el (stat o)) valid (vs_elements st ++ [el])
              (el :: vs_seen st) (vs_trace st ++ (ev ++ [EEval el true o]) ++ tail)).
  Proof.
    intros H Hnew Hev Hval Hk tail Htail. destruct H.
    set (tr' := vs_trace st ++ (ev ++ [EEval el true o]) ++ tail).
    assert (forall x, kids_of tr' x = kids_of (vs_trace st) x ++ (if Nat.eqb el x then kids else [])) as Ek.
    { intros x. unfold tr'. rewrite !kids_app, (local_kids _ _ _ Hev). simpl.
      f_equal. destruct Htail as [->|[-> ->]]; simpl.
      - apply app_nil_r. - destruct (Nat.eqb el x); easy. }
    assert (kids_of (vs_trace st) el = []) as Eel by auto.
    assert (forall x, x <> el -> kids_of tr' x = kids_of (vs_trace st) x) as Ekn.
    { intros x Hx. rewrite Ek. destruct (Nat.eqb_spec el x); [congruence|]. apply app_nil_r. }
    assert (kids_of tr' el = kids) as Eke.
    { rewrite Ek, Eel, Nat.eqb_refl. easy. }
    assert (evals tr' = evals (vs_trace st) ++ [(el, true, o)]) as Eev.
    { unfold tr'. rewrite !evals_app, (local_evals _ _ Hev). simpl.
      destruct Htail as [->|[-> ->]]; easy. }
    assert (flat_map (kids_of tr') (vs_elements st ++ [el])
            = flat_map (kids_of (vs_trace st)) (vs_elements st) ++ kids) as Efm.
    { rewrite flat_map_app. simpl. rewrite Eke, app_nil_r. f_equal.
      revert Hnew. clear -Ekn. induction (vs_elements st) as [|x l IH]; intros Hnew; [easy|].
      simpl. rewrite Ekn by (intros ->; apply Hnew; now left).
      rewrite IH; [easy|]. intros H. apply Hnew. now right. }
    assert (forall x, reachable (kids_of (vs_trace st)) root x -> reachable (kids_of tr') root x) as Hmono.
    { intros x [n Hn]. exists n. eapply walk_mono; [|exact Hn]. intros z y Hy.
      rewrite Ek. apply in_app_iff. now left. }
    assert (forall x d o', In (x, d, o') (evals (vs_trace st)) -> In x (vs_elements st)) as Hevin.
    { intros x d o' Hx. apply (in_map fst) in Hx. rewrite d_evals0 in Hx.
      apply in_map_iff in Hx as (y & E & Hy). simpl in E. injection E as -> _. easy. }
    split; cbn [vs_elements vs_seen vs_trace vs_V vs_valid].
    - apply (Permutation.Permutation_NoDup (Permutation.Permutation_cons_append _ el)).
      now constructor.
    - intros x. simpl. rewrite d_seen0, in_app_iff. simpl. tauto.
    - intros x Hx. rewrite in_app_iff in Hx. simpl in Hx.
      rewrite Ekn by (intros ->; apply Hx; auto). apply d_kids_out0. tauto.
    - destruct d_eq0 as (popped & E1 & E2). exists (popped ++ [el]). fold tr'.
      rewrite Efm, app_comm_cons, E1, <- !app_assoc. simpl. split; [easy|].
      rewrite firsts_snoc. simpl.
      assert (memb Nat.eqb el popped = false) as ->.
      { apply memb_nat_false. intros Hin. apply Hnew. rewrite E2. apply firsts_In. simpl. tauto. }
      now rewrite <- E2.
    - fold tr'. intros x. rewrite Efm, app_comm_cons, in_app_iff. intros [Hx|Hx].
      + apply Hmono. auto.
      + assert (reachable (kids_of (vs_trace st)) root el) as Hel.
        { apply d_reach0. destruct d_eq0 as (popped & -> & _).
          apply in_app_iff. right. now left. }
        apply Hmono in Hel as [n Hn]. exists (Datatypes.S n).
        econstructor; [exact Hn|]. now rewrite Eke.
    - fold tr'. rewrite Eev, !map_app, d_evals0. easy.
    - fold tr'. intros x d o'. rewrite Eev, in_app_iff. unfold upd.
      intros [Hx|[E|[]]].
      + destruct (Nat.eqb_spec x el) as [->|]; [|eauto].
        exfalso. apply Hnew. eauto.
      + injection E as <- <- <-. now rewrite Nat.eqb_refl.
    - intros x Hx. rewrite in_app_iff in Hx. simpl in Hx. unfold upd.
      destruct (Nat.eqb_spec x el) as [->|]; [tauto|]. apply d_V_out0. tauto.
    - fold tr'. rewrite Eev, forallb_app. simpl. rewrite <- d_valid0, andb_true_r.
      destruct o; try (apply and_valid_ok in Hval; exact Hval).
      injection Hval as <-. simpl. now rewrite andb_true_r.
    - intros x e He Ht. rewrite in_app_iff. simpl.
      unfold tr' in He. rewrite in_app_iff, in_app_iff, in_app_iff in He.
      destruct He as [He|[[He|[<-|[]]]|He]].
      + left. eauto.
      + rewrite Forall_forall in Hev. apply Hev in He. right. left.
        destruct e; simpl in *; easy || congruence.
      + simpl in Ht. right. now left.
      + destruct Htail as [->|[-> _]]; [|easy]. destruct He as [<-|[]]. easy.
    - fold tr'. intros x d o'. rewrite Eev, in_app_iff. intros [Hx|[E|[]]].
      + assert (x <> el) as Hne by (intros ->; apply Hnew; eauto).
        rewrite Ekn by easy. eauto.
      + injection E as <- <- <-. rewrite Eke. split; intros E; rewrite E in Hk; [easy|eauto].
  Qed.

  Lemma descend_inv V0 root fuel : forall queue st st',
    dinv V0 root queue st -> descend w fuel queue st = Ok st' -> dinv V0 root [] st'.
  Proof.
    induction fuel as [|fuel IH]; intros queue st st' Hi H; destruct queue as [|el queue];
      cbn [descend] in H; try (injection H as <-; exact Hi); try easy.
    destruct (memb Nat.eqb el (vs_seen st)) eqn:Em.
    - apply memb_nat in Em. apply (d_seen _ _ _ _ Hi) in Em.
      eapply IH; [|exact H]. eapply dinv_seen; eassumption.
    - apply memb_nat_false in Em. rewrite (d_seen _ _ _ _ Hi) in Em.
      pose proof (pass_local true (vs_s st) (vs_V st) el) as Hl.
      destruct (validate_pass w true (vs_s st) (vs_V st) el) as [[s1 o] ev]. cbn [snd] in Hl.
      destruct (match o with OUneval => Ok (vs_valid st) | _ => and_valid (vs_valid st) o end)
        as [valid|e] eqn:Hval; [|easy].
      pose proof (fun kids s' Hk tail Ht =>
        dinv_step V0 root el queue st s1 o ev valid kids s' Hi Em Hl Hval Hk tail Ht) as Step.
      fold (stat o) in H.
      destruct (is_skip o) eqn:Esk.
      + specialize (Step [] s1 eq_refl [] (or_intror (conj eq_refl eq_refl))).
        rewrite !app_nil_r in Step.
        destruct o; try discriminate Esk; eapply IH; [exact Step|exact H|exact Step|exact H].
      + specialize (Step (w_children w s1 el) s1 eq_refl [EKids el (w_children w s1 el)]
                    (or_introl eq_refl)).
        rewrite app_assoc in Step.
        destruct o; try discriminate Esk; eapply IH; try exact H; exact Step.
  Qed.

  (* ------------------- ascent ------------------- *)
  (* the marking left by an ascent outcome on top of a descent marking *)
  Definition final (v : vstat) (u : outcome) : vstat :=
    match u with
    | OUneval => v
    | _ => if v_bool v then of_bool (o_bool u) else v
    end.
  Lemma final_bool v u : v_bool (final v u) = v_bool v && o_bool u.
  Proof. destruct v, u; easy. Qed.

  Record ainv (st0 : vstate S val) (rest : list id) (st : vstate S val) : Prop := {
    a_elements : vs_elements st = vs_elements st0;
    a_kids : forall x, kids_of (vs_trace st) x = kids_of (vs_trace st0) x;
    a_evals : exists done ups,
        done ++ rest = rev (vs_elements st0)
        /\ evals (vs_trace st) = evals (vs_trace st0) ++ ups
        /\ map fst ups = map (fun x => (x, false)) done
        /\ (forall x, ~ In x done -> vs_V st x = vs_V st0 x)
        /\ (forall x d u, In (x, d, u) ups -> vs_V st x = final (vs_V st0 x) u);
    a_valid : vs_valid st = forallb (fun e => o_bool (snd e)) (evals (vs_trace st));
    a_touch : forall x e, In e (vs_trace st) -> touches x e -> In x (vs_elements st0) }.

  Lemma ascend_inv V0 root st0 : forall rest st st',
    dinv V0 root [] st0 -> ainv st0 rest st -> ascend w rest st = Ok st' -> ainv st0 [] st'.
  Proof.
    intros rest st st' Hd. revert st. induction rest as [|el rest IH]; intros st Hi H;
      cbn [ascend] in H.
    - injection H as <-. exact Hi.
    - pose proof (pass_local false (vs_s st) (vs_V st) el) as Hl.
      destruct (validate_pass w false (vs_s st) (vs_V st) el) as [[s1 o] ev]. cbn [snd] in Hl.
      set (tr' := vs_trace st ++ ev ++ [EEval el false o]) in *.
      destruct Hi as [He Hk (done & ups & E1 & E2 & E3 & HVo & HVi) Hv Ht].
      assert (In el (vs_elements st0)) as Hel.
      { apply in_rev. rewrite <- E1. apply in_app_iff. right. now left. }
      assert (~ In el done) as Hnd.
      { pose proof (NoDup_rev (d_nodup _ _ _ _ Hd)) as Hn. rewrite <- E1 in Hn.
        apply NoDup_remove_2 in Hn. rewrite in_app_iff in Hn. tauto. }
      assert (evals tr' = evals (vs_trace st) ++ [(el, false, o)]) as Eev.
      { unfold tr'. rewrite !evals_app, (local_evals _ _ Hl). easy. }
      assert (forall x, kids_of tr' x = kids_of (vs_trace st0) x) as Ek.
      { intros x. unfold tr'. rewrite !kids_app, (local_kids _ _ _ Hl). simpl.
        rewrite !app_nil_r. apply Hk. }
      assert (forall x e, In e tr' -> touches x e -> In x (vs_elements st0)) as Ht'.
      { intros x e. unfold tr'. rewrite !in_app_iff. intros [H'|[H'|[<-|[]]]] Hx.
        - eauto.
        - rewrite Forall_forall in Hl. apply Hl in H'.
          destruct e; simpl in *; subst; easy || congruence.
        - simpl in Hx. congruence. }
      (* the invariant after this element, for the new marking V1 *)
      assert (forall s' V1 valid,
                 (forall x, x <> el -> V1 x = vs_V st x) ->
                 V1 el = final (vs_V st0 el) o ->
                 valid = vs_valid st && o_bool o ->
                 ainv st0 rest (VState s' V1 valid (vs_elements st) (vs_seen st) tr')) as Step.
      { intros s' V1 valid HV1 HV2 Hval. split; cbn [vs_elements vs_trace vs_V vs_valid]; auto.
        - exists (done ++ [el]), (ups ++ [(el, false, o)]).
          rewrite <- app_assoc. split; [exact E1|]. split.
          { rewrite Eev, E2, <- app_assoc. easy. }
          split; [rewrite !map_app, E3; easy|]. split.
          + intros x Hx. rewrite in_app_iff in Hx. simpl in Hx.
            rewrite HV1 by (intros ->; apply Hx; auto). apply HVo. tauto.
          + intros x d u. rewrite in_app_iff. intros [Hx|[[= <- <- <-]|[]]].
            * assert (x <> el) as Hne.
              { intros ->. apply Hnd. apply (in_map fst) in Hx. rewrite E3 in Hx.
                apply in_map_iff in Hx as (y & [= <- _] & Hy). easy. }
              rewrite HV1 by easy. eauto.
            * exact HV2.
        - rewrite Eev, forallb_app, <- Hv. simpl. rewrite andb_true_r. exact Hval. }
      assert (vs_V st el = vs_V st0 el) as EV by auto.
      assert (v_bool (vs_V st el) = false -> vs_valid st = false) as Hbad.
      { rewrite EV. intros Hb. rewrite Hv, E2, forallb_app.
        assert (exists d o', In (el, d, o') (evals (vs_trace st0))) as (d & o' & Hin).
        { assert (In (el, true) (map fst (evals (vs_trace st0)))) as Hx.
          { rewrite (d_evals _ _ _ _ Hd). apply in_map_iff. eauto. }
          apply in_map_iff in Hx as ([[x d] o'] & [= -> ->] & Hx). eauto. }
        pose proof (d_V_in _ _ _ _ Hd _ _ _ Hin) as Es.
        rewrite Es, stat_bool in Hb.
        destruct (forallb (fun e => o_bool (snd e)) (evals (vs_trace st0))) eqn:Ef; [|easy].
        rewrite forallb_forall in Ef. apply Ef in Hin. simpl in Hin. congruence. }
      destruct (v_bool (vs_V st el)) eqn:Evb.
      + assert (forall o', o' = o -> o' <> OUneval ->
          match and_valid (vs_valid st) o with
          | Ok valid => ascend w rest (VState s1 (upd (vs_V st) el (of_bool (o_bool o)))
                           valid (vs_elements st) (vs_seen st) tr')
          | Err e => Err e end = Ok st' -> ainv st0 [] st') as Go.
        { intros o' Eo Hne HH. destruct (and_valid (vs_valid st) o) as [valid|e] eqn:Ea; [|easy].
          eapply IH; [|exact HH]. apply Step.
          - intros x Hx. unfold upd. destruct (Nat.eqb_spec x el); congruence.
          - unfold upd. rewrite Nat.eqb_refl, <- EV. unfold final. rewrite Evb.
            destruct o; easy || congruence.
          - now apply and_valid_ok. }
        destruct o; try (eapply Go; [reflexivity|easy|exact H]).
        eapply IH; [|exact H]. apply Step; [easy|exact EV|]. simpl. now rewrite andb_true_r.
      + assert (forall V1, V1 = vs_V st -> ainv st0 rest
           (VState s1 V1 (vs_valid st) (vs_elements st) (vs_seen st) tr')) as G.
        { intros V1 ->. apply Step; [easy| |].
          - unfold final. rewrite <- EV, Evb. destruct o; easy.
          - rewrite Hbad by easy. easy. }
        destruct o; eapply IH; [apply G; reflexivity|exact H|..];
          try (apply G; reflexivity); exact H.
  Qed.

  Lemma validate_inv fuel s V root b st :
    validate w fuel s V root = Ok (b, st) ->
    exists st0, dinv V root [] st0 /\ ainv st0 [] st /\ b = vs_valid st.
  Proof.
    unfold validate. intros H.
    destruct (descend w fuel [root] (VState s V true [] [] [])) as [st0|e] eqn:Ed; [|easy].
    cbn [bind] in H. destruct (ascend w (rev (vs_elements st0)) st0) as [st1|e] eqn:Ea; [|easy].
    cbn [bind] in H. injection H as <- <-.
    pose proof (descend_inv V root fuel _ _ _ (dinv_init s V root) Ed) as Hd.
    exists st0. split; [exact Hd|]. split; [|easy].
    eapply ascend_inv; [exact Hd| |exact Ea].
    destruct Hd. split; auto.
    - exists [], []. rewrite app_nil_r. repeat split; easy.
  Qed.

  (* ------------------- the properties ------------------- *)
  Lemma validate_bfs fuel s V root b st :
    validate w fuel s V root = Ok (b, st) ->
    exists D, breadth_first (kids_of (vs_trace st)) root D
      /\ map fst (evals (vs_trace st))
         = map (fun x => (x, true)) D ++ map (fun x => (x, false)) (rev D).
  Proof.
    intros H. apply validate_inv in H as (st0 & Hd & Ha & _).
    exists (vs_elements st0). destruct Ha as [_ Hk (done & ups & E1 & E2 & E3 & _ & _) _ _].
    rewrite app_nil_r in E1. split.
    - destruct (d_eq _ _ _ _ Hd) as (popped & P1 & P2). rewrite app_nil_r in P1.
      assert (breadth_first (kids_of (vs_trace st0)) root (vs_elements st0)) as HB.
      { apply bfs_from_equation.
        - transitivity (firsts [] popped); [exact P2|]. f_equal. symmetry. exact P1.
        - intros x Hx. apply (d_reach _ _ _ _ Hd). rewrite P2 in Hx.
          apply firsts_In in Hx. fold id. rewrite P1. tauto. }
      assert (forall n x y, walk (kids_of (vs_trace st0)) n x y
                            <-> walk (kids_of (vs_trace st)) n x y) as Hw.
      { intros n x y. split; apply walk_mono; intros z q; rewrite Hk; easy. }
      destruct HB. split; auto.
      + intros x. rewrite bf_reach. split; intros [n Hn]; exists n; now apply Hw.
      + intros D1 y D2 z D3 n E Hn. apply Hw in Hn.
        destruct (bf_dist _ _ _ _ _ _ E Hn) as (m & Hm & Hwm). exists m. split; [easy|].
        now apply Hw.
      + intros D1 p D2 l1 z l2 y E Ek' HE. rewrite Hk in Ek'.
        destruct (bf_siblings _ _ _ _ _ _ _ E Ek' HE) as [?|[?|(q & Hq & Hy)]]; auto.
        right; right. exists q. now rewrite Hk.
    - rewrite E2, map_app, (d_evals _ _ _ _ Hd), E3. congruence.
  Qed.

  Lemma validate_markings fuel s V root b st :
    validate w fuel s V root = Ok (b, st) ->
    (forall x, (exists d u, In (x, true, d) (evals (vs_trace st))
                            /\ In (x, false, u) (evals (vs_trace st))
                            /\ vs_V st x = final (stat d) u)
               \/ ((forall d o, ~ In (x, d, o) (evals (vs_trace st))) /\ vs_V st x = V x))
    /\ b = forallb (fun e => o_bool (snd e)) (evals (vs_trace st)).
  Proof.
    intros H. apply validate_inv in H as (st0 & Hd & Ha & ->).
    destruct Ha as [_ Hk (done & ups & E1 & E2 & E3 & HVo & HVi) Hv _].
    rewrite app_nil_r in E1. split; [|exact Hv]. intros x.
    destruct (in_dec Nat.eq_dec x (vs_elements st0)) as [Hin|Hout].
    - left.
      assert (In (x, true) (map fst (evals (vs_trace st0)))) as H1.
      { rewrite (d_evals _ _ _ _ Hd). apply in_map_iff. eauto. }
      assert (In (x, false) (map fst ups)) as H2.
      { rewrite E3, E1. apply in_map_iff. exists x. split; [easy|]. now apply in_rev in Hin. }
      apply in_map_iff in H1 as ([[x1 b1] d] & [= -> ->] & H1).
      apply in_map_iff in H2 as ([[x2 b2] u] & [= -> ->] & H2).
      exists d, u. rewrite E2, !in_app_iff. split; [auto|]. split; [auto|].
      rewrite (HVi _ _ _ H2), (d_V_in _ _ _ _ Hd _ _ _ H1). easy.
    - right. split.
      + intros d o. rewrite E2, in_app_iff. intros [Hx|Hx]; apply (in_map fst) in Hx.
        * rewrite (d_evals _ _ _ _ Hd) in Hx. apply in_map_iff in Hx as (y & [= <- _] & Hy). easy.
        * rewrite E3, E1 in Hx. apply in_map_iff in Hx as (y & [= <- _] & Hy).
          apply in_rev in Hy. easy.
      + rewrite HVo.
        * now apply (d_V_out _ _ _ _ Hd).
        * rewrite E1. intros Hr. apply in_rev in Hr. easy.
  Qed.

  Lemma evals_once fuel s V root b st x d o o' :
    validate w fuel s V root = Ok (b, st) ->
    In (x, d, o) (evals (vs_trace st)) -> In (x, d, o') (evals (vs_trace st)) -> o = o'.
  Proof.
    intros H H1 H2. destruct (validate_bfs _ _ _ _ _ _ H) as (D & HB & E).
    assert (NoDup (map fst (evals (vs_trace st)))) as Hn.
    { rewrite E. pose proof (bf_nodup _ _ _ HB) as Hn.
      assert (forall c (l : list id), NoDup l -> NoDup (map (fun x : id => (x, c : bool)) l)) as Hm.
      { intros c l Hl. apply FinFun.Injective_map_NoDup; [|easy].
        intros a a' [=]. easy. }
      assert (forall (A : Type) (l l' : list A), NoDup l -> NoDup l' ->
        (forall x, In x l -> ~ In x l') -> NoDup (l ++ l')) as Happ.
      { intros A l l' Hl Hl' Hd. induction Hl as [|a l Ha Hl IH]; [easy|].
        simpl. constructor.
        - rewrite in_app_iff. intros [?|?]; [easy|]. eapply Hd; [now left|eassumption].
        - apply IH. intros y Hy. apply Hd. now right. }
      apply Happ; [now apply Hm| apply Hm; now apply NoDup_rev|].
      intros [y c] Hy Hy'. apply in_map_iff in Hy as (? & [= <- <-] & _).
      apply in_map_iff in Hy' as (? & [=] & _). }
    revert Hn H1 H2. generalize (evals (vs_trace st)).
    induction l as [|e l IH]; [easy|]. simpl. intros Hn. inversion Hn as [|? ? Hn1 Hn2]; subst.
    intros [->|H1] [E2|H2]; auto.
    - congruence.
    - exfalso. apply Hn1. apply (in_map fst) in H2. exact H2.
    - exfalso. subst e. apply Hn1. apply (in_map fst) in H1. exact H1.
  Qed.

  Lemma validate_verdict fuel s V root b st :
    validate w fuel s V root = Ok (b, st) ->
    (b = true <-> forall x d o, In (x, d, o) (evals (vs_trace st)) ->
                  v_bool (vs_V st x) = true)
    /\ (b = true <-> forall x d o, In (x, d, o) (evals (vs_trace st)) -> o_bool o = true).
  Proof.
    intros H. destruct (validate_markings _ _ _ _ _ _ H) as [HM Hb].
    assert (b = true <-> forall x d o, In (x, d, o) (evals (vs_trace st)) -> o_bool o = true) as H2.
    { rewrite Hb, forallb_forall. split.
      - intros Hf x d o Hin. exact (Hf _ Hin).
      - intros Hf [[x d] o] Hin. simpl. eauto. }
    split; [|exact H2]. rewrite H2. split.
    - intros Hf x d o Hin. destruct (HM x) as [(d' & u & H1 & H3 & ->)|[Hno _]].
      + rewrite final_bool, stat_bool. apply Hf in H1, H3. now rewrite H1, H3.
      + exfalso. eapply Hno; eassumption.
    - intros Hf x d o Hin. specialize (Hf _ _ _ Hin).
      destruct (HM x) as [(d' & u & H1 & H3 & E)|[Hno _]].
      + rewrite E, final_bool, stat_bool in Hf. apply andb_true_iff in Hf as [F1 F2].
        destruct d.
        * rewrite (evals_once _ _ _ _ _ _ _ _ _ _ H Hin H1). easy.
        * rewrite (evals_once _ _ _ _ _ _ _ _ _ _ H Hin H3). easy.
      + exfalso. eapply Hno; eassumption.
  Qed.

  Lemma validate_untouched fuel s V root b st x :
    validate w fuel s V root = Ok (b, st) ->
    ~ reachable (kids_of (vs_trace st)) root x ->
    vs_V st x = V x /\ forall e, In e (vs_trace st) -> ~ touches x e.
  Proof.
    intros H Hx. destruct (validate_bfs _ _ _ _ _ _ H) as (D & HB & E).
    rewrite <- (bf_reach _ _ _ HB) in Hx.
    pose proof (validate_markings _ _ _ _ _ _ H) as [HM _].
    assert (forall d o, ~ In (x, d, o) (evals (vs_trace st))) as Hno.
    { intros d o Hin. apply (in_map fst) in Hin. rewrite E in Hin.
      apply in_app_iff in Hin as [Hin|Hin]; apply in_map_iff in Hin as (y & [= <- _] & Hy);
        [|apply in_rev in Hy]; easy. }
    split.
    - destruct (HM x) as [(d & u & H1 & _)|[_ EV]]; [|exact EV]. exfalso. eapply Hno; eassumption.
    - intros e He Ht. apply validate_inv in H as (st0 & Hd & Ha & _).
      pose proof (a_touch _ _ _ Ha _ _ He Ht) as Hel.
      destruct Ha as [_ Hk (done & ups & E1 & E2 & E3 & HVo & HVi) Hv _].
      assert (In (x, true) (map fst (evals (vs_trace st)))) as Hin.
      { rewrite E2, map_app, in_app_iff. left. rewrite (d_evals _ _ _ _ Hd).
        apply in_map_iff. eauto. }
      apply in_map_iff in Hin as ([[y b1] d] & [= -> ->] & H1). eapply Hno; eassumption.
  Qed.

  (* what is queued below a visited element *)
  Lemma validate_kids fuel s V root b st x o :
    validate w fuel s V root = Ok (b, st) ->
    In (x, true, o) (evals (vs_trace st)) ->
    match o with
    | OSkipAll | OSkipAllFalse => kids_of (vs_trace st) x = []
    | _ => exists s', kids_of (vs_trace st) x = w_children w s' x
    end.
  Proof.
    intros H Hin. apply validate_inv in H as (st0 & Hd & Ha & _).
    destruct Ha as [_ Hk (done & ups & E1 & E2 & E3 & HVo & HVi) Hv _].
    rewrite E2, in_app_iff in Hin. destruct Hin as [Hin|Hin].
    - destruct (d_skip _ _ _ _ Hd _ _ _ Hin) as [D1 D2].
      rewrite Hk. destruct o; simpl in *; auto.
    - apply (in_map fst) in Hin. rewrite E3 in Hin.
      apply in_map_iff in Hin as (y & [=] & _).
  Qed.
End Run.
