(* Proofs: validators that raise. *)
From Verif Require Import PyBase PyBaseFacts ModelValidate SpecValidate ProofValidate ProofValidate2 ModelRaise SpecRaise.

Section Raise.
  Context {S val : Type}.
  Variable wr : rworld S val.
  Notation w := (r_world wr).
  (* ---- the calm world is the plain one ---- *)
  Lemma chain_calm vs : forall s V el, run_chain_r (calm wr) vs s V el = let '(s', o, ev) := run_chain w vs s V el in (s', Ok o, ev).
  Proof.
    induction vs as [|fn vs IH]; intros s V el; [easy|]. cbn [run_chain_r run_chain calm r_raise r_world].
    destruct (w_run w fn s V el) as [s1 r]. destruct (send w (Some fn) s1 el r) as [s2 sent].
    destruct r; try reflexivity; fold (calm wr); rewrite IH; destruct (run_chain w vs s2 V el) as [[s3 o] ev]; reflexivity.
  Qed.
  Lemma element_calm vs s V el : validate_element_r (calm wr) vs s V el = let '(s', o, ev) := validate_element w vs s V el in (s', Ok o, ev).
  Proof.
    unfold validate_element_r, validate_element. cbn [r_world calm]. destruct (_ && _)%bool; [easy|]. destruct vs as [|v vs]; [now destruct (send w None s el _)|].
    apply chain_calm.
  Qed.
  Lemma pass_calm d s V el : validate_pass_r (calm wr) d s V el = let '(s', o, ev) := validate_pass w d s V el in (s', Ok o, ev).
  Proof.
    unfold validate_pass_r, validate_pass. cbn [r_world calm]. destruct d.
    - destruct (w_down w s el) as [vs|]; [|easy]. destruct (w_container w el), vs; try easy; apply element_calm.
    - destruct (w_up w s el) as [vs|]; [|easy]. apply element_calm.
  Qed.
  Lemma descend_calm : forall fuel q st, match descend_r (calm wr) fuel q st with (st', None) => descend w fuel q st = Ok st' | (_, Some e) => descend w fuel q st = Err e end.
  Proof.
    induction fuel as [|fuel IH]; intros q st; (destruct q as [|el q]; [easy|]); [easy|]. cbn [descend_r descend]. destruct (memb Nat.eqb el (vs_seen st)); [apply IH|].
    rewrite pass_calm. destruct (validate_pass w true (vs_s st) (vs_V st) el) as [[s1 o] ev].
    destruct (match o with OUneval => Ok (vs_valid st) | _ => and_valid (vs_valid st) o end); [|easy]. cbn [r_world calm]. destruct o; apply IH.
  Qed.
  Lemma ascend_calm : forall els st, match ascend_r (calm wr) els st with (st', None) => ascend w els st = Ok st' | (_, Some e) => ascend w els st = Err e end.
  Proof.
    induction els as [|el els IH]; intros st; [easy|]. cbn [ascend_r ascend]. rewrite pass_calm. destruct (validate_pass w false (vs_s st) (vs_V st) el) as [[s1 o] ev].
    cbv zeta. destruct o; try apply IH; (destruct (v_bool (vs_V st el)); [|apply IH]); (destruct (and_valid (vs_valid st) _); [apply IH|easy]).
  Qed.
  Theorem validate_calm fuel s V root :
    validate w fuel s V root = match validate_r (calm wr) fuel s V root with (st, Ok b) => Ok (b, st) | (_, Err e) => Err e end.
  Proof.
    unfold validate, validate_r. pose proof (descend_calm fuel [root] (VState s V true [] [] [])) as D.
    destruct (descend_r (calm wr) fuel [root] _) as [st [e|]]; rewrite D; [easy|]. cbn [bind]. pose proof (ascend_calm (rev (vs_elements st)) st) as A.
    destruct (ascend_r (calm wr) _ st) as [st' [e|]]; rewrite A; easy.
  Qed.
  Theorem flat_calm s V el : validate_flat_r (calm wr) s V el = let '(v, s', V', ev) := validate_flat w s V el in (Ok v, s', V', ev).
  Proof.
    unfold validate_flat, validate_flat_r. rewrite pass_calm. destruct (validate_pass w true s V el) as [[s1 o] ev1]. rewrite pass_calm.
    destruct (validate_pass w false s1 _ el) as [[s2 o2] ev2]. reflexivity.
  Qed.

  (* ---- up to the exception, the same happens ---- *)
  Definition breaks (V : id -> vstat) (el : id) (s : S) (e : exn) (ev ev' : list (event val)) : Prop :=
    exists fn s1 s2 r rest, r_raise wr fn s1 V el = Some (s, e) /\ w_run w fn s1 V el = (s2, r) /\ ev' = ev ++ ERun fn el r :: rest.
  Definition same_or_broken (V : id -> vstat) (el : id) (x y : S * res outcome * list (event val)) : Prop :=
    x = y \/ exists s e ev s' o' ev', x = (s, Err e, ev) /\ y = (s', o', ev') /\ breaks V el s e ev ev'.
  Lemma chain_breaks vs : forall s V el, same_or_broken V el (run_chain_r wr vs s V el) (run_chain_r (calm wr) vs s V el).
  Proof.
    induction vs as [|fn vs IH]; intros s V el; [now left|]. cbn [run_chain_r]. cbn [calm r_raise]. cbn [calm r_world].
    destruct (r_raise wr fn s V el) as [[s1 e]|] eqn:Er.
    - destruct (w_run w fn s V el) as [s2 r] eqn:Ew. destruct (send w (Some fn) s2 el r) as [s3 sent].
      assert (G : forall s' o' evs, same_or_broken V el (s1, Err e, []) (s', o', (ERun fn el r :: sent) ++ evs)).
      { intros s' o' evs. right. do 6 eexists. do 2 (split; [reflexivity|]). exists fn, s, s2, r. eexists. do 2 (split; [eassumption|]). reflexivity. }
      destruct r; try (specialize (G s3); rewrite <- (app_nil_r (ERun _ _ _ :: sent)); apply G).
      + fold (calm wr). destruct (run_chain_r (calm wr) vs s3 V el) as [[s4 o] ev]. apply G.
      + fold (calm wr). destruct (run_chain_r (calm wr) vs s3 V el) as [[s4 o] ev]. apply G.
    - destruct (w_run w fn s V el) as [s2 r]. destruct (send w (Some fn) s2 el r) as [s3 sent].
      destruct r; try (now left); fold (calm wr); (destruct (IH s3 V el) as [-> |(s4 & e & ev & s5 & o5 & ev5 & -> & -> & (fn1 & t1 & t2 & r1 & rest & R1 & W1 & ->))]; [now left|]);
        right; do 6 eexists; do 2 (split; [reflexivity|]); exists fn1, t1, t2, r1, rest; do 2 (split; [easy|]); now rewrite <- app_assoc.
  Qed.
  Lemma element_breaks vs s V el : same_or_broken V el (validate_element_r wr vs s V el) (validate_element_r (calm wr) vs s V el).
  Proof.
    unfold validate_element_r. cbn [calm r_world]. destruct (_ && _)%bool; [now left|]. destruct vs as [|v vs]; [destruct (send w None s el _); now left|]. apply chain_breaks.
  Qed.
  Lemma pass_breaks d s V el : same_or_broken V el (validate_pass_r wr d s V el) (validate_pass_r (calm wr) d s V el).
  Proof.
    unfold validate_pass_r. cbn [calm r_world]. destruct d.
    - destruct (w_down w s el) as [vs|]; [|now left]. destruct (w_container w el), vs; try (now left); apply element_breaks.
    - destruct (w_up w s el) as [vs|]; [|now left]. apply element_breaks.
  Qed.
End Raise.

(* ---- traces only grow, whatever the world ---- *)
Section Grow.
  Context {S val : Type}.
  Variable wr : rworld S val.
  Lemma descend_grows : forall fuel q (st : vstate S val), exists rest, vs_trace (fst (descend_r wr fuel q st)) = vs_trace st ++ rest.
  Proof.
    induction fuel as [|fuel IH]; intros q st; (destruct q as [|el q]; [exists []; now rewrite app_nil_r|]); [exists []; cbn; now rewrite app_nil_r|].
    cbn [descend_r]. destruct (memb Nat.eqb el (vs_seen st)); [apply IH|]. destruct (validate_pass_r wr true (vs_s st) (vs_V st) el) as [[s1 [o|e]] ev]; [|now exists ev].
    destruct (match o with OUneval => Ok (vs_valid st) | _ => and_valid (vs_valid st) o end); [|cbn [fst vs_trace]; eauto].
    destruct o; cbv zeta; match goal with |- context [descend_r wr fuel ?q ?st] => destruct (IH q st) as (r & ->) end; cbn [vs_trace]; rewrite <- ?app_assoc; eauto.
  Qed.
  Lemma ascend_grows : forall els (st : vstate S val), exists rest, vs_trace (fst (ascend_r wr els st)) = vs_trace st ++ rest.
  Proof.
    induction els as [|el els IH]; intros st; [exists []; now rewrite app_nil_r|]. cbn [ascend_r].
    destruct (validate_pass_r wr false (vs_s st) (vs_V st) el) as [[s1 [o|e]] ev]; [|now exists ev]. cbv zeta.
    assert (G : forall st' : vstate S val, vs_trace st' = vs_trace st ++ ev ++ [EEval el false o] -> exists rest, vs_trace (fst (ascend_r wr els st')) = vs_trace st ++ rest).
    { intros st' E. destruct (IH st') as (r & ->). rewrite E, <- app_assoc. eauto. }
    destruct o; try (now apply G); (destruct (v_bool (vs_V st el)); [|now apply G]);
      (destruct (and_valid (vs_valid st) _); [now apply G|cbn [fst vs_trace]; eauto]).
  Qed.
End Grow.

Section Break.
  Context {S val : Type}.
  Variable wr : rworld S val.
  Notation w := (r_world wr).
  Lemma descend_breaks : forall fuel q st, descend_r wr fuel q st = descend_r (calm wr) fuel q st
    \/ exists st1 e, descend_r wr fuel q st = (st1, Some e) /\ cut_short wr st1 e (fst (descend_r (calm wr) fuel q st)).
  Proof.
    induction fuel as [|fuel IH]; intros q st; (destruct q as [|el q]; [now left|]); [now left|]. cbn [descend_r]. destruct (memb Nat.eqb el (vs_seen st)); [apply IH|].
    destruct (pass_breaks wr true (vs_s st) (vs_V st) el) as [-> |(s1 & e & ev & s2 & o2 & ev2 & -> & C & (fn & t1 & t2 & r & rest & R & W & ->))].
    - destruct (validate_pass_r (calm wr) true (vs_s st) (vs_V st) el) as [[s1 [o|e]] ev]; [|now left].
      destruct (match o with OUneval => Ok (vs_valid st) | _ => and_valid (vs_valid st) o end); [|now left]. cbn [calm r_world]. destruct o; apply IH.
    - right. do 2 eexists. split; [reflexivity|]. rewrite C. exists fn, el, t1, t2, r. cbn [vs_V vs_s vs_trace].
      destruct o2 as [o|e2]; [|rewrite pass_calm in C; destruct (validate_pass w true (vs_s st) (vs_V st) el) as [[? ?] ?]; discriminate].
      assert (G : forall st' : vstate S val, (exists r', vs_trace st' = (vs_trace st ++ (ev ++ ERun fn el r :: rest) ++ [EEval el true o]) ++ r') ->
        exists rest0, r_raise wr fn t1 (vs_V st) el = Some (s1, e) /\ w_run w fn t1 (vs_V st) el = (t2, r) /\ vs_trace st' = (vs_trace st ++ ev) ++ ERun fn el r :: rest0).
      { intros st' (r' & E). eexists. split; [exact R|]. split; [exact W|]. rewrite E, <- !app_assoc. reflexivity. }
      cbv zeta. destruct (match o with OUneval => Ok (vs_valid st) | _ => and_valid (vs_valid st) o end).
      + destruct o; apply G; match goal with |- context [descend_r ?x fuel ?q ?st] => destruct (descend_grows x fuel q st) as (r' & ->) end; cbn [vs_trace]; eexists; rewrite <- ?app_assoc; reflexivity.
      + apply G. exists []. cbn [fst vs_trace]. now rewrite app_nil_r.
  Qed.
  Lemma ascend_breaks : forall els st, ascend_r wr els st = ascend_r (calm wr) els st
    \/ exists st1 e, ascend_r wr els st = (st1, Some e) /\ cut_short wr st1 e (fst (ascend_r (calm wr) els st)).
  Proof.
    induction els as [|el els IH]; intros st; [now left|]. cbn [ascend_r].
    destruct (pass_breaks wr false (vs_s st) (vs_V st) el) as [-> |(s1 & e & ev & s2 & o2 & ev2 & -> & C & (fn & t1 & t2 & r & rest & R & W & ->))].
    - destruct (validate_pass_r (calm wr) false (vs_s st) (vs_V st) el) as [[s1 [o|e]] ev]; [|now left]. cbv zeta.
      destruct o; try apply IH; (destruct (v_bool (vs_V st el)); [|apply IH]); (destruct (and_valid (vs_valid st) _); [apply IH|now left]).
    - right. do 2 eexists. split; [reflexivity|]. rewrite C. exists fn, el, t1, t2, r. cbn [vs_V vs_s vs_trace].
      destruct o2 as [o|e2]; [|rewrite pass_calm in C; destruct (validate_pass w false (vs_s st) (vs_V st) el) as [[? ?] ?]; discriminate].
      assert (G : forall st' : vstate S val, (exists r', vs_trace st' = (vs_trace st ++ (ev ++ ERun fn el r :: rest) ++ [EEval el false o]) ++ r') ->
        exists rest0, r_raise wr fn t1 (vs_V st) el = Some (s1, e) /\ w_run w fn t1 (vs_V st) el = (t2, r) /\ vs_trace st' = (vs_trace st ++ ev) ++ ERun fn el r :: rest0).
      { intros st' (r' & E). eexists. split; [exact R|]. split; [exact W|]. rewrite E, <- !app_assoc. reflexivity. }
      cbv zeta.
      assert (A : forall st' : vstate S val, vs_trace st' = vs_trace st ++ (ev ++ ERun fn el r :: rest) ++ [EEval el false o] ->
        exists r', vs_trace (fst (ascend_r (calm wr) els st')) = (vs_trace st ++ (ev ++ ERun fn el r :: rest) ++ [EEval el false o]) ++ r').
      { intros st' E. destruct (ascend_grows (calm wr) els st') as (r' & ->). rewrite E. eauto. }
      destruct o; try (apply G, A; reflexivity); (destruct (v_bool (vs_V st el)); [|apply G, A; reflexivity]);
        (destruct (and_valid (vs_valid st) _); [apply G, A; reflexivity|apply G; exists []; cbn [fst vs_trace]; now rewrite app_nil_r]).
  Qed.
  Theorem validate_breaks fuel s V root : validate_r wr fuel s V root = validate_r (calm wr) fuel s V root
    \/ exists st e, validate_r wr fuel s V root = (st, Err e) /\ cut_short wr st e (fst (validate_r (calm wr) fuel s V root)).
  Proof.
    unfold validate_r. destruct (descend_breaks fuel [root] (VState s V true [] [] [])) as [-> |(st & e & -> & En)].
    - destruct (descend_r (calm wr) fuel [root] _) as [st [e|]]; [now left|].
      destruct (ascend_breaks (rev (vs_elements st)) st) as [-> |(st1 & e & -> & En)]; [now left|]. right. do 2 eexists. split; [reflexivity|].
      destruct (ascend_r (calm wr) _ st) as [st2 [e2|]]; exact En.
    - right. do 2 eexists. split; [reflexivity|]. destruct (descend_r (calm wr) fuel [root] _) as [st1 [e1|]]; [exact En|].
      destruct (ascend_grows (calm wr) (rev (vs_elements st1)) st1) as (r' & G).
      assert (cut_short wr st e (fst (ascend_r (calm wr) (rev (vs_elements st1)) st1))) as H.
      { destruct En as (fn & el & s1 & s2 & r & rest & R & W & T). exists fn, el, s1, s2, r. eexists. split; [exact R|]. split; [exact W|].
        rewrite G. cbn [fst] in T. rewrite T, <- app_assoc. reflexivity. }
      destruct (ascend_r (calm wr) _ st1) as [st2 [e2|]]; exact H.
  Qed.
  Theorem flat_breaks s V el : validate_flat_r wr s V el = validate_flat_r (calm wr) s V el
    \/ exists e s' V' ev fn s1 s2 r rest, validate_flat_r wr s V el = (Err e, s', V', ev)
       /\ r_raise wr fn s1 V' el = Some (s', e) /\ w_run w fn s1 V' el = (s2, r)
       /\ snd (validate_flat_r (calm wr) s V el) = ev ++ ERun fn el r :: rest.
  Proof.
    unfold validate_flat_r. destruct (pass_breaks wr true s V el) as [-> |(s1 & e & ev & s2 & o2 & ev2 & -> & C & (fn & t1 & t2 & r & rest & R & W & ->))].
    - destruct (validate_pass_r (calm wr) true s V el) as [[s1 [o|e]] ev]; [|now left].
      set (V1 := upd V el _). destruct (pass_breaks wr false s1 V1 el) as [-> |(s3 & e & ev3 & s2 & o2 & ev2 & -> & C & (fn & t1 & t2 & r & rest & R & W & ->))]; [now left|].
      right. rewrite C. destruct o2 as [o2|e2]; [|rewrite pass_calm in C; destruct (validate_pass w false s1 V1 el) as [[? ?] ?]; discriminate].
      do 4 eexists. exists fn, t1, t2, r. eexists. split; [reflexivity|]. split; [exact R|]. split; [exact W|]. cbn [snd]. rewrite <- !app_assoc. reflexivity.
    - right. rewrite C. destruct o2 as [o2|e2]; [|rewrite pass_calm in C; destruct (validate_pass w true s V el) as [[? ?] ?]; discriminate].
      destruct (validate_pass_r (calm wr) false s2 _ el) as [[s3 o3] ev3] eqn:C3. destruct o3 as [o3|e3].
      + do 4 eexists. exists fn, t1, t2, r. eexists. split; [reflexivity|]. split; [exact R|]. split; [exact W|]. cbn [snd]. rewrite <- !app_assoc. reflexivity.
      + do 4 eexists. exists fn, t1, t2, r. eexists. split; [reflexivity|]. split; [exact R|]. split; [exact W|]. cbn [snd]. rewrite <- !app_assoc. reflexivity.
  Qed.

  (* ---- markings at every moment ---- *)
  Lemma evals_app (t1 t2 : list (event val)) : evals (t1 ++ t2) = evals t1 ++ evals t2.
  Proof. apply flat_map_app. Qed.
  Lemma send_evals fn s el r : evals (snd (send w fn s el r)) = [].
  Proof. unfold send. now destruct (w_receivers w s). Qed.
  Lemma chain_evals vs : forall s V el, evals (snd (run_chain_r wr vs s V el)) = [].
  Proof.
    induction vs as [|fn vs IH]; intros s V el; [easy|]. cbn [run_chain_r]. destruct (r_raise wr fn s V el) as [[? ?]|]; [easy|].
    destruct (w_run w fn s V el) as [s1 r]. pose proof (send_evals (Some fn) s1 el r) as E. destruct (send w (Some fn) s1 el r) as [s2 sent]. cbn [snd] in E.
    assert (E' : evals (ERun fn el r :: sent) = []) by exact E.
    destruct r; try exact E'; specialize (IH s2 V el); destruct (run_chain_r wr vs s2 V el) as [[s3 o] ev]; cbn [snd] in *; now rewrite evals_app, E', IH.
  Qed.
  Lemma pass_evals d s V el : evals (snd (validate_pass_r wr d s V el)) = [].
  Proof.
    assert (G : forall vs, evals (snd (validate_element_r wr vs s V el)) = []).
    { intros vs. unfold validate_element_r. destruct (_ && _)%bool; [easy|]. destruct vs as [|v vs]; [|apply chain_evals].
      pose proof (send_evals None s el (if negb (w_is_empty w s el) then VRTrue else VRFalse)) as E. destruct (send w None s el _). exact E. }
    unfold validate_pass_r. destruct d.
    - destruct (w_down w s el) as [vs|]; [|easy]. destruct (w_container w el), vs; try easy; apply G.
    - destruct (w_up w s el) as [vs|]; [|easy]. apply G.
  Qed.
  Lemma marked_app V l1 V1 l2 V2 : marked V l1 V1 -> marked V1 l2 V2 -> marked V (l1 ++ l2) V2.
  Proof.
    intros M1 M2. induction M1 as [V V1 E|V x d o V0 l V1 R N M IH]; [|cbn; econstructor; eauto].
    cbn. inversion M2 as [V3 V4 E'|V3 x d o V0 l V4 R N M]; subst.
    - constructor. intros x. now rewrite E', E.
    - econstructor; [rewrite <- E; exact R| |exact M]. intros y Hy. rewrite <- E. now apply N.
  Qed.
  Lemma marked_one V x d o v : remarks (V x) d o v -> marked V [(x, d, o)] (upd V x v).
  Proof.
    intros R. econstructor; [|intros y Hy|constructor; reflexivity].
    - unfold upd. rewrite Nat.eqb_refl. exact R.
    - unfold upd. now apply Nat.eqb_neq in Hy as ->.
  Qed.
  Lemma mark_down (V : id -> vstat) x o : remarks (V x) true o (match o with OUneval => Uneval | _ => of_bool (o_bool o) end).
  Proof. destruct o; constructor; easy. Qed.
  Lemma mark_up (V : id -> vstat) x o : o <> OUneval -> v_bool (V x) = true -> remarks (V x) false o (of_bool (o_bool o)).
  Proof. intros N0 B. assert (V x <> Invalid) by (intros E; rewrite E in B; discriminate). destruct o; try easy; cbn; constructor; easy. Qed.
  Lemma descend_marks V0 : forall fuel q st, marked V0 (evals (vs_trace st)) (vs_V st) ->
    marked V0 (evals (vs_trace (fst (descend_r wr fuel q st)))) (vs_V (fst (descend_r wr fuel q st))).
  Proof.
    induction fuel as [|fuel IH]; intros q st M; (destruct q as [|el q]; [easy|]); [easy|]. cbn [descend_r]. destruct (memb Nat.eqb el (vs_seen st)); [now apply IH|].
    pose proof (pass_evals true (vs_s st) (vs_V st) el) as E. destruct (validate_pass_r wr true (vs_s st) (vs_V st) el) as [[s1 [o|e]] ev]; cbn [snd] in E.
    - set (V1 := upd (vs_V st) el _).
      assert (M1 : forall more, evals more = [] -> marked V0 (evals ((vs_trace st ++ ev ++ [EEval el true o]) ++ more)) V1).
      { intros more Em. rewrite !evals_app, E, Em, app_nil_r. cbn [app evals flat_map]. apply (marked_app V0 _ (vs_V st)); [easy|]. apply marked_one, mark_down. }
      assert (M2 : marked V0 (evals (vs_trace st ++ ev ++ [EEval el true o])) V1) by (rewrite <- (app_nil_r (_ ++ _ ++ _)); now apply M1).
      destruct (match o with OUneval => Ok (vs_valid st) | _ => and_valid (vs_valid st) o end); [|exact M2].
      cbv zeta. destruct o; apply IH; cbn [vs_trace vs_V]; try exact M2; now apply M1.
    - cbn [fst vs_trace vs_V]. now rewrite evals_app, E, app_nil_r.
  Qed.
  Lemma ascend_marks V0 : forall els st, marked V0 (evals (vs_trace st)) (vs_V st) ->
    marked V0 (evals (vs_trace (fst (ascend_r wr els st)))) (vs_V (fst (ascend_r wr els st))).
  Proof.
    induction els as [|el els IH]; intros st M; [easy|]. cbn [ascend_r].
    pose proof (pass_evals false (vs_s st) (vs_V st) el) as E. destruct (validate_pass_r wr false (vs_s st) (vs_V st) el) as [[s1 [o|e]] ev]; cbn [snd] in E.
    - assert (M1 : forall V1, marked (vs_V st) [(el, false, o)] V1 -> marked V0 (evals (vs_trace st ++ ev ++ [EEval el false o])) V1).
      { intros V1 H. rewrite !evals_app, E. cbn [app evals flat_map]. now apply (marked_app V0 _ (vs_V st)). }
      assert (Keep : o = OUneval \/ v_bool (vs_V st el) = false -> marked (vs_V st) [(el, false, o)] (vs_V st)).
      { intros H. econstructor; [|easy|now constructor]. destruct H as [-> |H]; [constructor|]. destruct (vs_V st el); try discriminate. constructor. }
      cbv zeta. destruct o; try (apply IH; cbn [vs_trace vs_V]; apply M1, Keep; now left);
        (destruct (v_bool (vs_V st el)) eqn:B; [|apply IH; cbn [vs_trace vs_V]; apply M1, Keep; now right]);
        (destruct (and_valid (vs_valid st) _); [apply IH|]; cbn [fst vs_trace vs_V]; apply M1, marked_one, mark_up; easy).
    - cbn [fst vs_trace vs_V]. now rewrite evals_app, E, app_nil_r.
  Qed.
  Theorem validate_marks fuel s V root st r : validate_r wr fuel s V root = (st, r) -> marked V (evals (vs_trace st)) (vs_V st).
  Proof.
    unfold validate_r. pose proof (descend_marks V fuel [root] (VState s V true [] [] []) (mk_nil V V (fun x => eq_refl))) as D.
    destruct (descend_r wr fuel [root] _) as [st1 [e|]]; cbn [fst] in D; [intros [= <- _]; easy|].
    apply (ascend_marks V (rev (vs_elements st1))) in D. destruct (ascend_r wr _ st1) as [st2 [e|]]; intros [= <- _]; easy.
  Qed.

  (* ---- exceptions ---- *)
  Lemma chain_why vs : forall s V el s' e ev, run_chain_r wr vs s V el = (s', Err e, ev) -> exists fn s1, r_raise wr fn s1 V el = Some (s', e).
  Proof.
    induction vs as [|fn vs IH]; intros s V el s' e ev E; [discriminate|]. cbn [run_chain_r] in E. destruct (r_raise wr fn s V el) as [[s1 e1]|] eqn:R.
    - injection E as <- <- <-. eauto.
    - destruct (w_run w fn s V el) as [s1 r]. destruct (send w (Some fn) s1 el r) as [s2 sent].
      destruct r; try discriminate; destruct (run_chain_r wr vs s2 V el) as [[s3 o] ev'] eqn:E'; injection E as <- -> <-; eapply IH; eauto.
  Qed.
  Lemma pass_why d s V el s' e ev : validate_pass_r wr d s V el = (s', Err e, ev) -> exists fn s1, r_raise wr fn s1 V el = Some (s', e).
  Proof.
    assert (G : forall vs, validate_element_r wr vs s V el = (s', Err e, ev) -> exists fn s1, r_raise wr fn s1 V el = Some (s', e)).
    { intros vs. unfold validate_element_r. destruct (_ && _)%bool; [discriminate|]. destruct vs as [|v vs]; [|apply chain_why]. now destruct (send w None s el _). }
    unfold validate_pass_r. destruct d.
    - destruct (w_down w s el) as [vs|]; [|discriminate]. destruct (w_container w el), vs; try discriminate; apply G.
    - destruct (w_up w s el) as [vs|]; [|discriminate]. apply G.
  Qed.
  Lemma descend_why : forall fuel q st st' e, descend_r wr fuel q st = (st', Some e) -> e = OutOfFuel \/ comes_from wr st' e.
  Proof.
    induction fuel as [|fuel IH]; intros q st st' e E; (destruct q as [|el q]; [discriminate|]); [injection E as _ <-; now left|]. cbn [descend_r] in E.
    destruct (memb Nat.eqb el (vs_seen st)); [eapply IH; eauto|]. destruct (validate_pass_r wr true (vs_s st) (vs_V st) el) as [[s1 [o|e1]] ev] eqn:P.
    - destruct (match o with OUneval => Ok (vs_valid st) | _ => and_valid (vs_valid st) o end) eqn:A; cbv zeta in E.
      + destruct o; eapply IH; eauto.
      + injection E as <- <-. right. left. destruct o; cbn in A; try discriminate; destruct (vs_valid st); try discriminate. injection A as <-.
        split; [easy|]. exists (vs_trace st ++ ev), el, true. cbn [vs_trace]. now rewrite <- app_assoc.
    - injection E as <- <-. right. right. apply pass_why in P as (fn & s0 & R). exists fn, s0, el. exact R.
  Qed.
  Lemma ascend_why : forall els st st' e, ascend_r wr els st = (st', Some e) -> comes_from wr st' e.
  Proof.
    induction els as [|el els IH]; intros st st' e E; [discriminate|]. cbn [ascend_r] in E.
    destruct (validate_pass_r wr false (vs_s st) (vs_V st) el) as [[s1 [o|e1]] ev] eqn:P; cbv zeta in E.
    - assert (F : forall V1, and_valid (vs_valid st) o = Err e -> st' = VState s1 V1 (vs_valid st) (vs_elements st) (vs_seen st) (vs_trace st ++ ev ++ [EEval el false o]) -> comes_from wr st' e).
      { intros V1 A ->. left. destruct o; cbn in A; destruct (vs_valid st); try discriminate. injection A as <-.
        split; [easy|]. exists (vs_trace st ++ ev), el, false. cbn [vs_trace]. now rewrite <- app_assoc. }
      destruct o; try (eapply IH; now eauto); (destruct (v_bool (vs_V st el)); [|eapply IH; now eauto]);
        (destruct (and_valid (vs_valid st) _) eqn:A in E; [eapply IH; now eauto|]); injection E as <- <-; eapply F; eauto.
    - injection E as <- <-. right. apply pass_why in P as (fn & s0 & R). exists fn, s0, el. exact R.
  Qed.
  Theorem validate_why fuel s V root st e : validate_r wr fuel s V root = (st, Err e) -> e = OutOfFuel \/ comes_from wr st e.
  Proof.
    unfold validate_r. destruct (descend_r wr fuel [root] _) as [st1 [e1|]] eqn:D; [intros [= <- <-]; eapply descend_why; eauto|].
    destruct (ascend_r wr _ st1) as [st2 [e2|]] eqn:A; [|discriminate]. intros [= <- <-]. right. eapply ascend_why; eauto.
  Qed.
  Theorem validate_r_ends (U : list id) s V root : (forall s x, In x U -> incl (w_children w s x) U) -> In root U ->
    (forall fn s1 V1 el s2 e, r_raise wr fn s1 V1 el = Some (s2, e) -> e <> OutOfFuel) ->
    exists F, forall fuel, F <= fuel -> snd (validate_r wr fuel s V root) <> Err OutOfFuel.
  Proof.
    intros Cl Ir Ne. destruct (validate_terminates w U s V root Cl Ir) as (F & r & Nr & H). exists F. intros fuel L E. specialize (H fuel L).
    rewrite validate_calm in H. destruct (validate_breaks fuel s V root) as [B|(st & e & B & (fn & el & s1 & s2 & r1 & rest & R & _))].
    - rewrite <- B in H. destruct (validate_r wr fuel s V root) as [st r1]. cbn [snd] in E. subst r1. now subst r.
    - rewrite B in E. cbn [snd] in E. injection E as ->. now apply Ne in R.
  Qed.
End Break.
