(* Proofs: rendering. *)
From Verif Require Import PyBase PyBaseFacts ModelMarkup SpecMarkup ProofMarkup ProofMarkup4 ProofMarkup5 ModelGenshi SpecGenshi ProofGenshi ProofGenshi2 ProofGenshi3 ProofGenshi4 ProofGenshi5.

Section Render.
  Variables (env : filters_env) (filters : mv -> res mv).
  Notation rnd := (option (list frame) -> list event -> option (list frame) * res (list event)).
  Definition refines (x y : option (list frame) * res (list event)) : Prop := snd x = Err OutOfFuel \/ y = x.
  Lemma after_mono x y (k1 k2 : option (list frame) -> option (list frame) * res (list event)) :
    refines x y -> (forall rc, refines (k1 rc) (k2 rc)) -> refines (after x k1) (after y k2).
  Proof.
    intros [E| ->] K.
    - left. destruct x as [rc [l|e]]; cbn in *; [discriminate|easy].
    - destruct x as [rc [l|e]]; [|now right]. cbn [after]. destruct (K rc) as [E| ->]; [|now right]. left. cbn. now rewrite E.
  Qed.
  Lemma output_mono e x y : refines x y -> refines (output e x) (output e y).
  Proof. intros [E| ->]; [|now right]. left. unfold output. cbn. now rewrite E. Qed.
  Lemma sub_mono (r1 r2 : rnd) rc ds sub : (forall rc l, refines (r1 rc l) (r2 rc l)) ->
    refines (render_sub r1 env filters rc ds sub) (render_sub r2 env filters rc ds sub).
  Proof.
    intros M. unfold render_sub. destruct (directive_order ds) as [[|f fs] [[d ds']|]]; try (now right); [|apply M].
    assert (T : forall x : option (list frame) * res (list event), refines (match x with (rc, Err e) => (rc, Err e) | (rc, Ok l) => r1 rc l end) (match x with (rc, Err e) => (rc, Err e) | (rc, Ok l) => r2 rc l end)).
    { intros [rc' [l|e]]; [apply M|now right]. }
    destruct d as [b|k raw|s|s|n].
    - destruct sub as [|e0 rest]; [now right|]. destruct e0 as [q0 a0| | | | | [|] |]; [apply T|right; destruct rest; reflexivity..].
    - destruct sub as [|e0 rest]; [now right|]. destruct e0 as [q0 a0| | | | | [|] |]; [apply T|right; destruct rest; reflexivity..].
    - destruct (with_begin filters s (render_frames rc)) as [fs [[]|e]]; [|now right]. destruct ds'; [|now right].
      destruct (M (Some fs) sub) as [E|E].
      + left. cbv beta iota. destruct (r1 (Some fs) sub) as [rc' [out|e]]; cbn in *; [discriminate|easy].
      + rewrite E. now right.
    - destruct (set_process s (render_frames rc)) as [fs [[]|e]]; [|now right]. destruct ds'; [apply M|now right].
    - destruct sub as [|e0 rest]; [now right|]. destruct e0 as [q0 a0| | | | | [|] |]; [apply T|right; destruct rest; reflexivity..].
  Qed.
  Lemma render_step fuel rc e r : render (S fuel) env filters rc (e :: r) =
    match e with
    | Sub ds sub => after (render_sub (render fuel env filters) env filters rc ds sub) (fun rc => render fuel env filters rc r)
    | Expr h s => output (Text h s) (render fuel env filters rc r)
    | Iter l => render fuel env filters rc (l ++ r)
    | e => output e (render fuel env filters rc r)
    end.
  Proof. destruct e; reflexivity. Qed.
  Lemma render_mono : forall fuel fuel' rc l, fuel <= fuel' -> refines (render fuel env filters rc l) (render fuel' env filters rc l).
  Proof.
    induction fuel as [|fuel IH]; intros fuel' rc l L; [now left|]. destruct fuel' as [|fuel']; [lia|]. assert (fuel <= fuel') as L' by lia.
    destruct l as [|e r]; [now right|]. rewrite !render_step. destruct e; try (apply output_mono, IH, L').
    - now apply IH. - apply after_mono; [apply sub_mono|]; intros; now apply IH.
  Qed.
  Theorem render_more fuel fuel' rc l rc' r : render fuel env filters rc l = (rc', r) -> r <> Err OutOfFuel -> fuel <= fuel' ->
    render fuel' env filters rc l = (rc', r).
  Proof. intros E D L. destruct (render_mono fuel fuel' rc l L) as [K|K]; rewrite E in K; [easy|exact K]. Qed.
  Lemma render_up fuel fuel' rc l rc' o : render fuel env filters rc l = (rc', Ok o) -> fuel <= fuel' -> render fuel' env filters rc l = (rc', Ok o).
  Proof. intros E L. now apply (render_more fuel). Qed.

  Lemma output_ok e x rc o : output e x = (rc, Ok o) -> exists o', x = (rc, Ok o') /\ o = e :: o'.
  Proof. destruct x as [rc' [o'|]]; cbn; [|discriminate]. intros [= <- <-]. eauto. Qed.
  Lemma after_ok x k rc o : after x k = (rc, Ok o) -> exists rc1 o1 o2, x = (rc1, Ok o1) /\ k rc1 = (rc, Ok o2) /\ o = o1 ++ o2.
  Proof.
    destruct x as [rc1 [o1|]]; cbn; [|discriminate]. destruct (k rc1) as [rc2 [o2|]] eqn:E; cbn; [|discriminate]. intros [= <- <-]. eauto 6.
  Qed.

  (* ---- streams in sequence ---- *)
  Lemma render_split : forall fuel l1 l2 rc rc2 out, render fuel env filters rc (l1 ++ l2) = (rc2, Ok out) ->
    exists rc1 o1 o2, render fuel env filters rc l1 = (rc1, Ok o1) /\ render fuel env filters rc1 l2 = (rc2, Ok o2) /\ out = o1 ++ o2.
  Proof.
    induction fuel as [|fuel IH]; intros l1 l2 rc rc2 out E; [discriminate|]. destruct l1 as [|e l1].
    - exists rc, [], out. repeat split; easy.
    - cbn [app] in E. rewrite render_step in E.
      assert (G : forall e', output e' (render fuel env filters rc (l1 ++ l2)) = (rc2, Ok out) ->
        exists rc1 o1 o2, output e' (render fuel env filters rc l1) = (rc1, Ok o1) /\ render (S fuel) env filters rc1 l2 = (rc2, Ok o2) /\ out = o1 ++ o2).
      { intros e' E'. apply output_ok in E' as (o' & E' & ->). apply IH in E' as (rc1 & o1 & o2 & E1 & E2 & ->).
        exists rc1, (e' :: o1), o2. rewrite E1. repeat split; try easy. apply (render_up fuel); [easy|lia]. }
      destruct e; rewrite ?render_step; try (apply G, E).
      + rewrite app_assoc in E. apply IH in E as (rc1 & o1 & o2 & E1 & E2 & ->). exists rc1, o1, o2. repeat split; try easy. apply (render_up fuel); [easy|lia].
      + apply after_ok in E as (rc1 & o1 & o2 & E1 & E2 & ->). apply IH in E2 as (rc3 & o3 & o4 & E3 & E4 & ->).
        exists rc3, (o1 ++ o3), o4. rewrite E1. cbn [after]. rewrite E3. cbn [fst snd rmap]. split; [easy|]. split; [apply (render_up fuel); [easy|lia]|now rewrite app_assoc].
  Qed.
  Lemma render_join : forall f1 f2 l1 l2 rc rc1 rc2 o1 o2, render f1 env filters rc l1 = (rc1, Ok o1) -> render f2 env filters rc1 l2 = (rc2, Ok o2) ->
    render (f1 + f2) env filters rc (l1 ++ l2) = (rc2, Ok (o1 ++ o2)).
  Proof.
    induction f1 as [|f1 IH]; intros f2 l1 l2 rc rc1 rc2 o1 o2 E1 E2; [discriminate|]. destruct l1 as [|e l1].
    - injection E1 as <- <-. apply (render_up f2); [easy|lia].
    - cbn [app Nat.add]. rewrite render_step in E1 |- *.
      assert (G : forall e', output e' (render f1 env filters rc l1) = (rc1, Ok o1) -> output e' (render (f1 + f2) env filters rc (l1 ++ l2)) = (rc2, Ok (o1 ++ o2))).
      { intros e' E'. apply output_ok in E' as (o' & E' & ->). now rewrite (IH _ _ _ _ _ _ _ _ E' E2). }
      destruct e; try (apply G, E1).
      + rewrite app_assoc. eapply IH; eauto.
      + apply after_ok in E1 as (rc3 & o3 & o4 & E3 & E4 & ->).
        destruct (sub_mono (render f1 env filters) (render (f1 + f2) env filters) rc ds l) as [K|K]; [intros; apply render_mono; lia|rewrite E3 in K; discriminate|].
        rewrite K, E3. cbn [after]. rewrite (IH _ _ _ _ _ _ _ _ E4 E2). cbn. now rewrite app_assoc.
  Qed.
  Theorem renders_app rc l1 l2 rc2 out : renders env filters rc (l1 ++ l2) rc2 out <->
    exists rc1 o1 o2, renders env filters rc l1 rc1 o1 /\ renders env filters rc1 l2 rc2 o2 /\ out = o1 ++ o2.
  Proof.
    split.
    - intros (fuel & E). apply render_split in E as (rc1 & o1 & o2 & E1 & E2 & ->). exists rc1, o1, o2. repeat split; now exists fuel.
    - intros (rc1 & o1 & o2 & (f1 & E1) & (f2 & E2) & ->). exists (f1 + f2). eapply render_join; eauto.
  Qed.
  Theorem renders_unique rc l rc1 o1 rc2 o2 : renders env filters rc l rc1 o1 -> renders env filters rc l rc2 o2 -> rc1 = rc2 /\ o1 = o2.
  Proof.
    intros (f1 & E1) (f2 & E2). apply (render_up f1 (f1 + f2)) in E1; [|lia]. apply (render_up f2 (f1 + f2)) in E2; [|lia]. rewrite E1 in E2. now injection E2.
  Qed.
  Theorem renders_nil rc rc' out : renders env filters rc [] rc' out <-> rc' = rc /\ out = [].
  Proof. split; [|intros (-> & ->); now exists 1]. intros ([|f] & E); [discriminate|]. now injection E as <- <-. Qed.
  (* one event *)
  Theorem renders_one rc e e' rc' out : shown_as e = Some e' -> renders env filters rc [e] rc' out <-> rc' = rc /\ out = [e'].
  Proof.
    intros H. split.
    - intros ([|f] & E); [discriminate|]. rewrite render_step in E.
      assert (G : output e' (render f env filters rc []) = (rc', Ok out) -> rc' = rc /\ out = [e']).
      { intros E'. destruct f; [discriminate|]. now injection E' as <- <-. }
      destruct e; try discriminate; injection H as <-; now apply G.
    - intros (-> & ->). exists 2. rewrite render_step. destruct e; try discriminate; injection H as <-; reflexivity.
  Qed.
  Theorem renders_iter rc l rc' out : renders env filters rc [Iter l] rc' out <-> renders env filters rc l rc' out.
  Proof.
    split.
    - intros ([|f] & E); [discriminate|]. rewrite render_step, app_nil_r in E. now exists f.
    - intros (f & E). exists (S f). now rewrite render_step, app_nil_r.
  Qed.
  Lemma renders_sub rc ds l rc' out : renders env filters rc [Sub ds l] rc' out <-> exists fuel, render_sub (render fuel env filters) env filters rc ds l = (rc', Ok out).
  Proof.
    split.
    - intros ([|f] & E); [discriminate|]. rewrite render_step in E. apply after_ok in E as (rc1 & o1 & o2 & E1 & E2 & ->).
      destruct f; [discriminate|]. injection E2 as <- <-. rewrite app_nil_r. eauto.
    - intros (f & E). exists (S (S f)). rewrite render_step.
      destruct (sub_mono (render f env filters) (render (S f) env filters) rc ds l) as [K|K]; [intros; apply render_mono; lia|rewrite E in K; discriminate|].
      rewrite K, E. cbn. now rewrite app_nil_r.
  Qed.
  (* no directives *)
  Theorem renders_bare rc l rc' out : renders env filters rc [Sub [] l] rc' out <-> renders env filters rc l rc' out.
  Proof. rewrite renders_sub. reflexivity. Qed.
  (* a bound tag, and one with control attributes only *)
  Theorem renders_bound rc ds b controls q a rest rc' out : splits ds [] (DBind b :: controls) ->
    renders env filters rc [Sub ds (Start q a :: rest)] rc' out <->
    exists rc1 l, rewrite env controls rc q a rest b = (rc1, Ok l) /\ renders env filters rc1 l rc' out.
  Proof.
    intros S0. apply directive_order_spec in S0. rewrite renders_sub. unfold render_sub. rewrite S0. cbn [first_of].
    destruct (rewrite env controls rc q a rest b) as [rc1 [l|x]]; split.
    - intros (f & E). exists rc1, l. split; [easy|]. now exists f.
    - intros (rc2 & l2 & [= <- <-] & (f & E)). now exists f.
    - intros (f & E). discriminate.
    - intros (rc2 & l2 & E & _). discriminate.
  Qed.
  Theorem renders_control rc ds k raw controls q a rest rc' out : splits ds [] (DControl k raw :: controls) ->
    renders env filters rc [Sub ds (Start q a :: rest)] rc' out <->
    exists rc1 l, rewrite env (DControl k raw :: controls) rc q a rest None = (rc1, Ok l) /\ renders env filters rc1 l rc' out.
  Proof.
    intros S0. apply directive_order_spec in S0. rewrite renders_sub. unfold render_sub. rewrite S0. cbn [first_of].
    destruct (rewrite env (DControl k raw :: controls) rc q a rest None) as [rc1 [l|x]]; split.
    - intros (f & E). exists rc1, l. split; [easy|]. now exists f.
    - intros (rc2 & l2 & [= <- <-] & (f & E)). now exists f.
    - intros (f & E). discriminate.
    - intros (rc2 & l2 & E & _). discriminate.
  Qed.

  (* ---- scopes ---- *)
  Lemma eval_spec s : match (match get "filters" s with
             | None => Ok s
             | Some v => rmap (fun v => set "filters" v s) (filters v)
             end) with
    | Ok s' => evaluated filters s s'
    | Err e => exists v, get "filters" s = Some v /\ filters v = Err e
    end.
  Proof.
    destruct (get "filters" s) as [v|] eqn:G; [|now constructor]. destruct (filters v) as [w|e] eqn:F; cbn [rmap]; [|eauto].
    apply (ev_some filters s v w); [easy|easy| | |].
    - unfold get, set. now rewrite sget_set, str_eqb_refl.
    - intros k Hk. unfold set. rewrite sget_set. destruct (str_eqb k (lit "filters")) eqn:E; [|easy]. apply str_eqb_eq in E. elim Hk. now left.
    - apply (keys_aset_in _ str_eqb_eq). apply sget_in. eauto.
  Qed.
  Lemma frames_kept : forall fuel rc l rc' out, render fuel env filters rc l = (rc', Ok out) -> render_frames rc <> [] ->
    rc' = rc \/ exists top', rc' = Some (top' :: tl (render_frames rc)).
  Proof.
    induction fuel as [|fuel IH]; intros rc l rc' out E Nr; [discriminate|]. destruct l as [|e l]; [injection E as <- <-; now left|].
    assert (T : forall rc1 rc2 l2 o2, (rc1 = rc \/ exists top', rc1 = Some (top' :: tl (render_frames rc))) -> render fuel env filters rc1 l2 = (rc2, Ok o2) ->
       rc2 = rc \/ exists top', rc2 = Some (top' :: tl (render_frames rc))).
    { intros rc1 rc2 l2 o2 [-> |(top' & ->)] E2; [eapply IH; eauto|]. apply IH in E2; [|easy]. cbn [render_frames tl] in E2. destruct E2 as [-> | ?]; [right; eauto|now right]. }
    rewrite render_step in E.
    assert (O : forall e', output e' (render fuel env filters rc l) = (rc', Ok out) -> rc' = rc \/ exists top', rc' = Some (top' :: tl (render_frames rc))).
    { intros e' E'. apply output_ok in E' as (o' & E' & ->). eapply IH; eauto. }
    destruct e; try (eapply O; exact E); [eapply IH; eauto|].
    apply after_ok in E as (rc1 & o1 & o2 & E1 & E2 & ->). eapply T; [|exact E2]. clear E2 O. unfold render_sub in E1.
    assert (R : forall controls q a rest b, (match rewrite env controls rc q a rest b with (rc, Err e) => (rc, Err e) | (rc, Ok l) => render fuel env filters rc l end) = (rc1, Ok o1) ->
        rc1 = rc \/ exists top', rc1 = Some (top' :: tl (render_frames rc))).
    { intros controls q a rest b E. destruct (rewrite env controls rc q a rest b) as [rc3 [l3|]] eqn:W; [|discriminate]. eapply T; [|exact E].
      unfold rewrite in W. match type of W with match ?x with Ok _ => _ | Err _ => _ end = _ => destruct x as [[c [[a1 ex] m]]|] end; [|discriminate].
      destruct (render_frames rc) as [|top below]; [discriminate|]. destruct (transform env (q_local q) m (contents_of c) top b) as [top' [[m' c']|]]; [|discriminate].
      injection W as <- _. right. cbn. eauto. }
    destruct (directive_order ds) as [[|f fs] [[d ds']|]]; try discriminate; [|eapply IH; eauto].
    destruct d as [b|k raw|s|s|n].
    - destruct l0 as [|[q a|q|h t|h t|l1|ds1 [|x l1]|m] [|y rest]]; try discriminate; eapply R; eauto.
    - destruct l0 as [|[q a|q|h t|h t|l1|ds1 [|x l1]|m] [|y rest]]; try discriminate; eapply R; eauto.
    - unfold with_begin in E1. destruct (render_frames rc) as [|top below] eqn:Fr; [discriminate|].
      match type of E1 with context [match ?x with Ok s => match ctx_update top s with _ => _ end | Err _ => _ end] => destruct x as [s'|] end; [|discriminate].
      destruct (ctx_update top s') as [f [x|]]; [discriminate|]. destruct ds'; [|discriminate].
      destruct (render fuel env filters (Some (f :: top :: below)) l0) as [rc3 [o3|]] eqn:E3; [|discriminate]. apply IH in E3; [|easy]. cbn [render_frames tl] in E3.
      destruct E3 as [-> |(f' & ->)]; cbn in E1; injection E1 as <- <-; right; eauto.
    - unfold set_process in E1. destruct (render_frames rc) as [|top below] eqn:Fr; [discriminate|]. destruct (ctx_update top s) as [f [x|]]; [discriminate|]. destruct ds'; [|discriminate].
      eapply T; [|exact E1]. right. cbn. eauto.
    - destruct l0 as [|[q a|q|h t|h t|l1|ds1 [|x l1]|m] [|y rest]]; try discriminate; eapply R; eauto.
  Qed.
  Theorem renders_frames rc l rc' out : renders env filters rc l rc' out -> render_frames rc <> [] ->
    exists top', render_frames rc' = top' :: tl (render_frames rc).
  Proof.
    intros (fuel & E) Nr. apply frames_kept in E; [|easy]. destruct E as [-> |(top' & ->)]; [|cbn; eauto]. destruct (render_frames rc) as [|top below]; [easy|cbn; eauto].
  Qed.

  Lemma dict_ext {V} (l1 l2 : list (str * V)) : keys l1 = keys l2 -> NoDup (keys l1) -> (forall k, aget str_eqb k l1 = aget str_eqb k l2) -> l1 = l2.
  Proof.
    revert l2. induction l1 as [|[k v] l1 IH]; intros [|[k2 v2] l2] K N0 G; try discriminate; [easy|]. cbn in K. injection K as <- K. inversion N0 as [|? ? N1 N2]; subst.
    pose proof (G k) as Gk. cbn in Gk. rewrite str_eqb_refl in Gk. injection Gk as <-. f_equal. apply IH; [easy|easy|]. intros x. specialize (G x). cbn in G.
    destruct (str_eqb x k) eqn:E; [|easy]. apply str_eqb_eq in E. subst x. rewrite (proj2 (sget_out k l1) N1). symmetry. apply sget_out. unfold keys. now rewrite <- K.
  Qed.
  Lemma update_iff top s f : NoDup (keys top) -> ctx_update top s = (f, None) <-> updated top s f.
  Proof.
    intros Nt. split.
    - intros E. pose proof (ctx_update_ok _ _ _ E) as (A & B & C). split; [|easy|easy]. intros k I. unfold keys in I. apply in_map_iff in I as (p & <- & I). rewrite Forall_forall in C. now apply C.
    - intros [A B C]. destruct (ctx_update top s) as [f' [x|]] eqn:E.
      + apply ctx_update_err in E as (-> & X). apply Exists_exists in X as ([k v] & I & O). elim O. apply A. unfold keys. apply in_map_iff. now exists (k, v).
      + f_equal. apply ctx_update_ok in E as (A' & B' & _). apply dict_ext; [congruence|now rewrite B'|]. intros k. now rewrite A', C.
  Qed.
  Theorem renders_with rc ds s l rc' out top below : splits ds [] [DWith s] -> render_frames rc = top :: below -> NoDup (keys s) -> NoDup (keys top) ->
    renders env filters rc [Sub ds l] rc' out <->
    exists s' f f', evaluated filters s s' /\ updated top s' f
      /\ renders env filters (Some (f :: top :: below)) l (Some (f' :: top :: below)) out /\ rc' = Some (top :: below).
  Proof.
    intros S0 Fr Ns Nt. apply directive_order_spec in S0. rewrite renders_sub. unfold render_sub. rewrite S0. cbn [first_of]. unfold with_begin. rewrite Fr.
    pose proof (eval_spec s) as Ev. split.
    - intros (fuel & E). match type of E with context [match ?x with Ok s => match ctx_update top s with _ => _ end | Err _ => _ end] => destruct x as [s'|] end; [|discriminate].
      destruct (ctx_update top s') as [f [x|]] eqn:U; [discriminate|]. destruct (render fuel env filters (Some (f :: top :: below)) l) as [rc3 [o3|]] eqn:E3; [|discriminate].
      apply (update_iff _ _ _ Nt) in U.
      pose proof (frames_kept _ _ _ _ _ E3 ltac:(easy)) as K. cbn [render_frames tl] in K. exists s', f.
      destruct K as [-> |(f' & ->)]; cbn in E; injection E as <- <-; eexists; (split; [exact Ev|]); (split; [exact U|]); (split; [exists fuel; exact E3|reflexivity]).
    - intros (s' & f & f' & V & U & (fuel & E) & ->).
      assert (match get "filters" s with None => Ok s | Some v => rmap (fun v => set "filters" v s) (filters v) end = Ok s') as ->.
      { destruct V as [G|v w s' G Fv G' Se Ks]; rewrite G; [easy|]. rewrite Fv. cbn [rmap]. f_equal.
        assert (keys (set "filters" w s) = keys s) as Kw by (apply (keys_aset_in _ str_eqb_eq), sget_in; eauto).
        apply dict_ext; [congruence|now rewrite Kw|]. intros k. unfold set. rewrite sget_set. destruct (str_eqb k (lit "filters")) eqn:Ek.
        - apply str_eqb_eq in Ek. subst k. easy.
        - symmetry. apply Se. intros [K|[]]. rewrite <- K, str_eqb_refl in Ek. discriminate. }
      exists fuel. apply (update_iff _ _ _ Nt) in U. rewrite U, E. reflexivity.
  Qed.
  Theorem renders_set rc ds s l rc' out top below : splits ds [] [DSet s] -> render_frames rc = top :: below -> NoDup (keys top) ->
    renders env filters rc [Sub ds l] rc' out <-> exists f, updated top s f /\ renders env filters (Some (f :: below)) l rc' out.
  Proof.
    intros S0 Fr Nt. apply directive_order_spec in S0. rewrite renders_sub. unfold render_sub. rewrite S0. cbn [first_of]. unfold set_process. rewrite Fr. split.
    - intros (fuel & E). destruct (ctx_update top s) as [f [x|]] eqn:U; [discriminate|]. apply (update_iff _ _ _ Nt) in U. exists f. split; [easy|]. now exists fuel.
    - intros (f & U & (fuel & E)). apply (update_iff _ _ _ Nt) in U. rewrite U. now exists fuel.
  Qed.
End Render.
