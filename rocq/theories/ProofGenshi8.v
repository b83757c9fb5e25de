(* Proofs: rendering ends. *)
From Verif Require Import PyBase PyBaseFacts ModelMarkup SpecMarkup ProofMarkup ProofMarkup4 ProofMarkup5 ModelGenshi SpecGenshi ProofGenshi ProofGenshi2 ProofGenshi3 ProofGenshi4 ProofGenshi5 ProofGenshi6 ProofGenshi7.

(* ---- what may still be rewritten ---- *)
(* SUB events, and tags that may yet be wrapped in one: those in a bound select *)
Definition binds (ds : list directive) : bool := existsb is_binding ds.
Definition is_select (q : qname) : bool := str_eqb (q_local q) (lit "select").
Definition begins_select (l : list event) : bool := match l with Start q _ :: _ => is_select q | _ => false end.
Fixpoint weight (c : bool) (e : event) : nat :=
  match e with
  | Start _ _ => if c then 1 else 0
  | Iter l => list_sum (map (weight c) l)
  | Sub ds l => S (list_sum (map (weight (if binds ds then begins_select l else c)) l))
  | _ => 0
  end.
Definition weights (c : bool) (l : list event) : nat := list_sum (map (weight c) l).
Lemma weights_app c l1 l2 : weights c (l1 ++ l2) = weights c l1 + weights c l2.
Proof. unfold weights. now rewrite map_app, list_sum_app. Qed.
Lemma weights_cons c e l : weights c (e :: l) = weight c e + weights c l.
Proof. reflexivity. Qed.
Lemma events_ind (P : list event -> Prop) : P [] ->
  (forall e l, match e with Iter l1 | Sub _ l1 => P l1 | _ => True end -> P l -> P (e :: l)) -> forall l, P l.
Proof.
  intros P0 Pc l. assert (G : forall k l, esizes l < k -> P l).
  { induction k as [|k IH]; intros l0 L; [lia|]. destruct l0 as [|e l0]; [easy|]. rewrite esizes_cons in L. pose proof (esize_pos e). apply Pc.
    - destruct e as [q a|q|h s|h s|l1|ds l1|n]; try exact I; apply IH; cbn [esize] in L; fold (esizes l1) in L; lia.
    - apply IH. lia. }
  apply (G (S (esizes l))). lia.
Qed.
Lemma weights_false l : weights false l <= weights true l.
Proof.
  induction l as [|e l He Hl] using events_ind; [easy|]. rewrite !weights_cons. assert (weight false e <= weight true e); [|lia].
  destruct e as [q a|q|h s|h s|l1|ds l1|n]; cbn [weight]; try lia; try exact He. destruct (binds ds); [lia|]. fold (weights false l1) (weights true l1). lia.
Qed.
Lemma weights_le c l : weights false l <= weights c l.
Proof. destruct c; [apply weights_false|lia]. Qed.
Definition weight_of (c : bool) (x : N + event) : nat := match x with inl _ => 0 | inr e => weight c e end.
Lemma weight_chars c (s : str) : list_sum (map (weight_of c) (map inl s)) = 0.
Proof. induction s; cbn; auto. Qed.
Lemma weights_splices c l : weights c l = list_sum (map (weight_of c) (splices l)).
Proof.
  induction l as [|e l He Hl] using events_ind; [easy|]. rewrite weights_cons, splices_cons, map_app, list_sum_app, <- Hl. f_equal.
  destruct e as [q a|q|h s|h s|l1|ds l1|n]; cbn [weight spliced]; try (now rewrite weight_chars); try (cbn; lia). exact He.
Qed.
Lemma weights_same c l l' : splices l = splices l' -> weights c l = weights c l'.
Proof. intros E. now rewrite !weights_splices, E. Qed.
Lemma binds_in ds x : In (DBind x) ds -> binds ds = true.
Proof. intros I. apply existsb_exists. exists (DBind x). easy. Qed.
Lemma binds_not ds : (forall x, ~ In (DBind x) ds) -> binds ds = false.
Proof.
  intros H. destruct (binds ds) eqn:E; [|easy]. apply existsb_exists in E as (d & I & E). destruct d; try discriminate. now elim (H b).
Qed.
Lemma bound_weights q b l l' : is_select q = false -> bound_to q b l l' -> weights false l' <= weights true l.
Proof.
  intros Q. induction 1 as [|a inner inner' l l' Na C Bi IHi B IH|ds sub x l l' I B IH|ds sub sub' l l' Nb Bs IHs B IH|e l l' Ns Nt B IH]; [easy| | | |].
  - rewrite !weights_cons, !weights_app, !weights_cons. cbn [weight begins_select binds existsb is_binding orb]. rewrite Q.
    fold (weights false (Start q a :: inner' ++ [End q])). rewrite weights_cons, weights_app. cbn [weight]. cbn. lia.
  - rewrite !weights_cons. cbn [weight]. rewrite (binds_in ds x I). lia.
  - rewrite !weights_cons. cbn [weight]. rewrite (binds_not ds Nb). fold (weights false sub') (weights true sub). lia.
  - rewrite !weights_cons. pose proof (weights_false [e]) as W. rewrite !weights_cons in W. cbn in W. lia.
Qed.

(* ---- rewriting ---- *)
Lemma rewrite_weights env controls rc q a rest b rc' out : rewrite env controls rc q a rest b = (rc', Ok out) ->
  weights false out <= weights (match b with Some _ => is_select q | None => false end) rest.
Proof.
  intros E. unfold rewrite in E.
  destruct (inject_all [] controls) as [m0|]; [|discriminate]. cbn [bind] in E.
  match type of E with context [bind ?x (fun contents => bind (read_attrs a a [] m0) _)] => set (cont := x) in E end.
  destruct cont as [c|] eqn:C; [|discriminate]. cbn [bind] in E. subst cont.
  destruct (read_attrs a a [] m0) as [[[a1 ex] m]|]; [|discriminate]. cbn [bind] in E.
  destruct (render_frames rc) as [|top below]; [discriminate|].
  destruct (transform env (q_local q) m (contents_of c) top b) as [top' [[m' c']|]]; [|discriminate].
  injection E as _ E. destruct (new_contents c c') as [l|] eqn:Nc; [|discriminate]. cbn [bind] in E.
  set (bound := match l with [] => _ | _ => _ end) in E. destruct bound as [l2|] eqn:B; [|discriminate]. cbn [bind] in E. injection E as <-.
  set (cb := match b with Some _ => is_select q | None => false end).
  rewrite weights_cons. cbn [weight]. cbn [Nat.add].
  assert (B2 : weights false l2 <= weights cb l).
  { subst bound cb. destruct l as [|x l]; [injection B as <-; cbn; lia|]. destruct b as [el|]; [|injection B as <-; lia]. unfold is_select.
    destruct (str_eqb (q_local q) (lit "select")); [|injection B as <-; lia]. apply bind_unbound_iff in B. eapply bound_weights; eauto. reflexivity. }
  destruct l2 as [|y l2]; [apply weights_le|]. rewrite weights_app.
  destruct (rest_cases rest) as [-> |(mid & e & ->)].
  - cbn in C. injection C as <-. destruct c'; cbn in Nc; try discriminate; injection Nc as <-; cbn in B2; cbn; lia.
  - rewrite rest_cont in C. destruct (new_out _ _ _ _ C Nc) as (l' & Co & El & _ & _). rewrite weights_app.
    assert (weights cb l <= weights cb mid) as L.
    { destruct Co; destruct l as [|z l]; try (cbn; lia); try (injection El as -> ->; cbn; lia); try (rewrite El; lia).
      rewrite El. rewrite (weights_same cb l0 mid) by easy. lia. }
    assert (weights false match mid ++ [e] with [] => [] | e0 :: r => [last r e0] end = weights false [e]) as ->.
    { destruct mid as [|z mid]; [easy|]. cbn [app]. now rewrite last_last. }
    pose proof (weights_le cb [e]). lia.
Qed.

(* ---- nothing else runs forever ---- *)
Lemma ends_ok {A} (a : A) : ends (Ok a).
Proof. easy. Qed.
Lemma ends_bind {A B} (x : res A) (k : A -> res B) : ends x -> (forall a, ends (k a)) -> ends (bind x k).
Proof. destruct x; cbn; [auto|]. unfold ends. intros H _ E. injection E as ->. easy. Qed.
Lemma ends_rmap {A B} (f : A -> B) (x : res A) : ends x -> ends (rmap f x).
Proof. destruct x; cbn; [easy|]. unfold ends. intros H E. injection E as ->. easy. Qed.
Lemma ends_err {A B} (e : exn) : ends (Err e : res A) -> ends (Err e : res B).
Proof. unfold ends. intros H E. injection E as ->. easy. Qed.
Lemma setting_ends k ctx : ends (setting k ctx).
Proof. unfold setting. destruct (get k ctx); easy. Qed.
Lemma toggle_ends key a ctx : ends (pop_toggle key a ctx).
Proof.
  unfold pop_toggle. destruct (parse_trool _); try easy. apply ends_bind; [apply setting_ends|]. intros cv. destruct (parse_trool cv); easy.
Qed.
Lemma name_ends tag a c ctx b : ends (transform_name tag a c ctx b).
Proof.
  apply ends_bind; [apply toggle_ends|]. intros [[p f] a']. destruct p; [|easy]. destruct b as [el|]; [|easy]. destruct (b_name el); [easy|].
  destruct (_ || _)%bool; easy.
Qed.
Lemma value_ends tag a c ctx b : ends (transform_value tag a c ctx b).
Proof.
  apply ends_bind; [apply toggle_ends|]. intros [[p f] a']. destruct p; [|easy]. destruct b as [el|]; [|easy].
  destruct (negb f && _)%bool; [easy|]. destruct (tag_is tag "input").
  - cbv zeta. destruct (mv_is _ (lit "radio") || _)%bool.
    + match goal with |- ends (match ?x with (_, _) => _ end) => destruct x end. easy.
    + destruct (_ || _ || _)%bool; [destruct f; easy|]. destruct (_ || _)%bool; easy.
  - destruct (tag_is tag "option"); [easy|]. destruct (tag_is tag "textarea").
    + destruct (_ || _)%bool; [|easy]. apply ends_rmap. unfold markup_escape. cbn [bind truth]. destruct (b_u el); easy.
    + destruct (_ || _)%bool; easy.
Qed.
Lemma truth_ends v : ends (truth v).
Proof. destruct v; easy. Qed.
Lemma format_ends f v : ends (format_mv f v).
Proof.
  assert (F : forall f arg used, ends (format1 f arg) /\ ends (format1_go f arg used)).
  { intros g arg. assert (H : forall n g used, List.length g < n -> ends (format1_go g arg used)).
    { induction n as [|n IH]; intros g0 used L; [lia|]. destruct g0 as [|c g0]; [easy|]. cbn [format1_go].
      destruct (N.eqb c (ch "%")); [|apply ends_rmap, IH; cbn in L; lia]. destruct g0 as [|c2 g0]; [easy|]. cbn in L.
      destruct (N.eqb c2 (ch "s")); [destruct used; [easy|apply ends_rmap, IH; lia]|]. destruct (N.eqb c2 (ch "%")); [apply ends_rmap, IH; lia|easy]. }
    intros used. split; [|apply (H (S (List.length g))); lia]. apply ends_bind; [apply (H (S (List.length g))); lia|]. intros [u t]. destruct u; easy. }
  destruct f; try easy; apply (F s _ false).
Qed.
Lemma put_ends key tags f tag a c ctx b : ends (put_domid key tags f tag a c ctx b).
Proof.
  unfold put_domid. destruct (_ || _)%bool; [|easy]. apply ends_bind.
  - unfold raw_domid. apply ends_bind; [apply truth_ends|]. intros t. destruct (negb t); [easy|]. destruct (_ && _)%bool; [|easy].
    apply ends_bind; [unfold sanitize_domid_suffix; destruct (get_or _ _ _); easy|]. intros s. destruct s; [easy|]. destruct b; cbn; [easy|]. destruct (get_or "name" a MNone); easy.
  - intros raw. apply ends_bind; [apply truth_ends|]. intros t. destruct (negb t); [easy|]. apply ends_bind; [apply setting_ends|]. intros fmt.
    apply ends_rmap, format_ends.
Qed.
Lemma run_ends env : filters_end env -> forall fs tag a c ctx b, ends (snd (run_filters env fs tag a c ctx b)).
Proof.
  intros H. induction fs as [|f fs IH]; intros tag a c ctx b; [easy|]. cbn [run_filters].
  assert (R : ends (snd (match f_run env f tag a c ctx b with
               | (ctx, Err e) => (ctx, Err e)
               | (ctx, Ok (a, contents)) => run_filters env fs tag a contents ctx b
               end))).
  { specialize (H f tag a c ctx b). destruct (f_run env f tag a c ctx b) as [ctx' [[a' c']|e]]; [apply IH|exact H]. }
  destruct (f_tags env f); [exact R|]. destruct (negb (in_tags tag (s :: l))); [apply IH|exact R].
Qed.
Lemma transform_ends env tag a c ctx b : filters_end env -> ends (snd (transform env tag a c ctx b)).
Proof.
  intros H. unfold transform.
  match goal with |- context [match ?x with Ok _ => _ | Err _ => _ end] => assert (E : ends x); [|destruct x as [[a' c']|e]; [|exact (ends_err _ E)]] end.
  { apply ends_bind; [apply name_ends|]. intros [a1 c1]. apply ends_bind; [apply value_ends|]. intros [a2 c2].
    apply ends_bind; [apply ends_bind; [apply toggle_ends|]; intros [[p f] a3]; destruct (negb p); [easy|apply put_ends]|].
    intros [a3 c3]. apply ends_bind; [apply toggle_ends|]. intros [[p f] a4]. destruct p; [|easy]. destruct b; [|easy]. apply put_ends. }
  assert (T : ends (snd (transform_tabindex tag a' c' ctx))).
  { unfold transform_tabindex. pose proof (toggle_ends "auto_tabindex" a' ctx) as P. destruct (pop_toggle _ _ _) as [[[p f] a4]|e]; [|exact (ends_err _ P)].
    destruct (negb p); [easy|]. pose proof (setting_ends "tabindex" ctx) as S0. destruct (setting _ _) as [tv|e]; [|exact (ends_err _ S0)].
    destruct (int_of tv) as [[|z|z]|]; try easy; (destruct (_ || _)%bool; [|easy]); cbv zeta; try easy; destruct (0 <? _)%Z; easy. }
  destruct (transform_tabindex tag a' c' ctx) as [ctx' [[a4 c4]|e]]; [|exact (ends_err _ T)].
  unfold transform_filters. pose proof (toggle_ends "auto_filter" a4 ctx') as P. destruct (pop_toggle _ _ _) as [[[p f] a5]|e]; [|exact (ends_err _ P)].
  pose proof (setting_ends "filters" ctx') as S0. destruct (setting _ _) as [fv|e]; [|exact (ends_err _ S0)]. destruct (negb p); [easy|]. destruct fv; try easy. now apply run_ends.
Qed.
Lemma simplify_ends l : ends (simplify l).
Proof. intros E. apply simplify_error in E as (E & _). discriminate. Qed.
Lemma inject_ends m ds : ends (inject_all m ds).
Proof. intros E. apply inject_err in E as (E & _). discriminate. Qed.
Lemma read_ends : forall l a ex m, ends (read_attrs l a ex m).
Proof.
  induction l as [|[q v] l IH]; intros a ex m; [easy|]. cbn [read_attrs]. destruct (q_ns q); [apply IH|]. apply ends_bind; [|intros p; apply IH].
  destruct v as [v|l1]; [destruct v; easy|]. apply ends_bind; [apply simplify_ends|]. intros [t|l2]; easy.
Qed.
Lemma rewrite_ends env controls rc q a rest b : filters_end env -> ends (snd (rewrite env controls rc q a rest b)).
Proof.
  intros H. unfold rewrite.
  match goal with |- context [match ?x with Ok _ => _ | Err _ => _ end] => assert (E : ends x); [|destruct x as [[c [[a' ex] m]]|e]; [|exact (ends_err _ E)]] end.
  { apply ends_bind; [apply inject_ends|]. intros m. apply ends_bind.
    - destruct rest as [|x [|y r]]; [|easy|]; apply ends_rmap, simplify_ends.
    - intros c. apply ends_bind; [apply read_ends|easy]. }
  destruct (render_frames rc) as [|top below]; [easy|]. pose proof (transform_ends env (q_local q) m (contents_of c) top b H) as T.
  destruct (transform _ _ _ _ _ _) as [top' [[m' c']|e]]; [|exact (ends_err _ T)]. cbn [snd]. apply ends_bind.
  - destruct c'; try easy. destruct c as [[t|l]|]; easy.
  - intros l. apply ends_bind; [|easy]. destruct l as [|x l]; [easy|]. destruct b as [el|]; [|easy]. destruct (str_eqb _ _); [|easy].
    intros Eb. apply bind_unbound_errors in Eb. discriminate.
Qed.

Section Terminates.
  Variables (env : filters_env) (filters : mv -> res mv).
  Hypothesis (Fe : filters_end env) (Fv : forall v, ends (filters v)).
  Lemma with_ends s fs : ends (snd (with_begin filters s fs)).
  Proof.
    unfold with_begin. destruct fs as [|top below]; [easy|].
    match goal with |- context [match ?x with Ok _ => _ | Err _ => _ end] => assert (E : ends x); [|destruct x as [s'|e]; [|exact (ends_err _ E)]] end.
    { destruct (get "filters" s); [apply ends_rmap, Fv|easy]. }
    destruct (ctx_update top s') as [f [x|]] eqn:U; [|easy]. apply ctx_update_err in U as (-> & _). easy.
  Qed.
  Lemma set_ends s fs : ends (snd (set_process s fs)).
  Proof.
    unfold set_process. destruct fs as [|top below]; [easy|]. destruct (ctx_update top s) as [f [x|]] eqn:U; [|easy]. apply ctx_update_err in U as (-> & _). easy.
  Qed.
  Definition finishes (rc : option (list frame)) (l : list event) : Prop := exists fuel, ends (snd (render fuel env filters rc l)).
  Lemma finishes_up rc l fuel fuel' : ends (snd (render fuel env filters rc l)) -> fuel <= fuel' -> render fuel' env filters rc l = render fuel env filters rc l.
  Proof. intros E L. destruct (render_mono env filters fuel fuel' rc l L) as [K|K]; [easy|exact K]. Qed.
  Lemma finishes_output rc e l : finishes rc l -> (exists e', forall fuel, render (S fuel) env filters rc (e :: l) = output e' (render fuel env filters rc l)) ->
    finishes rc (e :: l).
  Proof. intros (f & E) (e' & O). exists (S f). rewrite O. cbn. now apply ends_rmap. Qed.
  (* the directives of a SUB event of ours *)
  Lemma first_binds ds d ds' : directive_order ds = ([], Some (d, ds')) -> ds = d :: ds' /\ is_local d = true.
  Proof.
    destruct (splits_exists ds) as (f & o & S0). rewrite (directive_order_spec _ _ _ S0). intros [= -> E]. destruct o as [|x o]; [discriminate|]. injection E as -> ->.
    remember [] as f0 eqn:Ef in S0. remember (d :: ds') as o0 eqn:Eo in S0. revert d ds' Eo. induction S0 as [| |x ds f o Nf S0 IH]; intros d ds' Eo; try discriminate.
    injection Eo as -> ->. split; [f_equal|].
    - destruct ds' as [|y ds']; [|now destruct (IH Ef y ds' eq_refl)]. clear -S0 Ef. inversion S0; subst; try discriminate. reflexivity.
    - destruct d; try reflexivity. now elim (Nf n).
  Qed.
  Lemma sub_finishes rc ds l : (forall rc l', weights false l' < weights false [Sub ds l] -> finishes rc l') ->
    exists fuel, ends (snd (render_sub (render fuel env filters) env filters rc ds l)).
  Proof.
    intros IH. rewrite weights_cons in IH. cbn [weight] in IH. fold (weights (if binds ds then begins_select l else false) l) in IH.
    set (c := if binds ds then begins_select l else false) in *.
    assert (In' : forall rc, finishes rc l).
    { intros rc'. apply IH. pose proof (weights_le c l). cbn. lia. }
    unfold render_sub. destruct (directive_order ds) as [[|f fs] [[d ds']|]] eqn:Eo; try (exists 0; easy).
    - apply first_binds in Eo as (-> & Ld).
      assert (R : forall q a rest, l = Start q a :: rest -> exists fuel, ends (snd (
        match (match d with DBind b => rewrite env ds' rc q a rest b | _ => rewrite env (d :: ds') rc q a rest None end) with
          | (rc, Err e) => (rc, Err e)
          | (rc, Ok l) => render fuel env filters rc l
          end))).
      { intros q a rest ->.
        match goal with |- exists fuel, ends (snd (match ?x with (_, _) => _ end)) => assert (E : ends (snd x)) by (destruct d; now apply rewrite_ends); destruct x as [rc' [out|e]] eqn:W end.
        - assert (finishes rc' out) as (fuel & F); [|exists fuel; exact F]. apply IH. cbn [list_sum fold_right].
          assert (weights false out <= weights c (Start q a :: rest)); [|lia]. rewrite weights_cons.
          clear IH In'. assert (N0 : forall w, w <= weights false rest -> w <= weight c (Start q a) + weights c rest) by (intros w Hw; pose proof (weights_le c rest); lia).
          destruct d as [b|k raw|s|s|n]; [|apply N0; now apply rewrite_weights in W..].
          apply rewrite_weights in W. subst c. cbn [binds existsb is_binding orb begins_select]. destruct b as [el|]; [lia|]. now apply N0.
        - exists 0. exact E. }
      destruct d as [b|k raw|s|s|n].
      + destruct l as [|[q a|q|h t|h t|l1|ds1 [|x l1]|m] [|y rest]]; try (exists 0; easy); try (eapply R; reflexivity).
        exists 0. cbn. destruct (inject_all [] ds') eqn:Ei; [easy|]. apply inject_err in Ei as (-> & _). discriminate.
      + destruct l as [|[q a|q|h t|h t|l1|ds1 [|x l1]|m] [|y rest]]; try (exists 0; easy); try (eapply R; reflexivity).
        exists 0. cbn [snd]. destruct (inject_all [] (DControl k raw :: ds')) eqn:Ei; [easy|]. apply inject_err in Ei as (-> & _). discriminate.
      + pose proof (with_ends s (render_frames rc)) as W. destruct (with_begin filters s (render_frames rc)) as [fs [[]|x]]; [|exists 0; exact (ends_err _ W)].
        destruct ds'; [|exists 0; easy]. destruct (In' (Some fs)) as (fuel & F). exists fuel. destruct (render fuel env filters (Some fs) l) as [rc' [out|e]]; [|exact F].
        cbn [snd]. apply ends_rmap. destruct (render_frames rc') as [|g [|h r]]; easy.
      + pose proof (set_ends s (render_frames rc)) as W. destruct (set_process s (render_frames rc)) as [fs [[]|x]]; [|exists 0; exact (ends_err _ W)].
        destruct ds'; [|exists 0; easy]. apply In'.
      + discriminate.
    - apply In'.
  Qed.
  Theorem render_finishes : forall rc l, finishes rc l.
  Proof.
    assert (G : forall w n rc l, weights false l < w -> esizes l < n -> finishes rc l).
    { induction w as [|w IHw]; [lia|]. induction n as [|n IHn]; intros rc l W L; [lia|].
      destruct l as [|e l]; [exists 1; easy|]. rewrite weights_cons in W. rewrite esizes_cons in L. pose proof (esize_pos e).
      assert (T : forall rc, finishes rc l) by (intros rc'; apply IHn; lia).
      destruct e as [q a|q|h s|h s|l1|ds l1|m].
      - apply finishes_output; [easy|]. eexists. intros fuel. rewrite render_step. reflexivity.
      - apply finishes_output; [easy|]. eexists. intros fuel. rewrite render_step. reflexivity.
      - apply finishes_output; [easy|]. eexists. intros fuel. rewrite render_step. reflexivity.
      - apply finishes_output; [easy|]. exists (Text h s). intros fuel. rewrite render_step. reflexivity.
      - destruct (IHn rc (l1 ++ l)) as (fuel & F).
        + rewrite weights_app. exact W.
        + rewrite esizes_app. cbn [esize] in L. fold (esizes l1) in L. lia.
        + exists (S fuel). now rewrite render_step.
      - destruct (sub_finishes rc ds l1) as (f1 & F1).
        { intros rc' l' L'. apply (IHw (S (esizes l'))); [|lia]. rewrite weights_cons in L'. change (weights false []) with 0 in L'. lia. }
        assert (exists f2, forall f, f2 <= f -> ends (snd (after (render_sub (render f env filters) env filters rc ds l1) (fun rc => render f env filters rc l)))) as (f2 & F2).
        { assert (Up : forall f, f1 <= f -> render_sub (render f env filters) env filters rc ds l1 = render_sub (render f1 env filters) env filters rc ds l1).
          { intros f Lf. destruct (sub_mono env filters (render f1 env filters) (render f env filters) rc ds l1) as [K|K]; [|easy|exact K].
            intros rc' l'. now apply render_mono. }
          destruct (render_sub (render f1 env filters) env filters rc ds l1) as [rc1 [o1|e1]].
          - destruct (T rc1) as (f2 & F2). exists (Nat.max f1 f2). intros f Lf. rewrite (Up f) by lia. cbn [after snd]. apply ends_rmap.
            now rewrite (finishes_up rc1 l f2 f F2) by lia.
          - exists f1. intros f Lf. rewrite (Up f Lf). exact F1. }
        exists (S f2). rewrite render_step. apply F2. lia.
      - apply finishes_output; [easy|]. eexists. intros fuel. rewrite render_step. reflexivity. }
    intros rc l. apply (G (S (weights false l)) (S (esizes l))); lia.
  Qed.
  Theorem render_answers rc l : exists rc' r fuel, r <> Err OutOfFuel /\ forall more, render (fuel + more) env filters rc l = (rc', r).
  Proof.
    destruct (render_finishes rc l) as (fuel & F). destruct (render fuel env filters rc l) as [rc' r] eqn:E. exists rc', r, fuel. split; [exact F|].
    intros more. rewrite <- E. apply finishes_up; [now rewrite E|lia].
  Qed.
End Terminates.
