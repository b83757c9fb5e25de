From Verif Require Import PyBase PyBaseFacts ModelMarkup SpecMarkup ProofMarkup5 ModelTag SpecTag ProofTag.
From Coq Require Import Sorted Lia.

Lemma step_result env s o p : g_frames (ts_gen s) <> [] -> plain_ops s o = [p] ->
  (forall i kw b, o <> Open i kw b) ->
  snd (tag_step env s o) = rmap inr (snd (gen_step env (ts_gen s) p)).
Proof.
  intros Hf Hp Ho. unfold plain_ops in Hp. destruct o; cbn [renders tag_step] in *; try easy.
  - rewrite generate_eq. pose proof (find_tag_keeps s (lower nm) false false) as H.
    destruct (find_tag s (lower nm) false false) as [s1 t]. destruct H as (Hg & _ & Ht & Hr). cbn [snd] in *.
    pose proof (call_agrees env s1 t kw b ltac:(congruence)) as H. rewrite Hg in H.
    destruct (call_tag env s1 t kw b) as [s2 r]. destruct H as (H & _).
    destruct b, kw; try easy; injection Hp as <-; rewrite H; reflexivity.
  - now exfalso; eapply Ho.
  - destruct (nth_error (ts_got s) i) as [t|]; [|easy]. injection Hp as <-.
    pose proof (call_agrees env s t kw b Hf) as H. destruct (call_tag env s t kw b) as [s2 r].
    destruct H as (H & _). rewrite H. reflexivity.
  - injection Hp as <-. unfold with_gen. now destruct (gen_step _ _ _).
  - injection Hp as <-. unfold with_gen. now destruct (gen_step _ _ _).
  - injection Hp as <-. unfold with_gen. now destruct (gen_step _ _ _).
Qed.

(* ---------------- contents ---------------- *)
Definition contents_rule (env : filters_env) (top : frame) (s s' : tags) (u : tagobj)
  (x : option (tagobj * attrs * option belement)) : Prop :=
  match x with
  | Some (t, kw, b) =>
      (t_id u <> t_id t -> contents s' u = contents s u)
      /\ (forall c, left_contents env top t kw b c -> contents s' t = Some c)
      /\ ((forall c, ~ left_contents env top t kw b c) -> contents s' t = contents s t)
  | None => contents s' u = contents s u
  end.
Lemma step_contents env s o u : g_frames (ts_gen s) <> [] ->
  let '(s', r) := tag_step env s o in
  exists top below, g_frames (ts_gen s) = top :: below
  /\ contents_rule env top s s' u (renders s o)
  /\ (forall t kw b w, renders s o = Some (t, kw, b) -> r = Ok w -> exists c, left_contents env top t kw b c).
Proof.
  intros Hf.
  assert (exists top below, g_frames (ts_gen s) = top :: below) as (top & below & Etop)
    by (destruct (g_frames (ts_gen s)) as [|top below]; [easy|eauto]).
  assert (forall s1 t kw b, ts_gen s1 = ts_gen s -> ts_contents s1 = ts_contents s ->
    let '(s', r) := start_tag env s1 t kw b in
    contents_rule env top s s' u (Some (t, kw, b))
    /\ (forall h, r = Ok h -> exists c, left_contents env top t kw b c)) as Hst.
  { intros s1 t kw b Eg Ec. pose proof (start_contents env s1 t kw b u ltac:(congruence)) as H.
    destruct (start_tag env s1 t kw b) as [s' r]. destruct H as (top' & below' & E & H1 & H2 & H3 & H4).
    rewrite Eg, Etop in E. injection E as <- <-. unfold contents_rule.
    unfold contents in *. rewrite Ec in *. split; [split; [easy|split; easy]|easy]. }
  assert (forall s1 t kw b, ts_gen s1 = ts_gen s -> ts_contents s1 = ts_contents s ->
    let '(s', r) := call_tag env s1 t kw b in
    contents_rule env top s s' u (Some (t, kw, b))
    /\ (forall h, r = Ok h -> exists c, left_contents env top t kw b c)) as Hcall.
  { intros s1 t kw b Eg Ec. specialize (Hst s1 t kw b Eg Ec). unfold call_tag.
    destruct (start_tag env s1 t kw b) as [s' [h|e]]; cbn [rmap]; [|split; easy].
    destruct Hst as [H1 H2]. split; [easy|]. intros h' _. now apply (H2 h). }
  cut (let '(s', r) := tag_step env s o in contents_rule env top s s' u (renders s o)
    /\ (forall t kw b w, renders s o = Some (t, kw, b) -> r = Ok w -> exists c, left_contents env top t kw b c)).
  { destruct (tag_step env s o) as [s' r]. intros H. now exists top, below. }
  destruct o; cbn [tag_step renders].
  - pose proof (find_tag_keeps s nm dangle paired) as H. destruct (find_tag _ _ _ _) as [s1 t].
    destruct H as (_ & H & _). split; [|easy]. unfold contents_rule, contents. cbn. now rewrite H.
  - rewrite generate_eq. pose proof (find_tag_keeps s (lower nm) false false) as H.
    destruct (find_tag s (lower nm) false false) as [s1 t]. destruct H as (Hg & Hc & _). cbn [snd].
    specialize (Hcall s1 t kw b Hg Hc). destruct (call_tag env s1 t kw b) as [s2 r].
    destruct Hcall as [H1 H2].
    destruct b, kw.
    3:{ split; [|easy]. unfold contents_rule, contents. cbn. now rewrite Hc. }
    all: split; [exact H1|]; intros t' kw' b' w [= <- <- <-] Hw; destruct r; [eapply H2; reflexivity|easy].
  - destruct (nth_error (ts_got s) i) as [t|]; [|easy]. cbn [option_map].
    unfold open_tag. set (s0 := Tags _ _ _ _). specialize (Hst s0 t kw b eq_refl eq_refl).
    destruct (start_tag env s0 t kw b) as [s1 [h|e]]; cbn [rmap]; destruct Hst as [H1 H2].
    + split; [easy|]. intros t' kw' b' w [= <- <- <-] _. now apply (H2 h).
    + split; easy.
  - destruct (nth_error (ts_got s) i) as [t|]; easy.
  - destruct (nth_error (ts_got s) i) as [t|]; [|easy]. cbn [option_map].
    specialize (Hcall s t kw b eq_refl eq_refl).
    destruct (call_tag env s t kw b) as [s1 [h|e]]; cbn [rmap]; destruct Hcall as [H1 H2].
    + split; [easy|]. intros t' kw' b' w [= <- <- <-] _. now apply (H2 h).
    + split; easy.
  - unfold with_gen. now destruct (gen_step env (ts_gen s) (OBegin settings)).
  - unfold with_gen. now destruct (gen_step env (ts_gen s) OEnd).
  - unfold with_gen. now destruct (gen_step env (ts_gen s) (OSet settings)).
Qed.

(* ---------------- the history ---------------- *)
Lemma nth_snoc {A} (l : list A) x k y : nth_error (l ++ [x]) k = Some y <->
  nth_error l k = Some y \/ (k = List.length l /\ y = x).
Proof.
  destruct (Nat.lt_trichotomy k (List.length l)) as [H|[->|H]].
  - rewrite nth_error_app1 by easy. split; [tauto|]. intros [?|[-> _]]; [easy|lia].
  - rewrite nth_error_app2, Nat.sub_diag by easy. cbn. split.
    + intros [= <-]. now right.
    + intros [E|[_ ->]]; [|easy]. pose proof (nth_error_Some l (List.length l)). rewrite E in H.
      exfalso. apply (Nat.lt_irrefl (List.length l)). now apply H.
  - assert (nth_error l k = None) as -> by (apply nth_error_None; lia).
    assert (nth_error (l ++ [x]) k = None) as -> by (apply nth_error_None; rewrite app_length; cbn; lia).
    split; [easy|]. intros [?|[-> _]]; [easy|lia].
Qed.
Lemma nth_lt {A} (l : list A) k y : nth_error l k = Some y -> k < List.length l.
Proof. intros H. apply nth_error_Some. congruence. Qed.
Lemma opened_at_lt tr t k : opened_at tr t k -> k < List.length tr.
Proof. intros (H & _). now apply nth_lt in H. Qed.

Lemma opened_open tr t : (forall k, ~ opened_at tr t k) -> opened_at (tr ++ [EOpen t]) t (List.length tr).
Proof.
  intros H. split; [apply nth_snoc; now right|]. split.
  - intros j Hj. intros E. apply nth_lt in E. rewrite app_length in E. cbn in E. lia.
  - (* any earlier opening was closed: otherwise the first since the last close is open *)
    intros j Hj Ej. rewrite nth_error_app1 in Ej by easy.
    (* strong induction downwards on openings *)
    assert (forall j, nth_error tr j = Some (EOpen t) ->
      (forall i, j < i -> nth_error tr i <> Some (EClose t)) -> False) as Hno.
    { clear j Hj Ej. intros j. induction j as [j IH] using lt_wf_ind. intros Ej Hc.
      apply (H j). split; [easy|]. split; [easy|]. intros j' Hj' Ej'.
      (* is there a close between j' and j? *)
      assert ((exists i, j' < i < j /\ nth_error tr i = Some (EClose t))
              \/ ~ (exists i, j' < i < j /\ nth_error tr i = Some (EClose t))) as [Y|Y].
      { clear -j. generalize j at 1 2 as m. intros m.
        assert (forall m, (exists i, j' < i < m /\ nth_error tr i = Some (EClose t))
              \/ ~ (exists i, j' < i < m /\ nth_error tr i = Some (EClose t))) as D; [|apply D].
        clear m. induction m as [|m [(i & Hi & E)|IH]].
        - right. intros (i & Hi & _). lia.
        - left. exists i. split; [lia|easy].
        - destruct (nth_error tr m) as [[x|x]|] eqn:E.
          + right. intros (i & Hi & Ei). apply IH. destruct (Nat.eq_dec i m) as [->|]; [congruence|].
            exists i. split; [lia|easy].
          + assert ({x = t} + {x <> t}) as [->|Hx].
            { decide equality; try apply Bool.bool_dec; [|apply Nat.eq_dec].
              apply list_eq_dec. apply N.eq_dec. }
            * destruct (Nat.lt_ge_cases j' m).
              { left. exists m. split; [lia|easy]. }
              { right. intros (i & Hi & Ei). lia. }
            * right. intros (i & Hi & Ei). apply IH. destruct (Nat.eq_dec i m) as [->|]; [congruence|].
              exists i. split; [lia|easy].
          + right. intros (i & Hi & Ei). apply IH. destruct (Nat.eq_dec i m) as [->|]; [congruence|].
            exists i. split; [lia|easy]. }
      - easy.
      - exfalso. apply (IH j' Hj' Ej'). intros i Hi Ei.
        destruct (Nat.lt_trichotomy i j) as [L|[->|L]]; [|congruence|now apply (Hc i L)].
        apply Y. exists i. split; [lia|easy]. }
    (* a close exists after j *)
    assert (forall m, (exists i, j < i < m /\ nth_error tr i = Some (EClose t))
              \/ (forall i, j < i < m -> nth_error tr i <> Some (EClose t))) as D.
    { induction m as [|m [(i & Hi & E)|IH]].
      - right. lia.
      - left. exists i. split; [lia|easy].
      - assert ({nth_error tr m = Some (EClose t)} + {nth_error tr m <> Some (EClose t)}) as [E|E].
        { repeat (decide equality; try apply Bool.bool_dec; try apply N.eq_dec). }
        + destruct (Nat.lt_ge_cases j m); [left; exists m; split; [lia|easy]|right; lia].
        + right. intros i Hi. destruct (Nat.eq_dec i m) as [->|]; [easy|]. apply IH. lia. }
    destruct (D (List.length tr)) as [(i & Hi & E)|D'].
    + exists i. split; [lia|]. apply nth_snoc. now left.
    + exfalso. apply (Hno j Ej). intros i Hi Ei. apply (D' i); [|easy]. split; [easy|]. now apply nth_lt in Ei.
Qed.
Lemma opened_keep tr t k e : opened_at tr t k -> e <> EClose t -> opened_at (tr ++ [e]) t k.
Proof.
  intros H He. pose proof (opened_at_lt _ _ _ H) as L. destruct H as (H1 & H2 & H3).
  split; [apply nth_snoc; now left|]. split.
  - intros j Hj E. apply nth_snoc in E as [E|[_ E]]; [now apply (H2 j)|congruence].
  - intros j Hj E. rewrite nth_error_app1 in E by lia. destruct (H3 j Hj E) as (i & Hi & Ei).
    exists i. split; [easy|]. apply nth_snoc. now left.
Qed.
Lemma opened_before tr t k e : opened_at (tr ++ [e]) t k -> k < List.length tr -> opened_at tr t k /\ e <> EClose t.
Proof.
  intros (H1 & H2 & H3) L. rewrite nth_error_app1 in H1 by easy. split; [split; [easy|split]|].
  - intros j Hj E. apply (H2 j Hj). apply nth_snoc. now left.
  - intros j Hj E. destruct (H3 j Hj) as (i & Hi & Ei); [apply nth_snoc; now left|].
    exists i. split; [easy|]. now rewrite nth_error_app1 in Ei by lia.
  - intros ->. apply (H2 (List.length tr) L). apply nth_snoc. now right.
Qed.
Lemma opened_new tr t e : opened_at (tr ++ [e]) t (List.length tr) -> e = EOpen t /\ forall k, ~ opened_at tr t k.
Proof.
  intros (H1 & H2 & H3). apply nth_snoc in H1 as [H1|[_ <-]]; [apply nth_lt in H1; lia|].
  split; [easy|]. intros k Hk. pose proof (opened_at_lt _ _ _ Hk) as L. destruct Hk as (K1 & K2 & _).
  destruct (H3 k L) as (i & Hi & Ei); [apply nth_snoc; now left|].
  rewrite nth_error_app1 in Ei by lia. now apply (K2 i).
Qed.
Lemma opened_once tr t k k' : opened_at tr t k -> opened_at tr t k' -> k = k'.
Proof.
  intros (H1 & H2 & H3) (K1 & K2 & K3).
  destruct (Nat.lt_trichotomy k k') as [L|[->|L]]; [|easy|]; exfalso.
  - destruct (K3 k L H1) as (i & Hi & Ei). now apply (H2 i).
  - destruct (H3 k' L K1) as (i & Hi & Ei). now apply (K2 i).
Qed.

(* what holds of the state after the events [tr] *)
Record history (s : tags) (tr : list event) : Prop := {
  h_listed : forall nm, exists L : list (tagobj * nat),
    opened (ts_reg s) nm = map fst L /\ StronglySorted (fun a b => snd a < snd b) L
    /\ forall t k, In (t, k) L <-> t_name t = nm /\ opened_at tr t k;
  h_got : forall t, In t (ts_got s) -> t_id t < r_next (ts_reg s);
  h_same : forall t u, In t (ts_got s) -> In u (ts_got s) -> t_id t = t_id u -> t = u;
  h_events : forall t, In (EOpen t) tr \/ In (EClose t) tr -> In t (ts_got s);
  h_contents : forall t c, contents s t = Some c -> t_id t < r_next (ts_reg s) }.
Lemma listed_got s tr nm t : history s tr -> In t (opened (ts_reg s) nm) ->
  t_name t = nm /\ In t (ts_got s) /\ exists k, opened_at tr t k.
Proof.
  intros H Hin. destruct (h_listed _ _ H nm) as (L & E & _ & HL). rewrite E in Hin.
  apply in_map_iff in Hin as ((t' & k) & Et & Hin). cbn in Et. subst t'. apply HL in Hin as [Hn Ho].
  split; [easy|]. split; [|eauto]. apply (h_events _ _ H). left. destruct Ho as (Ho & _). eapply nth_error_In; eauto.
Qed.
Lemma opened_listed s tr t k : history s tr -> opened_at tr t k -> In t (opened (ts_reg s) (t_name t)).
Proof.
  intros H Ho. destruct (h_listed _ _ H (t_name t)) as (L & E & _ & HL). rewrite E.
  apply in_map_iff. exists (t, k). split; [easy|]. now apply HL.
Qed.
Lemma sorted_snoc (L : list (tagobj * nat)) t k : StronglySorted (fun a b => snd a < snd b) L ->
  (forall p, In p L -> snd p < k) -> StronglySorted (fun a b => snd a < snd b) (L ++ [(t, k)]).
Proof.
  induction 1 as [|p L HS IH HF]; intros Hk; cbn [app].
  - constructor; constructor.
  - constructor; [apply IH; intros q Hq; apply Hk; now right|].
    apply Forall_app. split; [easy|]. constructor; [apply Hk; now left|constructor].
Qed.
(* removing the entry of a tag *)
Lemma remove_listed L t : (forall u k, In (u, k) L -> t_id u = t_id t -> u = t) ->
  (forall k k', In (t, k) L -> In (t, k') L -> k = k') ->
  StronglySorted (fun a b => snd a < snd b) L ->
  exists L', remove_first tag_eqb t (map fst L) = map fst L' /\ StronglySorted (fun a b => snd a < snd b) L'
  /\ forall u k, In (u, k) L' <-> In (u, k) L /\ u <> t.
Proof.
  intros Hid Hone HS. induction HS as [|[u k] L HS IH HF].
  - exists []. split; [easy|]. split; [constructor|]. cbn. tauto.
  - cbn [map fst remove_first]. unfold tag_eqb at 1. destruct (Nat.eqb_spec (t_id t) (t_id u)) as [E|E].
    + assert (u = t) as -> by (apply (Hid u k); [now left|easy]).
      exists L. split; [easy|]. split; [easy|]. intros v j. split.
      * intros Hv. split; [now right|]. intros ->.
        rewrite Forall_forall in HF. specialize (HF _ Hv). cbn in HF.
        assert (k = j) by (apply Hone; [now left|now right]). lia.
      * intros [[[= -> _]|Hv] Hn]; easy.
    + destruct IH as (L' & E' & S' & I').
      { intros v j Hv. apply (Hid v j). now right. }
      { intros i j Hi Hj. apply Hone; now right. }
      exists ((u, k) :: L'). split; [cbn; now rewrite E'|]. split.
      * constructor; [easy|]. apply Forall_forall. intros [v j] Hv. apply I' in Hv as [Hv _].
        rewrite Forall_forall in HF. now apply HF.
      * intros v j. cbn [In]. rewrite I'. split.
        -- intros [[= <- <-]|[Hv Hn]]; [|tauto]. split; [now left|]. intros ->. now apply E.
        -- intros [[Hv|Hv] Hn]; tauto.
Qed.
