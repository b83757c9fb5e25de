From Verif Require Import PyBase PyBaseFacts ModelMarkup SpecMarkup ProofMarkup5 ModelTag SpecTag.
From Coq Require Import Sorted.

(* ---------------- one opening ---------------- *)
Lemma opener_open_ env tag kw ctx b : let '(f, body, r) := opener env tag kw ctx b in
  tag_open_ env tag kw ctx b
    = (f, rmap (fun h => (h, match body with Some c => c | None => [] end)) r)
  /\ (forall h, r = Ok h -> exists c, body = Some c).
Proof.
  unfold opener, tag_open_.
  destruct (transform _ _ _ _ _ _) as [f [[a c]|e]]; [|split; easy].
  destruct (truth c) as [t|e]; [|split; easy]. cbn [bind].
  destruct (setting _ _) as [ov|e]; cbn [bind]; [|split; [easy|eauto]].
  destruct (truth ov) as [o|e]; cbn [bind]; [|split; [easy|eauto]].
  destruct (escape_all _) as [l|e]; cbn [bind rmap]; split; eauto.
Qed.
Lemma opener_contents env t kw ctx b : let '(_, body, _) := opener env (t_name t) kw ctx b in
  forall c, body = Some c <-> left_contents env ctx t kw b c.
Proof.
  unfold opener, left_contents.
  destruct (transform _ _ _ _ _ _) as [f [[a c]|e]] eqn:E.
  2:{ intros c'. split; [easy|]. now intros (ctx' & a & v & tr & [=] & _). }
  destruct (truth c) as [tr|e] eqn:T.
  - intros c'. split.
    + intros [= <-]. exists f, a, c, tr. destruct tr; intuition.
    + intros (ctx' & a' & v & tr' & [= <- <- <-] & Ht & H). rewrite T in Ht. injection Ht as <-.
      destruct H as [[-> ->]|[-> ->]]; reflexivity.
  - intros c'. split; [easy|]. intros (ctx' & a' & v & tr' & [= <- <- <-] & Ht & H). congruence.
Qed.
Lemma start_tag_eq env s t kw b : g_frames (ts_gen s) <> [] ->
  exists top below f body r, g_frames (ts_gen s) = top :: below
  /\ opener env (t_name t) kw top b = (f, body, r)
  /\ start_tag env s t kw b =
    (Tags (Gen (g_xml (ts_gen s)) (f :: below)) (ts_reg s)
       (match body with Some c => aset Nat.eqb (t_id t) c (ts_contents s) | None => ts_contents s end) (ts_got s), r).
Proof.
  intros H. unfold start_tag. destruct (g_frames (ts_gen s)) as [|top below]; [easy|].
  destruct (opener env (t_name t) kw top b) as [[f body] r] eqn:E.
  exists top, below, f, body, r. easy.
Qed.
Lemma Nat_eqb_ok a b : Nat.eqb a b = true <-> a = b. Proof. apply Nat.eqb_eq. Qed.

Lemma call_agrees env s t kw b : g_frames (ts_gen s) <> [] ->
  let '(s', r) := call_tag env s t kw b in
  gen_step env (ts_gen s) (OTag (t_dangle t) (t_paired t) (t_name t) kw b) = (ts_gen s', r)
  /\ ts_reg s' = ts_reg s /\ ts_got s' = ts_got s.
Proof.
  intros Hf. unfold call_tag.
  destruct (start_tag_eq env s t kw b Hf) as (top & below & f & body & r & E1 & E2 & ->).
  unfold gen_step. rewrite E1. unfold tag_call.
  pose proof (opener_open_ env (t_name t) kw top b) as H. rewrite E2 in H. destruct H as [-> H].
  cbn [ts_gen ts_reg ts_got g_xml]. split; [|easy].
  destruct r as [h|e]; cbn [rmap]; [|reflexivity].
  destruct (H h eq_refl) as [c ->]. unfold contents. cbn [ts_contents].
  rewrite (aget_aset _ Nat_eqb_ok), Nat.eqb_refl.
  destruct c, (t_paired t), (g_xml (ts_gen s)), (t_dangle t); reflexivity.
Qed.
Lemma open_agrees env s t kw b : g_frames (ts_gen s) <> [] ->
  let '(s', r) := open_tag env s t kw b in
  ts_gen s' = fst (gen_step env (ts_gen s) (OTag (t_dangle t) (t_paired t) (t_name t) kw b))
  /\ ts_reg s' = tag_open (ts_reg s) t /\ ts_got s' = ts_got s.
Proof.
  intros Hf. unfold open_tag.
  set (s0 := Tags _ _ _ _).
  destruct (start_tag_eq env s0 t kw b Hf) as (top & below & f & body & r & E1 & E2 & ->).
  cbn [ts_gen ts_reg ts_got]. split; [|easy].
  change (ts_gen s0) with (ts_gen s) in *.
  unfold gen_step. rewrite E1. unfold tag_call.
  pose proof (opener_open_ env (t_name t) kw top b) as H. rewrite E2 in H. destruct H as [-> H].
  destruct r; reflexivity.
Qed.
Lemma halves env s t kw b : g_frames (ts_gen s) <> [] ->
  let '(s1, r1) := open_tag env s t kw b in
  let '(s2, r2) := call_tag env s t kw b in
  ts_gen s1 = ts_gen s2 /\ ts_contents s1 = ts_contents s2 /\ ts_got s1 = ts_got s2
  /\ (forall e, r1 = Err e <-> r2 = Err e)
  /\ (forall op w, r1 = Ok op -> r2 = Ok w ->
       exists c s3 cl, contents s1 t = Some c /\ close_tag s1 t = (s3, Ok cl)
       /\ whole (g_xml (ts_gen s)) t op c cl w).
Proof.
  intros Hf. unfold open_tag, call_tag.
  destruct (start_tag_eq env s t kw b Hf) as (top & below & f & body & r & E1 & E2 & ->).
  set (s0 := Tags _ _ _ _).
  destruct (start_tag_eq env s0 t kw b Hf) as (top' & below' & f' & body' & r' & E1' & E2' & ->).
  change (ts_gen s0) with (ts_gen s) in *. change (ts_contents s0) with (ts_contents s).
  rewrite E1 in E1'. injection E1' as <- <-. rewrite E2 in E2'. injection E2' as <- <- <-.
  cbn [ts_gen ts_contents ts_got].
  split; [easy|]. split; [easy|]. split; [easy|].
  split; [intros e; destruct r; cbn [rmap]; intuition congruence|].
  pose proof (opener_open_ env (t_name t) kw top b) as H. rewrite E2 in H. destruct H as [_ H].
  intros op w H1 H2. destruct r as [h|]; [|easy]. cbn [rmap] in *. destruct (H h eq_refl) as [c ->].
  unfold contents in *. cbn [ts_contents ts_gen] in *.
  rewrite (aget_aset _ Nat_eqb_ok), Nat.eqb_refl in *.
  injection H1 as <-. injection H2 as <-.
  exists c. eexists. exists (tag_close_ (t_name t)). split; [easy|]. split; [reflexivity|].
  cbn [g_xml].
  assert (forall c, c <> [] \/ t_paired t = true \/ (g_xml (ts_gen s) = false /\ t_dangle t = false) ->
    whole (g_xml (ts_gen s)) t (h ++ lit ">") c (tag_close_ (t_name t)) (h ++ lit ">" ++ c ++ tag_close_ (t_name t))) as W.
  { intros c0 H0. replace (h ++ lit ">" ++ c0 ++ tag_close_ (t_name t))
      with ((h ++ lit ">") ++ c0 ++ tag_close_ (t_name t)) by now rewrite <- app_assoc. now constructor. }
  destruct c as [|x c]; [|cbn [andb]; apply W; now left].
  destruct (t_paired t) eqn:P; cbn [negb andb]; [apply W; now right; left|].
  destruct (g_xml (ts_gen s)) eqn:X; cbn [negb andb]; [now constructor|].
  destruct (t_dangle t) eqn:D; cbn [negb andb]; [now constructor|]. apply W. now right; right.
Qed.
Lemma open_then_close env s t kw b : g_frames (ts_gen s) <> [] ->
  ~ In (t_id t) (map t_id (opened (ts_reg s) (t_name t))) ->
  forall nm, opened (ts_reg (fst (close_tag (fst (open_tag env s t kw b)) t))) nm = opened (ts_reg s) nm.
Proof.
  intros Hf Hn nm. pose proof (open_agrees env s t kw b Hf) as H.
  destruct (open_tag env s t kw b) as [s1 r1]. destruct H as (_ & Hr & _).
  cbn [fst close_tag ts_reg]. rewrite Hr. now apply open_close.
Qed.

(* ---------------- any program ---------------- *)
Lemma gen_frames env g o : g_frames g <> [] -> g_frames (fst (gen_step env g o)) <> [].
Proof.
  intros H. unfold gen_step. destruct (g_frames g) as [|top below] eqn:E; [easy|].
  destruct o.
  - destruct (ctx_update top settings) as [f [e|]]; cbn [fst g_frames]; congruence.
  - destruct below as [|x below]; [cbn; rewrite E; discriminate|].
    destruct (_ =? 2) eqn:L; cbn [fst]; [congruence|]. cbn. discriminate.
  - destruct (gen_set_loop top settings) as [f [e|]]; cbn [fst g_frames]; congruence.
  - destruct (tag_call _ _ _ _ _ _ _ _) as [f r]. cbn. discriminate.
Qed.
Lemma generate_eq env s nm kw b :
  generate env s nm kw b =
    (let '(s1, t) := find_tag s (lower nm) false false in
     if match b, kw with None, [] => true | _, _ => false end then (give s1 t, Ok (inl t))
     else let '(s2, r) := call_tag env s1 t kw b in (s2, rmap inr r)).
Proof. unfold generate. cbn [generic_flags fst snd]. destruct (find_tag _ _ _ _). now destruct b, kw. Qed.
Lemma find_tag_keeps s nm d p : let '(s', t) := find_tag s nm d p in
  ts_gen s' = ts_gen s /\ ts_contents s' = ts_contents s /\ ts_got s' = ts_got s
  /\ get_tag (ts_reg s) nm d p = (ts_reg s', t).
Proof. unfold find_tag. now destruct (get_tag _ _ _ _). Qed.

Lemma step_gen env s o : g_frames (ts_gen s) <> [] ->
  ts_gen (fst (tag_step env s o)) = gen_run env (ts_gen s) (plain_ops s o).
Proof.
  intros Hf. unfold plain_ops. destruct o; cbn [tag_step renders].
  - pose proof (find_tag_keeps s nm dangle paired) as H. destruct (find_tag _ _ _ _). cbn. easy.
  - rewrite generate_eq. pose proof (find_tag_keeps s (lower nm) false false) as H.
    destruct (find_tag s (lower nm) false false) as [s1 t]. destruct H as (Hg & _).
    cbn [snd].
    assert (forall kw b, ts_gen (fst (let '(s2, r) := call_tag env s1 t kw b in (s2, rmap inr r) : tags * res (tagobj + str)))
      = gen_run env (ts_gen s) [OTag (t_dangle t) (t_paired t) (t_name t) kw b]) as Hc.
    { intros kw' b'. pose proof (call_agrees env s1 t kw' b' ltac:(congruence)) as H.
      destruct (call_tag env s1 t kw' b'). destruct H as (H & _). cbn. rewrite Hg in H. now rewrite H. }
    destruct b, kw; try apply Hc. cbn. easy.
  - destruct (nth_error (ts_got s) i) as [t|]; [|easy].
    pose proof (open_agrees env s t kw b Hf) as H. destruct (open_tag env s t kw b). cbn. easy.
  - now destruct (nth_error (ts_got s) i) as [t|].
  - destruct (nth_error (ts_got s) i) as [t|]; [|easy].
    pose proof (call_agrees env s t kw b Hf) as H. destruct (call_tag env s t kw b). destruct H as (H & _).
    cbn. now rewrite H.
  - unfold with_gen. cbn. now destruct (gen_step env (ts_gen s) (OBegin settings)).
  - unfold with_gen. cbn. now destruct (gen_step env (ts_gen s) OEnd).
  - unfold with_gen. cbn. now destruct (gen_step env (ts_gen s) (OSet settings)).
Qed.
Lemma step_frames env s o : g_frames (ts_gen s) <> [] -> g_frames (ts_gen (fst (tag_step env s o))) <> [].
Proof.
  intros Hf. rewrite step_gen by easy. revert Hf. generalize (ts_gen s) as g. generalize (plain_ops s o) as l.
  induction l as [|x l IH]; intros g Hg; [easy|]. cbn [gen_run]. apply IH. now apply gen_frames.
Qed.
Lemma gen_run_app env g l1 l2 : gen_run env g (l1 ++ l2) = gen_run env (gen_run env g l1) l2.
Proof. revert g; induction l1 as [|x l1 IH]; intros g; [easy|]. cbn [app gen_run]. apply IH. Qed.
Lemma run_gen env s os : g_frames (ts_gen s) <> [] ->
  ts_gen (tag_run env s os) = gen_run env (ts_gen s) (all_plain env s os).
Proof.
  revert s; induction os as [|o os IH]; intros s Hf; [easy|]. cbn [tag_run all_plain].
  rewrite gen_run_app, IH by now apply step_frames. now rewrite step_gen.
Qed.
(* what each operation does to the registry and to the tags given *)
Lemma step_reg env s o : g_frames (ts_gen s) <> [] ->
  let '(s', r) := tag_step env s o in
  ts_got s' = ts_got s ++ tags_in [r]
  /\ match o with
     | Get nm d p => exists t, r = Ok (inl t) /\ get_tag (ts_reg s) nm d p = (ts_reg s', t)
     | Generate nm kw b => exists t, get_tag (ts_reg s) (lower nm) false false = (ts_reg s', t)
         /\ (forall t', r = Ok (inl t') -> t' = t)
     | Open i _ _ => tags_in [r] = []
         /\ ts_reg s' = match nth_error (ts_got s) i with Some t => tag_open (ts_reg s) t | None => ts_reg s end
     | Close i => tags_in [r] = []
         /\ ts_reg s' = match nth_error (ts_got s) i with Some t => tag_close (ts_reg s) t | None => ts_reg s end
     | _ => tags_in [r] = [] /\ ts_reg s' = ts_reg s
     end.
Proof.
  intros Hf. destruct o; cbn [tag_step].
  - pose proof (find_tag_keeps s nm dangle paired) as H. destruct (find_tag _ _ _ _) as [s1 t].
    destruct H as (_ & _ & Hg & Hr). cbn. rewrite Hg. split; [easy|]. now exists t.
  - rewrite generate_eq. pose proof (find_tag_keeps s (lower nm) false false) as H.
    destruct (find_tag s (lower nm) false false) as [s1 t]. destruct H as (Hg & _ & Ht & Hr).
    destruct (match b, kw with None, [] => true | _, _ => false end).
    + cbn. rewrite Ht. split; [easy|]. exists t. split; [easy|]. now intros t' [= <-].
    + pose proof (call_agrees env s1 t kw b ltac:(congruence)) as H.
      destruct (call_tag env s1 t kw b) as [s2 r]. destruct H as (_ & H1 & H2).
      rewrite H1, H2, Ht. split; [destruct r; cbn; now rewrite app_nil_r|].
      exists t. split; [easy|]. now destruct r.
  - destruct (nth_error (ts_got s) i) as [t|]; [|cbn; now rewrite app_nil_r].
    pose proof (open_agrees env s t kw b Hf) as H. destruct (open_tag env s t kw b) as [s1 r].
    destruct H as (_ & H1 & H2). rewrite H1, H2. destruct r; cbn; now rewrite app_nil_r.
  - destruct (nth_error (ts_got s) i) as [t|]; cbn; now rewrite app_nil_r.
  - destruct (nth_error (ts_got s) i) as [t|]; [|cbn; now rewrite app_nil_r].
    pose proof (call_agrees env s t kw b Hf) as H. destruct (call_tag env s t kw b) as [s1 r].
    destruct H as (_ & H1 & H2). rewrite H1, H2. destruct r; cbn; now rewrite app_nil_r.
  - unfold with_gen. destruct (gen_step env (ts_gen s) (OBegin settings)) as [g [?|?]]; cbn; now rewrite app_nil_r.
  - unfold with_gen. destruct (gen_step env (ts_gen s) OEnd) as [g [?|?]]; cbn; now rewrite app_nil_r.
  - unfold with_gen. destruct (gen_step env (ts_gen s) (OSet settings)) as [g [?|?]]; cbn; now rewrite app_nil_r.
Qed.

(* ---------------- contents ---------------- *)
Lemma start_contents env s t kw b u : g_frames (ts_gen s) <> [] ->
  let '(s', r) := start_tag env s t kw b in
  exists top below, g_frames (ts_gen s) = top :: below
  /\ (t_id u <> t_id t -> contents s' u = contents s u)
  /\ (forall c, left_contents env top t kw b c -> contents s' t = Some c)
  /\ ((forall c, ~ left_contents env top t kw b c) -> contents s' t = contents s t)
  /\ (forall h, r = Ok h -> exists c, left_contents env top t kw b c).
Proof.
  intros Hf. destruct (start_tag_eq env s t kw b Hf) as (top & below & f & body & r & E1 & E2 & ->).
  exists top, below. split; [easy|].
  pose proof (opener_contents env t kw top b) as H. rewrite E2 in H.
  pose proof (opener_open_ env (t_name t) kw top b) as H'. rewrite E2 in H'. destruct H' as [_ H'].
  unfold contents. cbn [ts_contents].
  split; [|split; [|split]].
  - intros Hn. destruct body; [|easy]. rewrite (aget_aset _ Nat_eqb_ok).
    destruct (Nat.eqb_spec (t_id u) (t_id t)); [easy|reflexivity].
  - intros c Hc. apply H in Hc as ->. now rewrite (aget_aset _ Nat_eqb_ok), Nat.eqb_refl.
  - intros Hc. destruct body as [c|]; [|easy]. exfalso. apply (Hc c). now apply H.
  - intros h Hh. destruct (H' h Hh) as [c ->]. exists c. now apply H.
Qed.
