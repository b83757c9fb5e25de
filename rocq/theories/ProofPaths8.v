(* Traversal, and names that contain brackets. *)
From Verif Require Import PyBase PyBaseFacts PyList ProofPyList ModelUtil ModelSeq ModelProps ModelDsl SpecScalar ProofScalar ProofProps ModelPaths SpecPaths ProofPaths ProofPaths3 ProofPaths4 ProofPaths5.

Lemma elem_eqb_eq a b : elem_eqb a b = true <-> a = b.
Proof.
  destruct a as [p|p], b as [q|q]; cbn; try (split; congruence); destruct (list_eq_dec Nat.eq_dec p q); split; congruence.
Qed.
Definition depth (e : elem) : nat := match e with Node p | SlotOf p => List.length p end.
Lemma kids_spec t e e' : In e' (kids t e) <-> exists p i, e = Node p /\ e' = Node (i :: p) /\ node_at t (i :: p) <> None.
Proof.
  destruct e as [p|p]; cbn [kids].
  - split.
    + intros H. exists p. destruct (node_at t p) as [[n|n b l|sl n b l]|] eqn:E; try easy;
        apply in_map_iff in H as (i & <- & H); apply in_seq in H; exists i; (split; [easy|]; split; [easy|]); cbn; rewrite E; cbn.
      * destruct (nth_error l i) eqn:N; [easy|]. apply nth_error_None in N. lia.
      * apply nth_error_Some. lia.
    + intros (q & i & [= <-] & -> & H). cbn in H. destruct (node_at t p) as [[n|n b l|sl n b l]|]; try easy; cbn in H.
      * apply in_map_iff. exists i. split; [easy|]. apply in_seq. destruct (nth_error l i) eqn:N; [|easy].
        assert (i < List.length l)%nat by (apply nth_error_Some; congruence). lia.
      * apply in_map_iff. exists i. split; [easy|]. apply in_seq. apply nth_error_Some in H. lia.
  - split; [easy|]. intros (q & i & [=] & _).
Qed.
Lemma kids_NoDup t e : NoDup (kids t e).
Proof.
  assert (forall p n, NoDup (map (fun i => Node (i :: p)) (seq 0 n))) as G.
  { intros p n. apply FinFun.Injective_map_NoDup; [intros x y [=]; easy|]. apply seq_NoDup. }
  destruct e as [p|p]; cbn [kids]; [|constructor]. destruct (node_at t p) as [[n|n b l|sl n b l]|]; auto; constructor.
Qed.
Lemma flat_kids_NoDup t l : NoDup l -> NoDup (flat_map (kids t) l).
Proof.
  induction 1 as [|e l H _ IH]; [constructor|]. cbn. apply NoDup_app'; [apply kids_NoDup|easy|].
  intros x H1 H2. apply in_flat_map in H2 as (e' & H3 & H4). apply kids_spec in H1 as (p & i & -> & -> & _).
  apply kids_spec in H4 as (q & j & -> & [= <- <-] & _). now apply H.
Qed.
Lemma generation_NoDup t e k : NoDup (generation t e k).
Proof. destruct k; [apply kids_NoDup|]. induction k; cbn; apply flat_kids_NoDup; [apply kids_NoDup|easy]. Qed.
(* the descendants of e, k+1 levels down *)
Lemma generation_spec t e k e' : In e' (generation t e k) <->
  exists p a, e = Node p /\ e' = Node (a ++ p) /\ List.length a = S k /\ node_at t (a ++ p) <> None.
Proof.
  revert e'. induction k as [|k IH]; intros e'; cbn [generation].
  - rewrite kids_spec. split.
    + intros (p & i & -> & -> & H). exists p, [i]. easy.
    + intros (p & a & -> & -> & L & H). destruct a as [|i [|]]; try discriminate L. exists p, i. easy.
  - rewrite in_flat_map. split.
    + intros (u & H1 & H2). apply IH in H1 as (p & a & -> & -> & L & H). apply kids_spec in H2 as (q & i & [= <-] & -> & H2).
      exists p, (i :: a). cbn. rewrite L. easy.
    + intros (p & a & -> & -> & L & H). destruct a as [|i a]; [discriminate L|]. injection L as L. exists (Node (a ++ p)). split.
      * apply IH. exists p, a. repeat (split; [easy|]). intros K. apply H. cbn. now rewrite K.
      * apply kids_spec. exists (a ++ p), i. easy.
Qed.
Fixpoint height (t : tree) : nat :=
  match t with
  | Leaf _ => 0
  | Map _ _ l => S (fold_right (fun kc n => Nat.max (height (snd kc)) n) 0%nat l)
  | Seq _ _ _ l => S (fold_right (fun c n => Nat.max (height c) n) 0%nat l)
  end.
Lemma kid_height t i u : kid t i = Some u -> (S (height u) <= height t)%nat.
Proof.
  destruct t as [n|n b l|sl n b l]; cbn [kid height]; [easy| |].
  - intros H. apply le_n_S. destruct (nth_error l i) as [[k c]|] eqn:E; [|easy]. injection H as <-. cbn. apply nth_error_In in E.
    induction l as [|[k' c'] l IH]; [easy|]. cbn. destruct E as [[= -> ->]|E]; [lia|]. apply IH in E. lia.
  - intros H. apply le_n_S. apply nth_error_In in H.
    induction l as [|c' l IH]; [easy|]. cbn. destruct H as [->|H]; [lia|]. apply IH in H. lia.
Qed.
Lemma node_height t p u : node_at t p = Some u -> (List.length p + height u <= height t)%nat.
Proof.
  revert u. induction p as [|i q IH]; intros u; cbn [node_at List.length].
  - intros [= <-]. lia.
  - destruct (node_at t q) as [v|] eqn:E; [|easy]. intros H. apply kid_height in H. specialize (IH v eq_refl). lia.
Qed.
Lemma generation_end t e k : (height t <= k)%nat -> generation t e k = [].
Proof.
  intros H. destruct (generation t e k) as [|u l] eqn:E; [easy|]. exfalso.
  assert (In u (generation t e k)) as K by (rewrite E; now left). apply generation_spec in K as (p & a & _ & _ & L & K).
  destruct (node_at t (a ++ p)) as [v|] eqn:N; [|easy]. apply node_height in N. rewrite app_length in N. lia.
Qed.
(* running the queue over a part of one generation *)
Lemma bfs_run t l : forall seen acc, NoDup l -> (forall u, In u l -> ~ In u seen) ->
  forall fuel, breadth_first t (List.length l + fuel) seen (l ++ acc) =
  rmap (app l) (breadth_first t fuel (rev l ++ seen) (acc ++ flat_map (kids t) l)).
Proof.
  induction l as [|u l IH]; intros seen acc D H fuel.
  - cbn. rewrite app_nil_r. destruct (breadth_first t fuel seen acc); reflexivity.
  - inversion D as [|? ? D1 D2]; subst. cbn [List.length Nat.add app breadth_first].
    assert (memb elem_eqb u seen = false) as ->.
    { apply false_of. intros K. apply (memb_In elem_eqb elem_eqb_eq) in K. apply (H u); [now left|easy]. }
    rewrite <- app_assoc. rewrite IH; [|easy|].
    + rewrite children_kids. cbn [rev flat_map]. rewrite <- !app_assoc. cbn [app].
      destruct (breadth_first t fuel _ _); reflexivity.
    + intros v Hv [<-|K]; [easy|]. apply (H v); [now right|easy].
Qed.
Lemma bfs_generations t e n : forall k seen, (height t <= k + n)%nat ->
  (forall j u, (k <= j)%nat -> In u (generation t e j) -> ~ In u seen) ->
  exists f, forall fuel, (f <= fuel)%nat ->
  breadth_first t fuel seen (generation t e k) = Ok (flat_map (generation t e) (seq k n)).
Proof.
  induction n as [|n IH]; intros k seen L H.
  - exists 0%nat. intros fuel _. rewrite generation_end by lia. destruct fuel; reflexivity.
  - destruct (IH (S k) (rev (generation t e k) ++ seen)) as [f Hf]; [lia| |].
    + intros j u Hj Hu K. apply in_app_iff in K as [K|K]; [|apply (H j u); [lia|easy|easy]].
      apply in_rev in K. apply generation_spec in Hu as (p & a & -> & -> & L1 & _).
      apply generation_spec in K as (q & b & [= <-] & E & L2 & _). injection E as E.
      apply (f_equal (@List.length _)) in E. rewrite !app_length in E. lia.
    + exists (List.length (generation t e k) + f)%nat. intros fuel F.
      replace fuel with (List.length (generation t e k) + (fuel - List.length (generation t e k)))%nat by lia.
      pose proof (bfs_run t (generation t e k) seen []) as B. rewrite app_nil_r in B. rewrite B.
      * cbn [app]. change (flat_map (kids t) (generation t e k)) with (generation t e (S k)). rewrite Hf by lia. reflexivity.
      * apply generation_NoDup.
      * intros u Hu. apply (H k u); [lia|easy].
Qed.
Lemma all_children_lemma t e : exists n, generation t e n = [] /\
  exists f, forall fuel, (f <= fuel)%nat -> all_children t fuel e = Ok (generations t e n).
Proof.
  exists (height t). split; [now apply generation_end|].
  destruct (bfs_generations t e (height t) 0 [e]) as [f Hf]; [lia| |].
  - intros j u _ Hu [<-|[]]. apply generation_spec in Hu as (p & a & -> & E & L & _). injection E as E.
    apply (f_equal (@List.length _)) in E. rewrite app_length in E. lia.
  - exists f. intros fuel F. exact (Hf fuel F).
Qed.
Lemma generations_lemma t e n : NoDup (generations t e n) /\
  forall e', In e' (generations t e n) <-> exists k, (k < n)%nat /\ In e' (generation t e k).
Proof.
  unfold generations. split.
  - assert (forall k, NoDup (flat_map (generation t e) (seq k n))) as G; [|apply G].
    induction n as [|n IH]; intros k; [constructor|]. cbn. apply NoDup_app'; [apply generation_NoDup|apply IH|].
    intros x H1 H2. apply in_flat_map in H2 as (j & H2 & H3). apply in_seq in H2.
    apply generation_spec in H1 as (p & a & -> & -> & L1 & _).
    apply generation_spec in H3 as (q & b & [= <-] & E & L2 & _). injection E as E.
    apply (f_equal (@List.length _)) in E. rewrite !app_length in E. lia.
  - intros e'. rewrite in_flat_map. split; intros (k & H1 & H2); exists k; split; auto; [apply in_seq in H1; lia|apply in_seq; lia].
Qed.
Lemma all_children_members t e fuel l : all_children t fuel e = Ok l ->
  NoDup l /\ forall e', In e' l <-> exists p a, e = Node p /\ e' = Node (a ++ p) /\ a <> [] /\ node_at t (a ++ p) <> None.
Proof.
  intros H. destruct (all_children_lemma t e) as (n & E & f & Hf).
  assert (forall fuel k seen q l, breadth_first t fuel seen q = Ok l -> breadth_first t (fuel + k) seen q = Ok l) as Mono.
  { induction fuel0 as [|fuel0 IH]; intros k seen q l0; destruct q as [|u q]; cbn [breadth_first Nat.add].
    - intros [= <-]. destruct k; reflexivity.
    - easy.
    - easy.
    - destruct (memb elem_eqb u seen); [apply IH|]. destruct (breadth_first t fuel0 _ _) as [l1|] eqn:B; [|easy].
      intros [= <-]. rewrite (IH k _ _ _ B). reflexivity. }
  apply (Mono _ f) in H. fold (all_children t (fuel + f) e) in H. rewrite Hf in H by lia. injection H as <-.
  destruct (generations_lemma t e n) as [G1 G2]. split; [easy|]. intros e'. rewrite G2. split.
  - intros (k & _ & K). apply generation_spec in K as (p & a & -> & -> & L & K). exists p, a.
    repeat (split; [easy|]). split; [|easy]. now destruct a.
  - intros (p & a & -> & -> & NE & K). destruct (List.length a) as [|k] eqn:L; [now destruct a|]. exists k.
    assert (In (Node (a ++ p)) (generation t (Node p) k)) as I. { apply generation_spec. exists p, a. easy. }
    split; [|easy]. destruct (Nat.lt_ge_cases k n) as [|Q]; [easy|]. exfalso.
    assert (forall m, generation t (Node p) (n + m) = []) as Z.
    { induction m as [|m IH]; [now rewrite Nat.add_0_r|]. rewrite Nat.add_succ_r. cbn. now rewrite IH. }
    specialize (Z (k - n)%nat). replace (n + (k - n))%nat with k in Z by lia. now rewrite Z in I.
Qed.
Lemma path_to_lemma t e : exists_in t e -> match parent t e with
  | None => path_to t e = [e]
  | Some u => path_to t e = path_to t u ++ [e] end.
Proof.
  intros H. pose proof (parents_lemma t e H) as K. unfold path_to. destruct (parent t e) as [u|]; rewrite K; reflexivity.
Qed.
Lemma parents_end t p : last (parents_of_node t p) (Node p) = Node [] /\ (p <> [] -> exists l, parents_of_node t p = l ++ [Node []]).
Proof.
  induction p as [|i q [IH1 IH2]]; [now split|]. assert (H : exists l, parents_of_node t (i :: q) = l ++ [Node []]).
  { cbn [parents_of_node]. destruct q as [|j q]; [eexists; reflexivity|]. destruct (IH2 ltac:(easy)) as [l ->]. rewrite app_comm_cons, app_assoc. now eexists. }
  split; [|easy]. destruct H as [l ->]. apply last_last.
Qed.
Lemma root_first t e : exists_in t e -> root t e = Node [] /\ exists l, path_to t e = root t e :: l.
Proof.
  intros _. assert (H : e = Node [] \/ exists l, parents t e = l ++ [Node []]).
  { destruct e as [[|i q]|q]; cbn [parents]; [now left|right; now apply parents_end|right].
    destruct (tl q) as [|j r]; [now exists []|]. destruct (proj2 (parents_end t (j :: r)) ltac:(easy)) as [l ->]. now exists (Node (j :: r) :: l). }
  unfold root, path_to. destruct H as [->|[l ->]]; [split; [easy|now exists []]|]. rewrite last_last. split; [easy|]. rewrite rev_app_distr. cbn. now eexists.
Qed.

(* ---------------- brackets that are no index ---------------- *)
Lemma escape_plain x : Forall plain_char x -> escape x = x.
Proof. induction 1 as [|c x [H _] _ IH]; [easy|]. rewrite escape_cons, H, IH. reflexivity. Qed.
Lemma unescape_plain x : Forall (fun c => c <> backslash) x -> unescape x = x.
Proof.
  induction 1 as [|c x H Hx IH]; [easy|]. destruct x as [|d x]; [easy|]. rewrite unescape_two.
  destruct (N.eqb_spec c backslash); [easy|]. cbn [andb]. now rewrite IH.
Qed.
Lemma bad_opt a c s : c <> ch a -> In c s -> In c (opt a s).
Proof. intros N H. destruct s as [|d s]; [easy|]. cbn. destruct (is_ch a d) eqn:E; [|easy]. apply is_ch_eq in E as ->. destruct H as [H|H]; [congruence|easy]. Qed.
Lemma bad_skip c s : is_digit c = false -> In c s -> In c (skip_digits s).
Proof.
  intros N. induction s as [|d s IH]; [easy|]. cbn. intros H. destruct (is_digit d) eqn:E; [|easy].
  destruct H as [->|H]; [congruence|auto].
Qed.
Lemma bad_spec y : not_number y -> is_slice_spec y = false.
Proof.
  intros (c & H & N1 & N2 & N3). unfold is_slice_spec, number.
  assert (In c (skip_digits (opt "-" (opt ":" (skip_digits (opt "-" (opt ":" (skip_digits (opt "-" y))))))))) as K.
  { repeat (apply bad_skip; [easy|]; apply bad_opt; [easy|]; try (apply bad_opt; [easy|])). easy. }
  destruct (skip_digits _); easy.
Qed.
Lemma bracket_name_lemma x y : x <> [] -> Forall plain_char x -> Forall plain_char y -> not_number y ->
  tokenize (x ++ bracket y) = Ok [NAME (Some (x ++ bracket y))].
Proof.
  intros NE Hx Hy NN. unfold tokenize.
  assert (findall (x ++ bracket y) = [(x, []); (bracket y, [])]) as ->.
  { unfold findall. assert (exists n, List.length (x ++ bracket y) = S (S n)) as [n ->].
    { rewrite app_length. unfold bracket. cbn [List.length]. rewrite app_length. cbn. destruct x; [easy|]. cbn. eexists. rewrite Nat.add_succ_r. reflexivity. }
    assert (ends_in_backslash x = false) as EB.
    { unfold ends_in_backslash. destruct (rev x) as [|c r] eqn:E; [easy|]. apply N.eqb_neq.
      assert (In c x) as I by (apply in_rev; rewrite E; now left). rewrite Forall_forall in Hx. now apply Hx. }
    rewrite (lex_step _ _ _ x [] (bracket y)); [| |].
    2:{ destruct x; easy. }
    2:{ rewrite <- (escape_plain x Hx) at 1 2. apply next_key; [easy|]. right. exists (ch "["), (y ++ [ch "]"]). easy. }
    f_equal. rewrite (lex_step _ _ _ (bracket y) [] []).
    - destruct n; reflexivity.
    - easy.
    - unfold next_token, bracket. rewrite munch_stop by easy. change (is_ch "/" (ch "[")) with false. change (is_ch "[" (ch "[")) with true.
      assert (not_escaped (last_char None x) = true) as ->.
      { rewrite <- (escape_plain x Hx). apply last_char_escape; easy. }
      cbn [andb]. rewrite to_bracket_app.
      + rewrite bad_spec by easy. cbn [andb ahead].
        assert (not_escaped (last_char (Some (ch "[")) y) = true) as ->; [|reflexivity].
        destruct y as [|c y] using rev_ind; [easy|]. rewrite last_char_app. cbn. apply Forall_app in Hy as [_ Hy].
        inversion Hy as [|? ? [_ Hc] _]; subst. apply N.eqb_neq in Hc. now rewrite Hc.
      + intros K. rewrite Forall_forall in Hy. apply Hy in K as [K _]. discriminate K. }
  cbn [token_steps]. rewrite <- (escape_plain x Hx) at 1. rewrite token_key by easy. cbn [bind].
  unfold token_step, done_st. cbn [ts_tokens ts_last ts_name ts_canonical is_name].
  assert (forall t c r, t = c :: r -> c <> ch "[" -> str_eqb (bracket y) t = false) as D.
  { intros t c r -> N. destruct (str_eqb_spec (bracket y) (c :: r)) as [E|]; [|easy]. unfold bracket in E. congruence. }
  rewrite (D (lit "/") (ch "/") [] eq_refl), (D (lit ".") (ch ".") [] eq_refl), (D (lit "..") (ch ".") [ch "."] eq_refl) by easy.
  change (starts_with (lit "[") (bracket y)) with true. cbn [andb bind].
  rewrite (escape_plain x Hx). rewrite unescape_plain; [reflexivity|].
  unfold bracket. constructor; [discriminate|]. apply Forall_app. split; [|repeat constructor; discriminate].
  eapply Forall_impl; [|exact Hy]. now intros c [_ H].
Qed.

(* ---------------- deciding whether a tree is proper ---------------- *)
Fixpoint nodup_names (l : list name) : bool :=
  match l with [] => true | x :: r => negb (memb name_eqb x r) && nodup_names r end.
Lemma name_eqb_iff x y : name_eqb x y = true <-> x = y.
Proof. destruct (name_eqb_spec x y); split; congruence. Qed.
Lemma nodup_names_ok l : nodup_names l = true -> NoDup l.
Proof.
  induction l as [|x r IH]; [constructor|]. cbn. rewrite andb_true_iff, negb_true_iff. intros [H1 H2].
  constructor; [|auto]. intros K. apply (memb_In name_eqb name_eqb_iff) in K. congruence.
Qed.
Fixpoint proper_b (t : tree) : bool :=
  match t with
  | Leaf _ => true
  | Map _ _ l => nodup_names (map fst l) && forallb (fun kc => name_eqb (tree_name (snd kc)) (fst kc) && proper_b (snd kc)) l
  | Seq _ _ _ l => forallb proper_b l
  end.
Lemma proper_b_ok t : proper_b t = true -> proper t.
Proof.
  intros H. assert (forall p u, node_at t p = Some u -> proper_b u = true) as G.
  { induction p as [|i q IH]; intros u; cbn [node_at]; [now intros [= <-]|].
    destruct (node_at t q) as [v|]; [|easy]. specialize (IH v eq_refl). destruct v as [n|n b l|sl n b l]; cbn [kid]; [easy| |].
    - destruct (nth_error l i) as [[k c]|] eqn:E; [|easy]. intros [= <-]. cbn in IH. apply andb_true_iff in IH as [_ IH].
      rewrite forallb_forall in IH. apply nth_error_In in E. apply IH in E. cbn in E. now apply andb_true_iff in E.
    - intros E. apply nth_error_In in E. cbn in IH. rewrite forallb_forall in IH. now apply IH. }
  intros p n b l E. apply G in E. cbn in E. apply andb_true_iff in E as [E1 E2]. split; [now apply nodup_names_ok|].
  intros k c K. rewrite forallb_forall in E2. apply E2 in K. cbn in K. apply andb_true_iff in K as [K _]. now apply name_eqb_iff.
Qed.
Lemma sample_proper : proper sample_tree.
Proof. apply proper_b_ok. vm_compute. reflexivity. Qed.
(* requests for n different names *)
Definition numbers (n : nat) : list request :=
  map (fun i => Request (Leaf None) (Node []) (lit "n" ++ dec_nat i) false false 9) (seq 0 n).
Lemma numbers_full : List.length (after (numbers (N.to_nat 1024))) = N.to_nat 1024 /\ aget str_eqb (lit "a") (after (numbers (N.to_nat 1024))) = None.
Proof. vm_compute. split; reflexivity. Qed.
