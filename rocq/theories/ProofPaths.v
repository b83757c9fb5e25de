(* el and fq_name. *)
From Verif Require Import PyBase PyBaseFacts PyList ProofPyList ModelUtil ModelSeq ModelProps ModelDsl SpecScalar ProofScalar ModelPaths SpecPaths.

Lemma says_int s z : says s z <-> py_int s = Ok z.
Proof. unfold says. now rewrite py_int_iff. Qed.
Lemma says_dec n : says (dec_nat n) (Z.of_nat n).
Proof. apply says_int. unfold dec_nat. rewrite py_int_dec. f_equal. lia. Qed.
Lemma picks_nat n i : (i < n)%nat -> picks n (Z.of_nat i) i.
Proof. split; auto. Qed.

Lemma name_eqb_refl x : name_eqb x x = true.
Proof. destruct (name_eqb_spec x x); easy. Qed.

Lemma nodup_nth {A} (l : list A) i j x : NoDup l -> nth_error l i = Some x -> nth_error l j = Some x -> i = j.
Proof.
  intros H Hi Hj. apply (proj1 (NoDup_nth_error l) H); [|congruence].
  apply nth_error_Some. congruence.
Qed.

Lemma index_ok t e x e' : index t e x = Ok e' -> takes t e x e'.
Proof.
  unfold index. destruct e as [p|p]; [|easy].
  destruct (node_at t p) as [[n|n b l|sl n b l]|] eqn:E; try easy.
  - pose proof (find_index_lemma (fun kv => name_eqb (fst kv) x) l) as F.
    destruct (find_index _ l) as [i|]; [|easy]. intros [= <-].
    destruct F as (a & [k c] & r & -> & <- & H & _). cbn in H.
    destruct (name_eqb_spec k x); [subst|easy].
    eapply take_key with (c := c); [exact E|]. rewrite nth_error_app2, Nat.sub_diag by lia. easy.
  - destruct x as [s|]; [|easy]. destruct (py_int s) as [z|] eqn:Z; [|easy].
    destruct (norm_index (List.length l) z) as [i|] eqn:I; [|easy]. intros [= <-].
    apply norm_index_spec in I. apply says_int in Z. eapply take_index; eauto.
Qed.
Lemma index_err t e x err : index t e x = Err err -> refuses t e x err.
Proof.
  unfold index. destruct e as [p|p].
  2:{ intros [= <-]. apply no_slot. }
  destruct (node_at t p) as [[n|n b l|sl n b l]|] eqn:E.
  - intros [= <-]. apply no_children. intros (q & u & [= <-] & Hu & Hl). rewrite E in Hu. injection Hu as <-.
    now apply (Hl n).
  - pose proof (find_index_lemma (fun kv => name_eqb (fst kv) x) l) as F.
    destruct (find_index _ l) as [i|]; [easy|]. intros [= <-]. eapply no_key; [exact E|].
    intros H. apply in_map_iff in H as (kv & <- & H). apply F in H. now rewrite name_eqb_refl in H.
  - destruct x as [s|].
    2:{ intros [= <-]. eapply no_name; eauto. }
    destruct (py_int s) as [z|] eqn:Z.
    + destruct (norm_index (List.length l) z) as [i|] eqn:I; [easy|]. intros [= <-].
      eapply no_index; [exact E|]. intros z' j H1 H2. apply says_int in H1.
      assert (z' = z) by congruence. subst z'. apply norm_index_spec in H2. congruence.
    + intros [= <-]. eapply no_index; [exact E|]. intros z j H1. apply says_int in H1. congruence.
  - intros [= <-]. apply no_children. intros (q & u & [= <-] & Hu & Hl). congruence.
Qed.
Lemma takes_det t e x e1 e2 : proper t -> takes t e x e1 -> takes t e x e2 -> e1 = e2.
Proof.
  intros P H1 H2. destruct H1 as [p n b l i x c E N|p sl n b l s z i E S K];
    inversion H2 as [p' n' b' l' i' x' c' E' N' q1 q2 q3|p' sl' n' b' l' s' z' i' E' S' K' q1 q2 q3]; subst;
    rewrite E in E'; try congruence.
  - injection E' as <- <- <-. destruct (P _ _ _ _ E) as [D _]. f_equal. f_equal.
    eapply nodup_nth; [exact D| |].
    + rewrite nth_error_map, N. reflexivity.
    + rewrite nth_error_map, N'. reflexivity.
  - injection E' as <- <- <- <-.
    assert (z' = z). { apply says_int in S. apply says_int in S'. congruence. } subst.
    destruct K as [? K], K' as [? K']. f_equal. f_equal. lia.
Qed.
Lemma takes_refuses t e x e1 err : takes t e x e1 -> refuses t e x err -> False.
Proof.
  intros H1 H2. destruct H1 as [p n b l i x c E N|p sl n b l s z i E S K];
    inversion H2 as [p' n' b' l' x' E' N' q1 q2 q3|p' sl' n' b' l' s' E' K' q1 q2 q3|p' sl' n' b' l' E' q1 q2 q3|p' x' C q1 q2 q3|p' x' q1 q2 q3]; subst;
    try (rewrite E in E'; try congruence).
  - injection E' as <- <- <-. apply N'. apply nth_error_In in N. now apply (in_map fst) in N.
  - apply C. eexists _, _. split; [reflexivity|]. split; [exact E|]. easy.
  - injection E' as <- <- <- <-. eapply K'; eauto.
  - apply C. eexists _, _. split; [reflexivity|]. split; [exact E|]. easy.
Qed.
Lemma refuses_det t e x e1 e2 : refuses t e x e1 -> refuses t e x e2 -> e1 = e2.
Proof.
  intros H1 H2. destruct H1; inversion H2; subst; try congruence;
    try (exfalso; match goal with H : ~ container _ _ |- _ => apply H end;
         eexists _, _; split; [reflexivity|]; split; [eassumption|easy]).
Qed.

Lemma index_takes_lemma t e x e' : proper t -> (index t e x = Ok e' <-> takes t e x e').
Proof.
  intros P. split; [apply index_ok|]. intros H. destruct (index t e x) as [u|err] eqn:E.
  - apply index_ok in E. f_equal. eapply takes_det; eauto.
  - apply index_err in E. exfalso. eapply takes_refuses; eauto.
Qed.
Lemma index_refuses_lemma t e x err : index t e x = Err err <-> refuses t e x err.
Proof.
  split; [apply index_err|]. intros H. destruct (index t e x) as [u|err'] eqn:E.
  - apply index_ok in E. exfalso. eapply takes_refuses; eauto.
  - apply index_err in E. f_equal. eapply refuses_det; eauto.
Qed.

(* ---------------- parents and root ---------------- *)
Lemma parents_lemma t e : exists_in t e -> match parent t e with
  | None => parents t e = []
  | Some u => parents t e = u :: parents t u end.
Proof.
  destruct e as [[|i q]|[|i q]]; cbn [parent parents parents_of_node]; intros H; try easy.
  destruct (slotted t q); reflexivity.
Qed.
Lemma last_cons_nonempty {A} (l : list A) x d : l <> [] -> last (x :: l) d = last l d.
Proof. destruct l; easy. Qed.
Lemma last_parents t p d : p <> [] -> last (parents_of_node t p) d = Node [].
Proof.
  induction p as [|i q IH]; [easy|]. intros _. cbn [parents_of_node].
  assert (last (Node q :: parents_of_node t q) d = Node []) as H.
  { destruct q as [|j q]; [easy|]. rewrite last_cons_nonempty; [apply IH; easy|].
    cbn [parents_of_node]. destruct (slotted t q); easy. }
  destruct (slotted t q); cbn [app]; [|exact H]. rewrite last_cons_nonempty by easy. exact H.
Qed.
Lemma root_lemma t e : exists_in t e -> root t e = Node [].
Proof.
  unfold root. destruct e as [[|i q]|[|i q]]; try easy; intros _.
  - apply last_parents. easy.
  - cbn [parents tl]. destruct q as [|j q]; [easy|]. rewrite last_cons_nonempty; [apply last_parents; easy|].
    cbn [parents_of_node]. destruct (slotted t q); easy.
Qed.

(* ---------------- el ---------------- *)
Lemma walk_ok t e xs e' : proper t -> (walk t e (map Some xs) = Ok e' <-> takes_all t e xs e').
Proof.
  intros P. revert e. induction xs as [|x xs IH]; intros e; cbn [map walk].
  - split; [intros [= <-]; constructor|]. intros H. inversion H; subst. easy.
  - destruct (index t e x) as [u|err] eqn:E; cbn [bind].
    + apply index_takes_lemma in E as T; [|easy]. rewrite IH. split; intros H.
      * econstructor; eauto.
      * inversion H; subst. assert (u = e'0) by (eapply takes_det; eauto). subst. easy.
    + split; [easy|]. intros H. inversion H; subst. apply index_takes_lemma in H3; [|easy]. congruence.
Qed.
Lemma walk_err t e xs e1 x r err : proper t -> takes_all t e xs e1 -> refuses t e1 x err ->
  walk t e (map Some (xs ++ x :: r)) = Err err.
Proof.
  intros P H R. induction H as [e|e y e' ys e'' T H IH].
  - cbn. apply index_refuses_lemma in R. rewrite R. easy.
  - cbn [app map walk]. apply index_takes_lemma in T; [|easy]. rewrite T. cbn [bind]. auto.
Qed.
Lemma as_key_ok {A} (r : res A) a : as_key_error r = Ok a <-> r = Ok a.
Proof. destruct r; cbn; split; congruence. Qed.

Definition start_walk t e names := match names with
                | [] => Err IndexErr
                | None :: r => walk t (root t e) r
                | r => walk t e r
                end.
Lemma el_names_lemma t e absolute xs e' : proper t -> exists_in t e ->
  (el_names t e (with_root absolute xs) = Ok e' <->
   (absolute = true \/ xs <> []) /\ takes_all t (from_root absolute e) xs e').
Proof.
  intros P X. unfold el_names. rewrite as_key_ok. destruct absolute; cbn [with_root app from_root].
  - rewrite root_lemma by easy. rewrite walk_ok by easy. intuition.
  - destruct xs as [|x xs]; [cbn; intuition congruence|].
    pose proof (walk_ok t e (x :: xs) e' P) as W. cbn [map] in *. cbn [app map].
    split; [intros H; split; [right; easy|now apply W]|]. intros [_ H]. now apply W.
Qed.
Lemma el_names_err_lemma t e absolute xs e1 x r err : proper t -> exists_in t e ->
  takes_all t (from_root absolute e) xs e1 -> refuses t e1 x err ->
  el_names t e (with_root absolute (xs ++ x :: r)) =
  Err (match err with KeyErr | IndexErr => KeyErr | _ => err end).
Proof.
  intros P X H R.
  assert (start_walk t e (with_root absolute (xs ++ x :: r)) = Err err) as W.
  { destruct absolute; cbn [with_root app from_root start_walk] in *.
    - rewrite root_lemma by easy. now apply walk_err with e1.
    - rewrite <- (walk_err t e xs e1 x r err) by easy. now destruct xs. }
  unfold el_names. fold (start_walk t e (with_root absolute (xs ++ x :: r))). rewrite W.
  inversion R; subst; reflexivity.
Qed.
Lemma el_names_total_lemma t e xs : proper t ->
  (exists e', takes_all t e xs e') \/
  (exists pre x post e1 err, xs = pre ++ x :: post /\ takes_all t e pre e1 /\ refuses t e1 x err).
Proof.
  intros P. revert e. induction xs as [|x xs IH]; intros e; [left; eexists; constructor|].
  destruct (index t e x) as [u|err] eqn:E.
  - apply index_ok in E. destruct (IH u) as [[e' H]|(pre & y & post & e1 & err & -> & H1 & H2)].
    + left. exists e'. econstructor; eauto.
    + right. exists (x :: pre), y, post, e1, err. split; [easy|]. split; [econstructor; eauto|easy].
  - right. exists [], x, xs, e, err. split; [easy|]. split; [constructor|]. now apply index_err.
Qed.

(* the text of a path *)
Lemma parse_text_lemma c absolute xs : sep_free c xs -> xs <> [] -> (absolute = true -> xs <> [[]]) ->
  (absolute = false -> hd_error xs <> Some [] ) ->
  parse_element_path ((if absolute then [c] else []) ++ join [c] xs) [c] =
  Ok ((if absolute then [None] else []) ++ map Some xs).
Proof.
  intros F N A R. unfold parse_element_path. destruct absolute; cbn [app].
  - assert (join [c] xs <> []) as J.
    { specialize (A eq_refl). destruct xs as [|x [|y ys]]; [easy| |]; cbn [join].
      - intros ->. now apply A.
      - now destruct x. }
    destruct (str_eqb_spec (c :: join [c] xs) [c]) as [E|E]; [congruence|].
    cbn [starts_with List.length skipn]. rewrite N.eqb_refl. cbn [andb app]. rewrite split_join1 by easy. easy.
  - specialize (R eq_refl). destruct (str_eqb_spec (join [c] xs) [c]) as [E|E].
    { exfalso. destruct xs as [|x [|y ys]]; [easy| |]; cbn [join] in E.
      - subst x. inversion F as [|? ? H]; subst. apply H. now left.
      - destruct x as [|d x]; [now apply R|]. injection E as E1 E2. now destruct x. }
    assert (starts_with [c] (join [c] xs) = false) as ->.
    { rewrite starts_with_single. destruct xs as [|x xs]; [easy|]. destruct x as [|d x]; [now destruct R|].
      assert (c <> d). { intros ->. inversion F as [|? ? H]; subst. apply H. now left. }
      apply N.eqb_neq in H. destruct xs; cbn [join app]; easy. }
    cbn [app]. rewrite split_join1 by easy. easy.
Qed.
Lemma parse_text_only_lemma c path : exists absolute xs,
  parse_element_path path [c] = Ok ((if absolute : bool then [None] else []) ++ map Some xs)
  /\ sep_free c xs /\ path = (if absolute then [c] else []) ++ join [c] xs
  /\ (absolute = true <-> exists r, path = c :: r).
Proof.
  unfold parse_element_path. destruct (str_eqb_spec path [c]) as [->|E].
  - exists true, []. split; [easy|]. split; [constructor|]. split; [easy|]. split; eauto.
  - destruct path as [|d path].
    + exists false, [[]]. cbn. split; [easy|]. split; [repeat constructor; easy|]. split; [easy|].
      split; [easy|]. intros [r [=]].
    + destruct (starts_with [c] (d :: path)) eqn:W; rewrite starts_with_single in W.
      * apply N.eqb_eq in W as <-. exists true, (split [c] path). split; [easy|].
        split; [|split]; [apply split_pieces_nosep| |split; eauto].
        cbn. f_equal. now rewrite join_split.
      * exists false, (split [c] (d :: path)). split; [easy|].
        split; [|split]; [apply split_pieces_nosep| |].
        -- cbn [app]. now rewrite join_split.
        -- split; [easy|]. intros [r [= -> ->]]. now rewrite N.eqb_refl in W.
Qed.
Lemma parse_text_nosep_lemma path : parse_element_path path [] = match path with [] => Ok [None] | _ => Err ValueErr end.
Proof. destruct path; reflexivity. Qed.

Lemma el_text_lemma t e c absolute xs e' : proper t -> exists_in t e -> sep_free c xs ->
  Forall (fun x => x <> []) xs -> (absolute = true \/ xs <> []) ->
  (el t e ((if absolute then [c] else []) ++ join [c] xs) [c] = Ok e' <->
   takes_all t (from_root absolute e) (map Some xs) e').
Proof.
  intros P X F N A. unfold el. rewrite as_key_ok.
  assert (parse_element_path ((if absolute then [c] else []) ++ join [c] xs) [c] =
          Ok ((if absolute then [None] else []) ++ map Some xs)) as ->.
  { destruct xs as [|x xs].
    - destruct absolute; [|now destruct A]. cbn. unfold parse_element_path. now rewrite (proj2 (str_eqb_eq _ _) eq_refl).
    - inversion N as [|? ? N1 N2]; subst. apply parse_text_lemma; [easy|easy|congruence|].
      intros _. cbn. congruence. }
  cbn [bind]. assert (map (option_map Some) ((if absolute then [None] else []) ++ map Some xs) =
    with_root absolute (map Some xs)) as ->.
  { unfold with_root. rewrite map_app, !map_map. destruct absolute; reflexivity. }
  rewrite el_names_lemma by easy. split; [easy|]. intros H. split; [|easy]. destruct A as [A|A]; auto.
  right. now destruct xs.
Qed.
