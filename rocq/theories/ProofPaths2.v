(* fq_name, and el of it. *)
From Verif Require Import PyBase PyBaseFacts PyList ProofPyList ModelUtil ModelSeq ModelProps ModelDsl SpecScalar ProofScalar ModelPaths SpecPaths ProofPaths.

(* the elements from under the root down to a location *)
Fixpoint down (t : tree) (p : list nat) : list elem :=
  match p with
  | [] => []
  | i :: q => down t q ++ (if slotted t q then [SlotOf p] else []) ++ [Node p]
  end.
Lemma parents_nonempty t i q : parents_of_node t (i :: q) <> [].
Proof. cbn. destruct (slotted t q); easy. Qed.
Lemma down_parents t p : p <> [] -> rev (removelast (parents_of_node t p)) ++ [Node p] = down t p.
Proof.
  induction p as [|i q IH]; [easy|]. intros _. cbn [parents_of_node down].
  rewrite removelast_app by easy. rewrite rev_app_distr.
  assert (rev (removelast (Node q :: parents_of_node t q)) = down t q) as ->.
  { destruct q as [|j q]; [easy|]. rewrite <- IH by easy.
    assert (removelast (Node (j :: q) :: parents_of_node t (j :: q)) = Node (j :: q) :: removelast (parents_of_node t (j :: q))) as ->.
    { pose proof (parents_nonempty t j q). destruct (parents_of_node t (j :: q)); easy. }
    reflexivity. }
  rewrite <- app_assoc. f_equal. destruct (slotted t q); reflexivity.
Qed.
Lemma down_slot t i q : rev (removelast (Node q :: parents_of_node t q)) ++ [SlotOf (i :: q)] = down t q ++ [SlotOf (i :: q)].
Proof.
  f_equal. destruct q as [|j q]; [easy|]. rewrite <- down_parents by easy.
  pose proof (parents_nonempty t j q). destruct (parents_of_node t (j :: q)); easy.
Qed.
Lemma dec_nat_cons i : exists c r, dec_nat i = c :: r.
Proof. pose proof (dec_nonempty (N.of_nat i)). unfold dec_nat. destruct (dec _); [easy|eauto]. Qed.
Lemma parts_down t q rest : fq_parts t (down t q ++ rest) None = fq_parts t (down t q) None ++ fq_parts t rest None.
Proof.
  revert rest. induction q as [|i q IH]; intros rest; [easy|]. cbn [down].
  rewrite <- !app_assoc. rewrite IH. rewrite (IH (_ ++ _)). rewrite <- app_assoc. f_equal.
  destruct (slotted t q); cbn [app fq_parts elem_name]; [|easy].
  destruct (dec_nat_cons i) as (c & r & ->). reflexivity.
Qed.
Lemma all_text_app a b xs : all_text a = Some xs ->
  all_text (a ++ b) = option_map (app xs) (all_text b).
Proof.
  revert xs. induction a as [|[s|] a IH]; intros xs; cbn [all_text app]; [| |easy].
  - intros [= <-]. destruct (all_text b); reflexivity.
  - destruct (all_text a) as [ys|]; [|easy]. intros [= <-]. rewrite (IH ys) by easy.
    destruct (all_text b); reflexivity.
Qed.
Lemma address_node t arrays p xs : address t arrays p xs -> node_at t p <> None.
Proof.
  induction 1 as [|q xs n b l i x c H IH E N|q xs sl n b l i H IH E N S]; cbn [node_at]; [easy| |].
  - rewrite E. cbn. rewrite N. easy.
  - rewrite E. cbn. now apply nth_error_Some.
Qed.
Lemma parts_address t p xs : proper t -> address t false p xs -> all_text (fq_parts t (down t p) None) = Some xs.
Proof.
  intros P. induction 1 as [|q xs n b l i x c H IH E N|q xs sl n b l i H IH E N S]; [easy| |]; cbn [down].
  - assert (slotted t q = false) as ->. { unfold slotted. now rewrite E. }
    rewrite parts_down, (all_text_app _ _ xs) by easy. cbn [app fq_parts].
    assert (elem_name t (Node (i :: q)) = Some x) as ->.
    { cbn. rewrite E. cbn. rewrite N. cbn. destruct (P _ _ _ _ E) as [_ K]. apply (K _ c). eapply nth_error_In; eauto. }
    reflexivity.
  - destruct S as [-> | [=]]. assert (slotted t q = true) as ->. { unfold slotted. now rewrite E. }
    rewrite parts_down, (all_text_app _ _ xs) by easy. cbn [app fq_parts elem_name].
    destruct (dec_nat_cons i) as (c & r & ->). reflexivity.
Qed.
Lemma fq_name_lemma t p xs sep : proper t -> address t false p xs -> fq_name t (Node p) sep = Ok (sep ++ join sep xs).
Proof.
  intros P H. pose proof (parts_address t p xs P H) as T. unfold fq_name. destruct p as [|i q].
  - inversion H; subst. cbn. now rewrite app_nil_r.
  - cbn [parent]. cbn [parents]. rewrite down_parents by easy. now rewrite T.
Qed.
Lemma fq_name_slot_lemma t i q sep : exists_in t (SlotOf (i :: q)) ->
  fq_name t (SlotOf (i :: q)) sep = match q with [] => Ok (sep ++ []) | _ => fq_name t (Node q) sep end.
Proof.
  intros [_ S]. unfold fq_name. cbn [parent tl parents]. rewrite down_slot, parts_down.
  change (fq_parts t [SlotOf (i :: q)] None) with (@nil name). rewrite app_nil_r. destruct q as [|j q]; [easy|].
  cbn [parent]. now rewrite down_parents by easy.
Qed.
(* every member of an Array has the address of its own name *)
Lemma fq_name_member_lemma t i q xs n b l c sep : proper t -> address t false q xs ->
  node_at t q = Some (Seq false n b l) -> nth_error l i = Some c ->
  fq_name t (Node (i :: q)) sep =
  match tree_name c with Some s => Ok (sep ++ join sep (xs ++ [s])) | None => Err TypeErr end.
Proof.
  intros P H E N. pose proof (parts_address t q xs P H) as T. unfold fq_name. cbn [parent parents].
  rewrite down_parents by easy. cbn [down]. assert (slotted t q = false) as ->. { unfold slotted. now rewrite E. }
  rewrite parts_down, (all_text_app _ _ xs) by easy. cbn [app fq_parts].
  assert (elem_name t (Node (i :: q)) = tree_name c) as ->. { cbn. rewrite E. cbn. now rewrite N. }
  destruct (tree_name c); reflexivity.
Qed.

Lemma takes_all_app t e xs e1 ys e2 : takes_all t e xs e1 -> takes_all t e1 ys e2 -> takes_all t e (xs ++ ys) e2.
Proof. induction 1; [easy|]. intros H'. cbn. econstructor; eauto. Qed.
Lemma address_takes t arrays p xs : address t arrays p xs -> takes_all t (Node []) (map Some xs) (Node p).
Proof.
  induction 1 as [|q xs n b l i x c H IH E N|q xs sl n b l i H IH E N S]; [constructor| |];
    rewrite map_app; eapply takes_all_app; eauto; cbn [map].
  - econstructor; [|constructor]. eapply take_key; eauto.
  - econstructor; [|constructor]. eapply take_index; [exact E|apply says_dec|now apply picks_nat].
Qed.
Lemma el_address_lemma t e arrays p xs c : proper t -> exists_in t e -> address t arrays p xs ->
  sep_free c xs -> Forall (fun x => x <> []) xs ->
  el t e ([c] ++ join [c] xs) [c] = Ok (Node p).
Proof.
  intros P X H F N. apply (el_text_lemma t e c true xs (Node p)); auto. apply (address_takes t arrays p xs H).
Qed.
Lemma el_fq_name_lemma t e p xs c : proper t -> exists_in t e -> address t false p xs ->
  sep_free c xs -> Forall (fun x => x <> []) xs ->
  exists s, fq_name t (Node p) [c] = Ok s /\ el t e s [c] = Ok (Node p).
Proof.
  intros P X H F N. exists ([c] ++ join [c] xs). split; [now apply fq_name_lemma|]. eapply el_address_lemma; eauto.
Qed.
Lemma address_lemma t arrays p : plain_way t arrays p <-> exists xs, address t arrays p xs.
Proof.
  split.
  - induction p as [|i q IH]; intros H; [exists []; constructor|]. destruct H as [H1 H2].
    destruct (IH H1) as [xs H]. destruct (node_at t q) as [[|n b l|sl n b l]|] eqn:E; try easy.
    + destruct H2 as (x & c & N). exists (xs ++ [x]). econstructor; eauto.
    + destruct H2 as (N & S). exists (xs ++ [dec_nat i]). eapply address_index; eauto.
  - intros [xs H]. induction H as [|q xs n b l i x c H IH E N|q xs sl n b l i H IH E N S]; cbn; [easy| |]; rewrite E; eauto.
Qed.
