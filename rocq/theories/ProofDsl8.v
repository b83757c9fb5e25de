(* The sample classes; linearisation order; corollaries. *)
From Verif Require Import PyBase PyBaseFacts PyList ModelUtil ModelSeq ModelProps SpecProps ProofMap ProofProps ProofProps2 ModelDsl SpecDsl ProofDsl ProofDsl2 ProofDsl3 ProofDsl4 ProofDsl5 ProofDsl6 ProofDsl7.

Lemma sample_wf : kwf sample_classes.
Proof.
  split.
  - assert (A : forall d c r, addr (k_props sample_classes) d c = Some r -> d = 0 /\ c = 1 /\ r = 0).
    { intros d c r. unfold addr. cbn. destruct c as [|[|c]]; try easy. destruct d; [|easy]. now intros [= <-]. }
    split.
    + intros d c d' c' r H H'. apply A in H as (-> & -> & _). apply A in H' as (-> & -> & _). easy.
    + intros d c r H. apply A in H as (_ & _ & ->). cbn. lia.
    + intros [|r]; cbn; [|constructor]. constructor; [easy|constructor].
    + easy.
    + easy.
  - intros c L. cbn in L. do 9 (destruct c as [|c]; [eexists; split; [reflexivity|];
      split; [repeat (constructor; [cbn; intuition lia|]); constructor|cbn; intros b Hb; intuition lia]|]). lia.
  - intros c L. cbn in L. do 9 (destruct c as [|c]; [lia|]). easy.
  - intros d L. cbn in L. split; [|easy]. intros c. cbn. destruct c as [|[|c]]; try easy. intros [= <-]. lia.
Qed.

Lemma subseq_refl {A} (l : list A) : subseq l l.
Proof. induction l; constructor; easy. Qed.
Lemma merge_order fuel : forall ls lin, merge fuel ls = Ok lin -> forall l, In l ls -> subseq l lin.
Proof.
  induction fuel as [|fuel IH]; intros ls lin; cbn [merge]; [easy|]. destruct (forallb _ ls) eqn:Fa.
  - intros [= <-] l I. rewrite forallb_forall in Fa. specialize (Fa l I). destruct l; [constructor|easy].
  - destruct (find_head ls ls) as [h|] eqn:Fh; [|easy]. destruct (merge fuel (map _ ls)) as [lin'|] eqn:M; [|easy].
    cbn [rmap bind]. intros [= <-] l I. specialize (IH _ _ M (drop h l)).
    assert (S : subseq (drop h l) lin') by (apply IH; now apply (in_map (drop h))). destruct l as [|x l]; [constructor|]. cbn [drop] in S.
    destruct (Nat.eqb_spec x h) as [->|]; [now apply Sub_keep|now apply Sub_skip].
Qed.

Section P.
Context {V : Type}.
Notation kd := (classes V).
Notation val := (value V).
Implicit Types (k : kd).
Variable text_of : val -> str.
Lemma linearise_spec k bases lin : kwf k -> (forall b, In b bases -> b < k_next k) -> linearise k bases = Ok lin ->
  NoDup lin /\ (forall b, In b lin <-> exists c, In c bases /\ In b (mro k c))
  /\ subseq bases lin /\ forall b, In b bases -> subseq (mro k b) lin.
Proof.
  intros W L H. destruct (linearise_ok k bases lin W L H) as (A & B). split; [easy|]. split; [easy|]. split.
  - apply (merge_order _ _ _ H). apply in_app_iff. right. now left.
  - intros b I. apply (merge_order _ _ _ H). apply in_app_iff. left. now apply in_map.
Qed.
Lemma history_looks k os : kwf k -> proper_ops text_of k os -> let k' := run_k text_of k os in
  kwf k' /\ (forall c, c < k_next k -> looks_same k k' c)
  /\ forall i key, w_cls (k_props k) i < k_next k -> inst_sees (k_props k') i key = inst_sees (k_props k) i key.
Proof.
  intros W P k'. destruct (run_k_kept text_of os k W P) as (A & B). split; [easy|]. split.
  - intros c L. now apply extends_looks.
  - intros i key L. now apply extends_inst.
Qed.
Lemma step_fresh k o n : kwf k -> proper_op k o -> snd (kstep text_of k o) = Ok n -> k_next k <= n < k_next (fst (kstep text_of k o)).
Proof. intros W P. now apply (kstep_kept text_of k o W P). Qed.
Lemma nothing_lost k bases members k' fs : form_fields k bases members k' fs -> forall b l x f,
  In b bases -> seq_items (getattr k b (lit "field_schema")) = Some l -> In f l -> name_of k f = Ok x ->
  exists f', In f' fs /\ name_of k' f' = Ok x.
Proof.
  intros (choice & (_ & H) & C) b l x f Ib Sl If Nx.
  assert (In_ : inherited_field k bases x <> None).
  { clear H C. unfold inherited_field. induction bases as [|b0 bs IH]; [easy|]. cbn [first_some]. destruct Ib as [->|Ib].
    - rewrite Sl. destruct (first_named k x l) eqn:E; [easy|]. exfalso. unfold first_named in E.
      apply (find_none _ _ E) in If. unfold named_so in If. rewrite Nx in If. now destruct (name_eqb_spec x x).
    - destruct (match seq_items _ with Some _ => _ | None => _ end); [easy|now apply IH]. }
  assert (Ex : exists f', choice x = Some f').
  { specialize (C x). destruct (own_member k members x); [destruct C as (f' & E & _); eauto|]. rewrite C.
    destruct (last_named k x (field_schema_of members)); [eauto|]. destruct (inherited_field k bases x); [eauto|easy]. }
  destruct Ex as (f' & E). exists f'. now apply H.
Qed.
End P.
Lemma history_sample_proper : proper_ops no_text sample_classes dsl_history.
Proof. vm_compute. easy. Qed.
Lemma diamond_proper : proper_ops no_text sample_classes diamond.
Proof.
  unfold diamond. cbn [proper_ops proper_op]. repeat (split; [intros b Hb; vm_compute in Hb; vm_compute; intuition lia|]). easy.
Qed.
Lemma diamond_nearest : exists (k : classes nat) a c d fa fc x,
  kwf k /\ getattr k a (lit "field_schema") = Some (VSeq false [fa]) /\ getattr k c (lit "field_schema") = Some (VSeq false [fc])
  /\ name_of k fa = Ok x /\ name_of k fc = Ok x /\ fa <> fc
  /\ (exists l1 l2 l3, mro k d = l1 ++ c :: l2 ++ a :: l3)
  /\ exists fs, getattr k d (lit "field_schema") = Some (VSeq false fs) /\ In fa fs /\ ~ In fc fs.
Proof.
  exists (run_k no_text sample_classes diamond), 10, 14, 15, (VClass 9), (VClass 13), (Some (lit "x")).
  split; [apply (run_k_kept no_text diamond _ sample_wf diamond_proper)|]. repeat (split; [reflexivity|]). split; [easy|]. split.
  - exists [15; 12], [], [6; 2; 1; 0]. reflexivity.
  - exists [VClass 9; VClass 11]. split; [reflexivity|]. split; [now left|]. intros [|[|]]; easy.
Qed.
