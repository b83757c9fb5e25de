(* Evaluating path expressions. *)
From Verif Require Import PyBase PyBaseFacts PyList ProofPyList ModelUtil ModelSeq ModelProps ModelDsl SpecScalar ProofScalar ModelPaths SpecPaths ProofPaths ProofPaths2 ProofPaths3 ProofPaths4.

Lemma children_kids t e : children t e = kids t e.
Proof. reflexivity. Qed.
Fixpoint after_slice (ops : list op) : option (list op) :=
  match ops with [] => None | SLICE _ :: r => Some r | _ :: r => after_slice r end.
Lemma after_shorter ops r : after_slice ops = Some r -> (List.length r < List.length ops)%nat.
Proof.
  induction ops as [|o ops IH]; [easy|]. cbn. destruct o; intros H; try (apply IH in H; lia).
  injection H as ->. lia.
Qed.
Definition up_of (t : tree) (e : elem) : elem :=
  match parent t e with Some p => if truthy t p then p else e | None => e end.
Lemma up_of_spec t e : parent t e = Some (up_of t e) /\ truthy t (up_of t e) = true
     \/ up_of t e = e /\ (parent t e = None \/ exists v, parent t e = Some v /\ truthy t v = false).
Proof.
  unfold up_of. destruct (parent t e) as [p|]; [|right; auto]. destruct (truthy t p) eqn:E; [now left|].
  right. split; [easy|]. right. eauto.
Qed.
Lemma up_of_unique t e u : parent t e = Some u /\ truthy t u = true
     \/ u = e /\ (parent t e = None \/ exists v, parent t e = Some v /\ truthy t v = false) -> u = up_of t e.
Proof.
  unfold up_of. intros [[-> ->]|[-> [-> |(v & -> & ->)]]]; reflexivity.
Qed.
Definition missing (err : exn) : bool := is_lookup err || match err with TypeErr => true | _ => false end.
Lemma run_name t strict x r e : run_ops t strict (NAME x :: r) e =
  match index t e x with
  | Ok e' => run_ops t strict r e'
  | Err err => if missing err then if strict then Err LookupErr else Ok Nothing else Err err
  end.
Proof. reflexivity. Qed.
Lemma refuses_missing t e x err : refuses t e x err -> missing err = match err with NotImplErr => false | _ => true end.
Proof. destruct 1; reflexivity. Qed.

(* ---------------- the order of the results ---------------- *)
Inductive osel (t : tree) : list op -> elem -> list elem -> Prop :=
| os_end e : osel t [] e [e]
| os_top r e l : osel t r (root t e) l -> osel t (TOP :: r) e l
| os_up r e l : osel t r (up_of t e) l -> osel t (UP :: r) e l
| os_here r e l : osel t r e l -> osel t (HERE :: r) e l
| os_name x r e e' l : index t e x = Ok e' -> osel t r e' l -> osel t (NAME x :: r) e l
| os_missing x r e err : index t e x = Err err -> missing err = true -> osel t (NAME x :: r) e []
| os_slice s r e cs ls : get_slice (children t e) s = Ok cs -> Forall2 (osel t r) cs ls ->
    osel t (SLICE s :: r) e (List.concat ls).
Lemma run_osel t ops e l : osel t ops e l ->
  (run_ops t false ops e = Ok Nothing /\ l = [])
  \/ match after_slice ops with
     | None => exists u, run_ops t false ops e = Ok (Found u) /\ l = [u]
     | Some post => exists cs ls, run_ops t false ops e = Ok (More (map (fun c => (post, c)) cs))
                                  /\ Forall2 (osel t post) cs ls /\ l = List.concat ls
     end.
Proof.
  revert e l. induction ops as [|o ops IH]; intros e l H.
  - inversion H; subst. right. cbn. eauto.
  - destruct o as [| | |s|x].
    + inversion H; subst. cbn [run_ops after_slice]. apply IH. easy.
    + inversion H; subst. cbn [run_ops after_slice]. apply IH. easy.
    + inversion H; subst. cbn [run_ops after_slice]. apply IH. easy.
    + inversion H as [| | | | | |s0 r0 e0 cs ls G F]; subst. right. cbn [run_ops after_slice]. rewrite G. cbn [rmap]. eauto.
    + rewrite run_name. cbn [after_slice]. inversion H as [| | | |x0 r0 e0 e' l0 I F|x0 r0 e0 err I F|]; subst; rewrite I.
      * apply IH. easy.
      * left. rewrite F. easy.
Qed.
Lemma osel_run t n : forall ops, (List.length ops <= n)%nat -> forall es ls found, Forall2 (osel t ops) es ls ->
  exists f, forall fuel, (f <= fuel)%nat ->
  run_contexts fuel t false (map (fun e => (ops, e)) es) found = Ok (found ++ List.concat ls).
Proof.
  induction n as [|n IHn]; intros ops Hn.
  - destruct ops; [|cbn in Hn; lia]. intros es ls found H. revert found.
    induction H as [|e l es ls H1 H2 IH]; intros found.
    + exists 0%nat. intros fuel _. destruct fuel; cbn; now rewrite app_nil_r.
    + inversion H1; subst. destruct (IH (found ++ [e])) as [f Hf]. exists (S f). intros fuel F.
      destruct fuel as [|fuel]; [lia|]. cbn. rewrite Hf by lia. now rewrite <- app_assoc.
  - destruct (after_slice ops) as [post|] eqn:A.
    + (* every result comes from the level after the slice *)
      assert (forall es ls acc lacc found, Forall2 (osel t ops) es ls -> Forall2 (osel t post) acc lacc ->
        exists f, forall fuel, (f <= fuel)%nat ->
        run_contexts fuel t false (map (fun e => (ops, e)) es ++ map (fun e => (post, e)) acc) found
        = Ok (found ++ List.concat lacc ++ List.concat ls)) as G.
      { intros es ls acc lacc found H. revert acc lacc found. induction H as [|e l es ls H1 H2 IH]; intros acc lacc found K.
        - cbn [map app List.concat]. rewrite app_nil_r. apply IHn; [apply after_shorter in A; lia|easy].
        - apply run_osel in H1. rewrite A in H1. destruct H1 as [[R ->]|(cs & lcs & R & Hc & ->)].
          + destruct (IH acc lacc found K) as [f Hf]. exists (S f). intros fuel F. destruct fuel as [|fuel]; [lia|].
            cbn [map app run_contexts]. rewrite R. cbn [bind]. apply Hf. lia.
          + destruct (IH (acc ++ cs) (lacc ++ lcs) found) as [f Hf]; [now apply Forall2_app|].
            exists (S f). intros fuel F. destruct fuel as [|fuel]; [lia|].
            cbn [map app run_contexts]. rewrite R. cbn [bind]. rewrite <- app_assoc, <- map_app, Hf by lia.
            rewrite concat_app, <- !app_assoc. reflexivity. }
      intros es ls found H. destruct (G es ls [] [] found H) as [f Hf]; [constructor|]. cbn [map app List.concat] in Hf.
      exists f. intros fuel F. rewrite <- Hf with fuel by easy. now rewrite app_nil_r.
    + intros es ls found H. revert found. induction H as [|e l es ls H1 H2 IH]; intros found.
      * exists 0%nat. intros fuel _. destruct fuel; cbn; now rewrite app_nil_r.
      * apply run_osel in H1. rewrite A in H1. destruct H1 as [[R ->]|(u & R & ->)].
        -- destruct (IH found) as [f Hf]. exists (S f). intros fuel F. destruct fuel as [|fuel]; [lia|].
           cbn [map run_contexts]. rewrite R. cbn [bind]. apply Hf. lia.
        -- destruct (IH (found ++ [u])) as [f Hf]. exists (S f). intros fuel F. destruct fuel as [|fuel]; [lia|].
           cbn [map run_contexts]. rewrite R. cbn [bind]. rewrite Hf by lia. now rewrite <- app_assoc.
Qed.
Lemma osel_evaluate t ops e l : osel t ops e l ->
  exists f, forall fuel, (f <= fuel)%nat -> evaluate fuel t false ops e = Ok l.
Proof.
  intros H. destruct (osel_run t (List.length ops) ops (le_n _) [e] [l] []) as [f Hf]; [now repeat constructor|].
  exists f. intros fuel F. unfold evaluate. cbn [map] in Hf. rewrite Hf by easy. cbn. now rewrite app_nil_r.
Qed.

(* what the steps select *)
Lemma get_slice_positions {A} (l : list A) s ps cs : slice_positions (List.length l) s = Ok ps -> chosen l ps cs ->
  get_slice l s = Ok cs.
Proof. intros H C. unfold get_slice. rewrite H. cbn. f_equal. now apply chosen_pick. Qed.
Lemma selects_osel t l : proper t -> forall e r, selects t l e r -> osel t (map op_of l) e r.
Proof.
  intros P. induction l as [|s l IH]; intros e r H; [inversion H; constructor|]. cbn [map].
  assert (Forall2_imp : forall cs ls, Forall2 (selects t l) cs ls -> Forall2 (osel t (map op_of l)) cs ls).
  { intros cs ls F. induction F; constructor; auto. }
  inversion H as [e0|x r0 e0 e' l0 T S|x r0 e0 err R N|i r0 e0 e' l0 T S|i r0 e0 err R N
                 |k r0 e0 e' l0 L E S|k r0 e0 L|a b r0 e0 cs ls Y S|a b c r0 e0 cs ls Y S]; subst.
  - apply index_takes_lemma in T; [|easy]. cbn. econstructor; eauto.
  - apply index_refuses_lemma in R as R'. cbn. eapply os_missing; eauto. rewrite (refuses_missing _ _ _ _ R). now destruct err.
  - apply index_takes_lemma in T; [|easy]. cbn. econstructor; eauto.
  - apply index_refuses_lemma in R as R'. cbn. eapply os_missing; eauto. rewrite (refuses_missing _ _ _ _ R). now destruct err.
  - destruct (op_from_end k (List.length (kids t e))) as (s & -> & Hs).
    apply Nat.leb_le in L as L'. rewrite L' in Hs.
    replace r with (List.concat [r]) by (cbn; apply app_nil_r). eapply os_slice with (cs := [e']); [|constructor; [auto|constructor]].
    eapply get_slice_positions; [exact Hs|]. constructor; [exact E|constructor].
  - destruct (op_from_end k (List.length (kids t e))) as (s & -> & Hs).
    apply Nat.leb_gt in L as L'. rewrite L' in Hs.
    change (@nil elem) with (List.concat (@nil (list elem))). eapply os_slice with (cs := []); [|constructor].
    eapply get_slice_positions; [exact Hs|]. constructor.
  - destruct (op_slice2 a b (List.length (kids t e))) as (s & -> & Hs). destruct Y as (ps & Y1 & Y2).
    eapply os_slice; [|exact (Forall2_imp _ _ S)]. eapply get_slice_positions; [|exact Y2].
    rewrite children_kids, Hs. exact Y1.
  - destruct (op_slice3 a b c (List.length (kids t e))) as (s & -> & Hs). destruct Y as (ps & Y1 & Y2).
    eapply os_slice; [|exact (Forall2_imp _ _ S)]. eapply get_slice_positions; [|exact Y2].
    rewrite children_kids, Hs. exact Y1.
Qed.
Lemma find_nocache fuel c t e path single strict ops : aget str_eqb path c = None -> tokenize path = Ok ops ->
  (N.of_nat (List.length c) < 1024)%N ->
  snd (find fuel c t e path single strict) = bind (evaluate fuel t strict ops e) (pick_single single strict).
Proof.
  intros A T L. unfold find, pathexpr. rewrite A, T. apply N.ltb_lt in L. unfold max_cache_size. rewrite L. reflexivity.
Qed.
Lemma find_empty fuel t e path single strict : snd (find fuel [] t e path single strict) =
  bind (tokenize path) (fun ops => bind (evaluate fuel t strict ops e) (pick_single single strict)).
Proof. unfold find, pathexpr. cbn [aget]. destruct (tokenize path); reflexivity. Qed.

Lemma selects_lemma t e absolute l r : proper t -> exists_in t e -> writable l -> dotless l -> selects t l (from_root absolute e) r ->
  finds [] t e (path_text absolute l) false false (Ok (Many r)).
Proof.
  intros P X W D H. apply selects_osel in H; [|easy].
  assert (osel t (ops_of absolute l) e r) as O.
  { unfold ops_of. destruct absolute; cbn [app from_root] in *; [|easy]. constructor. now rewrite root_lemma. }
  destruct (osel_evaluate _ _ _ _ O) as [f Hf]. exists f. intros fuel F. rewrite find_empty, tokenize_dotless by (easy || eapply leads_dotless; eauto).
  cbn [bind]. rewrite Hf by easy. reflexivity.
Qed.

(* a location: only one result, in every mode *)
Lemma leads_run t strict p l q : proper t -> leads t p l q -> run_ops t strict (map op_of l) (Node p) = Ok (Found (Node q)).
Proof.
  intros P H. induction H as [p|p n b l i x c r q E N H IH|p sl n b l i r q E N H IH]; [reflexivity| |].
  - cbn [map]. change (op_of (Key x)) with (NAME (Some x)). rewrite run_name.
    assert (index t (Node p) (Some x) = Ok (Node (i :: p))) as ->; [|easy].
    apply index_takes_lemma; [easy|]. eapply take_key; eauto.
  - cbn [map]. change (op_of (Idx i)) with (NAME (Some (dec_nat i))). rewrite run_name.
    assert (index t (Node p) (Some (dec_nat i)) = Ok (Node (i :: p))) as ->; [|easy].
    apply index_takes_lemma; [easy|]. eapply take_index; [exact E|apply says_dec|now apply picks_nat].
Qed.
Lemma leads_dotless t p l q : leads t p l q -> dotless l.
Proof. intros H. unfold dotless. induction H; cbn; [tauto| |]; destruct IHleads; split; intros [K|K]; (discriminate K || auto). Qed.
Lemma leads_lemma t p l q single strict : proper t -> leads t p l q -> writable l ->
  finds [] t (Node p) (path_text false l) single strict (Ok (if single then One (Some (Node q)) else Many [Node q])).
Proof.
  intros P H W. exists 1%nat. intros fuel F. rewrite find_empty, tokenize_dotless by (easy || eapply leads_dotless; eauto). cbn [bind ops_of app].
  unfold evaluate. destruct fuel as [|fuel]; [lia|]. cbn [run_contexts]. rewrite leads_run with (q := q) by easy. cbn [bind app].
  destruct fuel, single; reflexivity.
Qed.
Lemma leads_root_lemma t e l q single strict : proper t -> exists_in t e -> leads t [] l q -> writable l ->
  finds [] t e (path_text true l) single strict (Ok (if single then One (Some (Node q)) else Many [Node q])).
Proof.
  intros P X H W. exists 1%nat. intros fuel F. rewrite find_empty, tokenize_dotless by (easy || eapply leads_dotless; eauto). cbn [bind ops_of app].
  unfold evaluate. destruct fuel as [|fuel]; [lia|]. cbn [run_contexts run_ops]. rewrite root_lemma by easy.
  rewrite leads_run with (q := q) by easy. cbn [bind app].
  destruct fuel, single; reflexivity.
Qed.
Lemma leads_app t p l q l' q' : leads t p l q -> leads t q l' q' -> leads t p (l ++ l') q'.
Proof. induction 1; intros K; cbn; [easy| |]; econstructor; eauto. Qed.
Lemma leads_exists t p : named_way t p -> exists l, leads t [] l p.
Proof.
  induction p as [|i q IH]; intros H; [exists []; constructor|]. destruct H as [H1 H2]. destruct (IH H1) as [l Hl].
  destruct (node_at t q) as [[|n b k|sl n b k]|] eqn:E; try easy.
  - destruct H2 as (x & c & N). exists (l ++ [Key x]). eapply leads_app; [exact Hl|]. eapply leads_key; eauto. constructor.
  - exists (l ++ [Idx i]). eapply leads_app; [exact Hl|]. eapply leads_index; eauto. constructor.
Qed.
