(* Counterexamples, samples and the last details on properties. *)
From Verif Require Import PyBase PyBaseFacts ModelUtil ModelSeq ModelProps SpecProps ProofMap ProofProps ProofProps2.

Section P.
Context {V : Type}.
Notation wd := (world V).
Lemma no_properties (w : wd) :
  (forall c o, desc w c = None -> class_step c o w = (w, Err AttributeErr))
  /\ (forall i o, desc w (w_cls w i) = None -> inst_step i o w = (w, Err AttributeErr)).
Proof. split; intros x o D; [unfold class_step|unfold inst_step]; now rewrite D. Qed.
Lemma desc_first (w : wd) c :
  match desc w c with
  | Some d => exists l b r, w_mro w c = l ++ b :: r /\ w_own w b = Some d /\ forall x, In x l -> w_own w x = None
  | None => forall x, In x (w_mro w c) -> w_own w x = None
  end.
Proof.
  unfold desc. induction (w_mro w c) as [|b r IH]; [easy|]. cbn [find_desc]. destruct (w_own w b) as [d|] eqn:E.
  - exists [], b, r. easy.
  - destruct (find_desc (w_own w) r) as [d|].
    + destruct IH as (l & b' & r' & -> & A & B). exists (b :: l), b', r'. split; [easy|]. split; [easy|]. intros x [<-|I]; auto.
    + intros x [<-|I]; auto.
Qed.
Lemma inst_shadowed (w : wd) c o i k : sound w -> own_says w i k <> None ->
  inst_sees (fst (class_step c o w)) i k = inst_sees w i k.
Proof.
  intros Hs H. destruct (class_locals w c o i Hs) as (A & B & C). unfold inst_sees. rewrite B, C.
  destruct (whole w i); [easy|]. now destruct (own_says w i k).
Qed.
Lemma assign_isolated (w : wd) i l :
  let w' := fst (world_step w (Assign i l)) in
  (forall b k, class_sees w' b k = class_sees w b k) /\ forall j k, j <> i -> inst_sees w' j k = inst_sees w j k.
Proof.
  cbn [world_step]. unfold inst_assign. destruct (desc w (w_cls w i)); [|easy]. split; [easy|].
  intros j k Ne. unfold inst_sees, whole, own_says. cbn [set_local w_local fst]. now rewrite fset_neq.
Qed.
End P.

Lemma sample_ok : sound sample_world /\ Forall proper sample_history.
Proof.
  split.
  - split.
    + intros d c d' c' r. unfold addr. cbn. destruct c as [|[|[|[|[|c]]]]], c' as [|[|[|[|[|c']]]]]; try easy;
        destruct d as [|[|d]], d' as [|[|d']]; cbn; intros; try easy; congruence.
    + intros d c r. unfold addr. cbn. destruct c as [|[|[|[|[|c]]]]]; try easy; destruct d as [|[|d]]; cbn; intros; try easy; injection H as <-; lia.
    + intros [|[|r]]; cbn; [|constructor; [easy|constructor]|constructor]. constructor; [intros [H|[]]; discriminate H|]. constructor; [easy|constructor].
    + easy.
    + easy.
  - unfold sample_history. repeat constructor; easy.
Qed.
Lemma sample_run os : Forall proper os -> sound (run_world sample_world os).
Proof. intros P. apply run_sound; [apply sample_ok|exact P]. Qed.
Lemma class_setdefault_refuted : exists (w : world nat) c k v, sound w /\ class_sees w c k <> None
  /\ exists w', class_step c (PSetdefault k v) w = (w', Ok (POSlot (Val v))) /\ class_sees w c k <> class_sees w' c k.
Proof.
  exists sample_world, 1, (lit "a"), 7. split; [apply sample_ok|]. split; [now vm_compute|].
  eexists. split; [reflexivity|]. now vm_compute.
Qed.
Lemma setdefault_deleted_refuted : exists (w : world nat) c i k v, sound w
  /\ snd (class_step c (PSetdefault k v) w) = Ok (POSlot Deleted)
  /\ snd (inst_step i (PSetdefault k v) w) = Ok (POSlot Deleted).
Proof.
  exists (run_world sample_world [OnClass 1 (PDel (lit "a")); OnInst 2 (PDel (lit "a"))]), 1, 2, (lit "a"), 7.
  split; [apply sample_run; repeat constructor|]. now vm_compute.
Qed.
Lemma pop_deleted_refuted : exists (w : world nat) i k, sound w /\ inst_sees w i k = None
  /\ snd (inst_step i (PPop k None) w) = Ok (POSlot Deleted)
  /\ inst_sees (fst (inst_step i (PPop k None) w)) i k <> None.
Proof.
  exists (run_world sample_world [OnInst 2 (PDel (lit "a"))]), 2, (lit "a").
  split; [apply sample_run; repeat constructor|]. now vm_compute.
Qed.
Lemma instance_pop_refuted : exists (w : world nat) i j k, sound w /\ j <> i /\ own_says w i k = None
  /\ let w' := fst (inst_step i (PPop k None) w) in
     class_sees w (w_cls w i) k <> None /\ class_sees w' (w_cls w i) k = None
     /\ inst_sees w j k <> None /\ inst_sees w' j k = None.
Proof. exists sample_world, 0, 1, (lit "a"). split; [apply sample_ok|]. now vm_compute. Qed.
Lemma shared_object_refuted : exists (w : world nat) b c k v, b <> c /\ ~ In c (w_mro w b)
  /\ class_sees (fst (class_step c (PSet k v) w)) b k <> class_sees w b k.
Proof. exists shared_world, 0, 5, (lit "a"), 7. split; [easy|]. split; [now intros [|]|]. now vm_compute. Qed.
