(* C108: flat data that is set again, replaced and set in steps. *)
From Verif Require Import PyBase ModelMap ModelScalar ModelFlat SpecFlat SpecSteps ProofFlat10 ProofSteps.

(* C108: the same pairs again change nothing, and raise the same *)
Theorem C108_again : forall s sep e ps, named_fields s ->
  set_flat s sep (fst (set_flat s sep e ps)) ps = set_flat s sep e ps.
Proof. exact (fun s sep e ps N => again_lemma s N sep e ps). Qed.
Print Assumptions C108_again.

(* C108: whatever pairs are set, the element keeps the structure of its schema *)
Theorem C108_shape : forall s sep e ps, named_fields s -> is_of s e -> is_of s (fst (set_flat s sep e ps)).
Proof. exact (fun s sep e ps N => of_set s N sep e ps). Qed.
Print Assumptions C108_shape.

(* C108: pairs that name all that others did leave no trace of the others *)
Theorem C108_replace : forall s sep e ps qs e2, named_fields s -> is_of s e -> text_keys qs -> named_again ps qs ->
  set_flat s sep e qs = (e2, Ok tt) ->
  exists e3, set_flat s sep (fst (set_flat s sep e ps)) qs = (e3, Ok tt) /\ same e3 e2.
Proof. exact (fun s sep e ps qs e2 N => replaced s N sep e ps qs e2). Qed.
Print Assumptions C108_replace.

(* C108: in two steps or at once *)
Theorem C108_steps : forall s sep e ps qs e1 e2, named_fields s -> is_of s e -> text_keys ps -> text_keys qs -> parted sep s ps qs ->
  set_flat s sep e ps = (e1, Ok tt) -> set_flat s sep e1 qs = (e2, Ok tt) ->
  exists e3, set_flat s sep e (ps ++ qs) = (e3, Ok tt) /\ same e2 e3.
Proof. exact (fun s sep e ps qs e1 e2 N => stepped s N sep e ps qs e1 e2). Qed.
Print Assumptions C108_steps.

(* C108: replacing may leave a trace if it raises *)
Theorem C108_raising_refuted : exists s sep e ps qs, named_fields s /\ is_of s e /\ text_keys qs /\ named_again ps qs
  /\ (exists x, snd (set_flat s sep e qs) = Err x)
  /\ ~ same (fst (set_flat s sep (fst (set_flat s sep e ps)) qs)) (fst (set_flat s sep e qs)).
Proof.
  exists (SScalar (text "n") (KInteger true)), (lit "_"), (fresh (SScalar (text "n") (KInteger true))), (flat_of [("n", "4")]%string), [(text "n", broken)].
  repeat split; try easy.
  - now repeat constructor.
  - exists RuntimeErr. reflexivity.
  - intros H. vm_compute in H. now inversion H.
Qed.
Print Assumptions C108_raising_refuted.

(* C108: a List that both steps have pairs for keeps those of the second only *)
Theorem C108_list_refuted : exists s sep e ps qs e1 e2 e3, named_fields s /\ is_of s e /\ text_keys ps /\ text_keys qs
  /\ set_flat s sep e ps = (e1, Ok tt) /\ set_flat s sep e1 qs = (e2, Ok tt)
  /\ set_flat s sep e (ps ++ qs) = (e3, Ok tt) /\ ~ same e2 e3.
Proof.
  exists sample_schema, (lit "_"), (fresh sample_schema), (flat_of [("o_l_0_x", "3")]%string), (flat_of [("o_l_1_x", "4")]%string).
  do 3 eexists. split; [exact sample_named|]. split; [apply of_fresh; exact sample_named|]. split; [now repeat constructor|]. split; [now repeat constructor|].
  split; [reflexivity|]. split; [reflexivity|]. split; [reflexivity|].
  intros H. inversion H as [|? ? ? ? _ K| | |]. 
  specialize (K (text "l") _ _ (or_intror (or_introl eq_refl)) (or_intror (or_introl eq_refl))).
  inversion K as [| |? ? ? F| |]. inversion F as [|? ? ? ? _ F']. inversion F'.
Qed.
Print Assumptions C108_list_refuted.

(* C108: hypotheses met *)
Example C108_case : named_fields sample_schema /\ is_of sample_schema (fresh sample_schema) /\ parted (lit "_") sample_schema first_step second_step
  /\ (exists e1 e2 e3, set_flat sample_schema (lit "_") (fresh sample_schema) first_step = (e1, Ok tt)
     /\ set_flat sample_schema (lit "_") e1 second_step = (e2, Ok tt)
     /\ set_flat sample_schema (lit "_") (fresh sample_schema) (first_step ++ second_step) = (e3, Ok tt)
     /\ e3 = e2 /\ e2 <> e1 /\ e1 <> fresh sample_schema).
Proof.
  split; [exact sample_named|]. split; [apply of_fresh; exact sample_named|]. split; [exact sample_parted|].
  do 3 eexists. split; [reflexivity|]. split; [reflexivity|]. split; [reflexivity|]. repeat split; vm_compute; discriminate.
Qed.
Example C108_replaced_case : named_again first_step (flat_of [("o_s", "ho"); ("o_l_1_x", "4")]%string)
  /\ (exists e2, set_flat sample_schema (lit "_") (fst (set_flat sample_schema (lit "_") (fresh sample_schema) first_step)) (flat_of [("o_s", "ho"); ("o_l_1_x", "4")]%string) = (e2, Ok tt)
     /\ set_flat sample_schema (lit "_") (fresh sample_schema) (flat_of [("o_s", "ho"); ("o_l_1_x", "4")]%string) = (e2, Ok tt)).
Proof. split; [intros k [<-|[]]; now left|]. eexists. split; reflexivity. Qed.
