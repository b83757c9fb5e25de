(* C39 (property inheritance) and C40 (property isolation). *)
From Verif Require Import PyBase ModelUtil ModelSeq ModelProps SpecProps ProofProps ProofProps2 ProofProps3.

(* C39 *)
Theorem C39_class_calls : forall V (w : world V) c d o, sound w -> desc w c = Some d ->
  let '(w', r) := class_step c o w in
  sound w' /\ class_changed w w' d c (class_after (class_sees w c) (mention w d c) o)
  /\ class_answers (class_sees w c) (mention w d c) o r.
Proof. exact @class_step_spec. Qed.
Print Assumptions C39_class_calls.
Theorem C39_class_shows : forall V (w : world V) c d o,
  sound w -> desc w c = Some d -> hd_error (w_mro w c) = Some c -> NoDup (w_mro w c) -> forall k,
  class_sees (fst (class_step c o w)) c k = sees_after (class_sees w c) (mention w d c) o k.
Proof. exact @class_shows. Qed.
Print Assumptions C39_class_shows.
Theorem C39_class_inherits : forall V (w : world V) b c d rest,
  desc w b = Some d -> desc w c = Some d -> w_mro w b = b :: rest -> w_mro w c = rest ->
  forall k, mention w d b k = None -> w_own w b = None -> class_sees w b k = class_sees w c k.
Proof. exact @class_inherits. Qed.
Print Assumptions C39_class_inherits.
Theorem C39_instance_calls : forall V (w : world V) i d o,
  sound w -> desc w (w_cls w i) = Some d -> whole w i = None -> inst_pop o = None ->
  let '(w', r) := inst_step i o w in
  sound w' /\ inst_changed w w' i (inst_after (class_sees w (w_cls w i)) (inst_sees w i) (own_says w i) o)
  /\ inst_answers (inst_sees w i) (own_says w i) o r.
Proof. exact @inst_step_spec. Qed.
Print Assumptions C39_instance_calls.
Theorem C39_instance_shows : forall V (w : world V) i d o,
  sound w -> desc w (w_cls w i) = Some d -> whole w i = None -> inst_pop o = None -> forall k,
  inst_sees (fst (inst_step i o w)) i k
  = match o with
    | PSetdefault k' v => match inst_sees w i k', own_says w i k' with
                          | None, None => upd (inst_sees w i) k' (Some v) k | _, _ => inst_sees w i k end
    | _ => sees_after (inst_sees w i) (own_says w i) o k
    end.
Proof. exact @inst_shows. Qed.
Print Assumptions C39_instance_shows.
Theorem C39_instance_pop_own : forall V (w : world V) i d k dflt s,
  sound w -> desc w (w_cls w i) = Some d -> own_says w i k = Some s ->
  let '(w', r) := inst_step i (PPop k dflt) w in
  sound w' /\ inst_changed w w' i (upd (own_says w i) k None) /\ r = Ok (POSlot s).
Proof. exact @inst_pop_own. Qed.
Print Assumptions C39_instance_pop_own.
Theorem C39_instance_pop_inherited : forall V (w : world V) i d k dflt,
  sound w -> desc w (w_cls w i) = Some d -> whole w i = None -> own_says w i k = None ->
  let '(w', r) := inst_step i (PPop k dflt) w in
  sound w' /\ class_changed w w' d (w_cls w i) (class_after (class_sees w (w_cls w i)) (mention w d (w_cls w i)) (PPop k dflt))
  /\ answers (class_sees w (w_cls w i)) (PPop k dflt) r.
Proof. exact @inst_pop_class. Qed.
Print Assumptions C39_instance_pop_inherited.
Theorem C39_assigned_dict : forall V (w : world V) i d l o,
  sound w -> desc w (w_cls w i) = Some d -> whole w i = Some l ->
  let '(w', r) := inst_step i o w in
  sound w' /\ same_classes w w' /\ (forall d c k, mention w' d c k = mention w d c k)
  /\ (forall j, j <> i -> w_local w' j = w_local w j)
  /\ exists l', whole w' i = Some l' /\ dict_after (fun k => aget str_eqb k l) (fun k => aget str_eqb k l') o r
  /\ dict_answers (fun k => aget str_eqb k l) o r.
Proof. exact @inst_whole_spec. Qed.
Print Assumptions C39_assigned_dict.
Theorem C39_assign : forall V (w : world V) i d l, sound w -> desc w (w_cls w i) = Some d -> NoDup (keys l) ->
  let '(w', r) := world_step w (Assign i l) in
  sound w' /\ r = Ok PONone /\ same_classes w w' /\ (forall d c k, mention w' d c k = mention w d c k)
  /\ (forall j, j <> i -> w_local w' j = w_local w j) /\ whole w' i = Some l.
Proof. exact @assign_spec. Qed.
Print Assumptions C39_assign.
Theorem C39_no_properties : forall V (w : world V),
  (forall c o, desc w c = None -> class_step c o w = (w, Err AttributeErr))
  /\ (forall i o, desc w (w_cls w i) = None -> inst_step i o w = (w, Err AttributeErr)).
Proof. exact @no_properties. Qed.
Print Assumptions C39_no_properties.
Theorem C39_histories : forall V os (w : world V), sound w -> Forall proper os -> sound (run_world w os).
Proof. exact @run_sound. Qed.
Print Assumptions C39_histories.
(* the descriptor found is the one of the first declaring class *)
Theorem C39_descriptor : forall V (w : world V) c,
  match desc w c with
  | Some d => exists l b r, w_mro w c = l ++ b :: r /\ w_own w b = Some d /\ forall x, In x l -> w_own w x = None
  | None => forall x, In x (w_mro w c) -> w_own w x = None
  end.
Proof. exact @desc_first. Qed.
Print Assumptions C39_descriptor.
Theorem C39_class_setdefault_refuted : exists (w : world nat) c k v, sound w /\ class_sees w c k <> None
  /\ exists w', class_step c (PSetdefault k v) w = (w', Ok (POSlot (Val v))) /\ class_sees w c k <> class_sees w' c k.
Proof. exact class_setdefault_refuted. Qed.
Print Assumptions C39_class_setdefault_refuted.
Theorem C39_setdefault_deleted_refuted : exists (w : world nat) c i k v, sound w
  /\ snd (class_step c (PSetdefault k v) w) = Ok (POSlot Deleted)
  /\ snd (inst_step i (PSetdefault k v) w) = Ok (POSlot Deleted).
Proof. exact setdefault_deleted_refuted. Qed.
Print Assumptions C39_setdefault_deleted_refuted.
Theorem C39_pop_deleted_refuted : exists (w : world nat) i k, sound w /\ inst_sees w i k = None
  /\ snd (inst_step i (PPop k None) w) = Ok (POSlot Deleted)
  /\ inst_sees (fst (inst_step i (PPop k None) w)) i k <> None.
Proof. exact pop_deleted_refuted. Qed.
Print Assumptions C39_pop_deleted_refuted.
Example C39_sample_sound : sound sample_world /\ Forall proper sample_history.
Proof. exact sample_ok. Qed.
Example C39_sample : let w := run_world sample_world sample_history in
  map (fun c => class_sees w c (lit "a")) [0; 1; 2; 3; 4] = [Some 1; Some 5; Some 5; None; Some 9]
  /\ map (fun i => inst_sees w i (lit "b")) [0; 1; 2; 3] = [None; Some 2; None; None]
  /\ map (fun i => inst_sees w i (lit "a")) [0; 1; 2; 3] = [Some 5; Some 5; Some 3; None]
  /\ snd (world_step w (OnInst 1 PItems)) = Ok (POItems [(lit "c", 7); (lit "a", 5); (lit "b", 2)]).
Proof. now vm_compute. Qed.

(* C40 *)
Theorem C40_class_calls : forall V (w : world V) c o b, sound w -> ~ In c (w_mro w b) \/ desc w b <> desc w c ->
  forall k, class_sees (fst (class_step c o w)) b k = class_sees w b k.
Proof. exact @class_isolated. Qed.
Print Assumptions C40_class_calls.
Theorem C40_class_calls_instances : forall V (w : world V) c o i,
  sound w -> ~ In c (w_mro w (w_cls w i)) \/ desc w (w_cls w i) <> desc w c \/ whole w i <> None ->
  forall k, inst_sees (fst (class_step c o w)) i k = inst_sees w i k.
Proof. exact @class_isolated_inst. Qed.
Print Assumptions C40_class_calls_instances.
Theorem C40_class_calls_shadowed : forall V (w : world V) c o b d k,
  sound w -> desc w b = Some d -> hd_error (w_mro w b) = Some b -> b <> c -> mention w d b k <> None ->
  class_sees (fst (class_step c o w)) b k = class_sees w b k.
Proof. exact @class_shadowed. Qed.
Print Assumptions C40_class_calls_shadowed.
Theorem C40_instance_own_shadows : forall V (w : world V) c o i k, sound w -> own_says w i k <> None ->
  inst_sees (fst (class_step c o w)) i k = inst_sees w i k.
Proof. exact @inst_shadowed. Qed.
Print Assumptions C40_instance_own_shadows.
Theorem C40_instance_calls : forall V (w : world V) i o, sound w ->
  (forall k, inst_pop o = Some k -> own_says w i k <> None \/ whole w i <> None) ->
  let w' := fst (inst_step i o w) in
  (forall b k, class_sees w' b k = class_sees w b k) /\ forall j k, j <> i -> inst_sees w' j k = inst_sees w j k.
Proof. exact @inst_isolated. Qed.
Print Assumptions C40_instance_calls.
Theorem C40_assign : forall V (w : world V) i l,
  let w' := fst (world_step w (Assign i l)) in
  (forall b k, class_sees w' b k = class_sees w b k) /\ forall j k, j <> i -> inst_sees w' j k = inst_sees w j k.
Proof. exact @assign_isolated. Qed.
Print Assumptions C40_assign.
Theorem C40_instance_pop_refuted : exists (w : world nat) i j k, sound w /\ j <> i /\ own_says w i k = None
  /\ let w' := fst (inst_step i (PPop k None) w) in
     class_sees w (w_cls w i) k <> None /\ class_sees w' (w_cls w i) k = None
     /\ inst_sees w j k <> None /\ inst_sees w' j k = None.
Proof. exact instance_pop_refuted. Qed.
Print Assumptions C40_instance_pop_refuted.
Theorem C40_shared_object_refuted : exists (w : world nat) b c k v, b <> c /\ ~ In c (w_mro w b)
  /\ class_sees (fst (class_step c (PSet k v) w)) b k <> class_sees w b k.
Proof. exact shared_object_refuted. Qed.
Print Assumptions C40_shared_object_refuted.
Example C40_sample : ~ In 3 (w_mro sample_world 2) /\ desc sample_world 4 <> desc sample_world 0
  /\ class_sees (fst (class_step 0 PClear sample_world)) 2 (lit "a") = None
  /\ class_sees (fst (class_step 0 PClear sample_world)) 4 (lit "a") = Some 9
  /\ class_sees (fst (class_step 3 PClear sample_world)) 2 (lit "a") = Some 1
  /\ inst_sees (fst (inst_step 0 PClear sample_world)) 1 (lit "a") = Some 1.
Proof. repeat (split; [vm_compute; easy || (intros H; intuition congruence)|]). now vm_compute. Qed.
