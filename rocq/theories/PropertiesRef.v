(* References.  [find] says where the path of each Ref leads in the tree as it
   is at the call; fuel stands for Python's recursion limit. *)
From Verif Require Import PyBase ModelUtil ModelScalar ModelRef SpecRef.
From Verif Require ProofRef.

(* ---- C76 ---- *)
Theorem C76_reads find ws fuel h i t n :
  leads find h i ws t -> List.length ws <= fuel -> nth_error h t = Some n ->
  exists h', settles find h h' /\ pinned h' i ws t /\
    get_value find fuel h i = (h', Ok (node_value n)) /\ get_u find fuel h i = (h', Ok (node_u n)).
Proof. exact (@ProofRef.read_through find ws fuel h i t n). Qed.
Print Assumptions C76_reads.
Theorem C76_remembers find find' ws fuel fuel' h h' i t n :
  leads find h i ws t -> List.length ws <= fuel -> nth_error h t = Some n ->
  get_value find fuel h i = (h', Ok (node_value n)) -> List.length ws <= fuel' ->
  get_value find' fuel' h' i = (h', Ok (node_value n)) /\ get_u find' fuel' h' i = (h', Ok (node_u n)).
Proof. exact (@ProofRef.remembered find find' ws fuel fuel' h h' i t n). Qed.
Print Assumptions C76_remembers.
Theorem C76_sets find w ws fuel h i t k st v :
  leads find h i (w :: ws) t -> List.length (w :: ws) <= fuel -> nth_error h t = Some (OfScalar k st) ->
  exists h', settles find (set_raw h i v) h' /\
  ref_set find fuel h i v =
  let '(st', r) := scalar_set k st v in
  match decision (w :: ws) with
  | WYes => (set_nth t (OfScalar k (Scalar (s_raw st) (s_value st') (s_u st'))) h', r)
  | WIgnore => (h', r)
  | WNo => (h', match r with Ok _ => Err TypeErr | Err x => Err x end)
  end.
Proof. exact (@ProofRef.set_through find w ws fuel h i t k st v). Qed.
Print Assumptions C76_sets.
Theorem C76_assigns find put ws fuel h i t n :
  leads find h i ws t -> List.length ws <= fuel -> nth_error h t = Some n ->
  exists h', settles find h h' /\
  assign_through find put fuel h i =
  match decision ws with
  | WIgnore => (h', Ok tt)
  | WNo => (h', Err TypeErr)
  | WYes => match n with
            | OfScalar k st => (set_nth t (OfScalar k (put st)) h', Ok tt)
            | _ => (h', Err AttributeErr)
            end
  end.
Proof. exact (@ProofRef.assign_leads find put ws fuel h i t n). Qed.
Print Assumptions C76_assigns.
Theorem C76_raw h i v w c raw : nth_error h i = Some (OfRef w c raw) ->
  nth_error (set_raw h i v) i = Some (OfRef w c (Some v)) /\
  (forall j, j <> i -> nth_error (set_raw h i v) j = nth_error h j).
Proof. exact (@ProofRef.raw_only h i v w c raw). Qed.
Print Assumptions C76_raw.
Theorem C76_set_container find w ws fuel h i t cv u v :
  leads find h i (w :: ws) t -> List.length (w :: ws) <= fuel -> nth_error h t = Some (OfContainer cv u) ->
  exists h', settles find (set_raw h i v) h' /\ ref_set find fuel h i v = (h', Err AttributeErr).
Proof. exact (@ProofRef.set_container find w ws fuel h i t cv u v). Qed.
Print Assumptions C76_set_container.
Theorem C76_missing find n fuel h i x v : fails find h i x n -> n < fuel ->
  exists h', settles find h h' /\ get_value find fuel h i = (h', Err x) /\ get_u find fuel h i = (h', Err x) /\
    ref_adapt find fuel h i v = (h', Err x) /\ ref_serialize find fuel h i v = (h', Err x).
Proof. exact (@ProofRef.read_fails find n fuel h i x v). Qed.
Print Assumptions C76_missing.
Theorem C76_set_missing find n fuel h i x v : fails find h i x n -> n < fuel -> x <> AdaptErr ->
  exists h', settles find (set_raw h i v) h' /\ ref_set find fuel h i v = (h', Err x).
Proof. exact (@ProofRef.set_missing find n fuel h i x v). Qed.
Print Assumptions C76_set_missing.
Theorem C76_adapts find ws fuel h i t n v : leads find h i ws t -> List.length ws <= fuel -> nth_error h t = Some n ->
  exists h', settles find h h' /\ pinned h' i ws t /\
    ref_adapt find fuel h i v = (h', match n with OfScalar k _ => adapt k v | _ => Err AttributeErr end) /\
    ref_serialize find fuel h i v = (h', match n with OfScalar k _ => Ok (serialize k v) | _ => Err AttributeErr end).
Proof. exact (@ProofRef.adapt_through find ws fuel h i t n v). Qed.
Print Assumptions C76_adapts.
Theorem C76_circular find P fuel h i v : circular find h P -> P i ->
  snd (get_value find fuel h i) = Err RuntimeErr /\ snd (get_u find fuel h i) = Err RuntimeErr /\
  snd (ref_adapt find fuel h i v) = Err RuntimeErr /\ snd (ref_serialize find fuel h i v) = Err RuntimeErr.
Proof. exact (@ProofRef.read_circular find P fuel h i v). Qed.
Print Assumptions C76_circular.
Theorem C76_assign_circular find P put fuel h i : circular find h P ->
  (forall j w c raw, P j -> nth_error h j = Some (OfRef w c raw) -> w = WYes) -> P i ->
  snd (assign_through find put fuel h i) = Err RuntimeErr.
Proof. exact (@ProofRef.assign_circular find P put fuel h i). Qed.
Print Assumptions C76_assign_circular.
(* an Integer, a Ref to it, a Ref to that Ref, a Ref to a List, a Ref to itself
   and one that leads nowhere *)
Definition refs_heap (w : writable) : heap :=
  [OfScalar (KInteger true) (Scalar (Some (VText (lit "7"))) (VInt 7) (lit "7"));
   OfRef w None None; OfRef WYes None None; OfContainer (VText (lit "the list")) (lit "[]"); OfRef WYes None None;
   OfRef WYes None None; OfRef WYes None None].
Definition refs_find (r : nat) : res nat :=
  match r with 1 => Ok 0 | 2 => Ok 1 | 4 => Ok 3 | 5 => Ok 5 | _ => Err KeyErr end.
Example C76_chain : leads refs_find (refs_heap WNo) 2 [WYes; WNo] 0 /\ fails refs_find (refs_heap WNo) 6 KeyErr 0 /\
  circular refs_find (refs_heap WNo) (eq 5).
Proof.
  split; [| split].
  - eapply leads_on; [reflexivity | reflexivity |]. eapply leads_on; [reflexivity | reflexivity |].
    eapply leads_end; [reflexivity | exact I].
  - eapply fails_here; reflexivity.
  - intros i <-. exists WYes, None, None, 5. repeat split.
Qed.
Example C76_cases :
  snd (get_value refs_find 9 (refs_heap WNo) 2) = Ok (VInt 7) /\ snd (get_u refs_find 9 (refs_heap WNo) 4) = Ok (lit "[]") /\
  (let '(h, r) := ref_set refs_find 9 (refs_heap WYes) 2 (VText (lit " 8 ")) in
   r = Ok true /\ nth_error h 0 = Some (OfScalar (KInteger true) (Scalar (Some (VText (lit "7"))) (VInt 8) (lit "8"))) /\
   nth_error h 2 = Some (OfRef WYes (Some 1) (Some (VText (lit " 8 "))))) /\
  (let '(h, r) := ref_set refs_find 9 (refs_heap WYes) 1 (VText (lit "x")) in
   r = Ok false /\ nth_error h 0 = Some (OfScalar (KInteger true) (Scalar (Some (VText (lit "7"))) VNone (lit "x")))) /\
  (let '(h, r) := ref_set refs_find 9 (refs_heap WIgnore) 2 (VText (lit "x")) in
   r = Ok false /\ nth_error h 0 = nth_error (refs_heap WYes) 0) /\
  snd (ref_set refs_find 9 (refs_heap WNo) 1 (VInt 3)) = Err TypeErr.
Proof. repeat split; vm_compute; reflexivity. Qed.
(* The target is looked up once: when the tree changes later, the Ref stays
   with the element it found first. *)
Theorem C76_stale_refuted : exists find find' h h1 i n, get_value find 9 h i = (h1, Ok (VInt 7)) /\
  find' i = Ok n /\ nth_error h1 n = Some (OfContainer (VText (lit "the list")) (lit "[]")) /\
  snd (get_value find' 9 h1 i) = Ok (VInt 7).
Proof.
  exists refs_find, (fun _ => Ok 3), (refs_heap WNo). eexists. exists 1, 3.
  split; [reflexivity | split; [reflexivity | split; reflexivity]].
Qed.
Print Assumptions C76_stale_refuted.
