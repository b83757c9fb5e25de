(* C36 (dates in three parts), C37 (initialisation of compound classes under
   threads), C38 (joined strings). *)
From Verif Require Import PyBase SpecScalar ModelScalar ModelCompound SpecCompound
  ProofCompound ProofCompound2 ProofCompound5 ProofCompound6.
Local Open Scope string_scope.

(* C36 *)
Theorem C36_value : forall strip_ p d, date_value strip_ p = Ok (VDate d) <-> holds_date p d.
Proof. exact @value_iff. Qed.
Print Assumptions C36_value.
Theorem C36_no_value : forall strip_ p, calm_parts p -> (forall d, ~ holds_date p d) ->
  date_value strip_ p = Ok VNone /\ date_u strip_ p = Ok [].
Proof. exact @nothing. Qed.
Print Assumptions C36_no_value.
Theorem C36_text : forall strip_ p d, holds_date p d -> exists u, date_u strip_ p = Ok u /\ date_form ascii_field u d.
Proof. exact @u_date. Qed.
Print Assumptions C36_text.
Theorem C36_raises : forall strip_ p e, date_value strip_ p = Err e \/ date_u strip_ p = Err e ->
  exists st o, In st [p_y p; p_m p; p_d p] /\ s_value st = VObj o /\ o_int o = Err e /\ e <> TypeErr /\ e <> AdaptErr.
Proof. exact @read_raises. Qed.
Print Assumptions C36_raises.
Theorem C36_set : forall strip_ k p v d, real_val v -> means_date strip_ v d ->
  takes (k_y k) (Z.of_N (d_y d)) -> takes (k_m k) (Z.of_N (d_m d)) -> takes (k_d k) (Z.of_N (d_d d)) ->
  exists p', date_set strip_ k p v = (p', Ok true) /\ holds_date p' d
    /\ forall s, date_value s p' = Ok (VDate d).
Proof. exact @set_reads. Qed.
Print Assumptions C36_set.
Theorem C36_set_default : forall strip_ p v d, real_val v -> means_date strip_ v d ->
  exists y m dd, date_set strip_ default_kinds p v = (Parts y m dd, Ok true)
    /\ s_value y = VInt (Z.of_N (d_y d)) /\ s_value m = VInt (Z.of_N (d_m d)) /\ s_value dd = VInt (Z.of_N (d_d d))
    /\ ascii_field 4 (s_u y) (d_y d) /\ ascii_field 2 (s_u m) (d_m d) /\ ascii_field 2 (s_u dd) (d_d d)
    /\ forall s, date_value s (Parts y m dd) = Ok (VDate d).
Proof. exact @set_default_reads. Qed.
Print Assumptions C36_set_default.
Theorem C36_set_other : forall strip_ k p v, real_val v -> v <> VNone -> (forall d, ~ means_date strip_ v d) ->
  clears (k_y k) -> clears (k_m k) -> clears (k_d k) ->
  exists p', date_set strip_ k p v = (p', Ok true)
    /\ Forall (fun st => s_value st = VNone /\ s_u st = []) [p_y p'; p_m p'; p_d p']
    /\ forall s, date_value s p' = Ok VNone /\ date_u s p' = Ok [].
Proof. exact @set_other_reads. Qed.
Print Assumptions C36_set_other.
Theorem C36_set_none : forall strip_ k p, date_set strip_ k p VNone = (p, Ok false)
  /\ date_explode strip_ k p VNone = (p, Err AttributeErr).
Proof. exact (fun s k p => conj (set_none s k p) (explode_none s k p)). Qed.
Print Assumptions C36_set_none.
(* a child that raises stops the transfer; nothing but NotImplementedError gets out *)
Theorem C36_child_raises : forall strip_ k p v d e, real_val v -> means_date strip_ v d -> e <> AdaptErr -> e <> TypeErr ->
  let out := if match e with NotImplErr => true | _ => false end then Err e else Ok false in
  (forall st, scalar_set (k_y k) (p_y p) (VInt (Z.of_N (d_y d))) = (st, Err e) ->
     date_set strip_ k p v = (Parts st (p_m p) (p_d p), out))
  /\ (forall sy by_ st, scalar_set (k_y k) (p_y p) (VInt (Z.of_N (d_y d))) = (sy, Ok by_) ->
      scalar_set (k_m k) (p_m p) (VInt (Z.of_N (d_m d))) = (st, Err e) ->
      date_set strip_ k p v = (Parts sy st (p_d p), out))
  /\ (forall sy by_ sm bm st, scalar_set (k_y k) (p_y p) (VInt (Z.of_N (d_y d))) = (sy, Ok by_) ->
      scalar_set (k_m k) (p_m p) (VInt (Z.of_N (d_m d))) = (sm, Ok bm) ->
      scalar_set (k_d k) (p_d p) (VInt (Z.of_N (d_d d))) = (st, Err e) ->
      date_set strip_ k p v = (Parts sy sm st, out)).
Proof. exact @child_raises. Qed.
Print Assumptions C36_child_raises.
Theorem C36_set_outcome : forall strip_ k p v, snd (date_set strip_ k p v) = Ok true
  \/ snd (date_set strip_ k p v) = Ok false \/ snd (date_set strip_ k p v) = Err NotImplErr.
Proof. exact @set_result. Qed.
Print Assumptions C36_set_outcome.
(* the whole follows its parts *)
Theorem C36_parts : forall strip_ p y m d,
  counts_as (s_value (p_y p)) y -> counts_as (s_value (p_m p)) m -> counts_as (s_value (p_d p)) d ->
  (forall dd, real_date dd -> y = Z.of_N (d_y dd) -> m = Z.of_N (d_m dd) -> d = Z.of_N (d_d dd) -> date_value strip_ p = Ok (VDate dd))
  /\ ((forall dd, real_date dd -> ~ (y = Z.of_N (d_y dd) /\ m = Z.of_N (d_m dd) /\ d = Z.of_N (d_d dd))) ->
      date_value strip_ p = Ok VNone /\ date_u strip_ p = Ok []).
Proof. exact @value_of_numbers. Qed.
Print Assumptions C36_parts.
Theorem C36_empty : forall k p, (forall b, k_y k <> KString b) -> (forall b, k_m k <> KString b) -> (forall b, k_d k <> KString b) ->
  date_is_empty k p = true <-> Forall (fun st => s_value st = VNone /\ s_u st = []) [p_y p; p_m p; p_d p].
Proof. exact @is_empty_iff. Qed.
Print Assumptions C36_empty.
Theorem C36_fields : forall given optional, (List.length given < 4)%nat ->
  exists fields, date_init given optional = Ok fields /\ completed given optional fields.
Proof. exact @init_completes. Qed.
Print Assumptions C36_fields.
Theorem C36_too_many_fields : forall given optional, (4 <= List.length given)%nat -> date_init given optional = Err AssertErr.
Proof. exact @init_refuses. Qed.
Print Assumptions C36_too_many_fields.
(* the texts of the default parts *)
Theorem C36_part_text : forall w st z, (0 < w)%nat -> exists u,
  scalar_set (KNumber (padded_int w) true) st (VInt z) = (Scalar (Some (VInt z)) (VInt z) u, Ok true) /\ padded w u z.
Proof. exact @part_text. Qed.
Print Assumptions C36_part_text.
Theorem C36_part_parse : forall w st s t z, (0 < w)%nat -> trimmed s t -> integer_text t z -> exists u,
  scalar_set (KNumber (padded_int w) true) st (VText s) = (Scalar (Some (VText s)) (VInt z) u, Ok true) /\ padded w u z.
Proof. exact @part_parse. Qed.
Print Assumptions C36_part_parse.
Example C36_case :
  let p := fst (date_set true default_kinds blank_parts (VText (lit " 2008-02-29 "))) in
  date_value true p = Ok (VDate (Date 2008 2 29)) /\ s_u (p_m p) = lit "02"
  /\ date_value true (Parts (fst (scalar_set (k_y default_kinds) (p_y p) (VText (lit "2007")))) (p_m p) (p_d p)) = Ok VNone
  /\ date_set true default_kinds p (VText (lit "soon")) = (Parts emptied emptied emptied, Ok true)
  /\ date_set true default_kinds p VNone = (p, Ok false)
  /\ date_is_empty default_kinds p = false /\ date_is_empty default_kinds blank_parts = true
  /\ rmap (map df_name) (date_init [DField (Some (lit "y")) (KInteger true) false] true)
     = Ok [Some (lit "y"); Some (lit "month"); Some (lit "day")].
Proof. vm_compute. repeat (split; [reflexivity|]). reflexivity. Qed.
Example C36_hypotheses : means_date true (VText (lit " 2008-02-29 ")) (Date 2008 2 29) /\ takes (k_d default_kinds) 29
  /\ clears (k_d default_kinds).
Proof. exact date_hypotheses. Qed.
(* setting what is no date at all is reported as a success *)
Theorem C36_reports_failure_refuted : exists p v, real_val v /\ (forall d, ~ means_date true v d)
  /\ snd (date_set true default_kinds p v) = Ok true.
Proof. exact reports_failure. Qed.
Print Assumptions C36_reports_failure_refuted.

(* C37 *)
Theorem C37_once : forall run todo sched t c a b, proper run ->
  rev (c_trace (crun run (c_start todo) sched)) = (a ++ InitEnds t c true :: b)%list ->
  forall t', ~ In (InitEnds t' c true) a /\ ~ In (InitEnds t' c true) b.
Proof. exact @once. Qed.
Print Assumptions C37_once.
Theorem C37_not_again : forall run todo sched t c a b, proper run ->
  rev (c_trace (crun run (c_start todo) sched)) = (a ++ InitBegins t c :: b)%list ->
  forall t', ~ In (InitEnds t' c true) a.
Proof. exact @not_again. Qed.
Print Assumptions C37_not_again.
Theorem C37_before_instances : forall run todo sched t c a b, proper run ->
  rev (c_trace (crun run (c_start todo) sched)) = (a ++ Makes t c :: b)%list ->
  exists t', In (InitEnds t' c true) a.
Proof. exact @made_after. Qed.
Print Assumptions C37_before_instances.
Theorem C37_exclusive : forall run todo sched, proper run ->
  exists open, nests (rev (c_trace (crun run (c_start todo) sched))) open.
Proof. exact @exclusive. Qed.
Print Assumptions C37_exclusive.
Theorem C37_each_thread : forall run todo sched t, proper run ->
  exists open m settled pending,
    does t (thread_log t (rev (c_trace (crun run (c_start todo) sched)))) open m settled
    /\ todo t = (settled ++ pending)%list.
Proof. exact @per_thread. Qed.
Print Assumptions C37_each_thread.
Theorem C37_no_deadlock : forall run todo bound sched, proper run -> (forall t, (bound <= t)%nat -> todo t = []) ->
  exists more, forall t, does t (thread_log t (rev (c_trace (crun run (c_start todo) (sched ++ more))))) [] Free (todo t).
Proof. exact @completes. Qed.
Print Assumptions C37_no_deadlock.
Theorem C37_retry : forall run todo sched t c later, proper run ->
  let s := crun run (c_start todo) sched in
  c_lock s = None -> c_stack s t = [] -> c_todo s t = c :: later ->
  (forall t', ~ In (InitEnds t' c true) (c_trace s)) ->
  c_trace (crun run (c_start todo) (sched ++ [t; t; t; t])) = InitBegins t c :: c_trace s.
Proof. exact @retries. Qed.
Print Assumptions C37_retry.
Theorem C37_plain_call : forall V has prepared inits (kw : list (str * V)), (forall k v, In (k, v) kw -> has k = false) ->
  compound_call has prepared inits kw =
  if prepared then ([Builds Own kw], true)
  else if inits then ([Inits Own true; Builds Own kw], true) else ([Inits Own true], false).
Proof. exact @call_plain. Qed.
Print Assumptions C37_plain_call.
Theorem C37_overriding_call : forall V has prepared inits (kw : list (str * V)), (exists k v, In (k, v) kw /\ has k = true) ->
  exists ov rest, (forall p, In p ov <-> In p kw /\ has (fst p) = true) /\ (forall p, In p rest <-> In p kw /\ has (fst p) = false)
  /\ compound_call has prepared inits kw =
     if inits then ([Inits (Sub ov) false; Builds (Sub ov) rest], true) else ([Inits (Sub ov) false], false).
Proof. exact @call_overrides. Qed.
Print Assumptions C37_overriding_call.
(* class 1 constructs an element of class 0; its first initialisation fails.
   Two threads, interleaved *)
Definition c37_run (c n : nat) : init_run := Run (match c with O => [Works] | _ => [Constructs 0] end) (negb (Nat.eqb c 1 && Nat.eqb n 0)).
Definition c37_todo (t : nat) : list nat := match t with O => [1%nat] | S O => [1%nat; 0%nat] | _ => [] end.
Example C37_case : proper c37_run /\
  rev (c_trace (crun c37_run (c_start c37_todo) (List.concat (repeat [1%nat; 0%nat] 30))))
  = [InitBegins 1 1; InitBegins 1 0; InitEnds 1 0 true; Makes 1 0; InitEnds 1 1 false; Raises 1 1;
     InitBegins 0 1; Makes 1 0; Makes 0 0; InitEnds 0 1 true; Makes 0 1].
Proof.
  split; [|vm_compute; reflexivity]. exists (fun c => c). intros [|c] n w; cbn; intros [<- |[]]; [easy|lia].
Qed.
(* an initialiser that calls the inherited one: an element is made before the
   class is ready, or though it never became ready *)
Theorem C37_inherited_refuted : exists run todo sched a b t c,
  rev (c_trace (crun run (c_start todo) sched)) = (a ++ Makes t c :: b)%list
  /\ (forall t', ~ In (InitEnds t' c true) a) /\ In (InitBegins 0 c) a /\ t <> 0%nat.
Proof. exact inherited_early. Qed.
Print Assumptions C37_inherited_refuted.
Theorem C37_inherited_failing_refuted : exists run todo sched a b t c,
  rev (c_trace (crun run (c_start todo) sched)) = (a ++ Makes t c :: b)%list
  /\ (forall t', ~ In (InitEnds t' c true) (a ++ b)) /\ In (Raises t c) a.
Proof. exact inherited_failing. Qed.
Print Assumptions C37_inherited_failing_refuted.
(* an initialiser that constructs an element of its own class *)
Theorem C37_recursive_refuted : exists run todo sched a b t c,
  rev (c_trace (crun run (c_start todo) sched)) = (a ++ InitEnds t c true :: b)%list /\ In (InitEnds t c true) b.
Proof. exact recursive_twice. Qed.
Print Assumptions C37_recursive_refuted.

(* C38 *)
Theorem C38_text : forall sep k prune old s l vs sts bs, sep <> [] -> pieces sep s l -> kept_values prune (map VText l) vs ->
  Forall2 (fun v x => member_of k v (fst x) (snd x)) vs (combine sts bs) -> List.length sts = List.length bs ->
  joined_set sep Static k prune old (JText s) = (sts, Ok (forallb (fun b => b) bs)).
Proof. exact @text_set. Qed.
Print Assumptions C38_text.
Theorem C38_pieces : forall sep s, sep <> [] -> exists l, pieces sep s l /\ joins sep l s /\ forall l', pieces sep s l' -> l' = l.
Proof. exact @pieces_exist. Qed.
Print Assumptions C38_pieces.
Theorem C38_regex : forall sep f k prune old s vs sts bs, kept_values prune (f s) vs ->
  Forall2 (fun v x => member_of k v (fst x) (snd x)) vs (combine sts bs) -> List.length sts = List.length bs ->
  joined_set sep (Regex f) k prune old (JText s) = (sts, Ok (forallb (fun b => b) bs)).
Proof. exact @regex_set. Qed.
Print Assumptions C38_regex.
Theorem C38_items : forall sep how k prune old l vs sts bs, kept_values prune l vs ->
  Forall2 (fun v x => member_of k v (fst x) (snd x)) vs (combine sts bs) -> List.length sts = List.length bs ->
  joined_set sep how k prune old (JItems l) = (sts, Ok (forallb (fun b => b) bs)).
Proof. exact @items_set. Qed.
Print Assumptions C38_items.
Theorem C38_refused : forall sep how k prune old s,
  joined_set sep how k prune old JNotIterable = (old, Err TypeErr)
  /\ joined_set [] Static k prune old (JText s) = (old, Err ValueErr).
Proof. exact @refused. Qed.
Print Assumptions C38_refused.
Theorem C38_member_raises : forall sep how k prune old l l1 v l2 st e sts bs, kept_values prune l (l1 ++ v :: l2) ->
  Forall2 (fun v x => member_of k v (fst x) (snd x)) l1 (combine sts bs) -> List.length sts = List.length bs ->
  scalar_set k blank v = (st, Err e) ->
  joined_set sep how k prune old (JItems l) = (sts, Err e).
Proof. exact @items_raise. Qed.
Print Assumptions C38_member_raises.
Theorem C38_value : forall sep sts, joins sep (map s_u sts) (joined_value sep sts).
Proof. exact @value_joins. Qed.
Print Assumptions C38_value.
Theorem C38_round_trip : forall sep k prune sts, sep <> [] -> sts <> [] -> Forall (stable k) sts ->
  Forall (fun st => apart sep (s_u st)) sts -> (prune = true -> Forall (fun st => s_u st <> []) sts) ->
  forall old, exists sts', joined_set sep Static k prune old (JText (joined_value sep sts)) = (sts', Ok true)
    /\ same_members sts' sts /\ joined_value sep sts' = joined_value sep sts.
Proof. exact @joined_roundtrip. Qed.
Print Assumptions C38_round_trip.
Theorem C38_stable : forall k v st, member_of k v st true -> s_value st <> VNone -> real_val v ->
  exact_type k -> sound_texts k -> stable k st.
Proof. exact @stable_exact. Qed.
Print Assumptions C38_stable.
Theorem C38_flat : forall nm sep how k prune old pre a post, Forall (fun p => fst p <> nm) pre ->
  joined_set_flat nm sep how k prune old (pre ++ (nm, a) :: post) =
  (fst (joined_set sep how k prune old a), rmap (fun _ => tt) (snd (joined_set sep how k prune old a)))
  /\ joined_set_flat nm sep how k prune old pre = (old, Ok tt).
Proof. exact @flat_both. Qed.
Print Assumptions C38_flat.
Definition c38_texts (l : list string) : list scalar := map (fun s => Scalar (Some (VText (lit s))) (VText (lit s)) (lit s)) l.
Example C38_case :
  joined_set (lit ",") Static (KString true) true [] (JText (lit "a,,bc")) = (c38_texts ["a"; "bc"], Ok true)
  /\ joined_set (lit ",") Static (KString true) false [] (JText (lit "a,,bc")) = (c38_texts ["a"; ""; "bc"], Ok true)
  /\ joined_value (lit ", ") (c38_texts ["a"; "bc"]) = lit "a, bc"
  /\ map s_value (fst (joined_set (lit ",") Static (KInteger true) true [] (JText (lit "3,x,-5")))) = [VInt 3; VNone; VInt (-5)]
  /\ snd (joined_set (lit ",") Static (KInteger true) true [] (JText (lit "3,x,-5"))) = Ok false
  /\ joined_set_flat (Some (lit "j")) (lit ",") Static (KString true) true []
       [(Some (lit "i"), JText (lit "z")); (Some (lit "j"), JText (lit "a")); (Some (lit "j"), JText (lit "b"))] = (c38_texts ["a"], Ok tt).
Proof. vm_compute. repeat (split; [reflexivity|]). reflexivity. Qed.
Example C38_hypotheses : Forall (stable (KString true)) (c38_texts ["a"; "bc"])
  /\ Forall (fun st => apart (lit ", ") (s_u st)) (c38_texts ["a"; "bc"]) /\ pieces (lit ",") (lit "a,,bc") [lit "a"; []; lit "bc"].
Proof. exact joined_hypotheses. Qed.
(* separator-free members are not enough when the separator is longer, and the
   text is not a fixed point *)
Theorem C38_separator_free_refuted : exists sep sts, Forall (stable (KString true)) sts /\ Forall (fun st => ~ occurs sep (s_u st)) sts
  /\ sep <> [] /\ exists sts', joined_set sep Static (KString true) true [] (JText (joined_value sep sts)) = (sts', Ok true)
  /\ ~ same_members sts' sts.
Proof. exact overlapping. Qed.
Print Assumptions C38_separator_free_refuted.
Theorem C38_normal_form_refuted : exists s sts sts', joined_set (lit ",") Static (KString true) true [] (JText s) = (sts, Ok true)
  /\ joined_set (lit ",") Static (KString true) true sts (JText (joined_value (lit ",") sts)) = (sts', Ok true)
  /\ joined_value (lit ",") sts' <> joined_value (lit ",") sts.
Proof. exact not_normal. Qed.
Print Assumptions C38_normal_form_refuted.
