(* C42: class statements that fail. *)
From Verif Require Import PyBase PyBaseFacts ModelProps SpecProps ModelDsl SpecDsl ProofDsl8 ProofDsl9.

(* the bases have a common order exactly when there is one keeping the order of
   the bases and of every base's own; there is no other failure than TypeError *)
Theorem C42_mro_exists : forall V (k : classes V) bases, kwf k -> (forall b, In b bases -> b < k_next k) ->
  ((exists lin, linearise k bases = Ok lin)
   <-> exists L, NoDup L /\ subseq bases L /\ forall b, In b bases -> subseq (mro k b) L)
  /\ forall x, linearise k bases = Err x -> x = TypeErr.
Proof. exact @linearise_iff. Qed.
Print Assumptions C42_mro_exists.
(* without such an order the statement is a TypeError and no class is made
   (a Form may leave renamed copies of its members behind, nothing else) *)
Theorem C42_plain_conflict : forall V (text_of : value V -> str) (k : classes V) bases members props,
  existsb (k_form k) bases = false ->
  (forall L, ~ (NoDup L /\ subseq bases L /\ forall b, In b bases -> subseq (mro k b) L)) ->
  kwf k -> (forall b, In b bases -> b < k_next k) ->
  declare text_of k bases members props = (k, Err TypeErr).
Proof. exact @plain_conflict. Qed.
Print Assumptions C42_plain_conflict.
Theorem C42_form_conflict : forall V (text_of : value V -> str) (k : classes V) bases members props,
  kwf k -> declarable k bases members -> form_declarable k bases members -> existsb (k_form k) bases = true ->
  (forall L, ~ (NoDup L /\ subseq bases L /\ forall b, In b bases -> subseq (mro k b) L)) ->
  exists k', declare text_of k bases members props = (k', Err TypeErr) /\ kwf k' /\ extends k k'.
Proof. exact @form_conflict. Qed.
Print Assumptions C42_form_conflict.
(* an element class in the body that has no name, or whose named method fails:
   the class statement raises the same *)
Theorem C42_member_fails : forall V (text_of : value V -> str) (k : classes V) bases l1 a c l2 props k1 e l ns,
  existsb (k_form k) bases = true ->
  (forall b, In b bases -> exists l ns, seq_items (getattr k b (lit "field_schema")) = Some l /\ names_of k l = Ok ns) ->
  seq_items (aget str_eqb (lit "field_schema") (l1 ++ (a, VClass c) :: l2)) = Some l -> names_of k l = Ok ns ->
  (forall a v, In (a, v) l1 -> forall c, v = VClass c -> ~ In element_class (mro k c)) ->
  In element_class (mro k c) ->
  name_of k (VClass c) = Err e /\ k1 = k
  \/ (exists x, name_of k (VClass c) = Ok x /\ x <> Some a) /\ call text_of k c (lit "named") (AOne (VText a)) = (k1, Err e) ->
  declare text_of k bases (l1 ++ (a, VClass c) :: l2) props = (k1, Err e).
Proof. exact @form_member_fails. Qed.
Print Assumptions C42_member_fails.

(* class S(String): named = 'x'; class F(Form): help = ''; f = S *)
Definition odd_named : classes nat := fst (declare no_text sample_classes [4] [(lit "named", VText (lit "x"))] None).
Example C42_member_fails_case :
  (call no_text odd_named 9 (lit "named") (AOne (VText (lit "f")))) = (odd_named, Err TypeErr)
  /\ name_of odd_named (VClass 9) = Ok None /\ mro odd_named 9 = [9; 4; 1; 0]
  /\ snd (declare no_text odd_named [6] [(lit "help", VText []); (lit "f", VClass 9)] None) = Err TypeErr.
Proof. split; [reflexivity|]. vm_compute. repeat split; reflexivity. Qed.
(* class X(object, Element): no order keeps both object before Element and
   Element before object *)
Example C42_conflict_case : existsb (k_form sample_classes) [0; 1] = false
  /\ (forall L, ~ (NoDup L /\ subseq [0; 1] L /\ forall b, In b [0; 1] -> subseq (mro sample_classes b) L))
  /\ snd (declare no_text sample_classes [0; 1] [] None) = Err TypeErr.
Proof.
  split; [reflexivity|]. split; [|vm_compute; reflexivity]. intros L H.
  assert (E : linearise sample_classes [0; 1] = Err TypeErr) by (vm_compute; reflexivity).
  destruct (linearise_iff sample_classes [0; 1] sample_wf) as ((_ & A) & _).
  - intros b [<-|[<-|[]]]; vm_compute; lia.
  - destruct A as (lin & B); [now exists L|]. congruence.
Qed.
