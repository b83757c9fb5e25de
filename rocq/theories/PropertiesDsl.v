(* C41 (schema declaration never changes existing classes) and C42 (Form fields). *)
From Verif Require Import PyBase PyBaseFacts ModelUtil ModelSeq ModelProps SpecProps ModelDsl SpecDsl
  ProofDsl ProofDsl2 ProofDsl3 ProofDsl4 ProofDsl5 ProofDsl6 ProofDsl7 ProofDsl8.

(* C41 *)
Theorem C41_histories : forall V (text_of : value V -> str) (k : classes V) os, kwf k -> proper_ops text_of k os ->
  let k' := run_k text_of k os in
  kwf k' /\ (forall c, c < k_next k -> looks_same k k' c)
  /\ forall i key, w_cls (k_props k) i < k_next k -> inst_sees (k_props k') i key = inst_sees (k_props k) i key.
Proof. exact @history_looks. Qed.
Print Assumptions C41_histories.
Theorem C41_new_class : forall V (text_of : value V -> str) (k : classes V) o n, kwf k -> proper_op k o ->
  snd (kstep text_of k o) = Ok n -> k_next k <= n < k_next (fst (kstep text_of k o)).
Proof. exact @step_fresh. Qed.
Print Assumptions C41_new_class.
Theorem C41_named : forall V (text_of : value V -> str) (k : classes V) c m v,
  kwf k -> copyable k c -> getattr k c m = Some (VCloner MNamed) ->
  made k c (call text_of k c m (AOne v)) [(lit "name", match v with VText _ | VNone => v | _ => VText (text_of v) end)].
Proof. exact @named_call. Qed.
Print Assumptions C41_named.
Theorem C41_using : forall V (text_of : value V -> str) (k : classes V) c m l,
  kwf k -> copyable k c -> getattr k c m = Some (VCloner MUsing) -> NoDup (keys l) ->
  (using_types l -> (forall a, In a (keys l) -> known k c a) ->
     exists k' n, call text_of k c m (AKw l) = (k', Ok n) /\ kwf k' /\ extends k k' /\ derived k c k' n (settings l)
     /\ forall key, class_sees (k_props k') n key = match aget str_eqb (lit "properties") l with
                                                    | Some (VDict d) => last_for key d
                                                    | _ => class_sees (k_props k) c key end)
  /\ (~ using_types l -> refused k (call text_of k c m (AKw l)) TypeErr)
  /\ (forall a, In a (keys l) -> ~ known k c a -> refused k (call text_of k c m (AKw l)) TypeErr).
Proof. exact @using_call. Qed.
Print Assumptions C41_using.
Theorem C41_validated_by : forall V (text_of : value V -> str) (k : classes V) c m M a l,
  kwf k -> copyable k c -> getattr k c m = Some (VCloner M) ->
  (M = MValidatedBy /\ a = lit "validators") \/ (M = MDescentBy /\ a = lit "descent_validators") ->
  ((exists x, In (VClass x) l) -> refused k (call text_of k c m (AVals l)) TypeErr)
  /\ (~ (exists x, In (VClass x) l) -> made k c (call text_of k c m (AVals l)) [(a, VSeq false l)]).
Proof. exact @validated_call. Qed.
Print Assumptions C41_validated_by.
Theorem C41_including_validators : forall V (text_of : value V -> str) (k : classes V) c m M a l position extra,
  kwf k -> copyable k c -> getattr k c m = Some (VCloner M) ->
  (M = MIncluding /\ a = lit "validators") \/ (M = MIncludingDescent /\ a = lit "descent_validators") ->
  match getattr k c a with
  | Some (VSeq _ have) =>
      if extra then refused k (call text_of k c m (ASplice l position extra)) TypeErr
      else exists l', splice have position l l' /\ made k c (call text_of k c m (ASplice l position extra)) [(a, VSeq false l')]
  | Some _ => refused k (call text_of k c m (ASplice l position extra)) TypeErr
  | None => refused k (call text_of k c m (ASplice l position extra)) (if extra then TypeErr else AttributeErr)
  end.
Proof. exact @including_call. Qed.
Print Assumptions C41_including_validators.
Theorem C41_with_properties : forall V (text_of : value V -> str) (k : classes V) c m l,
  kwf k -> copyable k c -> getattr k c m = Some (VCloner MWithProperties) ->
  if hasattr k c (lit "properties")
  then exists k' n, call text_of k c m (AProps l) = (k', Ok n) /\ kwf k' /\ extends k k' /\ derived k c k' n []
       /\ forall key, class_sees (k_props k') n key = match last_for key l with Some v => Some v | None => class_sees (k_props k) c key end
  else refused k (call text_of k c m (AProps l)) AttributeErr.
Proof. exact @with_properties_call. Qed.
Print Assumptions C41_with_properties.
Theorem C41_dict_of : forall V (text_of : value V -> str) (k : classes V) c m l,
  kwf k -> copyable k c -> getattr k c m = Some (VCloner MDictOf) ->
  ((exists x, In (VElem x) l) -> refused k (call text_of k c m (AVals l)) TypeErr)
  /\ (~ (exists x, In (VElem x) l) -> forall ns, names_of k l = Ok ns ->
       (NoDup ns -> made k c (call text_of k c m (AVals l)) [(lit "field_schema", VSeq true l)])
       /\ (~ NoDup ns -> refused k (call text_of k c m (AVals l)) TypeErr)).
Proof. exact @dict_of_call. Qed.
Print Assumptions C41_dict_of.
Theorem C41_sequence_of : forall V (text_of : value V -> str) (k : classes V) c m l,
  kwf k -> copyable k c -> getattr k c m = Some (VCloner MSeqOf) ->
  ((exists x, In (VElem x) l) -> refused k (call text_of k c m (AVals l)) TypeErr)
  /\ (~ (exists x, In (VElem x) l) -> match l with
  | [] => refused k (call text_of k c m (AVals l)) TypeErr
  | [f] => made k c (call text_of k c m (AVals l)) [(lit "member_schema", f)]
  | _ => dict_class < k_next k -> copyable k dict_class -> forall ns, names_of k l = Ok ns ->
         (NoDup ns -> exists k' n d, call text_of k c m (AVals l) = (k', Ok n) /\ kwf k' /\ extends k k'
                      /\ derived k c k' n [(lit "member_schema", VClass d)] /\ same_props k c k' n
                      /\ d <> n /\ derived k dict_class k' d [(lit "field_schema", VSeq true l)] /\ same_props k dict_class k' d)
         /\ (~ NoDup ns -> refused k (call text_of k c m (AVals l)) TypeErr)
  end).
Proof. exact @seq_of_call. Qed.
Print Assumptions C41_sequence_of.
Theorem C41_valued : forall V (text_of : value V -> str) (k : classes V) c m l,
  kwf k -> copyable k c -> getattr k c m = Some (VCloner MValued) ->
  made k c (call text_of k c m (AVals l)) [(lit "valid_values", VSeq true l)].
Proof. exact @valued_call. Qed.
Print Assumptions C41_valued.
Theorem C41_to : forall V (text_of : value V -> str) (k : classes V) c m path sep,
  kwf k -> copyable k c -> getattr k c m = Some (VCloner MTo) ->
  match bind (match sep with
        | Some s => Ok s
        | None => match getattr k c (lit "sep") with Some (VText s) => Ok s | Some _ => Err TypeErr | None => Err AttributeErr end
        end) (fun s => match path with inl p => parse_element_path p s | inr l => Ok l end) with
  | Ok l => made k c (call text_of k c m (ATo path sep)) [(lit "target_path", VPath l)]
  | Err x => refused k (call text_of k c m (ATo path sep)) x
  end.
Proof. exact @to_call. Qed.
Print Assumptions C41_to.

(* the sample classes are well formed; the methods are there *)
Example C41_sample_wf : kwf sample_classes.
Proof. exact sample_wf. Qed.
Example C41_sample_history : proper_ops no_text sample_classes dsl_history.
Proof. exact history_sample_proper. Qed.
Example C41_methods : map (fun p => getattr sample_classes (fst p) (lit (snd p)))
  [(4, "named"%string); (4, "using"%string); (5, "validated_by"%string); (2, "of"%string); (3, "of"%string); (7, "valued"%string);
   (8, "to"%string); (6, "including_descent_validators"%string)]
  = map (fun m => Some (VCloner m)) [MNamed; MUsing; MValidatedBy; MDictOf; MSeqOf; MValued; MTo; MIncludingDescent].
Proof. vm_compute. reflexivity. Qed.
Example C41_copyable : copyable sample_classes 6 /\ copyable sample_classes 4.
Proof. split; [intros _; exists [], []; easy|easy]. Qed.
Example C41_results :
  let k := run_k no_text sample_classes dsl_history in
  (getattr k 9 (lit "name"), getattr k 4 (lit "name"), getattr k 10 (lit "validators"), getattr k 11 (lit "validators"),
   getattr k 13 (lit "field_schema"), class_sees (k_props k) 14 (lit "label"), class_sees (k_props k) 13 (lit "label"),
   getattr k 16 (lit "member_schema"))
  = (Some (VText (lit "a")), Some VNone, Some (VSeq false [VFun 1; VFun 2]), Some (VSeq false [VFun 1; VFun 3; VFun 2]),
     Some (VSeq true [VClass 9; VClass 4]), Some 7, Some 1, Some (VClass 17)).
Proof. vm_compute. reflexivity. Qed.
Example C41_outcomes :
  map (fun i => snd (kstep no_text (run_k no_text sample_classes (firstn i dsl_history)) (nth i dsl_history (KDeclare [] [] None)))) (seq 0 8)
  = [Ok 9; Ok 10; Ok 11; Err TypeErr; Ok 13; Ok 14; Err TypeErr; Ok 16].
Proof. vm_compute. reflexivity. Qed.
Example C41_to_path : let '(k, r) := call no_text sample_classes 8 (lit "to") (ATo (inl (lit ".a.b")) None) in
  r = Ok 9 /\ getattr k 9 (lit "target_path") = Some (VPath [None; Some (lit "a"); Some (lit "b")]).
Proof. vm_compute. split; reflexivity. Qed.
Example C41_splice_default : splice [1; 2] None [9] [1; 2; 9] /\ splice [1; 2] (Some (-3)%Z) [9] [9; 1; 2] /\ splice [1; 2] (Some 1%Z) [9] [1; 9; 2].
Proof.
  split; [exists [1; 2], []; easy|]. split; [exists [], [1; 2]; easy|]. exists [1], [2]; easy.
Qed.

(* C42 *)
Theorem C42_form_declaration : forall V (text_of : value V -> str) (k : classes V) bases members props lin,
  kwf k -> declarable k bases members -> form_declarable k bases members ->
  existsb (k_form k) bases = true -> linearise k bases = Ok lin ->
  exists k' n fs, declare text_of k bases members props = (k', Ok n)
  /\ declared_class k lin (form_attrs k members fs) props k' n true
  /\ form_fields k bases members k' fs.
Proof. exact @form_declare. Qed.
Print Assumptions C42_form_declaration.
Theorem C42_nothing_lost : forall V (k : classes V) bases members k' fs, form_fields k bases members k' fs -> forall b l x f,
  In b bases -> seq_items (getattr k b (lit "field_schema")) = Some l -> In f l -> name_of k f = Ok x ->
  exists f', In f' fs /\ name_of k' f' = Ok x.
Proof. exact @nothing_lost. Qed.
Print Assumptions C42_nothing_lost.
Theorem C42_plain_declaration : forall V (text_of : value V -> str) (k : classes V) bases members props lin,
  kwf k -> declarable k bases members -> existsb (k_form k) bases = false -> linearise k bases = Ok lin ->
  exists k' n, declare text_of k bases members props = (k', Ok n)
  /\ declared_class k lin (fun a => aget str_eqb a members) props k' n false.
Proof. exact @plain_declare. Qed.
Print Assumptions C42_plain_declaration.
Theorem C42_mro : forall V (k : classes V) bases lin, kwf k -> (forall b, In b bases -> b < k_next k) -> linearise k bases = Ok lin ->
  NoDup lin /\ (forall b, In b lin <-> exists c, In c bases /\ In b (mro k c))
  /\ subseq bases lin /\ forall b, In b bases -> subseq (mro k b) lin.
Proof. exact @linearise_spec. Qed.
Print Assumptions C42_mro.
Theorem C42_mro_one : forall V (k : classes V) b, kwf k -> b < k_next k -> linearise k [b] = Ok (mro k b).
Proof. exact @linearise_one. Qed.
Print Assumptions C42_mro_one.
(* The field shown is not always the one declared nearest along the MRO. *)
Theorem C42_nearest_declaration_refuted : exists (k : classes nat) a c d fa fc x,
  kwf k /\ getattr k a (lit "field_schema") = Some (VSeq false [fa]) /\ getattr k c (lit "field_schema") = Some (VSeq false [fc])
  /\ name_of k fa = Ok x /\ name_of k fc = Ok x /\ fa <> fc
  /\ (exists l1 l2 l3, mro k d = l1 ++ c :: l2 ++ a :: l3)
  /\ exists fs, getattr k d (lit "field_schema") = Some (VSeq false fs) /\ In fa fs /\ ~ In fc fs.
Proof. exact diamond_nearest. Qed.
Print Assumptions C42_nearest_declaration_refuted.

Example C42_sample : declarable sample_classes [6] [(lit "x", VClass 4)] /\ form_declarable sample_classes [6] [(lit "x", VClass 4)]
  /\ linearise sample_classes [6] = Ok [6; 2; 1; 0].
Proof.
  split; [|split; [|reflexivity]].
  - split; [intros b [<-|[]]; vm_compute; lia|repeat constructor; easy|]. intros a c [[= <- <-]|[]]. vm_compute. lia.
  - split.
    + intros b [<-|[]]. exists [], []. easy.
    + exists [], []. easy.
    + intros a c H. exists None. unfold own_member in H. cbn [aget] in H. destruct (str_eqb a (lit "x")); [|easy]. injection H as <-.
      split; [reflexivity|]. right. easy.
Qed.
Example C42_diamond : let k := run_k no_text sample_classes diamond in
  (getattr k 15 (lit "field_schema"), mro k 15, getattr k 14 (lit "field_schema"), name_of k (VClass 13), getattr k 10 (lit "x"))
  = (Some (VSeq false [VClass 9; VClass 11]), [15; 12; 14; 10; 6; 2; 1; 0], Some (VSeq false [VClass 13]), Ok (Some (lit "x")), None).
Proof. vm_compute. reflexivity. Qed.
Example C42_mro_sample : linearise (run_k no_text sample_classes diamond) [12; 7] = Ok [12; 10; 6; 2; 7; 1; 0]
  /\ linearise (run_k no_text sample_classes diamond) [10; 12] = Err TypeErr /\ linearise sample_classes [4; 4] = Err TypeErr.
Proof. vm_compute. repeat split; reflexivity. Qed.
(* own members beat field_schema, which beats the bases *)
Example C42_override : let k := fst (kstep no_text sample_classes (KDeclare [6] [(lit "x", VClass 4); (lit "y", VClass 4)] None)) in
  let k1 := fst (kstep no_text k (KCall 5 (lit "named") (AOne (VText (lit "y"))))) in
  let '(k2, r) := kstep no_text k1 (KDeclare [11] [(lit "x", VClass 5); (lit "field_schema", VSeq true [VClass 12; VClass 9])] None) in
  (r, getattr k2 14 (lit "field_schema"), name_of k2 (VClass 13), k_next k2)
  = (Ok 14, Some (VSeq false [VClass 12; VClass 13]), Ok (Some (lit "x")), 15).
Proof. vm_compute. reflexivity. Qed.
