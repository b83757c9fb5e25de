(* C24-C29 (flattening and unflattening) and C64 (what set_flat gives each kind
   of element). *)
From Verif Require Import PyBase PyList ModelMap SpecScalar ModelPaths SpecPaths ModelScalar ModelCompound ModelFlat SpecFlat
  ProofFlat ProofFlat2 ProofFlat3 ProofFlat4 ProofFlat8 ProofFlat9 ProofFlat10.
From Verif Require ProofFlat7.
From Coq Require Import Sorting.Sorted Sorting.Permutation.
Local Open Scope string_scope.

(* C24 *)
Theorem C24_round_trip : forall sep s e fl, separator sep -> clear_schema sep s -> shows s -> is_of s e -> kept false s e ->
  flattens (tree_of e) (text_at e) (children_flattenable e) (Node []) sep (u_at e) fl ->
  exists e', set_flat s sep (fresh s) (as_flat fl) = (e', Ok tt) /\ same e e'.
Proof. exact @round_lemma. Qed.
Print Assumptions C24_round_trip.
(* C24: the same, calling flatten() *)
Theorem C24_flatten_back : forall sep s e, separator sep -> clear_schema sep s -> shows s -> is_of s e -> kept false s e ->
  exists f fl, (forall fuel, (f <= fuel)%nat -> flatten_element fuel e sep = Ok fl)
  /\ exists e', set_flat s sep (fresh s) (as_flat fl) = (e', Ok tt) /\ same e e'.
Proof. exact @flatten_back_lemma. Qed.
Print Assumptions C24_flatten_back.
Example C24_case : set_flat sample_schema (lit "_") (fresh sample_schema) sample_pairs = (sample_element, Ok tt)
  /\ flatten_element 9 sample_element (lit "_") =
     Ok (map (fun p => (lit (fst p), lit (snd p))) [("o_s", "hi"); ("o_l_0_x", "-1"); ("o_l_1_x", "3"); ("o_l_0_t", "b"); ("o_l_0_t", "a")])
  /\ set_flat sample_schema (lit "_") (fresh sample_schema)
       (flat_of [("o_s", "hi"); ("o_l_0_x", "-1"); ("o_l_1_x", "3"); ("o_l_0_t", "b"); ("o_l_0_t", "a")]) = (sample_element, Ok tt).
Proof. vm_compute. repeat (split; [reflexivity|]). reflexivity. Qed.
Example C24_hypotheses : separator (lit "_") /\ clear_schema (lit "_") sample_schema /\ shows sample_schema
  /\ is_of sample_schema sample_element /\ kept false sample_schema sample_element.
Proof. exact (conj (ex_intro _ 95%N (ex_intro _ [] (conj eq_refl eq_refl))) (conj clear_sample (conj Logic.I (conj is_of_sample kept_sample)))). Qed.
(* without the restrictions: a nameless root; an unset String; a blank member; an
   empty member; keys that meet *)
Theorem C24_unrestricted_refuted :
  let loses s e := exists fuel fl e', flatten_element fuel e (lit "_") = Ok fl
    /\ set_flat s (lit "_") (fresh s) (as_flat fl) = (e', Ok tt) /\ is_of s e /\ ~ same e e' in
  loses (SScalar None (KString true)) (EScalar None (plain_text "a"))
  /\ loses (SScalar (text "s") (KString true)) (EScalar (text "s") blank)
  /\ loses (SList (text "l") true 9 (SScalar None (KString true))) (EList (text "l") [EScalar None (plain_text "")])
  /\ loses (SList (text "l") false 9 (SList None false 9 (SScalar None (KString true)))) (EList (text "l") [EList None []])
  /\ loses (SDict None None [(true, SDict (text "a") None [(true, SScalar (text "b_c") (KString true))]);
                        (true, SDict (text "a_b") None [(true, SScalar (text "c") (KString true))])])
           (EDict None None [(text "a", EDict (text "a") None [(text "b_c", EScalar (text "b_c") (plain_text "1"))]);
                        (text "a_b", EDict (text "a_b") None [(text "c", EScalar (text "c") (plain_text "2"))])]).
Proof. exact unrestricted. Qed.
Print Assumptions C24_unrestricted_refuted.

(* the text of a JoinedString may split elsewhere than between its members *)
Theorem C24_joined_refuted : exists e fuel fl e', is_of (SJoined (text "t") commas) e
  /\ flatten_element fuel e (lit "_") = Ok fl
  /\ set_flat (SJoined (text "t") commas) (lit "_") (fresh (SJoined (text "t") commas)) (as_flat fl) = (e', Ok tt) /\ ~ same e e'.
Proof. exact joined_lossy. Qed.
Print Assumptions C24_joined_refuted.
(* set_flat raises on what flatten() makes of a List of nameless Compounds *)
Theorem C24_nameless_compounds_refuted : exists s e fuel fl, s = SList (text "l") true 9 (SDict None (Some dashed) month_fields)
  /\ is_of s e /\ flatten_element fuel e (lit "_") = Ok fl
  /\ snd (set_flat s (lit "_") (fresh s) (as_flat fl)) = Err AttributeErr.
Proof. exact nameless_compounds. Qed.
Print Assumptions C24_nameless_compounds_refuted.
Example C24_mixed_case : clear_schema (lit "_") mixed_schema /\ shows mixed_schema
  /\ is_of mixed_schema mixed_element /\ kept false mixed_schema mixed_element
  /\ flatten_element 20 mixed_element (lit "_") = Ok (map (fun p => (lit (fst p), lit (snd p))) mixed_pairs)
  /\ snd (set_flat mixed_schema (lit "_") (fresh mixed_schema) (flat_of mixed_pairs)) = Ok tt.
Proof.
  split; [exact clear_mixed|]. split; [exact Logic.I|]. split; [exact is_of_mixed|]. split; [exact kept_mixed|].
  split; vm_compute; reflexivity.
Qed.

(* C25 *)
Theorem C25_irrelevant : forall s sep e ps qs, separator sep -> named_fields s -> element_name e = schema_name s -> text_keys ps ->
  thinned (concerns sep s) ps qs -> set_flat s sep e ps = set_flat s sep e qs.
Proof. exact @concerns_lemma. Qed.
Print Assumptions C25_irrelevant.
Theorem C25_irrelevant_new : forall s, named_fields s -> forall sep ps qs, separator sep -> text_keys ps ->
  thinned (matters sep s) ps qs -> set_flat s sep (fresh s) ps = set_flat s sep (fresh s) qs.
Proof. exact @matters_lemma. Qed.
Print Assumptions C25_irrelevant_new.
(* a key that only starts like a field's name empties a List that was there *)
Theorem C25_similar_name_refuted : exists s e e' k, is_of s e /\ ~ matters (lit "_") s k
  /\ set_flat s (lit "_") e [] = (e, Ok tt)
  /\ set_flat s (lit "_") e [(Some k, VText [])] = (e', Ok tt) /\ ~ same e e'.
Proof. exact similar_name. Qed.
Print Assumptions C25_similar_name_refuted.
Example C25_case : set_flat sample_schema (lit "_") (fresh sample_schema) sample_pairs
  = set_flat sample_schema (lit "_") (fresh sample_schema)
      (flat_of [("o_l_7_x", "3"); ("o_s", "hi"); ("o_l_2_x", "-1"); ("o_l_2_t", "b"); ("o_l_2_t", "a"); ("o_l_5_x", "")])
  /\ concerns (lit "_") sample_schema (lit "o_l_7_x") /\ ~ concerns (lit "_") sample_schema (lit "p_s").
Proof. exact sample_irrelevant. Qed.

(* C26 *)
Theorem C26_bounded : forall s, natural_limits s -> named_fields s -> forall sep e ps,
  bounded s e -> bounded s (fst (set_flat s sep e ps)).
Proof. exact @bounded_lemma. Qed.
Print Assumptions C26_bounded.
Theorem C26_new_bounded : forall s, natural_limits s -> named_fields s -> bounded s (fresh s).
Proof. exact @bounded_fresh. Qed.
Print Assumptions C26_new_bounded.
(* a negative limit is no limit when pruning *)
Theorem C26_negative_limit_refuted : exists s ps n l, s = SList n true (-1) (SScalar None (KString true))
  /\ set_flat s (lit "_") (fresh s) ps = (EList n l, Ok tt) /\ l <> [].
Proof.
  exists (SList (text "l") true (-1) (SScalar None (KString true))), (flat_of [("l_0", "a"); ("l_1", "b")]). eexists _, _.
  split; [reflexivity|]. split; [vm_compute; reflexivity|discriminate].
Qed.
Print Assumptions C26_negative_limit_refuted.
Example C26_case : natural_limits sample_schema /\
  set_flat (SList (text "l") true 2 (SScalar None (KString true))) (lit "_") (EList (text "l") [])
    (flat_of [("l_9", "a"); ("l_99999999999999999999", "b"); ("l_3", "c")])
  = (EList (text "l") [EScalar None (plain_text "c"); EScalar None (plain_text "a")], Ok tt).
Proof. split; [cbn; lia|vm_compute; reflexivity]. Qed.

(* C27 *)
Theorem C27_pruned : forall n limit m sep e pairs, separator sep -> text_keys pairs -> (0 <= limit)%Z ->
  exists idx plan l r,
    StronglySorted N.lt idx
    /\ (forall i, In i idx <-> exists q g, collects n sep true i pairs (q :: g))
    /\ Forall2 (gathers n sep true pairs) (firstn (Z.to_nat limit) idx) plan
    /\ builds m sep plan l r
    /\ set_flat (SList n true limit m) sep (EList n e) pairs = (EList n l, r).
Proof. exact @list_pruned_lemma. Qed.
Print Assumptions C27_pruned.
Theorem C27_unpruned : forall n limit m sep e pairs, separator sep -> text_keys pairs ->
  exists l r, set_flat (SList n false limit m) sep (EList n e) pairs = (EList n l, r) /\
  ((forall i, collects n sep false i pairs []) /\ l = [] /\ r = Ok tt
   \/ exists top plan,
        (exists q g, collects n sep false top pairs (q :: g))
        /\ (forall i, (top < i)%N -> collects n sep false i pairs [])
        /\ Forall2 (fun i => gathers n sep false pairs (N.of_nat i)) (seq 0 (Z.to_nat (Z.min (Z.of_N top + 1) limit))) plan
        /\ builds m sep plan l r).
Proof. exact @list_unpruned_lemma. Qed.
Print Assumptions C27_unpruned.
(* a key that stops at the index of a Dict or List member raises *)
Theorem C27_bare_index_refuted : exists s ps, text_keys ps /\ snd (set_flat s (lit "_") (fresh s) ps) = Err AttributeErr.
Proof.
  exists (SList (text "l") true 9 line_schema), (flat_of [("l_0", "a")]). split; [repeat constructor; discriminate|vm_compute; reflexivity].
Qed.
Print Assumptions C27_bare_index_refuted.
Example C27_case :
  set_flat (SList (text "l") true 9 (SScalar None (KString true))) (lit "_") (EList (text "l") [])
    (flat_of [("l_9", "a"); ("l_03", ""); ("l_3_", "c"); ("m_1", "x"); ("l_4", "")])
  = (EList (text "l") [EScalar None (plain_text "c"); EScalar None (plain_text "a")], Ok tt)
  /\ set_flat (SList (text "l") false 3 (SScalar None (KString true))) (lit "_") (EList (text "l") [])
    (flat_of [("l_9", "a"); ("l_1", "b"); ("l_01", "c")])
  = (EList (text "l") [EScalar None blank; EScalar None (plain_text "b"); EScalar None blank], Ok tt).
Proof. vm_compute. split; reflexivity. Qed.

(* C28 *)
Theorem C28_order : forall s sep e ps qs, no_arrays s -> named_fields s -> digit_free sep -> plain_keys sep ps ->
  NoDup (map fst ps) -> Permutation ps qs -> set_flat s sep e ps = set_flat s sep e qs.
Proof. exact @order_top. Qed.
Print Assumptions C28_order.
Theorem C28_spellings_refuted : exists s ps qs, no_arrays s /\ named_fields s /\ NoDup (map fst ps) /\ Permutation ps qs
  /\ set_flat s (lit "_") (fresh s) ps <> set_flat s (lit "_") (fresh s) qs.
Proof.
  exists (SList (text "l") true 9 (SScalar None (KString true))), (flat_of [("l_0", "a"); ("l_00", "b")]), (flat_of [("l_00", "b"); ("l_0", "a")]).
  split; [easy|]. split; [easy|]. split; [repeat constructor; cbn; intuition discriminate|]. split; [apply perm_swap|]. vm_compute. discriminate.
Qed.
Print Assumptions C28_spellings_refuted.
Example C28_case : no_arrays (SDict None None [(true, SList (text "l") true 3 (SDict None None [(true, SScalar (text "x") (KInteger true))]))])
  /\ plain_keys (lit "_") [(text "l_0_x", VText (lit "5"))] /\ digit_free (lit "_").
Proof. split; [easy|]. split; [repeat constructor; exists (lit "l_0_x"); split; [reflexivity|exact plain_l0x]|]. split; [discriminate|repeat constructor]. Qed.

(* C29 *)
Theorem C29_name : forall t p sep, node_at t p <> None -> flattened_name t (Node p) sep = join sep (names_to t p).
Proof. exact @name_lemma. Qed.
Print Assumptions C29_name.
Theorem C29_slot_name : forall t i q sep, exists_in t (SlotOf (i :: q)) ->
  flattened_name t (SlotOf (i :: q)) sep = join sep (names_to t q ++ [dec_nat i]).
Proof. exact @slot_name_lemma. Qed.
Print Assumptions C29_slot_name.
Theorem C29_flatten : forall V t fl deep e sep (value : elem -> V), exists n, generation t e n = [] /\
  flattens t fl deep e sep value
    (map (fun x => (flattened_name t x sep, value x)) (filter fl (e :: if deep then generations t e n else []))).
Proof. exact @flatten_lemma. Qed.
Print Assumptions C29_flatten.
(* C29: flatten() of an element without parent: what has a text, generation by
   generation; of a JoinedString only itself *)
Theorem C29_element : forall e sep, exists n f, generation (tree_of e) (Node []) n = []
  /\ forall fuel, (f <= fuel)%nat -> flatten_element fuel e sep =
       Ok (map (fun x => (flattened_name (tree_of e) x sep, u_at e x))
               (filter (text_at e) (Node [] :: if children_flattenable e then generations (tree_of e) (Node []) n else []))).
Proof. exact flatten_element_lemma. Qed.
Print Assumptions C29_element.
Theorem C29_texts : forall e p u, part e p = Some u -> forall w, text_of u w <-> text_at e (Node p) = true /\ u_at e (Node p) = w.
Proof. exact texts_lemma. Qed.
Print Assumptions C29_texts.
Theorem C29_children_flattenable : forall e, children_flattenable e = false <-> exists n j l, e = EJoined n j l.
Proof. intros [n st|n cp l|n l|n l|n j l]; cbn; split; try easy; try (intros (? & ? & ? & [=])). intros _. now exists n, j, l. Qed.
Print Assumptions C29_children_flattenable.
(* the members of a nested JoinedString are flattened too *)
Theorem C29_nested_joined : forall e p n j l i st, part e p = Some (EJoined n j l) -> nth_error l i = Some st ->
  part e (i :: p) = Some (EScalar (j_child j) st)
  /\ names_to (tree_of e) (i :: p) = (names_to (tree_of e) p ++ own_name (j_child j))%list.
Proof. exact nested_joined. Qed.
Print Assumptions C29_nested_joined.
Theorem C29_distinct_nodes : forall t sep p q, separator sep -> clear_tree sep t -> node_at t p <> None -> node_at t q <> None ->
  flattened_name t (Node p) sep = flattened_name t (Node q) sep ->
  p = q \/ siblings t p q \/ inside t p q \/ inside t q p.
Proof. exact distinct_nodes_lemma. Qed.
Print Assumptions C29_distinct_nodes.
Theorem C29_distinct : forall t sep p q n m, separator sep -> clear_tree sep t ->
  node_at t p = Some (Leaf n) -> node_at t q = Some (Leaf m) ->
  flattened_name t (Node p) sep = flattened_name t (Node q) sep -> p = q \/ siblings t p q.
Proof. exact @distinct_lemma. Qed.
Print Assumptions C29_distinct.
Theorem C29_clear_schema : forall sep s e, clear_schema sep s -> is_of s e -> clear_tree sep (tree_of e).
Proof. exact @is_of_clear_tree. Qed.
Print Assumptions C29_clear_schema.
Theorem C29_meeting_names_refuted : exists t p q n m, proper t /\ p <> q /\ ~ siblings t p q
  /\ node_at t p = Some (Leaf n) /\ node_at t q = Some (Leaf m)
  /\ flattened_name t (Node p) (lit "_") = flattened_name t (Node q) (lit "_").
Proof. exact meeting_names. Qed.
Print Assumptions C29_meeting_names_refuted.
Example C29_case : flattened_name (tree_of sample_element) (Node [0; 0; 1]%nat) (lit "_") = lit "o_l_0_x"
  /\ names_to (tree_of sample_element) [0; 0; 1]%nat = map lit ["o"; "l"; "0"; "x"]
  /\ clear_tree (lit "_") (tree_of sample_element).
Proof. split; [vm_compute; reflexivity|]. split; [vm_compute; reflexivity|]. exact (is_of_clear_tree _ _ _ clear_sample is_of_sample). Qed.

(* C64 *)
Theorem C64_scalar : forall n k sep st ps,
  (forall a v b, ps = (a ++ (n, v) :: b)%list -> ~ In n (map fst a) ->
     set_flat (SScalar n k) sep (EScalar n st) ps =
     (EScalar n (fst (scalar_set k (Scalar None (s_value st) (s_u st)) v)),
      rmap (fun _ => tt) (snd (scalar_set k (Scalar None (s_value st) (s_u st)) v))))
  /\ (~ In n (map fst ps) -> set_flat (SScalar n k) sep (EScalar n st) ps = (EScalar n (Scalar None (s_value st) (s_u st)), Ok tt)).
Proof. exact @scalar_first_lemma. Qed.
Print Assumptions C64_scalar.
Theorem C64_mapping : forall n cp fs sep cq items ps, named_fields (SDict n cp fs) -> text_keys ps ->
  exists items' r, set_flat (SDict n cp fs) sep (EDict n cq items) ps = (EDict n cq items', r)
  /\ (forall k, ~ In k (map (fun f => schema_name (snd f)) fs) -> aget name_eqb k items' = aget name_eqb k items)
  /\ match r with
     | Ok _ => forall b f, In (b, f) fs -> settled n sep ps items items' f
     | Err e => exists fs1 b f fs2 x l u, fs = (fs1 ++ (b, f) :: fs2)%list
         /\ (forall b g, In (b, g) fs1 -> settled n sep ps items items' g)
         /\ schema_name f = Some x /\ routes n sep x ps l
         /\ set_flat f sep (match aget name_eqb (Some x) items with Some u => u | None => fresh f end) l = (u, Err e)
         /\ aget name_eqb (Some x) items' = Some u
         /\ (forall b g, In (b, g) fs2 -> aget name_eqb (schema_name g) items' = aget name_eqb (schema_name g) items)
     end.
Proof. intros n cp fs sep cq. exact (@dict_lemma cp cq n fs sep). Qed.
Print Assumptions C64_mapping.
(* the pair with a mapping's own name, such as flatten() makes of a Compound, has no
   effect *)
Theorem C64_own_key : forall x cp fs sep cq items a v b, separator sep -> named_fields (SDict (Some x) cp fs) -> text_keys (a ++ b)%list ->
  set_flat (SDict (Some x) cp fs) sep (EDict (Some x) cq items) (a ++ (Some x, v) :: b)%list
  = set_flat (SDict (Some x) cp fs) sep (EDict (Some x) cq items) (a ++ b)%list.
Proof. exact own_key_lemma. Qed.
Print Assumptions C64_own_key.
Theorem C64_joined : forall n j sep old ps,
  (forall a v b, ps = (a ++ (n, v) :: b)%list -> ~ In n (map fst a) ->
     set_flat (SJoined n j) sep (EJoined n j old) ps =
     (EJoined n j (fst (joined_set (j_glue j) (j_how j) (j_kind j) (j_prune j) old (match v with VText s => JText s | _ => JNotIterable end))),
      rmap (fun _ => tt) (snd (joined_set (j_glue j) (j_how j) (j_kind j) (j_prune j) old (match v with VText s => JText s | _ => JNotIterable end)))))
  /\ (~ In n (map fst ps) -> set_flat (SJoined n j) sep (EJoined n j old) ps = (EJoined n j old, Ok tt)).
Proof. exact @joined_first_lemma. Qed.
Print Assumptions C64_joined.
(* a container is true when it has a member; Compounds and JoinedStrings are so
   when their text, and the value that compose gives, is *)
Theorem C63_truth_text : forall e p u w, part e p = Some u -> text_of u w -> (forall n st, u <> EScalar n st) ->
  (truthy (tree_of e) (Node p) = true <->
   w <> [] /\ forall n f items sts, u = EDict n (Some f) items -> scalar_children items sts -> snd (f sts) = true).
Proof. exact scalar_truth_lemma. Qed.
Print Assumptions C63_truth_text.
Theorem C63_truth : forall e p u, part e p = Some u -> (forall w, ~ text_of u w) ->
  (truthy (tree_of e) (Node p) = true <-> exists c, member u 0 = Some c).
Proof. exact @container_truth_lemma. Qed.
Print Assumptions C63_truth.
Example C63_truth_case : truthy (tree_of (EDict None None [(text "l", EList (text "l") [])])) (Node [0%nat]) = false
  /\ truthy (tree_of (EDict None None [(text "l", EList (text "l") [])])) (Node []) = true.
Proof. split; reflexivity. Qed.
Theorem C64_array : forall n c k sep prune old ps, separator sep -> text_keys ps ->
  n <> Some [] -> c <> Some [] -> (forall x, c <> Some (x ++ [10%N])%list) ->
  exists l r, set_flat (SArray n prune (SScalar c k)) sep (EArray n old) ps = (EArray n l, r) /\ arranges n c k sep prune ps l r.
Proof. exact @array_lemma. Qed.
Print Assumptions C64_array.
Theorem C64_array_of_containers : forall n sep prune old m ps, (forall c k, m <> SScalar c k) ->
  set_flat (SArray n prune m) sep (EArray n old) ps = (EArray n [], Err AssertErr).
Proof. intros n sep prune old m ps H. destruct m; try reflexivity. now destruct (H n0 k). Qed.
Print Assumptions C64_array_of_containers.
(* keys that are no text *)
Theorem C64_none_key : forall sep v rest,
  (forall n cp fs x cq items, set_flat (SDict n cp fs) sep (EDict (Some x) cq items) ((None, v) :: rest) = (EDict (Some x) cq items, Err AttributeErr))
  /\ (forall n prune limit mem m old, ~ (prune = true /\ v = VText []) ->
      set_flat (SList n prune limit mem) sep (EList m old) ((None, v) :: rest) = (EList m [], Err TypeErr))
  /\ (forall n prune c k x old, x <> [] ->
      set_flat (SArray n prune (SScalar c k)) sep (EArray (Some x) old) ((None, v) :: rest) = (EArray (Some x) [], Err TypeErr))
  /\ (forall n cp b f fs cq items, schema_name f <> None ->
      set_flat (SDict n cp ((b, f) :: fs)) sep (EDict None cq items) ((None, v) :: rest) = (EDict None cq items, Err AttributeErr)).
Proof. exact @ProofFlat7.none_key_lemma. Qed.
Print Assumptions C64_none_key.
(* a key that only starts with the Array's name adds a blank member *)
Theorem C64_other_key_refuted : exists s ps e, s = SArray (text "a") true (SScalar (text "b") (KString true))
  /\ ps = flat_of [("a_zzz", "1")] /\ set_flat s (lit "_") (fresh s) ps = (EArray (text "a") [e], Ok tt).
Proof. eexists _, _, _. split; [reflexivity|]. split; [reflexivity|]. vm_compute. reflexivity. Qed.
Print Assumptions C64_other_key_refuted.
Example C64_case :
  set_flat (SArray (text "t") true (SScalar None (KString true))) (lit "_") (EArray (text "t") [EScalar None blank])
    (flat_of [("t", "a"); ("t", ""); ("t_", "b"); ("u", "c"); ("t_x", "d"); ("t", "a")])
  = (EArray (text "t") [EScalar None (plain_text "a"); EScalar None (plain_text "b"); EScalar None (plain_text "a")], Ok tt).
Proof. vm_compute. reflexivity. Qed.
Example C64_joined_case :
  set_flat (SJoined (text "t") commas) (lit "_") (EJoined (text "t") commas [plain_text "z"]) (flat_of [("t", "a,,b"); ("t", "c")])
  = (EJoined (text "t") commas [plain_text "a"; plain_text "b"], Ok tt)
  /\ snd (set_flat (SJoined (text "t") commas) (lit "_") (EJoined (text "t") commas []) [(text "t", VInt 3)]) = Err TypeErr
  /\ set_flat (SDict (text "d") None month_fields) (lit "_") (fresh (SDict (text "d") None month_fields)) (flat_of [("d", "7-8"); ("d_y", "1")])
   = set_flat (SDict (text "d") None month_fields) (lit "_") (fresh (SDict (text "d") None month_fields)) (flat_of [("d_y", "1")]).
Proof. split; [reflexivity|]. split; vm_compute; reflexivity. Qed.
