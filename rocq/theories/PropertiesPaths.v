(* C30-C35 (finding elements: el, fq_name, find) and C63 (traversal). *)
From Verif Require Import PyBase PyList ModelUtil ModelSeq ModelProps ModelDsl SpecScalar ModelPaths SpecPaths
  ProofPaths ProofPaths2 ProofPaths3 ProofPaths4 ProofPaths5 ProofPaths6 ProofPaths7 ProofPaths8.

(* C30 *)
Theorem C30_fq_name : forall t p xs sep, proper t -> address t false p xs ->
  fq_name t (Node p) sep = Ok (sep ++ join sep xs).
Proof. exact @fq_name_lemma. Qed.
Print Assumptions C30_fq_name.
Theorem C30_el_of_fq_name : forall t e p xs c, proper t -> exists_in t e -> address t false p xs ->
  sep_free c xs -> Forall (fun x => x <> []) xs ->
  exists s, fq_name t (Node p) [c] = Ok s /\ el t e s [c] = Ok (Node p).
Proof. exact @el_fq_name_lemma. Qed.
Print Assumptions C30_el_of_fq_name.
(* el takes Arrays too, by index *)
Theorem C30_el_of_address : forall t e arrays p xs c, proper t -> exists_in t e -> address t arrays p xs ->
  sep_free c xs -> Forall (fun x => x <> []) xs ->
  el t e ([c] ++ join [c] xs) [c] = Ok (Node p).
Proof. exact @el_address_lemma. Qed.
Print Assumptions C30_el_of_address.
Theorem C30_addresses : forall t arrays p, plain_way t arrays p <-> exists xs, address t arrays p xs.
Proof. exact @address_lemma. Qed.
Print Assumptions C30_addresses.
Theorem C30_el_text : forall t e c absolute xs e', proper t -> exists_in t e -> sep_free c xs ->
  Forall (fun x => x <> []) xs -> (absolute = true \/ xs <> []) ->
  (el t e ((if absolute then [c] else []) ++ join [c] xs) [c] = Ok e' <->
   takes_all t (from_root absolute e) (map Some xs) e').
Proof. exact @el_text_lemma. Qed.
Print Assumptions C30_el_text.
(* el with a list of names *)
Theorem C30_el_names : forall t e absolute xs e', proper t -> exists_in t e ->
  (el_names t e (with_root absolute xs) = Ok e' <->
   (absolute = true \/ xs <> []) /\ takes_all t (from_root absolute e) xs e').
Proof. exact @el_names_lemma. Qed.
Print Assumptions C30_el_names.
Theorem C30_el_missing : forall t e absolute xs e1 x r err, proper t -> exists_in t e ->
  takes_all t (from_root absolute e) xs e1 -> refuses t e1 x err ->
  el_names t e (with_root absolute (xs ++ x :: r)) =
  Err (match err with KeyErr | IndexErr => KeyErr | _ => err end).
Proof. exact @el_names_err_lemma. Qed.
Print Assumptions C30_el_missing.
Theorem C30_el_either : forall t e xs, proper t ->
  (exists e', takes_all t e xs e') \/
  (exists pre x post e1 err, xs = pre ++ x :: post /\ takes_all t e pre e1 /\ refuses t e1 x err).
Proof. exact @el_names_total_lemma. Qed.
Print Assumptions C30_el_either.
Theorem C30_step : forall t e x e', proper t -> (index t e x = Ok e' <-> takes t e x e').
Proof. exact @index_takes_lemma. Qed.
Print Assumptions C30_step.
Theorem C30_step_missing : forall t e x err, index t e x = Err err <-> refuses t e x err.
Proof. exact @index_refuses_lemma. Qed.
Print Assumptions C30_step_missing.
(* the text of a path: a leading separator means the root *)
Theorem C30_path_parts : forall c path, exists absolute xs,
  parse_element_path path [c] = Ok ((if absolute : bool then [None] else []) ++ map Some xs)
  /\ sep_free c xs /\ path = (if absolute then [c] else []) ++ join [c] xs
  /\ (absolute = true <-> exists r, path = c :: r).
Proof. exact @parse_text_only_lemma. Qed.
Print Assumptions C30_path_parts.
Theorem C30_path_no_separator : forall path,
  parse_element_path path [] = match path with [] => Ok [None] | _ => Err ValueErr end.
Proof. exact @parse_text_nosep_lemma. Qed.
Print Assumptions C30_path_no_separator.
(* the slot of a member is named as its List; members of an Array are named by
   their own names, which el does not take *)
Theorem C30_slot_fq_name : forall t i q sep, exists_in t (SlotOf (i :: q)) ->
  fq_name t (SlotOf (i :: q)) sep = match q with [] => Ok (sep ++ []) | _ => fq_name t (Node q) sep end.
Proof. exact @fq_name_slot_lemma. Qed.
Print Assumptions C30_slot_fq_name.
Theorem C30_array_member_fq_name : forall t i q xs n b l c sep, proper t -> address t false q xs ->
  node_at t q = Some (Seq false n b l) -> nth_error l i = Some c ->
  fq_name t (Node (i :: q)) sep =
  match tree_name c with Some s => Ok (sep ++ join sep (xs ++ [s])) | None => Err TypeErr end.
Proof. exact @fq_name_member_lemma. Qed.
Print Assumptions C30_array_member_fq_name.
Theorem C30_array_member_refuted : exists t p s, proper t /\ node_at t p <> None
  /\ fq_name t (Node p) (lit ".") = Ok s /\ el t (Node []) s (lit ".") = Err KeyErr.
Proof. exists sample_tree, [0; 3]%nat, (lit ".arr.m"). split; [exact sample_proper|]. repeat split; vm_compute; congruence. Qed.
Print Assumptions C30_array_member_refuted.
Theorem C30_separator_in_name_refuted : exists t p s, proper t /\ node_at t p <> None
  /\ fq_name t (Node p) (lit ".") = Ok s /\ el t (Node []) s (lit ".") = Err KeyErr.
Proof. exists sample_tree, [1]%nat, (lit ".d.x"). split; [exact sample_proper|]. repeat split; vm_compute; congruence. Qed.
Print Assumptions C30_separator_in_name_refuted.
Example C30_case : address sample_tree false [0; 2; 2]%nat [lit "l"; lit "2"; lit "s"]
  /\ fq_name sample_tree (Node [0; 2; 2]%nat) (lit ".") = Ok (lit ".l.2.s")
  /\ el sample_tree (Node [0; 3]%nat) (lit ".l.2.s") (lit ".") = Ok (Node [0; 2; 2]%nat)
  /\ el sample_tree (Node [2; 2]%nat) (lit "s") (lit ".") = Ok (Node [0; 2; 2]%nat)
  /\ el sample_tree (Node []) (lit "l.-1.s") (lit ".") = Ok (Node [0; 2; 2]%nat)
  /\ el sample_tree (Node []) (lit "arr/1") (lit "/") = Ok (Node [1; 3]%nat)
  /\ el sample_tree (Node []) (lit "l.9") (lit ".") = Err KeyErr
  /\ el sample_tree (Node []) (lit "a.b") (lit ".") = Err KeyErr
  /\ el sample_tree (SlotOf [2; 2]%nat) (lit ".") (lit ".") = Ok (Node []).
Proof.
  split; [|vm_compute; repeat (split; [reflexivity|]); reflexivity].
  apply (address_key _ _ [2; 2]%nat [lit "l"; lit "2"] None true [(Some (lit "s"), Leaf (Some (lit "s")))] 0%nat (lit "s") (Leaf (Some (lit "s"))));
    [|reflexivity|reflexivity].
  eapply (address_index _ _ [2]%nat [lit "l"]); [|reflexivity|cbn; lia|now left].
  eapply (address_key _ _ [] [] None true _ 2%nat (lit "l")); [apply address_root|reflexivity|reflexivity].
Qed.

(* C31 *)
Theorem C31_relative : forall t p l q single strict, proper t -> leads t p l q -> writable l ->
  finds [] t (Node p) (path_text false l) single strict (Ok (if single then One (Some (Node q)) else Many [Node q])).
Proof. exact @leads_lemma. Qed.
Print Assumptions C31_relative.
Theorem C31_absolute : forall t e l q single strict, proper t -> exists_in t e -> leads t [] l q -> writable l ->
  finds [] t e (path_text true l) single strict (Ok (if single then One (Some (Node q)) else Many [Node q])).
Proof. exact @leads_root_lemma. Qed.
Print Assumptions C31_absolute.
Theorem C31_every_location : forall t p, named_way t p -> exists l, leads t [] l p.
Proof. exact @leads_exists. Qed.
Print Assumptions C31_every_location.
Theorem C31_root : forall t e, exists_in t e -> root t e = Node [].
Proof. exact @root_lemma. Qed.
Print Assumptions C31_root.
(* brackets that hold no number belong to the name *)
Theorem C31_bracketed_name : forall x y, x <> [] -> Forall plain_char x -> Forall plain_char y -> not_number y ->
  tokenize (x ++ bracket y) = Ok [NAME (Some (x ++ bracket y))].
Proof. exact @bracket_name_lemma. Qed.
Print Assumptions C31_bracketed_name.
Definition backslash_tree : tree :=
  Map None true [(Some (lit "a\"), Map (Some (lit "a\")) true [(Some (lit "b"), Leaf (Some (lit "b")))])].
Theorem C31_backslash_refuted : exists t l q, proper t /\ leads t [] l q /\ (forall x, In (Key x) l -> x <> [])
  /\ forall fuel, (1 <= fuel)%nat -> snd (find fuel [] t (Node []) (path_text true l) false true) = Err LookupErr.
Proof.
  exists backslash_tree, [Key (lit "a\"); Key (lit "b")], [0; 0]%nat. split; [apply proper_b_ok; reflexivity|]. split.
  - eapply leads_key; [reflexivity|exact (eq_refl : nth_error _ 0 = _)|].
    eapply leads_key; [reflexivity|exact (eq_refl : nth_error _ 0 = _)|]. constructor.
  - split; [intros x [[= <-]|[[= <-]|[]]]; discriminate|]. intros [|fuel] F; [lia|]. vm_compute. reflexivity.
Qed.
Print Assumptions C31_backslash_refuted.
Example C31_case : leads sample_tree [] [Key (lit "d.x"); Key (lit "k[]/")] [0; 1]%nat
  /\ writable [Key (lit "d.x"); Key (lit "k[]/")]
  /\ path_text true [Key (lit "d.x"); Key (lit "k[]/")] = lit "/d\.x/k\[\]\/"
  /\ leads sample_tree [3]%nat [Idx 1] [1; 3]%nat
  /\ snd (find 9 [] sample_tree (Node [0; 3]%nat) (lit "/d\.x/k\[\]\/") true true) = Ok (One (Some (Node [0; 1]%nat)))
  /\ Forall plain_char (lit "foo") /\ not_number (lit "bar")
  (* odd cases *)
  /\ tokenize (lit "/a//b") = Ok [TOP; NAME (Some (lit "a")); NAME None; NAME (Some (lit "b"))]
  /\ tokenize (lit "foo/[bogus]") = Ok [NAME (Some (lit "/[bogus]"))]
  /\ tokenize (lit "l[0][x]") = Ok [NAME (Some (lit "l")); NAME (Some (lit "[0][x]"))]
  /\ tokenize (lit "a\.b[x]") = Ok [NAME (Some (lit "a\.b[x]"))]
  /\ tokenize (lit "foo[") = Ok [NAME (Some (lit "foo["))]
  /\ tokenize (lit "foo[0]x") = Ok [NAME (Some (lit "foo[")); NAME (Some (lit "0]x"))]
  /\ tokenize (lit "[]") = Ok [NAME (Some (lit "[]"))].
Proof.
  refine (conj _ (conj _ (conj _ (conj _ (conj _ (conj _ (conj _ _))))))); [ | | | | | |  |vm_compute; repeat (split; [reflexivity|]); reflexivity].
  3, 5: vm_compute; reflexivity.
  - eapply leads_key; [reflexivity|exact (eq_refl : nth_error _ 1 = _)|].
    eapply leads_key; [reflexivity|exact (eq_refl : nth_error _ 0 = _)|]. constructor.
  - repeat split; try discriminate.
  - eapply leads_index; [reflexivity|cbn; lia|constructor].
  - repeat constructor; discriminate.
  - exists (ch "b"). split; [now left|]. repeat split; (reflexivity || discriminate).
Qed.

(* C32 *)
Theorem C32_canonical : forall t p q absolute l single strict, proper t -> node_at t p <> None -> writable l ->
  absolute = true \/ climbable t p -> ideal t l (if absolute : bool then [] else p) q ->
  finds [] t (Node p) (path_text absolute l) single strict (Ok (if single then One (Some (Node q)) else Many [Node q])).
Proof. exact @find_ideal_lemma. Qed.
Print Assumptions C32_canonical.
(* collapsing touches no other path *)
Theorem C32_dotless : forall absolute l, writable l -> dotless l -> tokenize (path_text absolute l) = raw_tokens (path_text absolute l).
Proof. intros absolute l W D. rewrite raw_tokens_path by exact W. exact (tokenize_dotless absolute l W D). Qed.
Print Assumptions C32_dotless.
(* a missing name before .. goes unnoticed *)
Theorem C32_missing_refuted : exists t, proper t /\ (forall e', ~ takes t (Node []) (Some (lit "missing")) e')
  /\ forall fuel, (1 <= fuel)%nat ->
     snd (find fuel [] t (Node []) (path_text false [Key (lit "missing"); DotDot; Key (lit "a")]) true true) = Ok (One (Some (Node [0]%nat))).
Proof.
  exists sample_tree. split; [exact sample_proper|]. split.
  - intros e' H. apply index_takes_lemma in H; [|exact sample_proper]. vm_compute in H. discriminate H.
  - intros [|fuel] F; [lia|]. destruct fuel; vm_compute; reflexivity.
Qed.
Print Assumptions C32_missing_refuted.
(* .. from a member of a List is its slot, not the List *)
Theorem C32_list_member_refuted : exists t p q, proper t /\ ideal t [DotDot] p q
  /\ forall fuel, (1 <= fuel)%nat -> snd (find fuel [] t (Node p) (path_text false [DotDot]) true true) = Ok (One (Some (SlotOf p))).
Proof.
  exists sample_tree, [1; 2]%nat, [2]%nat. split; [exact sample_proper|]. split; [repeat constructor|].
  intros [|fuel] F; [lia|]. destruct fuel; vm_compute; reflexivity.
Qed.
Print Assumptions C32_list_member_refuted.
(* .. from a part of a false container stays where it is *)
Theorem C32_false_container_refuted : exists t p q, proper t /\ ideal t [DotDot] p q /\ p <> q
  /\ forall fuel, (1 <= fuel)%nat -> snd (find fuel [] t (Node p) (path_text false [DotDot]) true true) = Ok (One (Some (Node p))).
Proof.
  exists (Map None false [(Some (lit "y"), Leaf (Some (lit "y")))]), [0]%nat, []. split; [apply proper_b_ok; reflexivity|].
  split; [repeat constructor|]. split; [discriminate|]. intros [|fuel] F; [lia|]. destruct fuel; vm_compute; reflexivity.
Qed.
Print Assumptions C32_false_container_refuted.
(* l[:]/.. is l once, not once for every member *)
Theorem C32_slice_up_refuted : exists t, proper t /\ List.length (kids t (Node [2]%nat)) = 3%nat
  /\ forall fuel, (1 <= fuel)%nat ->
     snd (find fuel [] t (Node []) (path_text false [Key (lit "l"); Cut2 None None; DotDot]) false true) = Ok (Many [Node [2]%nat]).
Proof.
  exists sample_tree. split; [exact sample_proper|]. split; [reflexivity|].
  intros [|fuel] F; [lia|]. destruct fuel; vm_compute; reflexivity.
Qed.
Print Assumptions C32_slice_up_refuted.
Example C32_case : climbable sample_tree [0; 1]%nat
  /\ ideal sample_tree [DotDot; Dot; DotDot; Key (lit "l"); Idx 1; Key (lit "s"); DotDot; DotDot] [0; 1]%nat [2]%nat
  /\ path_text false [DotDot; Dot; DotDot; Key (lit "l"); Idx 1; Key (lit "s"); DotDot; DotDot] = lit ".././../l[1]/s/../.."
  /\ snd (find 9 [] sample_tree (Node [0; 1]%nat) (lit ".././../l[1]/s/../..") true true) = Ok (One (Some (Node [2]%nat))).
Proof.
  split; [|split; [|split; vm_compute; reflexivity]].
  - intros a i q H. destruct a as [|? [|? [|]]]; cbn in H; injection H; intros; subst; try discriminate; vm_compute; auto.
  - repeat (apply ideal_up || apply ideal_here); cbn [tl].
    eapply ideal_name. { eapply (take_key _ _ _ _ _ 2%nat); reflexivity. }
    eapply ideal_index. { eapply take_index; [reflexivity|apply (says_dec 1)|apply (picks_nat _ 1); cbn; lia]. }
    eapply ideal_name. { eapply (take_key _ _ _ _ _ 0%nat); reflexivity. }
    repeat apply ideal_up. apply ideal_end.
Qed.

(* C33 *)
Theorem C33_selects : forall t e absolute l r, proper t -> exists_in t e -> writable l -> dotless l ->
  selects t l (from_root absolute e) r ->
  finds [] t e (path_text absolute l) false false (Ok (Many r)).
Proof. exact @selects_lemma. Qed.
Print Assumptions C33_selects.
Theorem C33_children : forall t e e', In e' (children t e) <->
  exists p i, e = Node p /\ e' = Node (i :: p) /\ node_at t (i :: p) <> None.
Proof. exact @kids_spec. Qed.
Print Assumptions C33_children.
Theorem C33_children_order : forall t e, children t e = kids t e /\ NoDup (children t e).
Proof. exact (fun t e => conj (children_kids t e) (kids_NoDup t e)). Qed.
Print Assumptions C33_children_order.
Theorem C33_stop_zero_refuted : exists t, proper t
  /\ python_slice (kids t (Node [])) None (Some 0%Z) None [] /\ kids t (Node []) <> []
  /\ forall fuel, (9 <= fuel)%nat ->
     snd (find fuel [] t (Node []) (path_text false [Cut2 None (Some 0%Z)]) false true) = Ok (Many (kids t (Node []))).
Proof.
  exists sample_tree. split; [exact sample_proper|]. split; [exists []; split; [reflexivity|constructor]|]. split; [discriminate|].
  intros fuel F. do 9 (destruct fuel as [|fuel]; [lia|]). destruct fuel; vm_compute; reflexivity.
Qed.
Print Assumptions C33_stop_zero_refuted.
Example C33_case : selects sample_tree [Key (lit "l"); Cut3 (Some 2%Z) None (Some (-2)%Z); Key (lit "s")] (Node []) [Node [0; 2; 2]%nat; Node [0; 0; 2]%nat].
Proof.
  eapply sel_key; [eapply (take_key _ _ _ _ _ 2%nat); reflexivity|].
  apply (sel_cut3 _ _ _ _ _ _ [Node [2; 2]%nat; Node [0; 2]%nat] [[Node [0; 2; 2]%nat]; [Node [0; 0; 2]%nat]]).
  - exists [2; 0]%nat. split; [reflexivity|]. repeat constructor.
  - repeat constructor; (eapply sel_key; [eapply (take_key _ _ _ _ _ 0%nat); reflexivity|constructor]).
Qed.
Example C33_case_from_end : selects sample_tree [Key (lit "l"); FromEnd 1] (Node []) [Node [2; 2]%nat]
  /\ selects sample_tree [Key (lit "l"); FromEnd 4; Key (lit "s")] (Node []) [].
Proof.
  split.
  - eapply sel_key; [eapply (take_key _ _ _ _ _ 2%nat); reflexivity|].
    eapply sel_from_end; [cbn; lia|reflexivity|constructor].
  - eapply sel_key; [eapply (take_key _ _ _ _ _ 2%nat); reflexivity|].
    apply sel_no_from_end. cbn. lia.
Qed.
Example C33_texts : path_text true [Key (lit "l"); Cut3 (Some 2%Z) None (Some (-2)%Z); Key (lit "s")] = lit "/l[2::-2]/s"
  /\ path_text true [Key (lit "l"); FromEnd 1] = lit "/l[-1]"
  /\ tokenize (lit "l[-]") = Err ValueErr /\ tokenize (lit "l[-1-2]") = Err ValueErr.
Proof. vm_compute. repeat (split; [reflexivity|]). reflexivity. Qed.

(* C34 *)
Theorem C34_strict : forall fuel c t e path single,
  snd (find fuel c t e path single true) = Err LookupErr
  \/ snd (find fuel c t e path single true) = snd (find fuel c t e path single false).
Proof. exact @strict_lemma. Qed.
Print Assumptions C34_strict.
Theorem C34_single : forall fuel c t e path strict r, snd (find fuel c t e path false strict) = r ->
  snd (find fuel c t e path true strict) =
  match r with
  | Ok (Many []) => Ok (One None)
  | Ok (Many [u]) => Ok (One (Some u))
  | Ok (Many (u :: _)) => if strict then Err LookupErr else Ok (One (Some u))
  | Ok (One _) => r
  | Err x => Err x
  end.
Proof. exact @single_lemma. Qed.
Print Assumptions C34_single.
Theorem C34_list : forall fuel c t e path strict a, snd (find fuel c t e path false strict) = Ok a -> exists l, a = Many l.
Proof. exact @many_lemma. Qed.
Print Assumptions C34_list.
(* find always ends; it raises exactly when evaluation gets stuck, and else
   returns what the path reaches *)
Theorem C34_outcome : forall t e path strict, proper t -> exists r, finds [] t e path false strict r /\
  match tokenize path with
  | Err x => r = Err x
  | Ok ops => match r with
              | Ok a => exists l, a = Many l /\ (forall e', In e' l <-> reaches t ops e [] e')
                                  /\ forall r' e' x, reaches t ops e r' e' -> ~ stuck t strict r' e' x
              | Err x => exists r' e', reaches t ops e r' e' /\ stuck t strict r' e' x
              end
  end.
Proof. exact @find_outcome_lemma. Qed.
Print Assumptions C34_outcome.
Example C34_case :
  snd (find 99 [] sample_tree (Node []) (lit "l[:]/s") false true) = Ok (Many [Node [0; 0; 2]; Node [0; 1; 2]; Node [0; 2; 2]]%nat)
  /\ snd (find 99 [] sample_tree (Node []) (lit "l[:]/s") true true) = Err LookupErr
  /\ snd (find 99 [] sample_tree (Node []) (lit "l[:]/s") true false) = Ok (One (Some (Node [0; 0; 2]%nat)))
  /\ snd (find 99 [] sample_tree (Node []) (lit "l[:]/t") true true) = Err LookupErr
  /\ snd (find 99 [] sample_tree (Node []) (lit "l[:]/t") true false) = Ok (One None)
  /\ snd (find 99 [] sample_tree (Node []) (lit "a/t") true false) = Ok (One None).
Proof. vm_compute. repeat (split; [reflexivity|]). reflexivity. Qed.

(* C35 *)
Theorem C35_transparent : forall l ps fuel t e path single strict,
  incl (map path_of l) ps -> (N.of_nat (List.length ps) < 1024)%N ->
  snd (find fuel (after l) t e path single strict) = snd (find fuel [] t e path single strict).
Proof. exact @cache_lemma. Qed.
Print Assumptions C35_transparent.
Theorem C35_cached_paths : forall l fuel t e path single strict,
  In path (map fst (after l)) ->
  snd (find fuel (after l) t e path single strict) = snd (find fuel [] t e path single strict).
Proof. exact @cache_hit_lemma. Qed.
Print Assumptions C35_cached_paths.
Theorem C35_full_cache : forall fuel c t e path single strict, aget str_eqb path c = None -> (1024 <= N.of_nat (List.length c))%N ->
  snd (find fuel c t e path single strict) = match tokenize path with Ok _ => Err TypeErr | Err x => Err x end.
Proof. exact @find_full. Qed.
Print Assumptions C35_full_cache.
Theorem C35_full_cache_refuted : exists l, forall fuel single strict,
  snd (find fuel (after l) sample_tree (Node []) (lit "a") single strict) = Err TypeErr.
Proof.
  exists (numbers (N.to_nat 1024)). intros fuel single strict. destruct numbers_full as [H1 H2].
  rewrite C35_full_cache; [reflexivity|exact H2|]. rewrite H1. vm_compute. discriminate.
Qed.
Print Assumptions C35_full_cache_refuted.
Example C35_case : map fst (after [Request sample_tree (Node []) (lit "a") false true 9; Request sample_tree (Node []) (lit "l[:]") false true 9;
                                   Request sample_tree (Node []) (lit "a") true true 9; Request sample_tree (Node []) (lit "l[-]") true true 9])
                   = [lit "a"; lit "l[:]"].
Proof. vm_compute. reflexivity. Qed.

(* C63 *)
Theorem C63_parents : forall t e, exists_in t e -> match parent t e with
  | None => parents t e = []
  | Some u => parents t e = u :: parents t u end.
Proof. exact @parents_lemma. Qed.
Print Assumptions C63_parents.
Theorem C63_path : forall t e, exists_in t e -> match parent t e with
  | None => path_to t e = [e]
  | Some u => path_to t e = path_to t u ++ [e] end.
Proof. exact @path_to_lemma. Qed.
Print Assumptions C63_path.
Theorem C63_root : forall t e, exists_in t e -> root t e = Node [] /\ exists l, path_to t e = root t e :: l.
Proof. exact @root_first. Qed.
Print Assumptions C63_root.
Theorem C63_breadth_first : forall t e, exists n, generation t e n = [] /\
  exists f, forall fuel, (f <= fuel)%nat -> all_children t fuel e = Ok (generations t e n).
Proof. exact @all_children_lemma. Qed.
Print Assumptions C63_breadth_first.
Theorem C63_descendants : forall t e fuel l, all_children t fuel e = Ok l ->
  NoDup l /\ forall e', In e' l <-> exists p a, e = Node p /\ e' = Node (a ++ p) /\ a <> [] /\ node_at t (a ++ p) <> None.
Proof. exact @all_children_members. Qed.
Print Assumptions C63_descendants.
Example C63_case : path_to sample_tree (Node [0; 1; 2]%nat) = [Node []; Node [2]%nat; SlotOf [1; 2]%nat; Node [1; 2]%nat; Node [0; 1; 2]%nat]
  /\ all_children sample_tree 99 (Node [2]%nat) = Ok [Node [0; 2]; Node [1; 2]; Node [2; 2]; Node [0; 0; 2]; Node [0; 1; 2]; Node [0; 2; 2]]%nat.
Proof. vm_compute. split; reflexivity. Qed.
