(* Proofs: elements that name others by path. *)
From Verif Require Import PyBase PyBaseFacts ModelUtil ModelScalar ModelDsl ModelRef ModelMessage ModelValidators ModelPaths SpecScalar SpecValidators SpecPaths SpecRef
  ProofPaths ProofPaths2 ProofPaths5 ProofValidators2 ProofRef ModelLink.
From Coq Require Import Lia.

Lemma from_root_root t e absolute : exists_in t e -> from_root absolute (root t e) = Node [].
Proof. intros X. rewrite root_lemma by exact X. now destruct absolute. Qed.
Lemma root_exists t : proper t -> exists_in t (Node []).
Proof. intros _. cbn. destruct t; easy. Qed.
Lemma target_takes t self c (absolute : bool) xs e : proper t -> exists_in t self -> sep_free c xs -> Forall (fun x => x <> []) xs -> (absolute = true \/ xs <> []) ->
  exists path, target_path ((if absolute then [c] else []) ++ join [c] xs) [c] = Ok path
    /\ (ref_target t self path = Ok e <-> takes_all t (Node []) (map Some xs) e).
Proof.
  intros P X F N A. pose proof (el_text_lemma t (root t self) c absolute xs e P) as H. rewrite root_lemma in H by exact X. specialize (H (root_exists t P) F N A).
  unfold el in H. unfold target_path, ref_target. rewrite root_lemma by exact X.
  assert (from_root absolute (Node []) = Node []) as R by now destruct absolute. rewrite R in H.
  destruct (parse_element_path ((if absolute then [c] else []) ++ join [c] xs) [c]) as [path|x] eqn:E.
  - exists path. split; [reflexivity|]. cbn [bind] in H. rewrite <- H. unfold el_names. rewrite !as_key_ok. reflexivity.
  - exfalso. destruct (parse_text_only_lemma c ((if absolute then [c] else []) ++ join [c] xs)) as (a & ys & E2 & _). congruence.
Qed.
Theorem target_found t self arrays p xs c (absolute : bool) : proper t -> exists_in t self -> address t arrays p xs -> sep_free c xs -> Forall (fun x => x <> []) xs ->
  (absolute = true \/ xs <> []) ->
  exists path, target_path ((if absolute then [c] else []) ++ join [c] xs) [c] = Ok path /\ ref_target t self path = Ok (Node p).
Proof.
  intros P X H F N A. destruct (target_takes t self c absolute xs (Node p) P X F N A) as (path & E & T). exists path. split; [exact E|]. apply T, (address_takes t arrays p xs H).
Qed.
Theorem target_missing t self pre x post e1 err (absolute : bool) : proper t -> exists_in t self -> takes_all t (Node []) pre e1 -> refuses t e1 x err ->
  el_names t (root t self) (with_root absolute (pre ++ x :: post)) = Err (match err with KeyErr | IndexErr => KeyErr | _ => err end).
Proof.
  intros P X T R. rewrite root_lemma by exact X. apply (el_names_err_lemma t (Node []) absolute pre e1); try assumption; [now apply root_exists|now destruct absolute].
Qed.
Theorem ref_missing t self c (absolute : bool) xs pre x post e1 err : proper t -> exists_in t self -> sep_free c xs -> Forall (fun x => x <> []) xs -> (absolute = true \/ xs <> []) ->
  xs = pre ++ x :: post -> takes_all t (Node []) (map Some pre) e1 -> refuses t e1 (Some x) err ->
  exists path, target_path ((if absolute then [c] else []) ++ join [c] xs) [c] = Ok path /\ ref_target t self path = Err (match err with KeyErr | IndexErr => KeyErr | _ => err end).
Proof.
  intros P X F N A E T R.
  assert (target_path ((if absolute then [c] else []) ++ join [c] xs) [c] = Ok ((if absolute then [None] else []) ++ map Some xs)) as Q.
  { subst xs. apply parse_text_lemma; try assumption; [now destruct pre| |].
    - intros _ H. apply Forall_app in N as [_ N]. inversion N; subst. destruct pre as [|y pre]; cbn in H; [injection H as -> ->; congruence|]. destruct pre; discriminate.
    - intros _ H. rewrite Forall_forall in N. destruct pre as [|y pre]; cbn in H; injection H as ->; now apply (N []); [now left|]. }
  exists ((if absolute then [None] else []) ++ map Some xs). split; [exact Q|]. unfold ref_target. subst xs.
  replace (map (option_map Some) ((if absolute then [None] else []) ++ map Some (pre ++ x :: post))) with (with_root absolute (map Some pre ++ Some x :: map (@Some str) post)).
  - now apply (target_missing t self (map Some pre) (Some x) (map Some post) e1).
  - unfold with_root. destruct absolute; rewrite !map_app; cbn [map app option_map]; rewrite !map_map; reflexivity.
Qed.
Theorem ref_reads t place number paths h i j w raw p fuel n : ref_target t (place i) (paths i) = Ok (Node p) -> number (Node p) = j ->
  nth_error h i = Some (OfRef w None raw) -> nth_error h j = Some n -> not_ref n -> 1 <= fuel ->
  exists h', get_value (ref_find t place number paths) fuel h i = (h', Ok (node_value n)) /\ get_u (ref_find t place number paths) fuel h i = (h', Ok (node_u n))
    /\ pinned h' i [w] j.
Proof.
  intros T N R J K L. assert (SpecRef.leads (ref_find t place number paths) h i [w] j) as Le.
  { apply (SpecRef.leads_on _ _ i w None raw j []); [exact R| |now apply (SpecRef.leads_end _ _ j n)]. unfold ref_find. rewrite T. cbn. now rewrite N. }
  destruct (read_through (ref_find t place number paths) [w] fuel h i j n Le L J) as (h' & _ & Pi & V & U). now exists h'.
Qed.
(* ---- fields ---- *)
Lemma fields_found t describe p : forall ls qs, Forall2 (fun l q => SpecPaths.leads t p l q /\ SpecPaths.writable l) ls qs -> proper t ->
  exists f, forall fuel, f <= fuel -> Forall2 (fun path e => field fuel t describe (Node p) path = Ok e) (map (path_text false) ls) (map (fun q => describe (Node q)) qs).
Proof.
  induction 1 as [|l q ls qs [Le W] _ IH]; intros P; [exists 0; intros; constructor|]. destruct (IH P) as (f1 & F1). destruct (leads_lemma t p l q true true P Le W) as (f2 & F2).
  exists (f1 + f2). intros fuel L. cbn [map]. constructor; [|apply F1; lia]. unfold field. rewrite F2 by lia. reflexivity.
Qed.
Theorem fields_compared t describe p l ls q qs : proper t -> Forall2 (fun l q => SpecPaths.leads t p l q /\ SpecPaths.writable l) (l :: ls) (q :: qs) ->
  exists f, forall fuel, f <= fuel ->
    (exists b : bool, fields_equal fuel MValue t describe (Node p) (map (path_text false) (l :: ls)) = Ok (if b then Pass else unequal (map (fun q => describe (Node q)) (q :: qs)) (describe (Node q)))
       /\ (b = true <-> Forall (fun r => equal_values (fd_value (describe (Node r))) (fd_value (describe (Node q)))) qs))
    /\ (exists b : bool, fields_equal fuel MU t describe (Node p) (map (path_text false) (l :: ls)) = Ok (if b then Pass else unequal (map (fun q => describe (Node q)) (q :: qs)) (describe (Node q)))
       /\ (b = true <-> Forall (fun r => fd_u (describe (Node r)) = fd_u (describe (Node q))) qs)).
Proof.
  intros P H. destruct (fields_found t describe p _ _ H P) as (f & F). exists f. intros fuel L. specialize (F fuel L). cbn [map] in F.
  destruct (map_equal_value_u _ _ _ _ F) as [(b & E & B) (b2 & E2 & B2)]. split.
  - exists b. split; [exact E|]. rewrite B, Forall_map. reflexivity.
  - exists b2. split; [exact E2|]. rewrite B2, Forall_map. reflexivity.
Qed.
(* a path that leads nowhere, found after those that lead somewhere *)
Theorem field_missing t describe p tf ls qs path post x : proper t -> Forall2 (fun l q => SpecPaths.leads t p l q /\ SpecPaths.writable l) ls qs ->
  finds [] t (Node p) path true true (Err x) ->
  exists f, forall fuel, f <= fuel -> fields_equal fuel tf t describe (Node p) (map (path_text false) ls ++ path :: post) = Err x.
Proof.
  intros P H (f2 & F2). destruct (fields_found t describe p _ _ H P) as (f1 & F1). exists (f1 + f2). intros fuel L. unfold fields_equal.
  apply (map_equal_find_raises tf _ _ path post x _ (F1 fuel ltac:(lia))). unfold field. rewrite F2 by lia. reflexivity.
Qed.
Theorem field_nothing t describe p tf ls qs path post : proper t -> Forall2 (fun l q => SpecPaths.leads t p l q /\ SpecPaths.writable l) ls qs ->
  finds [] t (Node p) path true true (Ok (One None)) ->
  exists f, forall fuel, f <= fuel -> fields_equal fuel tf t describe (Node p) (map (path_text false) ls ++ path :: post) = Err AttributeErr.
Proof.
  intros P H (f2 & F2). destruct (fields_found t describe p _ _ H P) as (f1 & F1). exists (f1 + f2). intros fuel L. unfold fields_equal.
  apply (map_equal_find_raises tf _ _ path post AttributeErr _ (F1 fuel ltac:(lia))). unfold field. rewrite F2 by lia. reflexivity.
Qed.
Theorem target_of_fq_name t self p xs c : proper t -> exists_in t self -> address t false p xs -> sep_free c xs -> Forall (fun x => x <> []) xs ->
  exists s path, fq_name t (Node p) [c] = Ok s /\ target_path s [c] = Ok path /\ ref_target t self path = Ok (Node p).
Proof.
  intros P X H F N. destruct (target_found t self false p xs c true P X H F N (or_introl eq_refl)) as (path & E & R). exists ([c] ++ join [c] xs), path.
  split; [now apply fq_name_lemma|]. split; assumption.
Qed.
Lemma takes_all_node t e xs e' : takes_all t e xs e' -> (exists p, e = Node p) -> exists p, e' = Node p.
Proof. induction 1 as [|e x e1 r e2 T _ IH]; [easy|]. intros _. apply IH. inversion T; eauto. Qed.
Theorem ref_nowhere t self c (absolute : bool) xs : proper t -> exists_in t self -> sep_free c xs -> Forall (fun x => x <> []) xs -> (absolute = true \/ xs <> []) ->
  (forall e, ~ takes_all t (Node []) (map Some xs) e) ->
  exists path, target_path ((if absolute then [c] else []) ++ join [c] xs) [c] = Ok path /\ ref_target t self path = Err KeyErr.
Proof.
  intros P X F N A No. destruct (el_names_total_lemma t (Node []) (map Some xs) P) as [(e & T)|(pre & x & post & e1 & err & E & T & R)]; [now apply No in T|].
  assert (exists pre' x' post', xs = pre' ++ x' :: post' /\ pre = map Some pre' /\ x = Some x') as (pre' & x' & post' & E' & -> & ->).
  { apply map_eq_app in E as (pre' & r & -> & E1 & E2). destruct r as [|x' post']; [discriminate|]. cbn in E2. injection E2 as E2 E3. exists pre', x', post'. auto. }
  destruct (ref_missing t self c absolute xs pre' x' post' e1 err P X F N A E' T R) as (path & Q & S). exists path. split; [exact Q|]. rewrite S.
  apply takes_all_node in T as (q & ->); [|now exists []]. inversion R; subst; reflexivity.
Qed.
