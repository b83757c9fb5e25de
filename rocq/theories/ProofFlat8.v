(* The round trip. *)
From Verif Require Import PyBase PyBaseFacts PyList ModelMap SpecScalar ProofScalar ModelPaths SpecPaths ProofPaths8 ModelScalar ModelCompound ModelFlat SpecFlat ProofFlat ProofFlat2 ProofFlat3 ProofFlat4 ProofFlat5 ProofFlat6 ProofFlat7.

(* ---------------- locations of scalars ---------------- *)
Fixpoint leaves (e : element) : list loc :=
  match e with
  | EScalar _ _ => [[]]
  | EDict _ cp items => (match cp with Some _ => [[]] | None => [] end) ++
      (fix go (i : nat) (l : list (name * element)) : list loc :=
         match l with [] => [] | (_, u) :: r => map (fun p => p ++ [i]) (leaves u) ++ go (S i) r end) O items
  | EList _ l | EArray _ l =>
      (fix go (i : nat) (l : list element) : list loc :=
         match l with [] => [] | u :: r => map (fun p => p ++ [i]) (leaves u) ++ go (S i) r end) O l
  | EJoined _ _ l => [] ::
      (fix go (i : nat) (l : list scalar) : list loc := match l with [] => [] | _ :: r => [i] :: go (S i) r end) O l
  end.
Definition leaves_go : nat -> list element -> list loc :=
  fix go (i : nat) (l : list element) : list loc :=
    match l with [] => [] | u :: r => map (fun p => p ++ [i]) (leaves u) ++ go (S i) r end.
Definition members (e : element) : list element :=
  match e with
  | EScalar _ _ => [] | EDict _ _ items => map snd items | EList _ l | EArray _ l => l
  | EJoined _ j l => map (EScalar (j_child j)) l
  end.
Definition own_loc (e : element) : list loc := match own_text e with Some _ => [[]] | None => [] end.
Lemma members_ind (P : element -> Prop) : (forall e, (forall u, In u (members e) -> P u) -> P e) -> forall e, P e.
Proof.
  intros H. induction e as [n st|n cp l IH|n l IH|n l IH|n jd l] using element_ind'; apply H; cbn [members].
  - easy.
  - intros u I. apply in_map_iff in I as ([k u'] & <- & I). rewrite Forall_forall in IH. apply (IH _ I).
  - now apply Forall_forall.
  - now apply Forall_forall.
  - intros u I. apply in_map_iff in I as (st & <- & I). apply H. easy.
Qed.
Lemma member_members e i : member e i = nth_error (members e) i.
Proof. destruct e as [n st|n cp l|n l|n l|n jd l]; cbn; try easy; [now destruct i|..]; now rewrite nth_error_map. Qed.
Lemma leaves_members e : leaves e = own_loc e ++ leaves_go 0 (members e).
Proof.
  destruct e as [n st|n cp l|n l|n l|n jd l]; try reflexivity.
  - cbn [leaves members]. unfold own_loc. cbn [own_text]. destruct cp; f_equal; generalize O; induction l as [|[k u] l IH]; intros i; try easy; cbn [map snd leaves_go]; now rewrite IH.
  - cbn [leaves members]. unfold own_loc. cbn [own_text app]. f_equal. generalize O. induction l as [|st l IH]; intros i; [easy|]. cbn [map leaves_go leaves app]. now rewrite IH.
Qed.
Lemma node_app t p i : node_at t (p ++ [i]) = match kid t i with Some u => node_at u p | None => None end.
Proof.
  induction p as [|j p IH]; cbn [app node_at].
  - now destruct (kid t i).
  - rewrite IH. now destruct (kid t i).
Qed.
Lemma kid_member e i : kid (tree_of e) i = option_map tree_of (member e i).
Proof.
  destruct e as [n st|n cp l|n l|n l|n jd l]; cbn; try easy; rewrite nth_error_map; try easy; now destruct (nth_error l i) as [[k u]|].
Qed.
Lemma node_part e p : node_at (tree_of e) p = option_map tree_of (part e p).
Proof.
  induction p as [|i p IH]; cbn [node_at part]; [easy|]. rewrite IH. destruct (part e p) as [u|]; cbn [option_map]; [|easy]. apply kid_member.
Qed.
Lemma truth_lemma e p u : part e p = Some u -> own_text u = None ->
  (truthy (tree_of e) (Node p) = true <-> exists c, member u 0 = Some c).
Proof.
  intros H K. cbn [truthy]. rewrite node_part, H. cbn [option_map].
  destruct u as [n st|n [cp|] [|x l]|n [|x l]|n [|x l]|n jd l]; try easy; cbn; try (split; [easy|intros [c [=]]]); try (split; eauto).
Qed.
Lemma tree_of_name e : tree_name (tree_of e) = element_name e.
Proof. now destruct e. Qed.
Definition own_index (e : element) (i : nat) : list str := match e with EList _ _ => [dec_nat i] | _ => [] end.
Lemma names_app e p i u : member e i = Some u ->
  names_to (tree_of e) (p ++ [i]) = own_name (element_name e) ++ own_index e i ++ names_to (tree_of u) p.
Proof.
  intros M. assert (K : kid (tree_of e) i = Some (tree_of u)) by (rewrite kid_member, M; easy).
  induction p as [|j p IH]; cbn [app].
  - cbn [names_to node_at]. rewrite K, !tree_of_name. cbn [app]. rewrite <- app_assoc. f_equal. f_equal. destruct e; reflexivity.
  - cbn [names_to node_at]. rewrite IH, !node_app, K, <- !app_assoc. reflexivity.
Qed.
Lemma u_app e p i u : member e i = Some u -> u_at e (Node (p ++ [i])) = u_at u (Node p).
Proof. intros M. unfold u_at. now rewrite part_app, M. Qed.
Lemma cells_members e : cells e = map (under (own_name (element_name e))) (own_cell (own_text e) ++
  (fix go (i : nat) (l : list element) : list (list str * str) :=
     match l with [] => [] | u :: r => map (under (own_index e i)) (cells u) ++ go (S i) r end) O (members e)).
Proof.
  assert (U : forall l, map (under []) l = l).
  { induction l as [|[cs w] l IH]; [easy|]. cbn [map]. rewrite IH. reflexivity. }
  destruct e as [n st|n cp l|n l|n l|n jd l]; cbn [cells element_name members own_index own_text].
  - cbn. unfold under. cbn [fst snd]. now rewrite app_nil_r.
  - f_equal. replace (own_cell match cp with Some f => Some (composed f l) | None => None end)
      with (own_cell (option_map (fun f => composed f l) cp)) by now destruct cp.
    f_equal. generalize O. induction l as [|[k u] l IH]; intros i; [easy|]. cbn [flat_map map snd]. rewrite U. f_equal. apply IH.
  - reflexivity.
  - f_equal. cbn [own_cell app]. generalize O. induction l as [|u l IH]; intros i; [easy|]. cbn [flat_map]. rewrite U. f_equal. apply IH.
  - f_equal. cbn [own_cell app]. f_equal. generalize O. induction l as [|st l IH]; intros i; [easy|]. cbn [map]. rewrite U. cbn [cells app]. f_equal. apply IH.
Qed.
Lemma names_root e : names_to (tree_of e) [] = own_name (element_name e).
Proof. cbn [names_to node_at app]. now rewrite tree_of_name. Qed.
Lemma cells_leaves e : cells e = map (fun p => (names_to (tree_of e) p, u_at e (Node p))) (leaves e).
Proof.
  assert (G : forall e l i0, (forall j u, nth_error l j = Some u -> member e (i0 + j) = Some u) ->
    (forall u, In u l -> cells u = map (fun p => (names_to (tree_of u) p, u_at u (Node p))) (leaves u)) ->
    map (fun p => (names_to (tree_of e) p, u_at e (Node p))) (leaves_go i0 l) =
    map (under (own_name (element_name e)))
      ((fix go (i : nat) (l : list element) : list (list str * str) :=
          match l with [] => [] | u :: r => map (under (own_index e i)) (cells u) ++ go (S i) r end) i0 l)).
  { clear e. intros e l. induction l as [|u l IH]; intros i0 M F; [easy|]. cbn [leaves_go]. rewrite !map_app. f_equal.
    - rewrite (F u (or_introl eq_refl)), !map_map. apply map_ext. intros p. assert (Mu : member e i0 = Some u) by (rewrite <- (M O u eq_refl); f_equal; lia).
      unfold under. cbn [fst snd]. now rewrite (names_app e p i0 u Mu), (u_app e p i0 u Mu).
    - apply IH; [|intros; apply F; now right]. intros j v E. rewrite <- (M (S j) v E). f_equal. lia. }
  induction e as [e IH] using members_ind. rewrite cells_members, leaves_members, !map_app. f_equal.
  - unfold own_loc. pose proof (names_root e) as NR. destruct (own_text e) as [w|] eqn:W; [|easy]. cbn [own_cell map]. rewrite NR.
    unfold under, u_at. cbn [fst snd part]. now rewrite W, app_nil_r.
  - symmetry. apply G; [|exact IH]. intros j u E. now rewrite member_members.
Qed.
Lemma In_leaves_go i0 l p : In p (leaves_go i0 l) <-> exists j u q, nth_error l j = Some u /\ In q (leaves u) /\ p = q ++ [(i0 + j)%nat].
Proof.
  revert i0. induction l as [|u l IH]; intros i0; cbn [leaves_go].
  - split; [easy|]. intros (j & u & q & H & _). now destruct j.
  - rewrite in_app_iff, IH, in_map_iff. split.
    + intros [(q & <- & H)|(j & v & q & H1 & H2 & ->)].
      * exists O, u, q. split; [easy|]. split; [easy|]. now rewrite Nat.add_0_r.
      * exists (S j), v, q. split; [easy|]. split; [easy|]. now rewrite Nat.add_succ_r.
    + intros ([|j] & v & q & H1 & H2 & ->).
      * left. injection H1 as ->. exists q. now rewrite Nat.add_0_r.
      * right. exists j, v, q. split; [easy|]. split; [easy|]. now rewrite Nat.add_succ_r.
Qed.
Lemma In_leaves e : forall p, In p (leaves e) <-> exists u w, part e p = Some u /\ own_text u = Some w.
Proof.
  induction e as [e IH] using members_ind. intros p. rewrite leaves_members, in_app_iff, In_leaves_go. cbn [Nat.add]. split.
  - intros [I|(j & u & q & E & I & ->)].
    + unfold own_loc in I. destruct (own_text e) as [w|] eqn:W; [|easy]. destruct I as [<-|[]]. now exists e, w.
    + rewrite part_app, member_members, E. apply IH in I; [easy|]. now apply nth_error_In in E.
  - intros (u & w & P & W). destruct p as [|i p _] using rev_ind.
    + left. cbn in P. injection P as ->. unfold own_loc. rewrite W. now left.
    + right. rewrite part_app, member_members in P. destruct (nth_error (members e) i) as [v|] eqn:E; [|easy].
      exists i, v, p. split; [easy|]. split; [|easy]. apply IH; [now apply nth_error_In in E|eauto].
Qed.

(* ---------------- order among siblings ---------------- *)
Definition before (a b : loc) : Prop := forall i j r, a = i :: r -> b = j :: r -> (i < j)%nat.
Lemma FOP_app {A} (R : A -> A -> Prop) l l' : ForallOrdPairs R l -> ForallOrdPairs R l' ->
  (forall a b, In a l -> In b l' -> R a b) -> ForallOrdPairs R (l ++ l').
Proof.
  induction 1 as [|a l F _ IH]; intros H' C; [easy|]. cbn [app]. constructor.
  - apply Forall_app. split; [easy|]. apply Forall_forall. intros b I. apply C; [now left|easy].
  - apply IH; [easy|]. intros. apply C; [now right|easy].
Qed.
Lemma FOP_flat_map {A B} (R : B -> B -> Prop) (f : A -> list B) l : NoDup l -> (forall a, In a l -> ForallOrdPairs R (f a)) ->
  (forall a b x y, In a l -> In b l -> a <> b -> In x (f a) -> In y (f b) -> R x y) -> ForallOrdPairs R (flat_map f l).
Proof.
  induction 1 as [|a l NI ND IH]; intros H C; [constructor|]. cbn [flat_map]. apply FOP_app.
  - apply H. now left.
  - apply IH; [intros; apply H; now right|]. intros b b' x y I I'. apply C; now right.
  - intros x y I J. apply in_flat_map in J as (b & J & K). apply (C a b x y); try easy; [now left|now right|]. intros ->. easy.
Qed.
Lemma FOP_map {A B} (R : B -> B -> Prop) (f : A -> B) l : ForallOrdPairs (fun a b => R (f a) (f b)) l -> ForallOrdPairs R (map f l).
Proof. induction 1 as [|a l F _ IH]; cbn; constructor; [|easy]. apply Forall_map. easy. Qed.
Lemma FOP_filter {A} (R : A -> A -> Prop) p l : ForallOrdPairs R l -> ForallOrdPairs R (filter p l).
Proof.
  induction 1 as [|a l F _ IH]; cbn; [constructor|]. destruct (p a); [|easy]. constructor; [|easy].
  rewrite Forall_forall in *. intros b I. apply filter_In in I as [I _]. auto.
Qed.
Lemma FOP_impl_in {A} (R S : A -> A -> Prop) l : ForallOrdPairs R l -> (forall a b, In a l -> In b l -> R a b -> S a b) -> ForallOrdPairs S l.
Proof.
  induction 1 as [|a l F _ IH]; intros H; constructor.
  - rewrite Forall_forall in *. intros b I. apply H; [now left|now right|]. auto.
  - apply IH. intros. apply H; try (now right). easy.
Qed.
Lemma FOP_NoDup {A} (l : list A) : NoDup l -> ForallOrdPairs (fun a b => a <> b) l.
Proof. induction 1 as [|a l NI _ IH]; constructor; [|easy]. apply Forall_forall. intros b I ->. easy. Qed.
Lemma FOP_and {A} (R S : A -> A -> Prop) l : ForallOrdPairs R l -> ForallOrdPairs S l -> ForallOrdPairs (fun a b => R a b /\ S a b) l.
Proof.
  induction 1 as [|a l F _ IH]; intros H; constructor; inversion H; subst.
  - rewrite Forall_forall in *. auto.
  - auto.
Qed.
Lemma FOP_unique {A} (R : A -> A -> Prop) : (forall a b, R a b -> R b a -> False) -> forall l l',
  ForallOrdPairs R l -> ForallOrdPairs R l' -> (forall a, In a l <-> In a l') -> l = l'.
Proof.
  intros AS l l' F. revert l'. induction F as [|a l F1 F2 IH]; intros l' F' H.
  - destruct l' as [|b l']; [easy|]. exfalso. apply (H b). now left.
  - destruct F' as [|b l' F1' F2']; [exfalso; apply (H a); now left|]. rewrite Forall_forall in F1, F1'.
    assert (a = b).
    { destruct (proj1 (H a) (or_introl eq_refl)) as [E|E]; [easy|]. destruct (proj2 (H b) (or_introl eq_refl)) as [E'|E']; [easy|].
      exfalso. apply (AS a b); auto. }
    subst b. f_equal. apply IH; [easy|]. intros x. split; intros I.
    + destruct (proj1 (H x) (or_intror I)) as [<-|E]; [|easy]. exfalso. apply (AS a a); auto.
    + destruct (proj2 (H x) (or_intror I)) as [<-|E]; [|easy]. exfalso. apply (AS a a); auto.
Qed.
Lemma snoc_before p q i j : (i < j)%nat -> before (p ++ [i]) (q ++ [j]).
Proof.
  intros L a b r E E'. destruct p as [|x p], q as [|y q]; cbn in E, E'.
  - congruence.
  - injection E as -> <-. injection E' as -> E'. now destruct q.
  - injection E' as -> <-. injection E as -> E. now destruct p.
  - injection E as -> E. injection E' as -> E'. rewrite <- E' in E. apply app_inj_tail in E as [_ E]. lia.
Qed.
Definition above (a b : loc) : Prop := forall i, a <> i :: b.
Definition apart (a b : loc) : Prop := a <> b /\ before a b.
Definition ordered (a b : loc) : Prop := apart a b /\ above a b.
Lemma snoc_ordered a b i : ordered a b -> ordered (a ++ [i]) (b ++ [i]).
Proof.
  intros [[NE H] AB]. split; [|intros k E; apply (AB k); rewrite app_comm_cons in E; now apply app_inj_tail in E].
  split; [intros E; apply NE; now apply app_inj_tail in E|]. intros x y r E E'.
  destruct a as [|x' a], b as [|y' b]; cbn in E, E'.
  - easy.
  - injection E as -> <-. injection E' as -> E'. now destruct b.
  - injection E' as -> <-. injection E as -> E. now destruct a.
  - injection E as -> E. injection E' as -> E'. rewrite <- E' in E. apply app_inj_tail in E as [-> _]. now apply (H x y b).
Qed.
Lemma leaves_go_ordered i0 l : Forall (fun u => ForallOrdPairs ordered (leaves u)) l -> ForallOrdPairs ordered (leaves_go i0 l).
Proof.
  intros F. revert i0. induction F as [|u l F _ IH]; intros i0; [constructor|]. cbn [leaves_go]. apply FOP_app; [apply FOP_map|easy|].
  - eapply FOP_impl_in; [exact F|]. intros a b _ _. apply snoc_ordered.
  - intros a b I J. apply in_map_iff in I as (p & <- & I). apply In_leaves_go in J as (j & v & q & _ & _ & ->). split; [split|].
    + intros E. apply app_inj_tail in E as [_ E]. lia.
    + apply snoc_before. lia.
    + intros k E. rewrite app_comm_cons in E. apply app_inj_tail in E as [_ E]. lia.
Qed.
Lemma leaves_ordered e : ForallOrdPairs ordered (leaves e).
Proof.
  induction e as [e IH] using members_ind. rewrite leaves_members. apply FOP_app.
  - unfold own_loc. destruct (own_text e); repeat constructor.
  - apply leaves_go_ordered. now apply Forall_forall.
  - intros a b I J. unfold own_loc in I. destruct (own_text e); [|easy]. destruct I as [<-|[]].
    apply In_leaves_go in J as (j & v & q & _ & _ & ->). split; [split|].
    + now destruct q.
    + now intros x y r.
    + now intros k.
Qed.
Definition apart_elem (a b : elem) : Prop := exists p q, a = Node p /\ b = Node q /\ apart p q.
Lemma FOP_seq s n : ForallOrdPairs lt (seq s n).
Proof. revert s. induction n as [|n IH]; intros s; cbn; constructor; [|easy]. apply Forall_forall. intros x I. apply in_seq in I. lia. Qed.
Definition ordered_elem (a b : elem) : Prop := exists p q, a = Node p /\ b = Node q /\ ordered p q.
Lemma FOP_flat_map_by {A B} (Q : A -> A -> Prop) (R : B -> B -> Prop) (f : A -> list B) l : ForallOrdPairs Q l -> (forall a, In a l -> ForallOrdPairs R (f a)) ->
  (forall a b x y, In a l -> In b l -> Q a b -> In x (f a) -> In y (f b) -> R x y) -> ForallOrdPairs R (flat_map f l).
Proof.
  induction 1 as [|a l F _ IH]; intros H C; [constructor|]. cbn [flat_map]. apply FOP_app.
  - apply H. now left.
  - apply IH; [intros; apply H; now right|]. intros b b' x y I I'. apply C; now right.
  - intros x y I J. apply in_flat_map in J as (b & J & K). rewrite Forall_forall in F. apply (C a b x y); auto; [now left|now right].
Qed.
Lemma kids_apart t e : ForallOrdPairs apart_elem (kids t e).
Proof.
  assert (G : forall p n, ForallOrdPairs apart_elem (map (fun i => Node (i :: p)) (seq 0 n))).
  { intros p n. apply FOP_map. eapply FOP_impl_in; [apply FOP_seq|]. intros a b _ _ L. exists (a :: p), (b :: p). split; [easy|]. split; [easy|]. split.
    - intros [= ->]. lia.
    - intros i j r [= -> ->] [= ->]. easy. }
  destruct e as [p|p]; cbn [kids]; [|constructor]. destruct (node_at t p) as [[n|o n l|o n s l]|]; try constructor; apply G.
Qed.
Lemma apart_kids t a b x y : a <> b -> In x (kids t a) -> In y (kids t b) -> apart_elem x y.
Proof.
  intros NE I J. apply kids_spec in I as (p & i & -> & -> & _). apply kids_spec in J as (q & j & -> & -> & _).
  exists (i :: p), (j :: q). split; [easy|]. split; [easy|]. assert (p <> q) by congruence. split; [congruence|]. intros x y r [= -> ->] [= -> ->]. easy.
Qed.
Lemma generation_apart t e k : ForallOrdPairs apart_elem (generation t e k).
Proof.
  destruct k; [apply kids_apart|]. cbn [generation]. apply FOP_flat_map.
  - apply generation_NoDup.
  - intros. apply kids_apart.
  - intros a b x y _ _. apply apart_kids.
Qed.

(* ---------------- elements of a clear schema ---------------- *)
Lemma member_is_of sep s e i u : clear_schema sep s -> is_of s e -> member e i = Some u -> exists s', clear_schema sep s' /\ is_of s' u.
Proof.
  intros C O M. destruct s as [n k|n cp fs|n p z m|n p m|n jd], e as [n' st|n' cq l|n' l|n' l|n' jd' l]; try easy; cbn [member] in M.
  - destruct (nth_error l i) as [[k v]|] eqn:E; [|easy]. cbn in M. injection M as ->. apply nth_error_In in E.
    pose proof (proj1 (is_of_dict _ _ _ _) O) as (-> & _). destruct (is_of_field _ _ _ _ _ O E) as (b & f & J & _ & O').
    apply clear_dict in C as (_ & _ & _ & C). exists f. split; [apply (C b f J)|easy].
  - destruct O as [_ O]. destruct C as [_ [C _]]. exists m. split; [easy|]. rewrite Forall_forall in O. apply O. now apply nth_error_In in M.
  - destruct O as [_ O]. destruct C as [_ [C _]]. exists m. split; [easy|]. rewrite Forall_forall in O. apply O. now apply nth_error_In in M.
  - destruct O as [_ ->]. destruct C as [_ C]. destruct (nth_error l i) as [st|]; [|easy]. injection M as <-.
    exists (SScalar (j_child jd) (j_kind jd)). split; [|easy]. now split.
Qed.
Lemma part_is_of sep s e : clear_schema sep s -> is_of s e -> forall p u, part e p = Some u -> exists s', clear_schema sep s' /\ is_of s' u.
Proof.
  intros C O. induction p as [|i p IH]; intros u P; cbn [part] in P.
  - injection P as <-. now exists s.
  - destruct (part e p) as [v|] eqn:E; [|easy]. destruct (IH v eq_refl) as (s' & C' & O'). eapply member_is_of; eauto.
Qed.
Lemma is_of_clear_tree sep s e : clear_schema sep s -> is_of s e -> clear_tree sep (tree_of e).
Proof.
  intros C O. assert (P := part_is_of sep s e C O). split; [intros p n b l H; split|split; [|split]].
  - rewrite node_part in H. destruct (part e p) as [u|] eqn:E; [|easy]. destruct u as [|n' cp items| | |]; try easy. injection H as -> <- <-.
    destruct (P p _ E) as (s' & C' & O'). destruct s'; try easy. apply is_of_dict in O' as (_ & _ & ND & _). now rewrite map_map.
  - intros k c I. rewrite node_part in H. destruct (part e p) as [u|] eqn:E; [|easy]. destruct u as [|n' cp items| | |]; try easy. injection H as -> <- <-.
    destruct (P p _ E) as (s' & C' & O'). destruct s' as [|m cq fs| | |]; try easy. apply in_map_iff in I as ([k' u] & [= <- <-] & I). cbn [fst snd].
    pose proof (proj1 (is_of_dict _ _ _ _) O') as (-> & _).
    destruct (is_of_field _ _ _ _ _ O' I) as (b & f & _ & <- & Of). rewrite tree_of_name. now apply is_of_name.
  - intros p u H. rewrite node_part in H. destruct (part e p) as [v|] eqn:E; [|easy]. injection H as <-. rewrite tree_of_name.
    destruct (P p _ E) as (s' & C' & O'). rewrite (is_of_name _ _ O'). now apply clear_name_of in C'.
  - intros p n b l k c H I. rewrite node_part in H. destruct (part e p) as [u|] eqn:E; [|easy]. destruct u as [|n' cp items| | |]; try easy. injection H as -> <- <-.
    destruct (P p _ E) as (s' & C' & O'). destruct s' as [|m cq fs| | |]; try easy. apply in_map_iff in I as ([k' u] & [= <- <-] & I).
    pose proof (proj1 (is_of_dict _ _ _ _) O') as (-> & _).
    destruct (is_of_field _ _ _ _ _ O' I) as (b & f & J & <- & Of). apply clear_dict in C' as (_ & _ & _ & C'). apply (C' b f J).
  - intros p n b l c H I. rewrite node_part in H. destruct (part e p) as [u|] eqn:E; [|easy]. destruct u as [| | |n' items|n' jd items]; try easy; injection H as -> <- <-.
    2:{ apply in_map_iff in I as (u & <- & I). eauto. }
    destruct (P p _ E) as (s' & C' & O'). destruct s' as [| | |m pr mem|]; try easy. apply in_map_iff in I as (u & <- & I).
    destruct C' as [_ [_ C']]. destruct O' as [_ O']. rewrite Forall_forall in O'. specialize (O' u I).
    destruct mem, u; try easy. cbn. eauto.
Qed.

(* ---------------- the flattened pairs, key by key ---------------- *)
Lemma cells_named c r s e : clear_schema (c :: r) s -> shows s -> is_of s e -> forall cs u, In (cs, u) (cells e) -> cs <> [].
Proof.
  intros C R O cs u I. pose proof (is_of_name _ _ O) as E. destruct s as [n k|n cp fs|n p z m|n p m|n jd], e as [n' st|n' cq l|n' l|n' l|n' jd' l]; try easy; cbn in E; subst n'.
  - cbn in I. destruct I as [[= <- _]|[]]. now destruct n.
  - apply In_under in I as (cs' & -> & I). intros F.
    apply clear_dict in C as (_ & _ & _ & C). apply in_app_iff in I as [I|I].
    { rewrite (own_cell_nil _ _ _ I) in *. apply app_eq_nil in F as [F _]. apply is_of_dict in O as (_ & -> & _). destruct cp; [|easy]. now destruct n. }
    apply app_eq_nil in F as [_ ->]. apply (dict_cells_head _ _ _ _ _ O) in I as (? & ? & ? & ? & ? & ? & _ & _ & _ & _ & _ & _ & [=]). intros b f J. apply (C b f J).
  - change (In (cs, u) (map (under (own_name n)) (list_cells 0 l))) in I.
    apply In_under in I as (cs' & -> & I). intros F. apply app_eq_nil in F as [_ ->]. now apply In_list_cells in I as (? & ? & ? & _ & [=] & _).
  - apply In_under in I as (cs' & -> & I). intros F. apply app_eq_nil in F as [F _]. now destruct n.
  - apply In_under in I as (cs' & -> & I). intros F. apply app_eq_nil in F as [F _]. now destruct n.
Qed.
Lemma values_map k (l : list elem) (f g : elem -> str) :
  values (Some k) (as_flat (map (fun x => (f x, g x)) l)) = map (fun x => VText (g x)) (filter (fun x => str_eqb (f x) k) l).
Proof.
  unfold values, as_flat. rewrite map_map. cbn [fst snd]. induction l as [|x l IH]; [easy|]. cbn [map flat_map filter fst snd]. rewrite IH.
  change (name_eqb (Some (f x)) (Some k)) with (str_eqb (f x) k). now destruct (str_eqb (f x) k).
Qed.
Lemma values_none l : values None (as_flat l) = [].
Proof. unfold values, as_flat. rewrite flat_map_concat_map, map_map. induction l; [easy|]. cbn. easy. Qed.
Lemma vals_map sep k (l : list loc) (f : loc -> list str) (g : loc -> str) :
  vals sep false k (map (fun x => (f x, g x)) l) = map (fun x => VText (g x)) (filter (fun x => name_eqb (nm sep (f x)) k) l).
Proof.
  unfold vals. induction l as [|x l IH]; [easy|]. cbn [map flat_map filter fst snd]. rewrite IH. unfold hidden. cbn [andb negb]. rewrite andb_true_r.
  now destruct (name_eqb (nm sep (f x)) k).
Qed.
Definition sib (a b : elem) : Prop :=
  (exists i j r, a = Node (i :: r) /\ b = Node (j :: r) /\ (i < j)%nat) \/ (exists i r, a = Node r /\ b = Node (i :: r)).
Lemma sib_asym a b : sib a b -> sib b a -> False.
Proof.
  assert (X : forall (i : nat) r, r = i :: r -> False).
  { intros i r E. apply (f_equal (@List.length nat)) in E. cbn in E. lia. }
  intros [(i & j & r & -> & -> & H)|(i & r & -> & ->)] [(i' & j' & r' & E1 & E2 & H')|(i' & r' & E1 & E2)].
  - injection E1 as -> ->. injection E2 as ->. lia.
  - injection E1 as <-. injection E2 as _ E2. now apply X in E2.
  - injection E1 as -> ->. injection E2 as E2. now apply X in E2.
  - injection E1 as <-. injection E2 as E2. apply (f_equal (@List.length nat)) in E2. cbn in E2. lia.
Qed.
Lemma round_deep sep s e fl : separator sep -> clear_schema sep s -> shows s -> is_of s e -> kept false s e ->
  flattens (tree_of e) (text_at e) true (Node []) sep (u_at e) fl ->
  exists e', set_flat s sep (fresh s) (as_flat fl) = (e', Ok tt) /\ same e e'.
Proof.
  intros Sp C R O K F. pose proof Sp as (c & r & -> & D).
  assert (NK : ~ keyless s) by (intros (f & fs & ->); now apply R).
  apply (back_lemma c r s D C NK false e); [easy|easy|].
  destruct (flatten_lemma (tree_of e) (text_at e) true (Node []) (c :: r) (u_at e)) as (n & E & F').
  rewrite (flattens_fun _ _ _ _ _ _ _ _ F F'). clear F F' fl.
  assert (N : forall p, In p (leaves e) -> names_to (tree_of e) p <> []).
  { intros p I. apply (cells_named c r s e C R O _ (u_at e (Node p))). rewrite cells_leaves. apply in_map_iff. now exists p. }
  intros k _. rewrite cells_leaves, vals_map. destruct k as [k|].
  2:{ rewrite values_none. symmetry. apply map_eq_nil with (f := fun x => x). rewrite map_id.
      assert (Z : filter (fun x => name_eqb (nm (c :: r) (names_to (tree_of e) x)) None) (leaves e) = []).
      { revert N. generalize (leaves e) as L. induction L as [|p L IH]; intros N; [easy|]. cbn [filter].
        rewrite name_eqb_neq; [apply IH; intros; apply N; now right|]. specialize (N p (or_introl eq_refl)). now destruct (names_to (tree_of e) p). }
      now rewrite Z. }
  rewrite values_map. set (Lb := filter _ (filter _ _)). set (Ld := filter _ (leaves e)).
  assert (X : Lb = map Node Ld); [|now rewrite X, map_map].
  assert (InG : forall x, In x (Node [] :: generations (tree_of e) (Node []) n) <-> exists p, x = Node p /\ node_at (tree_of e) p <> None).
  { intros x. cbn [In]. unfold generations. rewrite in_flat_map. split.
    - intros [<-|(j & J & I)]; [now exists []|]. apply generation_spec in I as (p & a & [= <-] & -> & _ & I). now exists (a ++ []).
    - intros (p & -> & H). destruct p as [|i p]; [now left|right]. exists (List.length p). split.
      + apply in_seq. split; [lia|]. cbn. destruct (le_lt_dec n (List.length p)) as [L|L]; [|easy]. exfalso.
        assert (In (Node (skipn (List.length p - n) (i :: p))) (generation (tree_of e) (Node []) n)); [|now rewrite E in H0].
        apply generation_spec. exists [], (skipn (List.length p - n) (i :: p)). split; [easy|]. rewrite app_nil_r. split; [easy|]. split.
        * rewrite skipn_length. cbn [List.length]. lia.
        * intros Q. apply H. rewrite <- (firstn_skipn (List.length p - n) (i :: p)).
          generalize (firstn (List.length p - n) (i :: p)). induction l as [|y l IH]; [easy|]. cbn [app node_at]. now rewrite IH.
      + apply generation_spec. exists [], (i :: p). rewrite app_nil_r. easy. }
  assert (NmE : forall p, In p (leaves e) -> flattened_name (tree_of e) (Node p) (c :: r) = join (c :: r) (names_to (tree_of e) p)).
  { intros p I. apply name_lemma. apply In_leaves in I as (m & st & I & _). rewrite node_part, I. easy. }
  assert (Sc : forall p, text_at e (Node p) = true <-> In p (leaves e)).
  { intros p. rewrite In_leaves. cbn. destruct (part e p) as [u|]; [|split; [easy|intros (? & ? & [=] & _)]]. destruct (own_text u) as [w|] eqn:W; split; try easy; eauto.
    intros (? & ? & [= <-] & X). congruence. }
  assert (Mem : forall x, In x Lb <-> In x (map Node Ld)).
  { intros x. unfold Lb, Ld. rewrite !filter_In, InG, in_map_iff. split.
    - intros [[(p & -> & _) S1] S2]. apply Sc in S1. exists p. split; [easy|]. apply filter_In. split; [easy|].
      apply str_eqb_eq in S2. rewrite NmE in S2 by easy. apply name_eqb_eq. specialize (N p S1). destruct (names_to (tree_of e) p); [easy|]. now rewrite <- S2.
    - intros (p & <- & I). apply filter_In in I as [I H]. split; [split|].
      + exists p. split; [easy|]. apply In_leaves in I as (m & st & I & _). now rewrite node_part, I.
      + now apply Sc.
      + apply str_eqb_eq. rewrite NmE by easy. apply name_eqb_eq in H. specialize (N p I). destruct (names_to (tree_of e) p); [easy|]. now injection H as <-. }
  assert (Same : forall a b, In a Lb -> In b Lb -> ordered_elem a b -> sib a b).
  { intros a b Ia Ib (p & q & -> & -> & (NE & B) & AB). unfold Lb in Ia, Ib. rewrite !filter_In in Ia, Ib. destruct Ia as [[_ S1] E1], Ib as [[_ S2] E2].
    apply Sc, In_leaves in S1 as (m1 & st1 & P1 & _). apply Sc, In_leaves in S2 as (m2 & st2 & P2 & _).
    apply str_eqb_eq in E1, E2.
    destruct (distinct_nodes_lemma (tree_of e) (c :: r) p q) as [Q|[(i & j & x & n' & b' & l & -> & -> & _)|[(i & n' & b' & l & -> & _)|(i & n' & b' & l & -> & _)]]]; try easy.
    - now apply (is_of_clear_tree _ s).
    - now rewrite node_part, P1.
    - now rewrite node_part, P2.
    - congruence.
    - left. exists i, j, x. split; [easy|]. split; [easy|]. now apply (B i j x).
    - right. now exists i, p.
    - now destruct (AB i). }
  apply (FOP_unique sib sib_asym).
  - eapply FOP_impl_in; [|exact Same]. unfold Lb. apply FOP_filter, FOP_filter. constructor.
    + apply Forall_forall. intros x I. unfold generations in I. apply in_flat_map in I as (j & _ & I).
      apply generation_spec in I as (p & a & [= <-] & -> & L & _). rewrite app_nil_r. exists [], a. split; [easy|]. split; [easy|]. split; [split|].
      * intros <-. easy.
      * intros i i' q [=].
      * intros i [=].
    + unfold generations. apply (FOP_flat_map_by lt); [apply FOP_seq|..].
      * intros i _. eapply FOP_impl_in; [apply generation_apart|]. intros a b Ia Ib (p & q & -> & -> & H). exists p, q. split; [easy|]. split; [easy|]. split; [easy|].
        apply generation_spec in Ia as (p' & a & [= <-] & Ea & La & _). apply generation_spec in Ib as (q' & b & [= <-] & Eb & Lb' & _).
        rewrite app_nil_r in Ea, Eb. injection Ea as ->. injection Eb as ->. intros x ->. cbn in La. lia.
      * intros i j x y _ _ NE I J. apply generation_spec in I as (p & a & [= <-] & -> & L & _). apply generation_spec in J as (q & b & [= <-] & -> & L' & _).
        rewrite !app_nil_r. exists a, b. split; [easy|]. split; [easy|]. split; [split|].
        -- intros ->. lia.
        -- intros x y q -> ->. cbn in L, L'. lia.
        -- intros x ->. cbn in L. lia.
  - eapply FOP_impl_in; [|intros a b Ia Ib; apply Same; now apply Mem]. apply FOP_map. unfold Ld. apply FOP_filter.
    eapply FOP_impl_in; [apply leaves_ordered|]. intros a b _ _ H. now exists a, b.
  - exact Mem.
Qed.
Lemma round_lemma sep s e fl : separator sep -> clear_schema sep s -> shows s -> is_of s e -> kept false s e ->
  flattens (tree_of e) (text_at e) (children_flattenable e) (Node []) sep (u_at e) fl ->
  exists e', set_flat s sep (fresh s) (as_flat fl) = (e', Ok tt) /\ same e e'.
Proof.
  intros Sp C R O K F. destruct e as [n st|n cp l|n l|n l|n jd l]; try exact (round_deep sep s _ fl Sp C R O K F).
  destruct s as [| | | |n' jd']; try easy. destruct O as [-> ->].
  destruct (flatten_lemma (tree_of (EJoined n' jd' l)) (text_at (EJoined n' jd' l)) false (Node []) sep (u_at (EJoined n' jd' l))) as (m & E & F').
  rewrite (flattens_fun _ _ _ _ _ _ _ _ F F'). apply (joined_back sep n' jd' l false _ K).
  cbn [filter text_at part own_text map]. rewrite name_lemma by easy. rewrite names_root. cbn [element_name u_at part own_text].
  destruct n' as [x|]; [|now destruct (R eq_refl)]. cbn [own_name join as_flat map fst snd values flat_map]. rewrite name_eqb_refl. cbn [cells map under own_name app fst snd]. unfold vals. cbn [flat_map fst snd nm join]. now rewrite name_eqb_refl.
Qed.
Lemma flatten_back_lemma sep s e : separator sep -> clear_schema sep s -> shows s -> is_of s e -> kept false s e ->
  exists f fl, (forall fuel, (f <= fuel)%nat -> flatten_element fuel e sep = Ok fl)
  /\ exists e', set_flat s sep (fresh s) (as_flat fl) = (e', Ok tt) /\ same e e'.
Proof.
  intros Sp C R O K.
  destruct (flatten_lemma (tree_of e) (text_at e) (children_flattenable e) (Node []) sep (u_at e)) as (n & _ & F).
  pose proof F as [f Hf]. exists f. eexists. split; [exact Hf|]. exact (round_lemma sep s e _ Sp C R O K F).
Qed.
Lemma flatten_element_lemma e sep : exists n f, generation (tree_of e) (Node []) n = []
  /\ forall fuel, (f <= fuel)%nat -> flatten_element fuel e sep =
       Ok (map (fun x => (flattened_name (tree_of e) x sep, u_at e x))
               (filter (text_at e) (Node [] :: if children_flattenable e then generations (tree_of e) (Node []) n else []))).
Proof.
  destruct (flatten_lemma (tree_of e) (text_at e) (children_flattenable e) (Node []) sep (u_at e)) as (n & E & f & F).
  exists n, f. split; [exact E|exact F].
Qed.
