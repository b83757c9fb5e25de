(* Reading flat pairs back: from agreeing pairs to the same element. *)
From Coq Require Import Permutation Sorted.
From Verif Require Import PyBase PyBaseFacts PyList ModelMap SpecScalar ProofScalar ModelPaths SpecPaths ModelScalar ModelCompound ModelFlat SpecFlat ProofFlat ProofFlat2 ProofFlat3 ProofFlat4.

(* ---------------- what an element shows ---------------- *)
Definition under (a : list str) (p : list str * str) : list str * str := (a ++ fst p, snd p).
Definition own_cell (o : option str) : list (list str * str) := match o with Some w => [([], w)] | None => [] end.
Fixpoint cells (e : element) : list (list str * str) :=
  match e with
  | EScalar n st => [(own_name n, s_u st)]
  | EDict n cq items => map (under (own_name n))
      (own_cell (option_map (fun f => composed f items) cq) ++ flat_map (fun kv => cells (snd kv)) items)
  | EList n l => map (under (own_name n))
      ((fix go (i : nat) (l : list element) : list (list str * str) :=
          match l with [] => [] | u :: r => map (under [dec_nat i]) (cells u) ++ go (S i) r end) O l)
  | EArray n l => map (under (own_name n)) (flat_map cells l)
  | EJoined n j l => map (under (own_name n)) (([], joined_value (j_glue j) l) :: map (fun st => (own_name (j_child j), s_u st)) l)
  end.
Definition list_cells : nat -> list element -> list (list str * str) :=
  fix go (i : nat) (l : list element) : list (list str * str) :=
    match l with [] => [] | u :: r => map (under [dec_nat i]) (cells u) ++ go (S i) r end.
Definition nm (sep : str) (cs : list str) : name := match cs with [] => None | _ => Some (join sep cs) end.
Definition values (k : name) (ps : flat_pairs) : list pyval :=
  flat_map (fun p => if name_eqb (fst p) k then [snd p] else []) ps.
Definition hidden (np : bool) (u : str) : bool := np && str_eqb u [].
Definition vals (sep : str) (np : bool) (k : name) (l : list (list str * str)) : list pyval :=
  flat_map (fun p => if name_eqb (nm sep (fst p)) k && negb (hidden np (snd p)) then [VText (snd p)] else []) l.
Definition rel (sep : str) (s : schema) (k : name) : Prop := match k with None => True | Some x => matters sep s x end.
Definition agree (sep : str) (np : bool) (s : schema) (ps : flat_pairs) (e : element) : Prop :=
  forall k, rel sep s k -> values k ps = vals sep np k (cells e).

Lemma name_eqb_refl a : name_eqb a a = true.
Proof. now apply name_eqb_eq. Qed.
Lemma name_eqb_neq a b : a <> b -> name_eqb a b = false.
Proof. intros N. apply not_true_is_false. intros E. apply N. now apply name_eqb_eq. Qed.
Lemma In_values k ps v : In v (values k ps) <-> In (k, v) ps.
Proof.
  unfold values. rewrite in_flat_map. split.
  - intros ([k' v'] & I & H). cbn [fst snd] in H. destruct (name_eqb k' k) eqn:E; [|easy]. apply name_eqb_eq in E. destruct H as [<-|[]]. now subst.
  - intros I. exists (k, v). split; [easy|]. cbn [fst snd]. rewrite name_eqb_refl. now left.
Qed.
Lemma In_vals sep np k l v : In v (vals sep np k l) <-> exists cs u, In (cs, u) l /\ nm sep cs = k /\ hidden np u = false /\ v = VText u.
Proof.
  unfold vals. rewrite in_flat_map. split.
  - intros ([cs u] & I & H). cbn [fst snd] in H. destruct (name_eqb (nm sep cs) k) eqn:E; [|easy]. apply name_eqb_eq in E.
    destruct (hidden np u) eqn:B; cbn in H; [easy|]. destruct H as [<-|[]]. now exists cs, u.
  - intros (cs & u & I & <- & B & ->). exists (cs, u). split; [easy|]. cbn [fst snd]. rewrite name_eqb_refl, B. now left.
Qed.
Lemma vals_none sep np k l : (forall cs u, In (cs, u) l -> nm sep cs <> k) -> vals sep np k l = [].
Proof.
  intros H. destruct (vals sep np k l) as [|v r] eqn:E; [easy|]. assert (I : In v (vals sep np k l)) by (rewrite E; now left).
  apply In_vals in I as (cs & u & I & X & _). now apply H in I.
Qed.
Lemma values_none k ps : (forall v, ~ In (k, v) ps) -> values k ps = [].
Proof.
  intros H. destruct (values k ps) as [|v r] eqn:E; [easy|]. exfalso. apply (H v), In_values. rewrite E. now left.
Qed.
Lemma values_nil k ps v : values k ps = [] -> ~ In (k, v) ps.
Proof. intros E I. apply In_values in I. now rewrite E in I. Qed.
Lemma vals_app sep np k l l' : vals sep np k (l ++ l') = vals sep np k l ++ vals sep np k l'.
Proof. unfold vals. now rewrite flat_map_app. Qed.
Lemma vals_flat_map {A} sep np k (f : A -> list (list str * str)) l :
  vals sep np k (flat_map f l) = flat_map (fun a => vals sep np k (f a)) l.
Proof. induction l as [|a l IH]; [easy|]. cbn [flat_map]. now rewrite vals_app, IH. Qed.
Lemma vals_under sep np a k k' l : (forall cs u, In (cs, u) l -> nm sep (a ++ cs) = k <-> nm sep cs = k') ->
  vals sep np k (map (under a) l) = vals sep np k' l.
Proof.
  intros H. induction l as [|[cs u] l IH]; [easy|]. unfold vals. cbn [map flat_map under fst snd]. fold (vals sep np k (map (under a) l)). fold (vals sep np k' l).
  rewrite IH by (intros; apply (H _ u0); now right). f_equal.
  assert (X : name_eqb (nm sep (a ++ cs)) k = name_eqb (nm sep cs) k').
  { apply eq_true_iff_eq. rewrite !name_eqb_eq. apply (H cs u). now left. }
  now rewrite X.
Qed.
Lemma nm_cons sep x cs : nm sep (x :: cs) = Some (x ++ match cs with [] => [] | _ => sep ++ join sep cs end).
Proof. destruct cs as [|y cs]; cbn [nm]; [cbn [join]; now rewrite app_nil_r|]. now rewrite join_cons. Qed.
Lemma nm_some sep cs : cs <> [] -> nm sep cs = Some (join sep cs).
Proof. now destruct cs. Qed.
Lemma nm_inj c r l l' : good c l -> good c l' -> nm (c :: r) l = nm (c :: r) l' -> l = l'.
Proof.
  intros G G' E. destruct l as [|x l], l' as [|y l']; try easy. rewrite !nm_some in E by easy. injection E as E. now apply (join_inj c r).
Qed.
Lemma join_nonempty c sep x cs : good c (x :: cs) -> join sep (x :: cs) <> [].
Proof.
  intros G. apply Forall_cons_iff in G as [[N _] _]. destruct cs as [|y cs]; [exact N|]. rewrite join_cons by easy. now destruct x.
Qed.

(* ---------------- names of cells ---------------- *)
Lemma clear_dict {cp} sep n fs : clear_schema sep (SDict n cp fs) <->
  clear_name sep n /\ NoDup (map fname fs)
  /\ (forall f g x y, In (false, f) fs -> In g fs -> schema_name f = Some x -> schema_name (snd g) = Some (x ++ y) -> y = [])
  /\ forall b f, In (b, f) fs -> schema_name f <> None /\ clear_schema sep f.
Proof.
  cbn [clear_schema schema_name]. apply and_iff_compat_l. unfold fname. apply and_iff_compat_l, and_iff_compat_l.
  induction fs as [|[b f] fs IH]; cbn; [easy|]. rewrite IH. split.
  - intros (H1 & H2 & H3) b' g [[= <- <-]|G]; eauto.
  - intros H. split; [apply (H b f); now left|]. split; [apply (H b f); now left|]. intros. eapply H. right. eauto.
Qed.
Lemma clear_name_of sep s : clear_schema sep s -> clear_name sep (schema_name s).
Proof. destruct s; cbn [clear_schema]; now intros [H _]. Qed.
Lemma clear_own c r n : clear_name (c :: r) n -> good c (own_name n).
Proof.
  intros H. destruct n as [x|]; [|constructor]. destruct (H x eq_refl) as (H1 & H2 & _). repeat constructor; [easy|]. now apply (H2 c r).
Qed.
Lemma In_list_cells i l cs u : In (cs, u) (list_cells i l) <->
  exists j e cs', nth_error l j = Some e /\ cs = dec_nat (i + j) :: cs' /\ In (cs', u) (cells e).
Proof.
  revert i. induction l as [|e l IH]; intros i; cbn [list_cells].
  - split; [easy|]. intros (j & e & cs' & H & _). now destruct j.
  - rewrite in_app_iff, IH. split.
    + intros [H|(j & e' & cs' & H1 & H2 & H3)].
      * apply in_map_iff in H as ([cs' u'] & [= <- <-] & I). exists O, e, cs'. split; [easy|]. split; [|easy]. now rewrite Nat.add_0_r.
      * exists (S j), e', cs'. split; [easy|]. split; [|easy]. now rewrite Nat.add_succ_r.
    + intros ([|j] & e' & cs' & H1 & H2 & H3).
      * left. injection H1 as <-. rewrite Nat.add_0_r in H2. subst. apply in_map_iff. exists (cs', u). easy.
      * right. exists j, e', cs'. split; [easy|]. split; [|easy]. now rewrite Nat.add_succ_r in H2.
Qed.
Lemma In_under a cs u l : In (cs, u) (map (under a) l) <-> exists cs', cs = a ++ cs' /\ In (cs', u) l.
Proof.
  rewrite in_map_iff. split.
  - intros ([cs' u'] & [= <- <-] & I). now exists cs'.
  - intros (cs' & -> & I). exists (cs', u). easy.
Qed.
Lemma In_dict_cells items cs u : In (cs, u) (flat_map (fun kv : name * element => cells (snd kv)) items) <->
  exists k e, In (k, e) items /\ In (cs, u) (cells e).
Proof.
  rewrite in_flat_map. split.
  - intros ([k e] & I & H). now exists k, e.
  - intros (k & e & I & H). now exists (k, e).
Qed.
Lemma is_of_field {cp} {cq} fs n items k e : is_of (SDict n cp fs) (EDict n cq items) -> In (k, e) items ->
  exists b f, In (b, f) fs /\ schema_name f = k /\ is_of f e.
Proof.
  intros H I. apply is_of_dict in H as (_ & _ & _ & K & F).
  assert (J : In k (map fst items)) by (apply in_map_iff; now exists (k, e)). apply K, in_map_iff in J as ([b f] & E & J).
  unfold fname in E. cbn [snd] in E. subst k. exists b, f. destruct (F b f J) as [F1 _]. auto.
Qed.
Lemma is_of_name s e : is_of s e -> element_name e = schema_name s.
Proof. destruct s, e; cbn [is_of]; try easy; now intros [-> _]. Qed.
Lemma own_cell_nil o cs u : In (cs, u) (own_cell o) -> cs = [].
Proof. destruct o; [|easy]. now intros [[= <- _]|[]]. Qed.
Lemma cells_good c r s : clear_schema (c :: r) s -> is_digit c = false -> forall e, is_of s e -> forall cs u, In (cs, u) (cells e) -> good c cs.
Proof.
  intros C D. induction s as [n k|n cp fs IH|n p z m IH|n p m IH|n jd] using schema_ind'; intros e O cs u I.
  - destruct e as [n' st|n' cq l|n' l|n' l|n' jd' l]; try easy. cbn in O. subst n'. destruct I as [[= <- <-]|[]].
    apply (clear_own c r). now apply clear_name_of in C.
  - destruct e as [n' st|n' cq l|n' l|n' l|n' jd' l]; try easy. pose proof (proj1 (is_of_dict _ _ _ _) O) as (-> & _).
    apply In_under in I as (cs' & -> & I). apply Forall_app. split.
    { apply (clear_own c r). now apply clear_name_of in C. }
    apply in_app_iff in I as [I|I]; [now rewrite (own_cell_nil _ _ _ I)|]. apply In_dict_cells in I as (k & e & I & H).
    { destruct (is_of_field _ _ _ _ _ O I) as (b & f & J & _ & O'). rewrite Forall_forall in IH. specialize (IH _ J). cbn [snd] in IH.
      apply clear_dict in C as (_ & _ & _ & C). apply (IH (proj2 (C b f J)) e O' cs' u H). }
  - destruct e as [n' st|n' cq l|n' l|n' l|n' jd' l]; try easy. cbn in O. destruct O as [-> O]. change (In (cs, u) (map (under (own_name n)) (list_cells 0 l))) in I.
    apply In_under in I as (cs' & -> & I). apply In_list_cells in I as (j & e & cs2 & E & -> & I). apply Forall_app. split.
    + apply (clear_own c r). now apply clear_name_of in C.
    + constructor; [now apply dec_nat_good|]. rewrite Forall_forall in O. apply nth_error_In in E.
      cbn [clear_schema] in C. destruct C as [_ [C _]]. apply (IH C e (O _ E) cs2 u I).
  - destruct e as [n' st|n' cq l|n' l|n' l|n' jd' l]; try easy. cbn in O. destruct O as [-> O].
    apply In_under in I as (cs' & -> & I). apply in_flat_map in I as (e & E & I). apply Forall_app. split.
    + apply (clear_own c r). now apply clear_name_of in C.
    + rewrite Forall_forall in O. cbn [clear_schema] in C. destruct C as [_ [C _]]. apply (IH C e (O _ E) cs' u I).
  - destruct e as [n' st|n' cq l|n' l|n' l|n' jd' l]; try easy. cbn [is_of] in O. destruct O as [-> ->].
    cbn [clear_schema schema_name] in C. destruct C as [C C']. apply In_under in I as (cs' & -> & I). apply Forall_app. split.
    + now apply (clear_own c r).
    + destruct I as [[= <- _]|I]; [constructor|]. apply in_map_iff in I as (st & [= <- _] & _). now apply (clear_own c r).
Qed.
Lemma cells_head s e x cs u : is_of s e -> schema_name s = Some x -> In (cs, u) (cells e) -> exists cs', cs = x :: cs'.
Proof.
  intros O N I. apply is_of_name in O. rewrite N in O. destruct e as [n st|n cp l|n l|n l|n jd l]; cbn in O; subst n; cbn [cells own_name] in I.
  - destruct I as [[= <- _]|[]]. now exists [].
  - apply In_under in I as (cs' & -> & _). now exists cs'.
  - apply In_under in I as (cs' & -> & _). now exists cs'.
  - apply In_under in I as (cs' & -> & _). now exists cs'.
  - apply In_under in I as (cs' & -> & _). now exists cs'.
Qed.
Lemma dict_cells_head {cp} {cq} fs n items cs u : is_of (SDict n cp fs) (EDict n cq items) -> (forall b f, In (b, f) fs -> schema_name f <> None) ->
  In (cs, u) (flat_map (fun kv : name * element => cells (snd kv)) items) ->
  exists k e b f x cs', In (k, e) items /\ In (b, f) fs /\ k = Some x /\ schema_name f = Some x /\ is_of f e /\ In (cs, u) (cells e) /\ cs = x :: cs'.
Proof.
  intros O N I. apply In_dict_cells in I as (k & e & I & H). destruct (is_of_field _ _ _ _ _ O I) as (b & f & J & E & O').
  specialize (N b f J). destruct (schema_name f) as [x|] eqn:F; [|easy]. destruct (cells_head f e x cs u O' F H) as [cs' ->].
  exists k, e, b, f, x, cs'. now subst.
Qed.

(* ---------------- scalars ---------------- *)
Lemma flat_first_values n ps : flat_first n ps = hd_error (values n ps).
Proof.
  induction ps as [|[k v] ps IH]; [easy|]. cbn [flat_first values flat_map fst snd]. destruct (name_eqb k n); [easy|]. exact IH.
Qed.
Lemma hidden_iff np u : hidden np u = true <-> np = true /\ u = [].
Proof. unfold hidden. rewrite andb_true_iff, str_eqb_eq. easy. Qed.
Lemma nm_own sep n : nm sep (own_name n) = n.
Proof. destruct n as [x|]; [|easy]. reflexivity. Qed.
Lemma scalar_back sep n k st np ps : reads_back np k st -> values n ps = vals sep np n (cells (EScalar n st)) ->
  forall sep', exists e', set_flat (SScalar n k) sep' (fresh (SScalar n k)) ps = (e', Ok tt) /\ same (EScalar n st) e'.
Proof.
  intros K V sep'. cbn [fresh set_flat]. rewrite flat_first_values, V. unfold vals. cbn [cells flat_map fst snd]. rewrite nm_own, name_eqb_refl.
  unfold reads_back in K. fold (hidden np (s_u st)) in K. cbn [andb]. destruct (hidden np (s_u st)) eqn:H; cbn [negb app hd_error].
  - eexists. split; [reflexivity|]. apply hidden_iff in H as [_ H]. constructor; [now rewrite K|now rewrite H].
  - destruct K as (raw & b & E). change (Scalar None (s_value blank) (s_u blank)) with blank. rewrite E. eexists. split; [reflexivity|]. now constructor.
Qed.

Lemma joined_back sep n j l np ps : splits_back np j l -> hd_error (values n ps) = hd_error (vals sep np n (cells (EJoined n j l))) ->
  forall sep', exists e', set_flat (SJoined n j) sep' (fresh (SJoined n j)) ps = (e', Ok tt) /\ same (EJoined n j l) e'.
Proof.
  intros K V sep'. cbn [fresh set_flat]. rewrite flat_first_values, V. unfold vals. cbn [cells map under flat_map fst snd]. rewrite app_nil_r, nm_own, name_eqb_refl.
  unfold splits_back in K. cbn zeta in K. fold (hidden np (joined_value (j_glue j) l)) in K. cbn [andb].
  destruct (hidden np (joined_value (j_glue j) l)) eqn:H; cbn [negb app hd_error].
  - subst l. cbn [map flat_map hd_error]. eexists. split; [reflexivity|]. constructor. constructor.
  - destruct K as (l' & b & E & F). cbn [joined_input]. rewrite E. eexists. split; [reflexivity|]. now constructor.
Qed.

(* ---------------- mappings ---------------- *)
Lemma values_stripped pre r ps : values (Some r) (stripped pre ps) = values (Some (pre ++ r)) ps.
Proof.
  induction ps as [|[[k|] v] ps IH]; [easy| |exact IH]. unfold stripped. cbn [flat_map fst snd]. fold (stripped pre ps).
  cbn [values flat_map fst snd]. fold (values (Some (pre ++ r)) ps). destruct (starts_with pre k) eqn:E.
  - apply starts_with_iff in E as [t ->]. rewrite skipn_app_len. cbn [app values flat_map fst snd]. fold (values (Some r) (stripped pre ps)). rewrite IH.
    f_equal. assert (X : name_eqb (Some t) (Some r) = name_eqb (Some (pre ++ t)) (Some (pre ++ r))); [|now rewrite X].
    apply eq_true_iff_eq. rewrite !name_eqb_eq. split; [now intros [= ->]|]. intros [= E]. now apply app_inv_head in E as ->.
  - cbn [app]. rewrite IH. rewrite name_eqb_neq; [easy|]. intros [= ->]. now rewrite starts_with_app in E.
Qed.
Lemma values_starting x r ps : values (Some r) (starting x ps) = if starts_with x r then values (Some r) ps else [].
Proof.
  induction ps as [|[[k|] v] ps IH]; [now destruct (starts_with x r)| |exact IH].
  unfold starting. cbn [filter fst snd]. fold (starting x ps).
  cbn [values flat_map fst snd]. fold (values (Some r) ps). destruct (name_eqb (Some k) (Some r)) eqn:E.
  - apply name_eqb_eq in E. injection E as ->. destruct (starts_with x r); [|exact IH].
    cbn [values flat_map fst snd]. rewrite name_eqb_refl. fold (values (Some r) (starting x ps)). now rewrite IH.
  - destruct (starts_with x k); [|exact IH]. cbn [values flat_map fst snd]. rewrite E. fold (values (Some r) (starting x ps)). exact IH.
Qed.
Lemma flat_map_only {A} (F : element -> list A) k (items : list (name * element)) : NoDup (map fst items) ->
  (forall k' e, In (k', e) items -> k' <> k -> F e = []) ->
  flat_map (fun kv => F (snd kv)) items = match aget name_eqb k items with Some u => F u | None => [] end.
Proof.
  induction items as [|[a e] items IH]; intros ND H; [easy|]. cbn [map] in ND. apply NoDup_cons_iff in ND as [NI ND].
  cbn [flat_map snd aget]. destruct (name_eqb k a) eqn:E.
  - apply name_eqb_eq in E. subst a. assert (X : flat_map (fun kv : name * element => F (snd kv)) items = []).
    { rewrite IH; [|easy|intros k' e' I' N'; apply (H k' e'); [now right|easy]].
      assert (Y : aget name_eqb k items = None) by (now apply (aget_None name_eqb name_eqb_eq')). now rewrite Y. }
    rewrite X. apply app_nil_r.
  - rewrite (H a e (or_introl eq_refl)); [|intros ->; now rewrite name_eqb_refl in E].
    apply IH; [easy|]. intros k' e' I' N'. apply (H k' e'); [now right|easy].
Qed.
Lemma rel_shape sep f x r : clear_schema sep f -> schema_name f = Some x -> matters sep f r ->
  r = x \/ (exists t, r = x ++ sep ++ t) \/ r = x ++ [10%N].
Proof.
  intros C N. pose proof (clear_name_of _ _ C) as NE. rewrite N in NE. destruct (NE x eq_refl) as (NE' & _).
  destruct f as [n k|n cp fs|n p z m|n p m|n jd]; cbn in N; subst n.
  - cbn. intros [= ->]. now left.
  - intros M. apply matters_dict in M as (t & -> & _). right. left. now exists t.
  - cbn. intros (i & r' & R). right. left.
    assert (P : forall q, prefixed (Some x) sep q -> q = x ++ sep).
    { intros q Q. apply prefixed_list_prefix in Q. subst q. now destruct x. }
    inversion R as [q ds j Q|q ds j Q|q ds j y Q|q ds j Q]; subst; apply P in Q; subst q; rewrite <- !app_assoc; eauto.
  - cbn [clear_schema] in C. destruct C as [_ [_ C]]. cbn. rewrite C. intros [X|[H|[[H|H] _]]]; try easy.
    + destruct H as (x' & [= <-] & _ & [-> | [-> | [t ->]]]); eauto.
    + now injection H as ->.
  - cbn. intros [= ->]. now left.
Qed.
(* a key of one field does not concern another *)
Lemma no_interference {cp} c r f b g e fs x y cs u k :
  clear_schema (c :: r) (SDict k cp fs) -> is_digit c = false -> In (b, f) fs -> In g fs -> is_of (snd g) e ->
  schema_name f = Some x -> schema_name (snd g) <> Some x -> In (cs, u) (cells e) ->
  nm (c :: r) cs = Some (x ++ y) -> (b = true -> matters (c :: r) f (x ++ y)) -> False.
Proof.
  intros C D If Ig O E NE I X M. apply clear_dict in C as (_ & ND & P & C). destruct g as [b' g]. cbn [snd] in *.
  destruct (C b f If) as [_ Cf]. destruct (C b' g Ig) as [Ng Cg]. destruct (schema_name g) as [z|] eqn:Z; [|easy].
  destruct (cells_head g e z cs u O Z I) as [cs' ->]. rewrite nm_cons in X.
  pose proof (clear_name_of _ _ Cf) as Hx. rewrite E in Hx. destruct (Hx x eq_refl) as (Hx1 & Hx2 & Hx3). specialize (Hx2 c r eq_refl).
  pose proof (clear_name_of _ _ Cg) as Hz. rewrite Z in Hz. destruct (Hz z eq_refl) as (Hz1 & Hz2 & Hz3). specialize (Hz2 c r eq_refl).
  assert (T : exists t, z ++ t = x ++ y /\ (t = [] \/ exists t', t = c :: t')).
  { injection X as X. eexists. split; [exact X|]. destruct cs'; [now left|]. right. eexists. reflexivity. }
  destruct T as (t & T & Ht).
  assert (Q : forall w, x ++ y = x ++ w -> (w = [] \/ exists w', w = c :: w') -> False).
  { intros w Ew Hw. rewrite Ew in T. apply break_inj with (c := c) in T; try easy. destruct T as [-> _]. now apply NE. }
  destruct b.
  - destruct (rel_shape _ _ _ _ Cf E (M eq_refl)) as [R|[[w R]|R]].
    + apply (Q []); [now rewrite app_nil_r|now left].
    + apply (Q ((c :: r) ++ w)); [easy|]. right. eexists. reflexivity.
    + rewrite R in T. destruct Ht as [->|[t' ->]].
      * rewrite app_nil_r in T. now apply (Hz3 x).
      * assert (F : z = x).
        { destruct (N.eq_dec c 10) as [->|NC].
          - apply break_inj with (c := 10%N) in T; eauto. easy.
          - exfalso. assert (H : In c (x ++ [10%N])) by (rewrite <- T, in_app_iff; right; now left).
            rewrite in_app_iff in H. destruct H as [H|[H|[]]]; [now apply Hx2|congruence]. }
        subst z. now apply NE.
  - assert (W : exists w, z = x ++ w).
    { clear - T Hx2 Hz2 Ht. revert z T Hz2. induction x as [|a x IH]; intros z T Hz2; [now exists z|].
      destruct z as [|a' z].
      - cbn in T. destruct Ht as [->|[t' ->]]; [easy|]. injection T as -> _. exfalso. apply Hx2. now left.
      - cbn in T. injection T as -> T. destruct (IH (fun h => Hx2 (or_intror h)) z T (fun h => Hz2 (or_intror h))) as [w ->]. now exists w. }
    destruct W as [w ->]. assert (w = []) by (apply (P f (b', g) x w If Ig E); exact Z). subst w. rewrite app_nil_r in NE. now apply NE.
Qed.
Lemma field_values {cp} {cq} c r np n fs items ps : clear_schema (c :: r) (SDict n cp fs) -> is_digit c = false ->
  is_of (SDict n cp fs) (EDict n cq items) -> agree (c :: r) np (SDict n cp fs) ps (EDict n cq items) ->
  forall b f x y, In (b, f) fs -> schema_name f = Some x -> (b = true -> matters (c :: r) f (x ++ y)) ->
  values (Some (x ++ y)) (own_part n (c :: r) ps) =
  match aget name_eqb (Some x) items with Some u => vals (c :: r) np (Some (x ++ y)) (cells u) | None => [] end.
Proof.
  intros C D O A b f x y I E M. set (sep := c :: r) in *.
  pose proof (proj1 (clear_dict _ _ _) C) as (Cn & ND & _ & CF).
  assert (V : values (Some (x ++ y)) (own_part n sep ps)
              = vals sep np (Some (x ++ y)) (flat_map (fun kv => cells (snd kv)) items)).
  { assert (R : forall k, k = (match n with Some o => o ++ sep ++ (x ++ y) | None => x ++ y end) -> rel sep (SDict n cp fs) (Some k)).
    { intros k ->. apply matters_dict. exists (x ++ y). split; [easy|]. exists b, f, x, y. easy. }
    destruct n as [o|]; cbn [own_part].
    - rewrite values_stripped, <- app_assoc, (A _ (R _ eq_refl)). cbn [cells own_name]. rewrite map_app, vals_app, (vals_none _ _ _ (map _ (own_cell _))), app_nil_l.
      2:{ intros cs u J X. apply In_under in J as (cs' & -> & J). rewrite (own_cell_nil _ _ _ J) in X. cbn in X. injection X as X.
          rewrite <- (app_nil_r o) in X at 1. now apply app_inv_head in X. }
      apply vals_under.
      intros cs u J. destruct (dict_cells_head _ _ _ _ _ O (fun b f I => proj1 (CF b f I)) J) as (_ & _ & _ & _ & z & cs' & _ & _ & _ & _ & _ & _ & ->).
      cbn [app]. rewrite (nm_cons sep o), (nm_some sep (z :: cs')) by easy.
      change (match z :: cs' with [] => [] | _ => sep ++ join sep (z :: cs') end) with (sep ++ join sep (z :: cs')).
      generalize (join sep (z :: cs')) as J'. intros J'. split.
      + intros X. assert (X' : o ++ sep ++ J' = o ++ sep ++ (x ++ y)) by congruence. now apply app_inv_head, app_inv_head in X' as ->.
      + intros [= ->]. easy.
    - rewrite (A _ (R _ eq_refl)). cbn [cells own_name]. rewrite map_app, vals_app, (vals_none _ _ _ (map _ (own_cell _))), app_nil_l.
      2:{ intros cs u J X. apply In_under in J as (cs' & -> & J). now rewrite (own_cell_nil _ _ _ J) in X. }
      apply vals_under. easy. }
  rewrite V, vals_flat_map. apply (flat_map_only (fun e => vals sep np (Some (x ++ y)) (cells e))).
  - now apply is_of_dict in O as (_ & _ & H & _).
  - intros k' e J N. apply vals_none. intros cs u H X. destruct (is_of_field _ _ _ _ _ O J) as (b' & g & Ig & Eg & Og).
    eapply (no_interference c r f b (b', g) e fs x y cs u n); eauto. cbn [snd]. congruence.
Qed.
Lemma go_result sep ps fs : text_keys ps -> NoDup (map fname fs) ->
  (forall b f, In (b, f) fs -> exists x, schema_name f = Some x /\ snd (set_flat f sep (fresh f) (starting x ps)) = Ok tt) ->
  forall items, NoDup (keys items) ->
  (forall b f, In (b, f) fs -> aget name_eqb (schema_name f) items = if b then Some (fresh f) else None) ->
  exists items', dict_go sep ps fs items = (items', Ok tt) /\ NoDup (keys items')
  /\ (forall k, ~ In k (map fname fs) -> aget name_eqb k items' = aget name_eqb k items)
  /\ forall b f x, In (b, f) fs -> schema_name f = Some x ->
       aget name_eqb (Some x) items' =
       match starting x ps with [] => if b then Some (fresh f) else None | l => Some (fst (set_flat f sep (fresh f) l)) end.
Proof.
  intros T. induction fs as [|[b f] fs IH]; intros ND H items NI A.
  - exists items. repeat split; easy.
  - cbn [map] in ND. apply NoDup_cons_iff in ND as [NF ND]. unfold fname at 1 in NF. cbn [snd] in NF. cbn [dict_go].
    destruct (H b f (or_introl eq_refl)) as (x & E & R). rewrite E in *. rewrite acc_text by easy.
    assert (A0 : aget name_eqb (Some x) items = if b then Some (fresh f) else None) by (rewrite <- E; apply A; now left).
    specialize (IH ND (fun b f I => H b f (or_intror I))).
    destruct (starting x ps) as [|p l] eqn:L.
    + destruct (IH items NI (fun b f I => A b f (or_intror I))) as (items' & H1 & H2 & H3 & H4).
      exists items'. split; [easy|]. split; [easy|]. split.
      * intros k K. apply H3. intros X. apply K. now right.
      * intros b' g y [[= <- <-]|I] Ey; [|now apply H4]. rewrite E in Ey. injection Ey as <-. rewrite L, H3 by easy. exact A0.
    + assert (Old : match aget name_eqb (Some x) items with Some u => u | None => fresh f end = fresh f) by (rewrite A0; now destruct b).
      rewrite Old. destruct (set_flat f sep (fresh f) (p :: l)) as [u rr] eqn:F. cbn in R. subst rr.
      assert (NI' : NoDup (keys (aset name_eqb (Some x) u items))) by now apply (NoDup_keys_aset name_eqb name_eqb_eq').
      destruct (IH (aset name_eqb (Some x) u items) NI') as (items' & H1 & H2 & H3 & H4).
      { intros b' g I. rewrite (aget_aset_neq name_eqb name_eqb_eq'); [apply (A b' g); now right|]. intros X. apply NF.
        apply in_map_iff. exists (b', g). split; [unfold fname; cbn [snd]; congruence|easy]. }
      exists items'. split; [easy|]. split; [easy|]. split.
      * intros k K. rewrite H3 by (intros X; apply K; now right). apply (aget_aset_neq name_eqb name_eqb_eq').
        intros X. apply K. left. unfold fname. cbn [snd]. congruence.
      * intros b' g y [[= <- <-]|I] Ey; [|now apply H4]. rewrite E in Ey. injection Ey as <-. rewrite L, H3 by easy.
        rewrite (aget_aset_eq name_eqb name_eqb_eq'). now rewrite F.
Qed.
