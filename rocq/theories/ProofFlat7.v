(* Reading flat pairs back: Lists and Arrays. *)
From Coq Require Import Permutation Sorted.
From Verif Require Import PyBase PyBaseFacts PyList ModelMap SpecScalar ProofScalar ModelPaths SpecPaths ModelScalar ModelFlat SpecFlat ProofFlat ProofFlat2 ProofFlat3 ProofFlat4 ProofFlat5 ProofFlat6.

(* ---------------- keys of Lists ---------------- *)
Definition tail (sep : str) (ck : name) : str := match ck with None => [] | Some r => sep ++ r end.
Definition can (n : name) (sep : str) (i : nat) (ck : name) : str := list_prefix n sep ++ dec_nat i ++ tail sep ck.
Lemma nm_tail sep x cs : nm sep (x :: cs) = Some (x ++ tail sep (nm sep cs)).
Proof. rewrite nm_cons. now destruct cs. Qed.
Lemma tail_inj sep a b : sep <> [] -> tail sep a = tail sep b -> a = b.
Proof.
  intros N. destruct a as [a|], b as [b|]; cbn; try easy.
  - intros E. now apply app_inv_head in E as ->.
  - destruct sep; easy.
  - destruct sep; easy.
Qed.
Lemma tail_c c r ck : tail (c :: r) ck = [] \/ exists t, tail (c :: r) ck = c :: t.
Proof. destruct ck; [right; cbn; eauto|now left]. Qed.
Lemma nm_list sep n j cs : (forall x, n = Some x -> x <> []) -> nm sep (own_name n ++ dec_nat j :: cs) = Some (can n sep j (nm sep cs)).
Proof.
  intros N. unfold can. destruct n as [x|]; cbn [own_name app].
  - rewrite nm_tail, nm_tail. cbn [tail list_prefix]. specialize (N x eq_refl). destruct x as [|a x]; [easy|]. now rewrite <- !app_assoc.
  - rewrite nm_tail. easy.
Qed.
Lemma dec_tail_inj c r i j a b : is_digit c = false -> dec_nat i ++ tail (c :: r) a = dec_nat j ++ tail (c :: r) b -> i = j /\ a = b.
Proof.
  intros D E. apply break_inj with (c := c) in E; try apply dec_nat_good; try apply tail_c; try easy.
  destruct E as [E1 E2]. split; [now apply dec_nat_inj|]. now apply (tail_inj (c :: r)).
Qed.
Lemma can_inj c r n i j a b : is_digit c = false -> can n (c :: r) i a = can n (c :: r) j b -> i = j /\ a = b.
Proof. intros D E. unfold can in E. apply app_inv_head in E. now apply dec_tail_inj in E. Qed.
Lemma reads_can c r n i ck : is_digit c = false -> ck <> Some [] -> reads n (c :: r) (can n (c :: r) i ck) (N.of_nat i) ck.
Proof.
  intros D N. unfold can.
  assert (P : prefixed n (c :: r) (list_prefix n (c :: r))) by now apply prefixed_list_prefix.
  assert (M : numeral (dec_nat i) (N.of_nat i)) by apply numeral_iff, dec_val.
  destruct ck as [x|]; cbn [tail].
  - apply reads_more; try easy; [apply dec_nonempty|]. intros ->. now apply N.
  - rewrite app_nil_r. apply reads_last; try easy. apply dec_nonempty.
Qed.
Lemma rd_not_blank n sep k i : separator sep -> rd n sep k <> Some (i, Some []).
Proof. intros S E. apply rd_reads in E; [|easy]. inversion E; subst; congruence. Qed.
Lemma nm_not_blank c sep cs : good c cs -> nm sep cs <> Some [].
Proof. intros G E. destruct cs as [|x cs]; [easy|]. rewrite nm_some in E by easy. injection E as E. now apply (join_nonempty c sep x cs). Qed.

Lemma values_grp ck f (ps : flat_pairs) : values ck (flat_map f ps) = flat_map (fun p => values ck (f p)) ps.
Proof. induction ps as [|p ps IH]; [easy|]. cbn [flat_map]. unfold values at 1. rewrite flat_map_app. f_equal. exact IH. Qed.
Lemma flat_map_ext_in {A B} (f g : A -> list B) l : (forall a, In a l -> f a = g a) -> flat_map f l = flat_map g l.
Proof. induction l as [|a l IH]; intros H; [easy|]. cbn. rewrite (H a (or_introl eq_refl)), IH; [easy|]. intros. apply H. now right. Qed.
Definition loud (prune : bool) (v : pyval) : list pyval := if is_blank v && prune then [] else [v].
Lemma values_loud k prune ps : flat_map (loud prune) (values k ps) =
  flat_map (fun p : name * pyval => if name_eqb (fst p) k then loud prune (snd p) else []) ps.
Proof.
  induction ps as [|[k' v] ps IH]; [easy|]. cbn [values flat_map fst snd]. fold (values k ps). rewrite flat_map_app, IH.
  destruct (name_eqb k' k); cbn [flat_map]; [now rewrite app_nil_r|easy].
Qed.
Lemma vals_loud sep np prune k l : flat_map (loud prune) (vals sep np k l) = vals sep (np || prune) k l.
Proof.
  induction l as [|[cs u] l IH]; [easy|]. unfold vals. cbn [flat_map fst snd]. fold (vals sep np k l). fold (vals sep (np || prune) k l).
  rewrite flat_map_app, IH. f_equal. unfold hidden. destruct (name_eqb (nm sep cs) k); [|easy]. cbn [andb].
  assert (B : is_blank (VText u) = str_eqb u []).
  { apply eq_true_iff_eq. rewrite is_blank_iff, str_eqb_eq. split; congruence. }
  unfold loud. destruct (str_eqb u []) eqn:E, np, prune; cbn [andb orb negb flat_map app]; rewrite ?B; reflexivity.
Qed.

(* ---------------- the pairs of one index ---------------- *)
Lemma vals_list_cells c r np ck l : is_digit c = false -> forall i0 k,
  vals (c :: r) np (Some (dec_nat (i0 + k) ++ tail (c :: r) ck)) (list_cells i0 l)
  = match nth_error l k with Some u => vals (c :: r) np ck (cells u) | None => [] end.
Proof.
  intros D. induction l as [|u l IH]; intros i0 k; cbn [list_cells].
  - now destruct k.
  - rewrite vals_app. destruct k as [|k].
    + rewrite Nat.add_0_r. cbn [nth_error]. rewrite (vals_under _ _ _ _ ck).
      * rewrite (vals_none _ _ _ (list_cells (S i0) l)); [apply app_nil_r|]. intros cs w I X. apply In_list_cells in I as (j & e & cs' & _ & -> & _).
        rewrite nm_tail in X. injection X as X. apply dec_tail_inj in X as [X _]; [lia|easy].
      * intros cs w I. cbn [app]. rewrite nm_tail. split; [|now intros ->]. intros X. injection X as X. now apply dec_tail_inj in X.
    + cbn [nth_error]. rewrite <- (IH (S i0) k), Nat.add_succ_r, Nat.add_succ_l.
      rewrite (vals_none (c :: r) np _ (map (under [dec_nat i0]) (cells u))); [easy|].
      intros cs w I X. apply In_under in I as (cs' & -> & _). cbn [app] in X. rewrite nm_tail in X. injection X as X.
      apply dec_tail_inj in X as [X _]; [lia|easy].
Qed.
Lemma list_values c r n p z m np l ps : is_digit c = false -> clear_schema (c :: r) (SList n p z m) -> Forall (is_of m) l ->
  agree (c :: r) np (SList n p z m) ps (EList n l) ->
  forall i ck, values ck (grp n (c :: r) p (N.of_nat i) ps) =
  match nth_error l i with Some u => vals (c :: r) (np || p) ck (cells u) | None => [] end.
Proof.
  intros D C O A i ck. set (sep := c :: r) in *. assert (S : separator sep) by now exists c, r.
  assert (Cm : clear_schema sep m) by (cbn [clear_schema] in C; apply C).
  assert (NN : forall x, n = Some x -> x <> []).
  { intros x ->. apply clear_name_of in C. now destruct (C x eq_refl). }
  assert (G : forall j u cs w, nth_error l j = Some u -> In (cs, w) (cells u) -> good c cs).
  { intros j u cs w E I. rewrite Forall_forall in O. apply nth_error_In in E. apply (cells_good c r m Cm D u (O _ E) cs w I). }
  assert (K : forall k v j ck', In (Some k, v) ps -> rd n sep k = Some (j, ck') -> exists i', j = N.of_nat i' /\ k = can n sep i' ck').
  { intros k v j ck' I R. apply In_values in I. rewrite (A (Some k)) in I.
    - apply In_vals in I as (cs & w & I & E & _). change (In (cs, w) (map (under (own_name n)) (list_cells 0 l))) in I.
      apply In_under in I as (cs' & -> & I). apply In_list_cells in I as (i' & u & cs2 & U & -> & I). cbn [Nat.add] in E.
      rewrite nm_list in E by easy. injection E as <-.
      assert (R' : rd n sep (can n sep i' (nm sep cs2)) = Some (N.of_nat i', nm sep cs2)).
      { apply rd_reads; [easy|]. apply reads_can; [easy|]. apply (nm_not_blank c). now apply (G i' u cs2 w). }
      rewrite R' in R. injection R as <- <-. now exists i'.
    - cbn. apply rd_reads in R; [|easy]. eauto. }
  destruct (name_eqb ck (Some [])) eqn:B.
  - apply name_eqb_eq in B. subst ck. rewrite values_none.
    + destruct (nth_error l i) as [u|] eqn:E; [|easy]. symmetry. apply vals_none. intros cs w I. apply (nm_not_blank c). now apply (G i u cs w).
    + intros v I. apply In_grp in I as (k & _ & R & _). now apply rd_not_blank in R.
  - assert (NB : ck <> Some []) by (intros ->; now rewrite name_eqb_refl in B).
    assert (Rc : rd n sep (can n sep i ck) = Some (N.of_nat i, ck)) by (apply rd_reads; [easy|]; now apply reads_can).
    transitivity (flat_map (loud p) (values (Some (can n sep i ck)) ps)).
    + rewrite values_loud. unfold grp. rewrite values_grp. apply flat_map_ext_in. intros [key v] I. unfold take_of, loud. cbn [fst snd].
      destruct (is_blank v && p); [now destruct (name_eqb key (Some (can n sep i ck)))|].
      destruct key as [k|]; [|easy]. destruct (rd n sep k) as [[j ck']|] eqn:R.
      * destruct (K k v j ck' I R) as (i' & -> & ->). destruct (N.eqb_spec (N.of_nat i') (N.of_nat i)) as [E|E].
        -- apply Nat2N.inj in E. subst i'. cbn [values flat_map fst snd].
           assert (X : name_eqb ck' ck = name_eqb (Some (can n sep i ck')) (Some (can n sep i ck))).
           { apply eq_true_iff_eq. rewrite !name_eqb_eq. split; [now intros ->|]. intros X. injection X as X. now apply can_inj in X. }
           rewrite <- X. destruct (name_eqb ck' ck); reflexivity.
        -- rewrite name_eqb_neq; [easy|]. intros X. injection X as X. apply can_inj in X as [-> _]; [now apply E|easy].
      * rewrite name_eqb_neq; [easy|]. intros X. injection X as ->. congruence.
    + rewrite (A (Some (can n sep i ck))), vals_loud.
      * change (cells (EList n l)) with (map (under (own_name n)) (list_cells 0 l)).
        etransitivity; [|exact (vals_list_cells c r (np || p) ck l D 0 i)]. cbn [Nat.add]. apply vals_under.
        intros cs w I. apply In_list_cells in I as (j & u & cs' & _ & -> & _). cbn [Nat.add]. rewrite nm_list, nm_tail by easy.
        unfold can. fold sep. split; intros X; f_equal.
        -- assert (Y : list_prefix n sep ++ dec_nat j ++ tail sep (nm sep cs') = list_prefix n sep ++ dec_nat i ++ tail sep ck) by congruence.
           now apply app_inv_head in Y.
        -- assert (Y : dec_nat j ++ tail sep (nm sep cs') = dec_nat i ++ tail sep ck) by congruence. now rewrite Y.
      * cbn. exists (N.of_nat i), ck. now apply reads_can.
Qed.

(* ---------------- building ---------------- *)
Definition set_plan (m : schema) (sep : str) (o : option flat_pairs) : element * res unit :=
  match o with None | Some [] => (fresh m, Ok tt) | Some ps => set_flat m sep (fresh m) ps end.
Lemma build_same m sep plan l : Forall2 (fun o u => exists u', set_plan m sep o = (u', Ok tt) /\ same u u') plan l ->
  exists l', build (fresh m) (set_flat m sep (fresh m)) plan = (l', Ok tt) /\ Forall2 same l l'.
Proof.
  induction 1 as [|o u plan l (u' & E & S) _ (l' & B & F)]; cbn [build].
  - exists []. split; [easy|constructor].
  - rewrite B. exists (u' :: l'). split; [|now constructor]. destruct o as [[|q ps]|]; cbn [set_plan] in E.
    + now injection E as <-.
    + now rewrite E.
    + now injection E as <-.
Qed.
Lemma Forall2_seq {A B} (R : A -> B -> Prop) (f : nat -> A) (l : list B) :
  (forall i u, nth_error l i = Some u -> R (f i) u) -> Forall2 R (map f (seq 0 (List.length l))) l.
Proof.
  revert f. induction l as [|u l IH]; intros f H; [constructor|]. cbn [List.length seq map]. constructor; [now apply H|].
  rewrite <- seq_shift, map_map. apply IH. intros i v E. now apply H.
Qed.
Lemma seq_sorted k n : StronglySorted N.lt (map N.of_nat (seq k n)).
Proof.
  revert k. induction n as [|n IH]; intros k; cbn; constructor; [apply IH|]. apply Forall_forall. intros x I.
  apply in_map_iff in I as (y & <- & I). apply in_seq in I. lia.
Qed.
Lemma list_back c r n p z m : is_digit c = false -> back (c :: r) m -> back (c :: r) (SList n p z m).
Proof.
  intros D IH C _ np e ps O K A. set (sep := c :: r) in *. assert (S : separator sep) by now exists c, r.
  destruct e as [n' st|n' cq l|n' l|n' l|n' jd' l]; try easy. cbn in O. destruct O as [-> O].
  assert (Cm : clear_schema sep m) by (cbn [clear_schema] in C; apply C).
  cbn [kept] in K. destruct K as (Kz & Km & Ks).
  assert (LV := list_values c r n p z m np l ps D C O A). fold sep in LV.
  assert (T : text_keys ps).
  { apply text_from. rewrite (A None I). apply vals_none. intros cs u J. change (In (cs, u) (map (under (own_name n)) (list_cells 0 l))) in J.
    apply In_under in J as (cs' & -> & J). apply In_list_cells in J as (j & v & cs2 & _ & -> & _). now destruct n. }
  cbn [fresh set_flat]. pose proof (collect_lemma n sep p ps S [] (NoDup_nil _)) as CL. rewrite (text_not_bad p ps T) in CL.
  destruct CL as (g & E & ND & G). cbn [aget] in G. rewrite E.
  pose proof (keys_grp n sep p ps g G) as KG.
  assert (Up : forall i, In i (keys g) -> exists j, i = N.of_nat j /\ (j < List.length l)%nat).
  { intros i I. exists (N.to_nat i). split; [lia|]. apply KG in I. destruct (grp n sep p i ps) as [|[k v] q] eqn:Q; [easy|].
    assert (V : In v (values k (grp n sep p (N.of_nat (N.to_nat i)) ps))) by (apply In_values; rewrite N2Nat.id, Q; now left).
    rewrite LV in V. apply nth_error_Some. intros X. now rewrite X in V. }
  assert (Sh : forall i u, nth_error l i = Some u -> shown (np || p) u -> In (N.of_nat i) (keys g)).
  { intros i u U H. apply KG. intros Q. apply shown_cells in H as (cs & w & I & H).
    assert (V : In (VText w) (values (nm sep cs) (grp n sep p (N.of_nat i) ps))).
    { rewrite LV, U. apply In_vals. now exists cs, w. }
    now rewrite Q in V. }
  set (plan := map (fun i => joined_to None (grp n sep p (N.of_nat i) ps)) (seq 0 (List.length l))).
  assert (B : exists l', build (fresh m) (set_flat m sep (fresh m)) plan = (l', Ok tt) /\ Forall2 same l l').
  { apply build_same. unfold plan. apply (Forall2_seq _ (fun i => joined_to None (grp n sep p (N.of_nat i) ps))). intros i u U.
    rewrite Forall_forall in O, Km. pose proof (nth_error_In _ _ U) as J.
    assert (NKm : ~ keyless m) by (intros (f & fs & ->); cbn [clear_schema] in C; destruct C as [_ [_ C]]; now apply (C f fs)).
    destruct (IH Cm NKm (np || p) u (grp n sep p (N.of_nat i) ps) (O _ J) (Km _ J)) as (u' & SE & SM).
    - intros k _. rewrite LV, U. easy.
    - destruct (grp n sep p (N.of_nat i) ps) as [|q ql] eqn:Q; cbn [joined_to set_plan].
      + rewrite (clear_nil sep m Cm) in SE. injection SE as <-. now exists (fresh m).
      + now exists u'. }
  destruct B as (l' & B & F2).
  destruct g as [|g0 g'] eqn:EG.
  - assert (l = []).
    { destruct l as [|u l0 _] using rev_ind; [easy|]. exfalso. destruct p.
      - apply Forall_app in Ks as [_ Ks]. apply Forall_cons_iff in Ks as [Ks _].
        apply (Sh (List.length l0) u); [|exact Ks]. rewrite nth_error_app2, Nat.sub_diag by lia. easy.
      - apply (Sh (List.length l0) u); [|rewrite orb_false_r; now apply (Ks l0)]. rewrite nth_error_app2, Nat.sub_diag by lia. easy. }
    subst l. eexists. split; [reflexivity|]. repeat constructor.
  - rewrite <- EG in *. assert (P : list_plan p z g = plan).
    { unfold plan, list_plan. destruct p.
      - assert (X : sorted_indexes g = map N.of_nat (seq 0 (List.length l))).
        { apply sorted_unique; [now apply sorted_indexes_sorted|apply seq_sorted|]. intros i. rewrite sorted_indexes_In. split.
          - intros I. apply Up in I as (j & -> & L). apply in_map. apply in_seq. lia.
          - intros I. apply in_map_iff in I as (j & <- & I). apply in_seq in I. destruct (nth_error l j) as [u|] eqn:U.
            + apply (Sh j u U). rewrite Forall_forall in Ks. apply Ks. now apply nth_error_In in U.
            + apply nth_error_None in U. lia. }
        rewrite X, up_to_firstn by lia. rewrite firstn_all2 by (rewrite map_length, seq_length; lia). rewrite map_map.
        apply map_ext. intros i. apply G.
      - assert (X : max_of (keys g) = N.of_nat (List.length l - 1) /\ (0 < List.length l)%nat).
        { assert (M : In (max_of (keys g)) (keys g)) by (apply max_of_mem; rewrite EG; now destruct g0).
          apply Up in M as (j & M & L). destruct l as [|u l0 _] using rev_ind; [cbn in L; lia|].
          assert (I : In (N.of_nat (List.length l0)) (keys g)).
          { apply (Sh (List.length l0) u); [|rewrite orb_false_r; now apply (Ks l0)]. rewrite nth_error_app2, Nat.sub_diag by lia. easy. }
          apply max_of_In in I. rewrite app_length in *. cbn [List.length] in *. split; lia. }
        destruct X as [-> X]. replace (Z.to_nat (Z.min (Z.of_N (N.of_nat (List.length l - 1)) + 1) z)) with (List.length l) by lia.
        apply map_ext. intros i. apply G. }
    assert (W : build (fresh m) (set_flat m sep (fresh m)) (list_plan p z g) = (l', Ok tt)) by (rewrite P; exact B).
    rewrite EG in *. rewrite W. eexists. split; [reflexivity|]. now constructor.
Qed.

(* ---------------- Arrays ---------------- *)
Definition keyed (K : name) (v : pyval) : name * pyval := (K, v).
Lemma array_filter make set K ps : (forall k v, In (k, v) ps -> k <> K -> make (k, v) = Ok None) ->
  array_members make set ps = array_members make set (map (keyed K) (values K ps)).
Proof.
  induction ps as [|[k v] ps IH]; intros H; [easy|]. cbn [values flat_map fst snd]. fold (values K ps).
  assert (IH' : array_members make set ps = array_members make set (map (keyed K) (values K ps))).
  { apply IH. intros. apply H; [now right|easy]. }
  destruct (name_eqb k K) eqn:E.
  - apply name_eqb_eq in E. subst k. cbn [app map array_members]. now rewrite IH'.
  - cbn [app array_members]. rewrite (H k v); [exact IH'|now left|]. intros ->. now rewrite name_eqb_refl in E.
Qed.
Lemma array_pair_own c r n m p v : clear_name (c :: r) n -> clear_name (c :: r) m -> (p = true -> is_blank v = false) ->
  array_pair n m (c :: r) p (nm (c :: r) (own_name n ++ own_name m), v) = Ok (Some (m, v)).
Proof.
  intros Cn Cm P. unfold array_pair.
  assert (PB : forall b, p && is_blank v && b = false).
  { intros b. destruct p; [|easy]. now rewrite (P eq_refl). }
  destruct n as [x|]; cbn [own_name app].
  - destruct (Cn x eq_refl) as (Nx & _). destruct x as [|a x]; [easy|]. rewrite nm_tail. unfold array_key.
    rewrite starts_with_app, skipn_app_len. destruct m as [y|]; cbn [own_name nm tail].
    + rewrite after_sep_sep. destruct (Cm y eq_refl) as (Ny & _). cbn [join]. destruct y as [|b y]; [easy|]. cbn [or_none truthy_name negb andb].
      now rewrite PB.
    + change (after_sep (c :: r) []) with (Some (@nil N)). cbn [or_none truthy_name negb andb]. now rewrite PB.
  - rewrite nm_own, PB. destruct m as [y|]; [|reflexivity]. destruct (Cm y eq_refl) as (Ny & _). destruct y as [|b y]; [easy|].
    change (name_eqb (Some (b :: y)) (Some [])) with false. cbv iota. rewrite name_eqb_refl. reflexivity.
Qed.
Lemma array_back c r n p m : is_digit c = false -> back (c :: r) (SArray n p m).
Proof.
  intros D C _ np e ps O K A. set (sep := c :: r) in *.
  destruct e as [n' st|n' cq l|n' l|n' l|n' jd' l]; try easy. cbn in O. destruct O as [-> O].
  pose proof (clear_name_of _ _ C) as Cn. cbn [schema_name] in Cn. cbn [clear_schema] in C. destruct C as [_ [Cm SC]].
  destruct m as [mn mk|? ? ?|? ? ? ?|? ? ?|? ?]; try easy. pose proof (clear_name_of _ _ Cm) as Cmn. cbn [schema_name] in Cmn.
  cbn [kept] in K. destruct K as [Km Ks].
  set (KK := nm sep (own_name n ++ own_name mn)).
  assert (CE : cells (EArray n l) = map (fun u => (own_name n ++ own_name mn, match u with EScalar _ st => s_u st | _ => [] end)) l).
  { cbn [cells]. clear - O. induction O as [|u l Ou _ IH]; [easy|]. destruct u as [n' st|? ? ?|? ?|? ?|? ? ?]; try easy. cbn in Ou. subst n'.
    cbn [flat_map map cells app under fst snd]. f_equal. exact IH. }
  assert (V : forall k, vals sep np k (cells (EArray n l)) = if name_eqb KK k then map (fun u => VText (match u with EScalar _ st => s_u st | _ => [] end)) l else []).
  { intros k. rewrite CE. clear - Ks O. induction Ks as [|u l Su _ IH]; [now destruct (name_eqb KK k)|].
    inversion O as [|? ? O1 O2]; subst. specialize (IH O2). unfold vals. cbn [map flat_map fst snd]. fold KK.
    unfold vals in IH. rewrite IH. destruct (name_eqb KK k) eqn:E; [|easy]. cbn [andb].
    destruct u as [n' st|? ? ?|? ?|? ?|? ? ?]; try easy. apply shown_cells in Su as (cs & w & Hc & Hw). destruct Hc as [[= <- <-]|[]].
    assert (X : hidden np (s_u st) = false) by (apply not_true_is_false; rewrite hidden_iff; intros [-> Y]; rewrite Y in Hw; discriminate Hw).
    now rewrite X. }
  change (fresh (SArray n p (SScalar mn mk))) with (EArray n []).
  assert (SF : forall l0, set_flat (SArray n p (SScalar mn mk)) sep (EArray n l0) ps =
    let '(l, r) := array_members (array_pair n mn sep p) (set_flat (SScalar mn mk) (lit "_") (fresh (SScalar mn mk))) ps in (EArray n l, r)) by reflexivity.
  rewrite SF. clear SF.
  assert (F : array_members (array_pair n mn sep p) (set_flat (SScalar mn mk) (lit "_") (fresh (SScalar mn mk))) ps
              = array_members (array_pair n mn sep p) (set_flat (SScalar mn mk) (lit "_") (fresh (SScalar mn mk))) (map (keyed KK) (values KK ps))).
  { apply array_filter. intros k v I N. destruct k as [k|].
    - apply (array_pair_skip n (SScalar mn mk)); [easy|]. intros X. apply In_values in I. rewrite (A (Some k) X), V in I.
      rewrite name_eqb_neq in I by congruence. easy.
    - apply In_values in I. rewrite (A None Logic.I), V in I. rewrite name_eqb_neq in I by congruence. easy. }
  rewrite F. assert (VK : values KK ps = map (fun u => VText (match u with EScalar _ st => s_u st | _ => [] end)) l).
  { destruct (name_eqb KK KK) eqn:E; [|now rewrite name_eqb_refl in E]. specialize (V KK). rewrite E in V. rewrite <- V.
    apply A. unfold KK. destruct (nm sep (own_name n ++ own_name mn)) as [k|] eqn:EK; [|exact Logic.I]. cbn.
    destruct n as [x|].
    - right. left. exists x. destruct (Cn x eq_refl) as [Nx _]. split; [easy|]. split; [easy|]. cbn [own_name app] in EK. rewrite nm_tail in EK.
        injection EK as <-. destruct mn as [y|]; cbn [own_name nm tail]; [right; right; now exists y|left; now rewrite app_nil_r].
    - right. right. split; [now left|]. cbn [own_name app] in EK. rewrite nm_own in EK. auto. }
  rewrite VK. assert (R : exists l', array_members (array_pair n mn sep p) (set_flat (SScalar mn mk) (lit "_") (fresh (SScalar mn mk)))
      (map (keyed KK) (map (fun u => VText (match u with EScalar _ st => s_u st | _ => [] end)) l)) = (l', Ok tt) /\ Forall2 same l l').
  { clear - O Km Ks Cn Cmn. induction l as [|u l IH]; [exists []; split; [easy|constructor]|].
    apply Forall_cons_iff in O as [O1 O2], Km as [K1 K2], Ks as [S1 S2]. specialize (IH O2 K2 S2). destruct IH as (l' & E & F).
    destruct u as [n' st|? ? ?|? ?|? ?|? ? ?]; try easy. cbn in O1. subst n'. cbn [map array_members].
    apply shown_cells in S1 as (cs & w & Hc & H). destruct Hc as [[= <- <-]|[]].
    assert (PB : p = true -> is_blank (VText (s_u st)) = false).
    { intros ->. apply not_true_is_false. rewrite is_blank_iff. intros [= X]. rewrite X, orb_true_r in H. discriminate H. }
    pose proof (array_pair_own c r n mn p _ Cn Cmn PB) as AP. fold sep KK in AP.
    change (keyed KK (VText (s_u st))) with (KK, VText (s_u st)). rewrite AP.
    destruct (scalar_back sep mn mk st (np || p) [(mn, VText (s_u st))] K1) with (sep' := lit "_") as (u' & SE & SM).
    - unfold values, vals. cbn [flat_map cells fst snd]. rewrite nm_own, name_eqb_refl, H. easy.
    - rewrite SE, E. exists (u' :: l'). split; [easy|]. now constructor. }
  destruct R as (l' & R & F2). rewrite R. eexists. split; [reflexivity|]. now constructor.
Qed.

Lemma back_lemma c r s : is_digit c = false -> back (c :: r) s.
Proof.
  intros D. induction s as [n k|n cp fs IH|n p z m IH|n p m IH|n jd] using schema_ind'.
  - intros C _ np e ps O K A. destruct e as [n' st|? ? ?|? ?|? ?|? ? ?]; try easy. cbn in O. subst n'.
    apply (scalar_back (c :: r) n k st np ps K). apply A. destruct n; easy.
  - now apply dict_back.
  - now apply list_back.
  - now apply array_back.
  - intros C _ np e ps O K A. destruct e as [n' st|? ? ?|? ?|? ?|n' jd' l]; try easy. cbn [is_of] in O. destruct O as [-> ->].
    apply (joined_back (c :: r) n jd l np ps K). f_equal. apply A. destruct n; easy.
Qed.

(* ---------------- keys that are no text ---------------- *)
Lemma none_key_lemma sep v rest :
  (forall n cp fs x cq items, set_flat (SDict n cp fs) sep (EDict (Some x) cq items) ((None, v) :: rest) = (EDict (Some x) cq items, Err AttributeErr))
  /\ (forall n prune limit mem m old, ~ (prune = true /\ v = VText []) ->
      set_flat (SList n prune limit mem) sep (EList m old) ((None, v) :: rest) = (EList m [], Err TypeErr))
  /\ (forall n prune c k x old, x <> [] ->
      set_flat (SArray n prune (SScalar c k)) sep (EArray (Some x) old) ((None, v) :: rest) = (EArray (Some x) [], Err TypeErr))
  /\ (forall n cp b f fs cq items, schema_name f <> None ->
      set_flat (SDict n cp ((b, f) :: fs)) sep (EDict None cq items) ((None, v) :: rest) = (EDict None cq items, Err AttributeErr)).
Proof.
  split; [easy|]. split; [|split].
  - intros n prune limit mem m old H. cbn [set_flat collect].
    destruct (is_blank v && prune) eqn:E; [|easy]. destruct H. apply Bool.andb_true_iff in E as (B & ->). split; [easy|].
    now apply is_blank_iff in B.
  - intros n prune c k [|a x] old H; [easy|]. reflexivity.
  - intros n cp b f fs cq items H. cbn [set_flat]. destruct (schema_name f); [|easy]. reflexivity.
Qed.
