(* Reading flat pairs back: mappings, Lists and Arrays. *)
From Coq Require Import Permutation Sorted.
From Verif Require Import PyBase PyBaseFacts PyList ModelMap SpecScalar ProofScalar ModelPaths SpecPaths ModelScalar ModelFlat SpecFlat ProofFlat ProofFlat2 ProofFlat3 ProofFlat4 ProofFlat5.

(* a Compound without name would give a pair without key *)
Definition keyless (s : schema) : Prop := exists cp fs, s = SDict None (Some cp) fs.
Definition back (sep : str) (s : schema) : Prop := clear_schema sep s -> ~ keyless s -> forall np e ps,
  is_of s e -> kept np s e -> agree sep np s ps e ->
  exists e', set_flat s sep (fresh s) ps = (e', Ok tt) /\ same e e'.

Lemma kept_dict {cp} {cq} np n fs m items : kept np (SDict n cp fs) (EDict m cq items) <->
  forall b f, In (b, f) fs -> forall u, In (schema_name f, u) items -> kept np f u /\ (b = false -> shown np u).
Proof.
  cbn. induction fs as [|[b f] fs IH]; cbn; [easy|]. rewrite IH. split.
  - intros [H1 H2] b' g [[= <- <-]|G]; eauto.
  - intros H. split; [apply (H b f); now left|]. intros. eapply H; [right|]; eauto.
Qed.
Lemma part_app e p i : part e (p ++ [i]) = match member e i with Some u => part u p | None => None end.
Proof.
  induction p as [|j p IH]; cbn [app part].
  - now destruct (member e i).
  - rewrite IH. now destruct (member e i).
Qed.
Lemma member_cells e i u cs w : member e i = Some u -> In (cs, w) (cells u) -> exists cs', In (cs', w) (cells e).
Proof.
  destruct e as [n st|n cp l|n l|n l|n jd l]; cbn [member]; [easy|..]; intros M I.
  - destruct (nth_error l i) as [[k v]|] eqn:E; [|easy]. injection M as ->. exists (own_name n ++ cs). apply In_under. exists cs.
    split; [easy|]. apply in_app_iff. right. apply In_dict_cells. exists k, u. split; [now apply nth_error_In in E|easy].
  - exists (own_name n ++ dec_nat i :: cs). change (cells (EList n l)) with (map (under (own_name n)) (list_cells 0 l)).
    apply In_under. exists (dec_nat i :: cs). split; [easy|]. apply In_list_cells. exists i, u, cs. easy.
  - exists (own_name n ++ cs). apply In_under. exists cs. split; [easy|]. apply in_flat_map. exists u. split; [now apply nth_error_In in M|easy].
  - destruct (nth_error l i) as [st|] eqn:E; [|easy]. injection M as <-. exists (own_name n ++ cs). apply In_under. exists cs.
    split; [easy|]. right. destruct I as [[= <- <-]|[]]. apply in_map_iff. exists st. split; [easy|now apply nth_error_In in E].
Qed.
Lemma own_cells e w : own_text e = Some w -> In (own_name (element_name e), w) (cells e).
Proof.
  destruct e as [n st|n cp l|n l|n l|n jd l]; try easy; cbn [own_text element_name cells].
  - intros [= <-]. now left.
  - destruct cp as [f|]; [|easy]. intros [= <-]. left. unfold under. cbn [fst snd]. now rewrite app_nil_r.
  - intros [= <-]. left. unfold under. cbn [fst snd]. now rewrite app_nil_r.
Qed.
Lemma part_cells e p u w : part e p = Some u -> own_text u = Some w -> exists cs, In (cs, w) (cells e).
Proof.
  intros P W. revert e P. induction p as [|i p IH] using rev_ind; intros e.
  - cbn. intros [= ->]. eexists. now apply own_cells.
  - rewrite part_app. destruct (member e i) as [u'|] eqn:M; [|easy]. intros H. apply IH in H as [cs H]. now apply (member_cells e i u' cs).
Qed.
Lemma shown_cells np e : shown np e -> exists cs w, In (cs, w) (cells e) /\ hidden np w = false.
Proof.
  intros (p & u & w & P & W & H). apply (part_cells _ _ _ _ P) in W as [cs W]. exists cs, w. split; [easy|].
  apply not_true_is_false. rewrite hidden_iff. intros [-> E]. now apply H.
Qed.
Lemma text_from ps : values None ps = [] -> text_keys ps.
Proof. intros H. apply Forall_forall. intros [k v] I. cbn. intros ->. now apply (values_nil None ps v). Qed.
Lemma starting_In x ps k v : In (k, v) (starting x ps) <-> exists y, k = Some (x ++ y) /\ In (k, v) ps.
Proof.
  unfold starting. rewrite filter_In. cbn [fst]. split.
  - intros [I H]. destruct k as [k|]; [|easy]. apply starts_with_iff in H as [y ->]. now exists y.
  - intros (y & -> & I). split; [easy|]. apply starts_with_app.
Qed.
Lemma clear_nil sep f : clear_schema sep f -> forall sep', set_flat f sep' (fresh f) [] = (fresh f, Ok tt).
Proof.
  intros C sep'. apply set_flat_nil. intros n p m ->. cbn [clear_schema] in C. easy.
Qed.
Lemma In_keys_aget {A} k (l : list (name * A)) : In k (map fst l) <-> exists v, aget name_eqb k l = Some v.
Proof. symmetry. exact (aget_Some_keys name_eqb name_eqb_eq' k l). Qed.

Lemma dict_back {cp} c r n fs : is_digit c = false -> Forall (fun f => back (c :: r) (snd f)) fs -> back (c :: r) (SDict n cp fs).
Proof.
  intros D IH C NK np e ps O K A. set (sep := c :: r) in *.
  destruct e as [n' st|n' cq items|n' l|n' l|n' jd' l]; try easy. pose proof (proj1 (is_of_dict _ _ _ _) O) as (-> & -> & NDI & KI & FI).
  pose proof (proj1 (clear_dict _ _ _) C) as (Cn & ND & _ & CF).
  pose proof (proj1 (kept_dict _ _ _ _ _) K) as KF.
  assert (T : text_keys ps).
  { apply text_from. rewrite (A None I). apply vals_none. intros cs u J. cbn [cells] in J. apply In_under in J as (cs' & -> & J).
    apply in_app_iff in J as [J|J].
    { rewrite (own_cell_nil _ _ _ J), app_nil_r, nm_own. destruct cp as [f|]; [|easy]. intros ->. apply NK. now exists f, fs. }
    destruct (dict_cells_head _ _ _ _ _ O (fun b f I => proj1 (CF b f I)) J) as (_ & _ & _ & _ & z & cs2 & _ & _ & _ & _ & _ & _ & ->).
    now destruct n. }
  cbn [fresh]. rewrite set_flat_dict_text by easy. set (own := own_part n sep ps).
  pose proof (own_part_text n sep ps T) as TO. fold own in TO.
  assert (FV := field_values c r np n fs items ps C D O A). fold sep own in FV.
  (* each field *)
  assert (Some_u : forall b f x u, In (b, f) fs -> schema_name f = Some x -> aget name_eqb (Some x) items = Some u ->
    exists e', set_flat f sep (fresh f) (starting x own) = (e', Ok tt) /\ same u e').
  { intros b f x u If E G. rewrite Forall_forall in IH. specialize (IH _ If). cbn [snd] in IH.
    assert (Iu : In (schema_name f, u) items) by (rewrite E; now apply (aget_In name_eqb name_eqb_eq')).
    destruct (FI b f If) as [Of _]. specialize (Of _ Iu).
    assert (NKf : ~ keyless f) by (intros (g & gs & ->); discriminate E).
    apply (IH (proj2 (CF b f If)) NKf np u (starting x own) Of (proj1 (KF b f If u Iu))).
    intros [k|] R.
    - rewrite values_starting. destruct (starts_with x k) eqn:W.
      + apply starts_with_iff in W as [y ->]. etransitivity; [exact (FV b f x y If E (fun _ => R))|]. now rewrite G.
      + symmetry. apply vals_none. intros cs w J X. destruct (cells_head f u x cs w Of E J) as [cs' ->].
        rewrite nm_cons in X. injection X as X. rewrite <- X in W. now rewrite starts_with_app in W.
    - rewrite values_none by (intros v J; apply starting_In in J as (y & J & _); easy). symmetry. apply vals_none. intros cs w J X.
      destruct (cells_head f u x cs w Of E J) as [cs' ->]. easy. }
  assert (None_u : forall b f x, In (b, f) fs -> schema_name f = Some x -> aget name_eqb (Some x) items = None ->
    b = false /\ starting x own = []).
  { intros b f x If E G. assert (b = false).
    { destruct b; [|easy]. destruct (FI true f If) as [_ X]. specialize (X eq_refl). rewrite E in X. apply In_keys_aget in X as [v X].
      congruence. }
    subst b. split; [easy|]. destruct (starting x own) as [|[k v] l] eqn:L; [easy|]. exfalso.
    assert (J : In (k, v) (starting x own)) by (rewrite L; now left). apply starting_In in J as (y & -> & J).
    apply In_values in J. pose proof (FV false f x y If E ltac:(easy)) as Z. rewrite G in Z. apply (values_nil _ _ v) in Z. apply Z. now apply In_values. }
  assert (Shown : forall f x u, In (false, f) fs -> schema_name f = Some x -> aget name_eqb (Some x) items = Some u -> starting x own <> []).
  { intros f x u If E G L. assert (Iu : In (schema_name f, u) items) by (rewrite E; now apply (aget_In name_eqb name_eqb_eq')).
    destruct (KF false f If u Iu) as [_ S]. specialize (S eq_refl). apply shown_cells in S as (cs & w & J & H).
    destruct (FI false f If) as [Of _]. specialize (Of _ Iu). destruct (cells_head f u x cs w Of E J) as [cs' ->].
    set (y := match cs' with [] => [] | _ => sep ++ join sep cs' end).
    assert (V : In (VText w) (values (Some (x ++ y)) own)).
    { pose proof (FV false f x y If E ltac:(easy)) as Z. rewrite G in Z. eapply eq_ind_r with (P := fun l => In (VText w) l); [|exact Z]. apply In_vals. exists (x :: cs'), w. rewrite nm_cons. easy. }
    apply In_values in V. assert (J' : In (Some (x ++ y), VText w) (starting x own)) by (apply starting_In; now exists y).
    now rewrite L in J'. }
  set (fi := flat_map (fun f : bool * schema => if fst f : bool then [(schema_name (snd f), fresh (snd f))] else []) fs).
  destruct (go_result sep own fs TO ND) with (items := fi) as (items' & G & NDI' & GN & GF).
  - intros b f If. destruct (CF b f If) as [NN Cf]. destruct (schema_name f) as [x|] eqn:E; [|easy]. exists x. split; [easy|].
    destruct (aget name_eqb (Some x) items) as [u|] eqn:U.
    + destruct (Some_u b f x u If E U) as (e' & -> & _). easy.
    + destruct (None_u b f x If E U) as [_ ->]. now rewrite (clear_nil sep f Cf).
  - unfold fi. clear - ND. unfold keys. induction fs as [|[b f] fs IH]; [constructor|]. cbn [map] in ND. apply NoDup_cons_iff in ND as [NI ND].
    cbn [flat_map fst snd]. destruct b; [|now apply IH]. cbn [app map fst]. constructor; [|now apply IH]. intros X. apply NI. clear - X.
    induction fs as [|[b g] fs IH]; [easy|]. cbn [flat_map fst snd map] in *. rewrite map_app, in_app_iff in X.
    destruct X as [X|X]; [left; destruct b; [destruct X as [X|[]]; exact X|destruct X]|right; exact (IH X)].
  - intros b f If. now apply fresh_items.
  - rewrite G. eexists. split; [reflexivity|].
    assert (Field : forall k, In k (map fname fs) -> exists b f x, In (b, f) fs /\ schema_name f = Some x /\ k = Some x).
    { intros k J. apply in_map_iff in J as ([b f] & <- & J). unfold fname. cbn [snd]. destruct (CF b f J) as [NN _].
      destruct (schema_name f) as [x|] eqn:E; [|easy]. exists b, f, x. easy. }
    assert (Agree : forall b f x, In (b, f) fs -> schema_name f = Some x ->
              match aget name_eqb (Some x) items, aget name_eqb (Some x) items' with
              | Some u, Some u' => same u u' | None, None => True | _, _ => False end).
    { intros b f x If E. rewrite (GF b f x If E). destruct (aget name_eqb (Some x) items) as [u|] eqn:U.
      - destruct (Some_u b f x u If E U) as (e' & S & SM). destruct (starting x own) as [|p l] eqn:L.
        + destruct b; [|now apply (Shown f x u If E U)]. rewrite (clear_nil sep f (proj2 (CF true f If))) in S. injection S as <-. exact SM.
        + rewrite S. exact SM.
      - destruct (None_u b f x If E U) as [-> ->]. exact Logic.I. }
    assert (Out : forall k, ~ In k (map fname fs) -> aget name_eqb k items' = None).
    { intros k J. rewrite (GN k J). apply (aget_None name_eqb name_eqb_eq'). intros X. apply J. apply in_map_iff in X as ([k' u] & <- & X).
      apply (In_fresh (cp := cp) n fs k' u) in X as (f & If & -> & _). apply in_map_iff. now exists (true, f). }
    constructor.
    + intros k. split; intros J.
      * destruct (Field k (KI k J)) as (b & f & x & If & E & ->). specialize (Agree b f x If E). apply In_keys_aget in J as [v J].
        rewrite J in Agree. apply In_keys_aget. destruct (aget name_eqb (Some x) items') as [w|]; [now exists w|easy].
      * destruct (in_dec (fun a b => reflect_dec _ _ (iff_reflect _ _ (iff_sym (name_eqb_eq a b)))) k (map fname fs)) as [F|F].
        -- destruct (Field k F) as (b & f & x & If & E & ->). specialize (Agree b f x If E). apply In_keys_aget in J as [v J].
           rewrite J in Agree. apply In_keys_aget. destruct (aget name_eqb (Some x) items) as [w|]; [now exists w|easy].
        -- apply Out in F. apply In_keys_aget in J as [v J]. congruence.
    + intros k u u' J J'. assert (KK : In k (map fst items)) by (apply in_map_iff; now exists (k, u)).
      destruct (Field k (KI k KK)) as (b & f & x & If & E & ->). specialize (Agree b f x If E).
      rewrite (In_aget name_eqb name_eqb_eq' _ _ _ NDI J) in Agree. rewrite (In_aget name_eqb name_eqb_eq' _ _ _ NDI' J') in Agree. exact Agree.
Qed.
