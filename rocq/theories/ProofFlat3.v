(* New elements ignore what does not matter; the order of the pairs. *)
From Coq Require Import Permutation Sorted.
From Verif Require Import PyBase PyBaseFacts PyList ModelMap SpecScalar ProofScalar ModelPaths SpecPaths ModelScalar ModelFlat SpecFlat ProofFlat ProofFlat2.

(* ---------------- what matters to a new element ---------------- *)
Lemma aset_same {A} k (u : A) items : aget name_eqb k items = Some u -> aset name_eqb k u items = items.
Proof.
  induction items as [|[a b] l IH]; cbn; [easy|]. destruct (name_eqb k a) eqn:E.
  - intros [= ->]. apply name_eqb_eq in E. now subst.
  - intros H. now rewrite IH.
Qed.
Lemma set_flat_nil s sep : (forall n p m, s = SArray n p m -> is_container m = false) -> set_flat s sep (fresh s) [] = (fresh s, Ok tt).
Proof.
  destruct s as [n k|n cp fs|n p z m|n p m|n jd]; intros H; try reflexivity.
  - destruct n; reflexivity.
  - cbn. now rewrite (H n p m eq_refl).
Qed.
Lemma matters_dict {cp} sep n fs k : matters sep (SDict n cp fs) k <->
  exists r, k = (match n with Some x => x ++ sep ++ r | None => r end)
  /\ exists b f x y, In (b, f) fs /\ schema_name f = Some x /\ r = x ++ y /\ (b = true -> matters sep f r).
Proof.
  cbn [matters]. split; intros (r & E & H); exists r; (split; [exact E|]); clear E.
  - induction fs as [|[b f] fs IH]; [easy|]. destruct H as [(x & y & H1 & H2 & H3)|H].
    + exists b, f, x, y. repeat split; try easy. now left.
    + destruct (IH H) as (b' & g & x & y & I & G). exists b', g, x, y. split; [now right|easy].
  - destruct H as (b & f & x & y & I & H). induction fs as [|[b' g] fs IH]; [easy|]. destruct I as [[= -> ->]|I].
    + left. now exists x, y.
    + right. now apply IH.
Qed.
Lemma thinned_all P ps qs : thinned P ps qs -> (forall k, P k) -> ps = qs.
Proof. intros H A. eapply thinned_eq; eauto. Qed.
Lemma thinned_starting_gen (P Q : str -> Prop) x ps qs : thinned P ps qs ->
  (forall y, Q (x ++ y) -> P (x ++ y)) ->
  thinned Q (starting x ps) (starting x qs).
Proof.
  intros H I. induction H as [|[k v] ps qs _ IH|k v ps qs N _ IH]; cbn; [constructor| |].
  - destruct k as [k|]; [|easy]. destruct (starts_with x k); [now constructor|easy].
  - destruct (starts_with x k) eqn:E; [|easy]. apply thin_drop; [|easy]. apply starts_with_iff in E as [y ->]. intros X. auto.
Qed.
Lemma thinned_nil P ps : thinned P [] ps -> ps = [].
Proof. now inversion 1. Qed.
Lemma matters_go sep ps qs fs items : text_keys ps -> text_keys qs ->
  (forall b f, In (b, f) fs -> schema_name f <> None) ->
  NoDup (map fname fs) ->
  (forall b f, In (b, f) fs -> aget name_eqb (schema_name f) items = if b then Some (fresh f) else None) ->
  (forall f x, In (false, f) fs -> schema_name f = Some x -> starting x ps = starting x qs) ->
  (forall f x, In (true, f) fs -> schema_name f = Some x ->
     thinned (matters sep f) (starting x ps) (starting x qs)
     /\ set_flat f sep (fresh f) (starting x ps) = set_flat f sep (fresh f) (starting x qs)) ->
  dict_go sep ps fs items = dict_go sep qs fs items.
Proof.
  intros TP TQ. revert items. induction fs as [|[b f] fs IH]; intros items N ND A L T; [easy|]. cbn [dict_go].
  destruct (schema_name f) as [x|] eqn:E; [|now specialize (N b f (or_introl eq_refl))].
  rewrite !acc_text by easy.
  cbn [map] in ND. apply NoDup_cons_iff in ND as [NI ND]. unfold fname at 1 in NI. cbn [snd] in NI. rewrite E in NI.
  assert (IH' : forall items, (forall b f, In (b, f) fs -> aget name_eqb (schema_name f) items = if b then Some (fresh f) else None) ->
                dict_go sep ps fs items = dict_go sep qs fs items).
  { intros it H. apply IH; try easy; intros; try (eapply N; right; eassumption); [eapply L|eapply T]; try (right; eassumption); easy. }
  assert (A0 : aget name_eqb (Some x) items = if b then Some (fresh f) else None).
  { rewrite <- E. apply A. now left. }
  assert (A1 : forall b f, In (b, f) fs -> aget name_eqb (schema_name f) items = if b then Some (fresh f) else None).
  { intros. apply A. now right. }
  assert (A2 : forall u b f, In (b, f) fs -> aget name_eqb (schema_name f) (aset name_eqb (Some x) u items) = if b then Some (fresh f) else None).
  { intros u b' g I. rewrite (aget_aset_neq name_eqb name_eqb_eq'); [now apply A1|]. intros X. apply NI.
    apply in_map_iff. exists (b', g). split; [unfold fname; cbn [snd]; congruence|easy]. }
  destruct b.
  - destruct (T f x (or_introl eq_refl) E) as [T1 T2]. rewrite A0.
    destruct (starting x ps) as [|p l] eqn:P.
    { apply thinned_nil in T1. rewrite T1. now apply IH'. }
    destruct (starting x qs) as [|q m] eqn:Q.
    + destruct (set_flat f sep (fresh f) (p :: l)) as [u r] eqn:F.
      assert (Z : set_flat f sep (fresh f) [] = (fresh f, Ok tt)).
      { apply set_flat_nil. intros n pr m ->. destruct (is_container m) eqn:C; [|easy].
        assert (p :: l = []) by (apply (thinned_all _ _ _ T1); intros; now left). easy. }
      rewrite Z in T2. injection T2 as -> ->. rewrite (aset_same _ _ _ A0). now apply IH'.
    + rewrite T2. destruct (set_flat f sep (fresh f) (q :: m)) as [u [|]]; [|easy]. apply IH'. apply A2.
  - rewrite (L f x (or_introl eq_refl) E), A0. destruct (starting x qs) as [|q m]; [now apply IH'|].
    destruct (set_flat f sep (fresh f) (q :: m)) as [u [|]]; [|easy]. apply IH'. apply A2.
Qed.
Lemma fresh_items fs b f : NoDup (map fname fs) -> In (b, f) fs ->
  aget name_eqb (schema_name f) (flat_map (fun f => if fst f : bool then [(schema_name (snd f), fresh (snd f))] else []) fs)
  = if b then Some (fresh f) else None.
Proof.
  intros ND I. induction fs as [|[b' g] fs IH]; [easy|]. cbn [map] in ND. apply NoDup_cons_iff in ND as [NI ND].
  cbn [flat_map fst snd]. destruct I as [[= -> ->]|I].
  - destruct b; cbn [app aget].
    + assert (X : name_eqb (schema_name f) (schema_name f) = true) by now apply name_eqb_eq. now rewrite X.
    + apply (aget_None name_eqb name_eqb_eq'). intros X. apply NI. clear - X.
      unfold keys in X. induction fs as [|[b g] fs IH]; [easy|]. cbn in *. rewrite map_app, in_app_iff in X.
      destruct X as [X|X]; [left; destruct b; [destruct X as [X|[]]; exact X|destruct X]|right; exact (IH X)].
  - specialize (IH ND I). destruct b'; cbn [app aget]; [|easy].
    destruct (name_eqb (schema_name f) (schema_name g)) eqn:X; [|easy]. apply name_eqb_eq in X. exfalso. apply NI.
    unfold fname at 1. cbn [snd]. rewrite <- X. apply in_map_iff. now exists (b, f).
Qed.
Lemma matters_lemma s : named_fields s -> forall sep ps qs, separator sep -> text_keys ps ->
  thinned (matters sep s) ps qs -> set_flat s sep (fresh s) ps = set_flat s sep (fresh s) qs.
Proof.
  induction s as [n k|n cp fs IH|n p z m _|n p m _|n jd] using schema_ind'; intros N sep ps qs S T H.
  1, 3, 4, 5: now apply concerns_lemma.
  pose proof (thinned_text _ _ _ H T) as TQ. apply named_dict in N as [ND N].
  cbn [fresh]. rewrite !set_flat_dict_text by easy.
  assert (X : thinned (fun r => exists b f x y, In (b, f) fs /\ schema_name f = Some x /\ r = x ++ y /\ (b = true -> matters sep f r))
                (own_part n sep ps) (own_part n sep qs)).
  { destruct n as [o|]; cbn [own_part].
    - apply (thinned_stripped _ (o ++ sep)) in H. eapply thinned_impl; [|exact H]. intros k P. apply matters_dict. exists k. split; [now rewrite app_assoc|exact P].
    - eapply thinned_impl; [|exact H]. intros k P. apply matters_dict. now exists k. }
  erewrite matters_go; [reflexivity|..].
  - now apply own_part_text.
  - now apply own_part_text.
  - intros b f I. now apply (N b f).
  - easy.
  - intros b f I. now apply fresh_items.
  - intros f x I E. apply (thinned_all (fun _ => True)); [|easy]. eapply thinned_starting_gen; [exact X|]. intros y _.
    exists false, f, x, y. easy.
  - intros f x I E.
    assert (Y : thinned (matters sep f) (starting x (own_part n sep ps)) (starting x (own_part n sep qs))).
    { eapply thinned_starting_gen; [exact X|]. intros y M. exists true, f, x, y. easy. }
    split; [exact Y|]. rewrite Forall_forall in IH. specialize (IH _ I). cbn [snd] in IH. apply IH; try easy.
    + now apply (N true f).
    + apply text_none. unfold starting. apply not_true_is_false. intros B. apply existsb_exists in B as ([[k|] v] & I' & B); [easy|].
      apply filter_In in I' as [_ F]. easy.
Qed.

(* ---------------- order ---------------- *)
Lemma digits_val_snoc s c acc : digits_val acc (s ++ [c]) =
  match digits_val acc s with Some n => option_map (fun d => 10 * n + d)%N (digit_val c) | None => None end.
Proof.
  revert acc. induction s as [|d s IH]; intros acc; cbn [app digits_val].
  - destruct (digit_val c); easy.
  - destruct (digit_val d); [apply IH|easy].
Qed.
Definition plainish (s : str) : Prop := Forall (fun c => 48 <= c <= 57)%N s /\ (s = [] \/ hd 48%N s <> 48%N).
Lemma plainish_snoc s c : plainish (s ++ [c]) -> plainish s /\ (48 <= c <= 57)%N /\ (s = [] -> c <> 48%N).
Proof.
  intros [F H]. apply Forall_app in F as [F1 F2]. apply Forall_cons_iff in F2 as [F2 _]. split; [|split; [easy|]].
  - split; [easy|]. destruct s; [now left|]. right. destruct H as [H|H]; [easy|exact H].
  - intros -> ->. destruct H as [H|H]; [easy|now apply H].
Qed.
Lemma dval c : (48 <= c <= 57)%N -> digit_val c = Some (c - 48)%N.
Proof. intros H. apply adigit_val. unfold is_adigit. lia. Qed.
Lemma plainish_pos s i : plainish s -> digits_val 0 s = Some i -> s <> [] -> i <> 0%N.
Proof.
  revert i. induction s as [|c s IH] using rev_ind; intros i P D N; [easy|].
  apply plainish_snoc in P as (P & C & Z). rewrite digits_val_snoc in D. destruct (digits_val 0 s) as [j|] eqn:E; [|easy].
  rewrite (dval c C) in D. cbn in D. injection D as <-. destruct s as [|d s].
  - specialize (Z eq_refl). lia.
  - assert (j <> 0%N) by now apply IH. lia.
Qed.
Lemma plainish_inj s : forall t i, plainish s -> plainish t -> digits_val 0 s = Some i -> digits_val 0 t = Some i -> s = t.
Proof.
  induction s as [|c s IH] using rev_ind; intros t i P Q D E.
  - cbn in D. injection D as <-. destruct t as [|d t]; [easy|]. exfalso. now apply (plainish_pos _ _ Q E).
  - destruct t as [|d t _] using rev_ind.
    + cbn in E. injection E as <-. exfalso. apply (plainish_pos _ _ P D); [destruct s; easy|easy].
    + apply plainish_snoc in P as (P & C & _), Q as (Q & C' & _). rewrite digits_val_snoc in D, E.
      destruct (digits_val 0 s) as [j|] eqn:D1; [|easy]. destruct (digits_val 0 t) as [j'|] eqn:E1; [|easy].
      rewrite (dval c C) in D. rewrite (dval d C') in E. cbn in D, E. injection D as D. injection E as E.
      assert (j = j') by lia. subst j'. assert (c = d) by lia. subst d. f_equal. now apply (IH t j).
Qed.
Lemma plain_inj s t i : plain_digits s -> plain_digits t -> numeral s i -> numeral t i -> s = t.
Proof.
  intros [F H] [G I] D E. apply numeral_iff in D, E.
  assert (Z : digits_val 0 [48%N] = Some 0%N) by reflexivity.
  assert (X : forall s, s = [48%N] \/ hd 48%N s <> 48%N -> s = [48%N] \/ (s <> [] /\ hd 48%N s <> 48%N)).
  { intros u [K|K]; [now left|]. right. split; [|easy]. intros ->. now apply K. }
  apply X in H as [->|[N H]], I as [->|[N' I]]; try easy.
  - exfalso. rewrite Z in D. injection D as <-. apply (plainish_pos t 0%N); try easy. split; [easy|now right].
  - exfalso. rewrite Z in E. injection E as <-. apply (plainish_pos s 0%N); try easy. split; [easy|now right].
  - apply (plainish_inj s t i); try easy; split; auto.
Qed.

(* plain keys *)
Lemma digit_free_separator sep : digit_free sep -> separator sep.
Proof. intros [N F]. destruct sep as [|c r]; [easy|]. inversion F; subst. now exists c, r. Qed.
Lemma ends_digit_app a b : ends_digit (a ++ b) -> (b = [] /\ ends_digit a) \/ ends_digit b.
Proof.
  intros (r & c & E & D). destruct b as [|d b _] using rev_ind.
  - left. split; [easy|]. rewrite app_nil_r in E. now exists r, c.
  - right. rewrite app_assoc in E. apply app_inj_tail in E as [_ ->]. now exists b, c.
Qed.
Lemma sep_ends sep : digit_free sep -> ~ ends_digit sep.
Proof. intros [_ F] (r & c & -> & D). apply Forall_app in F as [_ F]. apply Forall_cons_iff in F as [F _]. congruence. Qed.
Lemma plain_key_suffix sep a r : digit_free sep -> (a <> [] -> ~ ends_digit a) -> plain_key sep (a ++ r) -> plain_key sep r.
Proof.
  intros S N (H1 & H2 & H3). split; [|split].
  - intros b ds c -> D A B C. apply (H1 (a ++ b) ds c); try easy; [now rewrite <- app_assoc|].
    intros E. apply ends_digit_app in E as [[-> E]|E]; [|easy].
    destruct E as (u & d & -> & E). apply N; [destruct u; easy|]. now exists u, d.
  - intros t ->. now apply (H2 (a ++ t)); rewrite app_assoc.
  - intros t ->. now apply (H3 (a ++ t)); rewrite app_assoc.
Qed.
Lemma sep_suffix sep a : digit_free sep -> ~ ends_digit (a ++ sep).
Proof. intros S E. apply ends_digit_app in E as [[-> _]|E]; [now destruct S|now apply (sep_ends sep)]. Qed.
Lemma prefixed_no_digit n sep p : digit_free sep -> prefixed n sep p -> ~ ends_digit p.
Proof. intros S [x _ _|_]; [now apply sep_suffix|]. intros (r & c & E & _). now destruct r. Qed.
Lemma not_starts_nil : ~ starts_digit [].
Proof. intros (c & r & E & _). easy. Qed.
Lemma read_plain n sep k i r : digit_free sep -> plain_key sep k -> reads n sep k i r ->
  exists p ds, prefixed n sep p /\ plain_digits ds /\ numeral ds i
    /\ ((r = None /\ k = p ++ ds) \/ exists x, r = Some x /\ k = p ++ ds ++ sep ++ x /\ plain_key sep x).
Proof.
  intros S (H1 & H2 & H3) R.
  assert (PD : forall p ds t, prefixed n sep p -> ds <> [] -> numeral ds i -> k = p ++ ds ++ t -> ~ starts_digit t -> plain_digits ds).
  { intros p ds t P N D -> T. apply (H1 p ds t); try easy; [now apply (numeral_chars ds i)|now apply (prefixed_no_digit n sep)]. }
  inversion R as [p ds j P N D E1 E2 E3|p ds j P N D E1 E2 E3|p ds j x P N D X E1 E2 E3|p ds j P N D X E1 E2 E3]; subst j r; exists p, ds;
    (split; [exact P|]).
  - split; [apply (PD p ds [] P N D); [now rewrite app_nil_r|apply not_starts_nil]|]. split; [easy|]. left. now rewrite E1.
  - exfalso. apply (H2 (p ++ ds)). now rewrite <- app_assoc.
  - split; [apply (PD p ds (sep ++ x) P N D); [easy|apply sep_no_digit; now apply digit_free_separator]|]. split; [easy|]. right.
    exists x. split; [easy|]. split; [now rewrite E1|]. apply (plain_key_suffix sep (p ++ ds ++ sep)); [easy| |].
    + intros _. rewrite app_assoc. now apply sep_suffix.
    + rewrite <- !app_assoc. rewrite E1. split; [|split]; easy.
  - exfalso. apply (H3 (p ++ ds)). now rewrite <- app_assoc.
Qed.
Lemma read_inj n sep k k' i r : digit_free sep -> plain_key sep k -> plain_key sep k' ->
  reads n sep k i r -> reads n sep k' i r -> k = k'.
Proof.
  intros S P P' R R'. apply (read_plain n sep k i r S P) in R as (p & ds & Q & D & N & H).
  apply (read_plain n sep k' i r S P') in R' as (p' & ds' & Q' & D' & N' & H').
  apply prefixed_list_prefix in Q, Q'. subst p p'. rewrite (plain_inj ds ds' i D D' N N') in *.
  destruct H as [[-> ->]|(x & -> & -> & _)], H' as [[E ->]|(x' & E & -> & _)]; try easy. now injection E as ->.
Qed.

(* the pairs of one level and of the next *)
Definition ok_keys (sep : str) (ps : flat_pairs) : Prop :=
  NoDup (map fst ps) /\ forall k v, In (Some k, v) ps -> plain_key sep k.
Lemma ok_keys_cons sep p ps : ok_keys sep (p :: ps) ->
  ok_keys sep ps /\ ~ In (fst p) (map fst ps) /\ forall k, fst p = Some k -> plain_key sep k.
Proof.
  intros [ND P]. cbn [map] in ND. apply NoDup_cons_iff in ND as [NI ND]. split; [|split; [easy|]].
  - split; [easy|]. intros. eapply P. right. eauto.
  - intros k E. apply (P k (snd p)). left. destruct p; cbn in *. now subst.
Qed.
Lemma ok_keys_perm sep ps qs : Permutation ps qs -> ok_keys sep ps -> ok_keys sep qs.
Proof.
  intros H [ND P]. split.
  - eapply Permutation_NoDup; [|exact ND]. now apply Permutation_map.
  - intros k v I. apply (P k v). eapply Permutation_in; [|exact I]. now symmetry.
Qed.
Lemma In_stripped pre ps k v : In (k, v) (stripped pre ps) <-> exists r, k = Some r /\ In (Some (pre ++ r), v) ps.
Proof.
  unfold stripped. rewrite in_flat_map. split.
  - intros ([[k'|] v'] & I & H); [|easy]. cbn [fst snd] in H. destruct (starts_with pre k') eqn:E; [|easy].
    apply starts_with_iff in E as [r ->]. rewrite skipn_app_len in H. destruct H as [[= <- <-]|[]]. now exists r.
  - intros (r & -> & I). exists (Some (pre ++ r), v). split; [easy|]. cbn [fst snd]. rewrite starts_with_app, skipn_app_len. now left.
Qed.
Lemma stripped_ok sep x ps : digit_free sep -> ok_keys sep ps -> ok_keys sep (stripped (x ++ sep) ps).
Proof.
  intros S H. split.
  - induction ps as [|[k v] ps IH]; [constructor|]. apply ok_keys_cons in H as (H & NI & P). specialize (IH H).
    unfold stripped. cbn [flat_map fst snd]. fold (stripped (x ++ sep) ps). destruct k as [k|]; [|easy].
    destruct (starts_with (x ++ sep) k) eqn:E; [|easy]. cbn [app map]. constructor; [|easy].
    apply starts_with_iff in E as [r ->]. rewrite skipn_app_len. intros I. apply in_map_iff in I as ([k' v'] & E & I).
    apply In_stripped in I as (r' & -> & I). cbn in E. injection E as ->. apply NI. cbn [fst].
    apply in_map_iff. now exists (Some ((x ++ sep) ++ r), v').
  - intros k v I. apply In_stripped in I as (r & [= <-] & I). destruct H as [_ P]. apply P in I.
    eapply plain_key_suffix; [exact S| |exact I]. intros _. now apply sep_suffix.
Qed.
Lemma Perm_flat_map {A B} (f : A -> list B) l l' : Permutation l l' -> Permutation (flat_map f l) (flat_map f l').
Proof. intros H. now apply Permutation_flat_map. Qed.
Lemma Perm_filter {A} (f : A -> bool) l l' : Permutation l l' -> Permutation (filter f l) (filter f l').
Proof.
  induction 1 as [|x l l' _ IH|x y l|l1 l2 l3 _ IH1 _ IH2]; cbn; [constructor| | |now transitivity (filter f l2)].
  - destruct (f x); [now constructor|easy].
  - destruct (f x), (f y); try apply Permutation_refl. apply perm_swap.
Qed.
Lemma Perm_existsb {A} (f : A -> bool) l l' : Permutation l l' -> existsb f l = existsb f l'.
Proof.
  intros H. apply eq_true_iff_eq. rewrite !existsb_exists. split; intros (x & I & E); exists x; (split; [|easy]);
    [apply (Permutation_in _ H I)|apply (Permutation_in _ (Permutation_sym H) I)].
Qed.
Lemma NoDup_map_filter {A B} (f : A -> B) p l : NoDup (map f l) -> NoDup (map f (filter p l)).
Proof.
  induction l as [|a l IH]; [easy|]. cbn [map filter]. intros ND. apply NoDup_cons_iff in ND as [NI ND].
  destruct (p a); [|now apply IH]. cbn [map]. constructor; [|now apply IH]. intros I. apply NI.
  apply in_map_iff in I as (b & E & I). apply filter_In in I as [I _]. apply in_map_iff. now exists b.
Qed.
Lemma starting_ok sep x ps : ok_keys sep ps -> ok_keys sep (starting x ps).
Proof.
  intros [ND P]. split.
  - now apply NoDup_map_filter.
  - intros k v I. apply filter_In in I as [I _]. now apply (P k v).
Qed.
Lemma In_grp n sep prune i ps r v : In (r, v) (grp n sep prune i ps) <->
  exists k, In (Some k, v) ps /\ rd n sep k = Some (i, r) /\ is_blank v && prune = false.
Proof.
  unfold grp. rewrite in_flat_map. split.
  - intros ([k v'] & I & H). unfold take_of in H. cbn [fst snd] in H. destruct (is_blank v' && prune) eqn:B; [easy|].
    destruct k as [k|]; [|easy]. destruct (rd n sep k) as [[j ck]|] eqn:E; [|easy]. destruct (N.eqb_spec j i) as [->|]; [|easy].
    destruct H as [[= <- <-]|[]]. exists k. easy.
  - intros (k & I & E & B). exists (Some k, v). split; [easy|]. unfold take_of. cbn [fst snd]. rewrite B, E, N.eqb_refl. now left.
Qed.
Lemma grp_ok n sep prune i ps : digit_free sep -> ok_keys sep ps -> ok_keys sep (grp n sep prune i ps).
Proof.
  intros S H. pose proof (digit_free_separator sep S) as S'. split.
  - induction ps as [|[k v] ps IH]; [constructor|]. apply ok_keys_cons in H as (H & NI & P). specialize (IH H).
    unfold grp. cbn [flat_map]. fold (grp n sep prune i ps). unfold take_of. cbn [fst snd].
    destruct (is_blank v && prune); [easy|]. destruct k as [k|]; [|easy].
    destruct (rd n sep k) as [[j ck]|] eqn:E; [|easy]. destruct (N.eqb_spec j i) as [->|]; [|easy].
    cbn [app map]. constructor; [|easy]. intros I. apply in_map_iff in I as ([r v'] & X & I). cbn in X. subst r.
    apply In_grp in I as (k' & I & E' & _). assert (k = k').
    { apply (read_inj n sep k k' i ck S); [now apply P|destruct H as [_ H]; now apply (H k' v')| |]; now apply rd_reads. }
    subst k'. apply NI. apply in_map_iff. now exists (Some k, v').
  - intros k v I. apply In_grp in I as (k' & I & E & _). apply rd_reads in E; [|easy]. destruct H as [_ P]. apply P in I.
    apply (read_plain n sep k' i _ S I) in E as (p & ds & _ & _ & _ & [[E _]|(x & [= <-] & _ & X)]); [easy|exact X].
Qed.

Lemma flat_first_In n ps v : NoDup (map fst ps) -> flat_first n ps = Some v <-> In (n, v) ps.
Proof.
  induction ps as [|[k w] ps IH]; cbn [map]; intros ND; [easy|]. apply NoDup_cons_iff in ND as [NI ND]. cbn [flat_first].
  destruct (name_eqb k n) eqn:E.
  - apply name_eqb_eq in E. subst k. split; [intros [= <-]; now left|]. intros [[= <-]|I]; [easy|]. exfalso. apply NI.
    apply in_map_iff. now exists (n, v).
  - rewrite IH by easy. split; [now right|]. intros [[= -> _]|I]; [|easy].
    assert (X : name_eqb n n = true) by now apply name_eqb_eq. congruence.
Qed.
Lemma flat_first_perm n ps qs : NoDup (map fst ps) -> Permutation ps qs -> flat_first n ps = flat_first n qs.
Proof.
  intros ND H. assert (ND' : NoDup (map fst qs)) by (eapply Permutation_NoDup; [|exact ND]; now apply Permutation_map).
  destruct (flat_first n ps) as [v|] eqn:E.
  - symmetry. apply flat_first_In; [easy|]. eapply Permutation_in; [exact H|]. now apply flat_first_In.
  - destruct (flat_first n qs) as [v|] eqn:F; [|easy]. apply flat_first_In in F; [|easy]. rewrite <- E. apply flat_first_In; [easy|].
    eapply Permutation_in; [|exact F]. now symmetry.
Qed.
Lemma sorted_unique l l' : StronglySorted N.lt l -> StronglySorted N.lt l' -> (forall i, In i l <-> In i l') -> l = l'.
Proof.
  intros S. revert l'. induction S as [|a l S IH F]; intros l' S' H.
  - destruct l' as [|b l']; [easy|]. exfalso. apply (H b). now left.
  - destruct S' as [|b l' S' F']; [exfalso; apply (H a); now left|]. rewrite Forall_forall in F, F'.
    assert (a = b).
    { destruct (proj1 (H a) (or_introl eq_refl)) as [E|E]; [easy|]. destruct (proj2 (H b) (or_introl eq_refl)) as [E'|E']; [easy|].
      specialize (F _ E'). specialize (F' _ E). lia. }
    subst b. f_equal. apply IH; [easy|]. intros i. split; intros I.
    + destruct (proj1 (H i) (or_intror I)) as [<-|E]; [|easy]. specialize (F _ I). lia.
    + destruct (proj2 (H i) (or_intror I)) as [<-|E]; [|easy]. specialize (F' _ I). lia.
Qed.
Lemma max_of_same l l' : (forall i, In i l <-> In i l') -> max_of l = max_of l'.
Proof.
  intros H. destruct l as [|a l].
  - destruct l' as [|b l']; [easy|]. exfalso. apply (H b). now left.
  - assert (X : a :: l <> []) by easy. assert (Y : l' <> []) by (intros ->; apply (H a); now left).
    pose proof (max_of_In l' _ (proj1 (H _) (max_of_mem _ X))). pose proof (max_of_In (a :: l) _ (proj2 (H _) (max_of_mem _ Y))). lia.
Qed.
Definition alike_opt (sep : str) (o o' : option flat_pairs) : Prop :=
  match o, o' with
  | None, None => True
  | Some l, Some l' => Permutation l l' /\ ok_keys sep l
  | _, _ => False
  end.
Lemma plan_alike sep prune limit g g' : NoDup (keys g) -> NoDup (keys g') ->
  (forall i, alike_opt sep (aget N.eqb i g) (aget N.eqb i g')) ->
  Forall2 (alike_opt sep) (list_plan prune limit g) (list_plan prune limit g').
Proof.
  intros ND ND' H.
  assert (K : forall i, In i (keys g) <-> In i (keys g')).
  { intros i. specialize (H i). split; intros X; apply (aget_Some_keys N.eqb Neqb_eq) in X as [v E]; rewrite E in H;
      apply (aget_Some_keys N.eqb Neqb_eq);
      [destruct (aget N.eqb i g') as [w|]|destruct (aget N.eqb i g) as [w|]]; try easy; now exists w. }
  assert (M : forall (A : Type) (f f' : A -> option flat_pairs) l, (forall i, alike_opt sep (f i) (f' i)) -> Forall2 (alike_opt sep) (map f l) (map f' l)).
  { intros A f f' l X. induction l; cbn; constructor; auto. }
  unfold list_plan. destruct prune.
  - assert (E : sorted_indexes g = sorted_indexes g').
    { apply sorted_unique; try (now apply sorted_indexes_sorted). intros i. now rewrite !sorted_indexes_In. }
    rewrite <- E. apply M. exact H.
  - rewrite <- (max_of_same _ _ K). apply M. intros i. apply H.
Qed.
Lemma build_alike sep mk set plan plan' : (forall l l', Permutation l l' -> ok_keys sep l -> set l = set l') ->
  Forall2 (alike_opt sep) plan plan' -> build mk set plan = build mk set plan'.
Proof.
  intros H. induction 1 as [|o o' plan plan' A _ IH]; [easy|]. cbn [build]. destruct o as [l|], o' as [l'|]; try easy.
  - destruct A as [P K]. rewrite <- (H l l' P K). rewrite IH. destruct l as [|p l], l' as [|p' l']; try easy.
    + now apply Permutation_nil in P.
    + symmetry in P. now apply Permutation_nil in P.
  - now rewrite IH.
Qed.
Lemma no_arrays_dict {cp} n fs : no_arrays (SDict n cp fs) <-> forall b f, In (b, f) fs -> no_arrays f.
Proof.
  cbn. induction fs as [|[b f] fs IH]; cbn; [easy|]. rewrite IH. split.
  - intros [H1 H2] b' g [[= <- <-]|G]; eauto.
  - intros H. split; [apply (H b f); now left|]. intros. eapply H. right. eauto.
Qed.
Definition own_res (m : name) (sep : str) (ps : flat_pairs) : res flat_pairs :=
  match m with None => Ok ps | Some x => possibles (x ++ sep) ps end.
Lemma set_flat_dict_res {cp} {cq} n fields sep m items pairs :
  set_flat (SDict n cp fields) sep (EDict m cq items) pairs =
  match own_res m sep pairs with
  | Err x => (EDict m cq items, Err x)
  | Ok [] => (EDict m cq items, Ok tt)
  | Ok ps => let '(items, r) := dict_go sep ps fields items in (EDict m cq items, r)
  end.
Proof. reflexivity. Qed.
Lemma own_possibles m sep ps qs : Permutation ps qs ->
  match own_res m sep ps, own_res m sep qs with
  | Ok a, Ok b => Permutation a b /\ (digit_free sep -> ok_keys sep ps -> ok_keys sep a)
  | Err x, Err y => x = y
  | _, _ => False
  end.
Proof.
  intros P. destruct m as [x|]; cbn [own_res]; [|easy]. rewrite !possibles_lemma, (Perm_existsb none_key ps qs P).
  destruct (existsb none_key qs); [easy|]. split; [now apply Perm_flat_map|]. intros. now apply stripped_ok.
Qed.
Lemma order_go sep ps qs fs : Permutation ps qs -> ok_keys sep ps ->
  (forall b f, In (b, f) fs -> schema_name f <> None) ->
  (forall b f, In (b, f) fs -> forall e l l', Permutation l l' -> ok_keys sep l -> set_flat f sep e l = set_flat f sep e l') ->
  forall items, dict_go sep ps fs items = dict_go sep qs fs items.
Proof.
  intros P K. induction fs as [|[b f] fs IH]; intros N H items; [easy|]. cbn [dict_go].
  assert (IH' : forall items, dict_go sep ps fs items = dict_go sep qs fs items).
  { apply IH; intros; [eapply N|eapply H]; try (right; eassumption); easy. }
  destruct (schema_name f) as [x|] eqn:E; [|now specialize (N b f (or_introl eq_refl))].
  rewrite !accumulate_lemma, (Perm_existsb none_key ps qs P). destruct (existsb none_key qs); [easy|].
  assert (Q : Permutation (starting x ps) (starting x qs)) by now apply Perm_filter.
  pose proof (starting_ok sep x ps K) as K'.
  destruct (starting x ps) as [|p l], (starting x qs) as [|q m]; try easy.
  - now apply Permutation_nil in Q.
  - symmetry in Q. now apply Permutation_nil in Q.
  - match goal with |- (let '(_, _) := set_flat f sep ?e _ in _) = _ => rewrite (H b f (or_introl eq_refl) e _ _ Q K') end.
    destruct (set_flat _ _ _ _) as [u [|]]; [apply IH'|easy].
Qed.
Lemma order_lemma s : no_arrays s -> named_fields s -> forall sep e ps qs, digit_free sep -> Permutation ps qs -> ok_keys sep ps ->
  set_flat s sep e ps = set_flat s sep e qs.
Proof.
  induction s as [n k|n cp fs IH|n prune z m IH|n p m _|n jd] using schema_ind'; intros NA N sep e ps qs S P K; [| | |easy|];
    pose proof (digit_free_separator sep S) as S'.
  - destruct e as [m st|m cq l|m l|m l|m jd' l]; try easy. cbn [set_flat]. now rewrite (flat_first_perm m ps qs (proj1 K) P).
  - destruct e as [m st|m cq l|m l|m l|m jd' l]; try easy. rewrite !set_flat_dict_res. pose proof (own_possibles m sep ps qs P) as H.
    destruct (own_res m sep ps) as [a|x], (own_res m sep qs) as [b|y]; try easy; [|now subst].
    destruct H as [Q K']. specialize (K' S K).
    assert (G : dict_go sep a fs l = dict_go sep b fs l).
    { apply order_go; try easy.
      - intros c f I. apply named_dict in N as [_ N]. now apply (N c f).
      - intros c f I u l1 l2 P' K1. rewrite Forall_forall in IH. specialize (IH _ I). cbn [snd] in IH. apply IH; try easy.
        + now apply (proj1 (no_arrays_dict n fs) NA c f).
        + apply named_dict in N as [_ N]. now apply (N c f). }
    rewrite G. destruct a as [|p a], b as [|q b]; try easy.
    + now apply Permutation_nil in Q.
    + symmetry in Q. now apply Permutation_nil in Q.
  - destruct e as [m' st|m' cq l|m' l|m' l|m' jd' l]; try easy. cbn [set_flat].
    pose proof (collect_lemma m' sep prune ps S' [] (NoDup_nil _)) as C.
    pose proof (collect_lemma m' sep prune qs S' [] (NoDup_nil _)) as C'.
    rewrite (Perm_existsb (bad prune) ps qs P) in C. destruct (existsb (bad prune) qs); [now rewrite C, C'|].
    destruct C as (g & E & ND & G), C' as (g' & E' & ND' & G'). rewrite E, E'.
    assert (AL : forall i, alike_opt sep (aget N.eqb i g) (aget N.eqb i g')).
    { intros i. rewrite G, G'. cbn [aget].
      assert (Q : Permutation (grp m' sep prune i ps) (grp m' sep prune i qs)) by now apply Perm_flat_map.
      pose proof (grp_ok m' sep prune i ps S K) as K'.
      destruct (grp m' sep prune i ps) as [|p a], (grp m' sep prune i qs) as [|q b]; cbn [joined_to alike_opt]; try easy.
      - now apply Permutation_nil in Q.
      - symmetry in Q. now apply Permutation_nil in Q. }
    assert (B : build (fresh m) (set_flat m sep (fresh m)) (list_plan prune z g)
                = build (fresh m) (set_flat m sep (fresh m)) (list_plan prune z g')).
    { apply (build_alike sep); [|now apply plan_alike]. intros l1 l2 P' K'. apply IH; easy. }
    rewrite B. destruct g as [|[i a] g], g' as [|[j b] g']; try easy.
    + specialize (AL j). cbn in AL. now rewrite N.eqb_refl in AL.
    + specialize (AL i). cbn in AL. now rewrite N.eqb_refl in AL.
  - destruct e as [m st|m cq l|m l|m l|m jd' l]; try easy. cbn [set_flat]. now rewrite (flat_first_perm m ps qs (proj1 K) P).
Qed.
Lemma order_top s sep e ps qs : no_arrays s -> named_fields s -> digit_free sep -> plain_keys sep ps -> NoDup (map fst ps) ->
  Permutation ps qs -> set_flat s sep e ps = set_flat s sep e qs.
Proof.
  intros NA N S K ND P. apply order_lemma; try easy. split; [easy|]. intros k v I. unfold plain_keys in K. rewrite Forall_forall in K.
  destruct (K _ I) as (k' & [= <-] & H). exact H.
Qed.
