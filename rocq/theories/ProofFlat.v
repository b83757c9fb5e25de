(* Keys of Lists; collecting; building. *)
From Verif Require Import PyBase PyBaseFacts PyList ModelMap SpecScalar ProofScalar ModelPaths SpecPaths ModelScalar ModelFlat SpecFlat.
From Coq Require Import Sorted.

Section Schema_ind.
Variable P : schema -> Prop.
Hypothesis Hs : forall n k, P (SScalar n k).
Hypothesis Hd : forall n cp fs, Forall (fun f => P (snd f)) fs -> P (SDict n cp fs).
Hypothesis Hl : forall n p z m, P m -> P (SList n p z m).
Hypothesis Ha : forall n p m, P m -> P (SArray n p m).
Hypothesis Hj : forall n j, P (SJoined n j).
Fixpoint schema_ind' (s : schema) : P s :=
  match s with
  | SScalar n k => Hs n k
  | SDict n cp fs => Hd n cp fs ((fix go fs : Forall (fun f => P (snd f)) fs :=
                              match fs with [] => Forall_nil _ | f :: fs' => Forall_cons f (schema_ind' (snd f)) (go fs') end) fs)
  | SList n p z m => Hl n p z m (schema_ind' m)
  | SArray n p m => Ha n p m (schema_ind' m)
  | SJoined n j => Hj n j
  end.
End Schema_ind.
Section Element_ind.
Variable P : element -> Prop.
Hypothesis Hs : forall n st, P (EScalar n st).
Hypothesis Hd : forall n cp l, Forall (fun f => P (snd f)) l -> P (EDict n cp l).
Hypothesis Hl : forall n l, Forall P l -> P (EList n l).
Hypothesis Ha : forall n l, Forall P l -> P (EArray n l).
Hypothesis Hj : forall n j l, P (EJoined n j l).
Fixpoint element_ind' (e : element) : P e :=
  let go := fix go l : Forall P l := match l with [] => Forall_nil _ | f :: l' => Forall_cons f (element_ind' f) (go l') end in
  match e with
  | EScalar n k => Hs n k
  | EDict n cp fs => Hd n cp fs ((fix go fs : Forall (fun f => P (snd f)) fs :=
                              match fs with [] => Forall_nil _ | f :: fs' => Forall_cons f (element_ind' (snd f)) (go fs') end) fs)
  | EList n l => Hl n l (go l)
  | EArray n l => Ha n l (go l)
  | EJoined n j l => Hj n j l
  end.
End Element_ind.

(* ---------------- blank values, names ---------------- *)
Lemma is_blank_iff v : is_blank v = true <-> v = VText [].
Proof.
  unfold is_blank, py_eq. destruct v as [|b|z|s| | | |o]; cbn; try (split; intros; discriminate).
  rewrite str_eqb_eq. split; [now intros ->|now intros [= ->]].
Qed.
Lemma or_none_some s r : or_none s = Some r <-> s = r /\ r <> [].
Proof. destruct s; cbn; split; try intros [= <-]; try intros [<- H]; easy. Qed.
Lemma or_none_none s : or_none s = None <-> s = [].
Proof. destruct s; cbn; easy. Qed.
Lemma skipn_app_len {A} (a b : list A) : skipn (List.length a) (a ++ b) = b.
Proof. induction a; cbn; easy. Qed.
Lemma firstn_app_len {A} (a b : list A) : firstn (List.length a) (a ++ b) = a.
Proof. induction a; cbn; [easy|now f_equal]. Qed.

(* ---------------- the regex of a List ---------------- *)
Definition alldig (s : str) : Prop := Forall (fun c => is_digit c = true) s.
Lemma digit_run_split s : alldig (firstn (digit_run s) s) /\ ~ starts_digit (skipn (digit_run s) s) /\ List.length (firstn (digit_run s) s) = digit_run s.
Proof.
  induction s as [|c s [IH1 [IH2 IH3]]]; cbn.
  - repeat split; [constructor|]. now intros (c & r & E & _).
  - destruct (is_digit c) eqn:D; cbn.
    + repeat split; [now constructor|easy|now f_equal].
    + repeat split; [constructor|]. intros (c' & r & [= <- <-] & E). congruence.
Qed.
Lemma digit_run_app ds r : alldig ds -> ~ starts_digit r -> digit_run (ds ++ r) = List.length ds.
Proof.
  intros A N. induction A as [|c ds D _ IH]; cbn.
  - destruct r as [|c r]; cbn; [easy|]. destruct (is_digit c) eqn:D; [|easy]. exfalso. apply N. now exists c, r.
  - now rewrite D, IH.
Qed.
Lemma newline_digit : is_digit 10%N = false.
Proof. reflexivity. Qed.
Lemma after_sep_digit sep s : separator sep -> starts_digit s -> after_sep sep s = None.
Proof.
  intros (c & r & -> & D) (d & s' & -> & D'). unfold after_sep. cbn.
  destruct (N.eqb_spec c d) as [->|]; [congruence|]. cbn. destruct s' as [|]; [|easy].
  destruct (N.eqb_spec d 10) as [->|]; [|easy]. now rewrite newline_digit in D'.
Qed.
Lemma index_match_below sep s k : separator sep -> (k < digit_run s)%nat -> index_match k sep s = None.
Proof.
  intros S. induction k as [|k IH]; intros L; [easy|]. cbn [index_match].
  rewrite after_sep_digit; [apply IH; lia|easy|].
  clear IH S. revert k L. induction s as [|c s IH]; intros k L; cbn in L; [lia|].
  destruct (is_digit c) eqn:D; [|lia]. cbn. destruct k as [|k].
  - destruct s as [|d s]; cbn in L; [lia|]. destruct (is_digit d) eqn:D'; [|lia]. cbn. now exists d, s.
  - apply IH. lia.
Qed.
Lemma index_match_run sep s : separator sep ->
  index_match (digit_run s) sep s =
  match digit_run s with
  | O => None
  | _ => match after_sep sep (skipn (digit_run s) s) with
         | Some r => Some (firstn (digit_run s) s, r)
         | None => None
         end
  end.
Proof.
  intros S. destruct (digit_run s) as [|k] eqn:E; [easy|]. cbn [index_match].
  destruct (after_sep sep (skipn (Datatypes.S k) s)); [easy|]. apply index_match_below; [easy|lia].
Qed.
Lemma prefixed_list_prefix n sep p : prefixed n sep p <-> p = list_prefix n sep.
Proof.
  split.
  - intros [x -> H|[-> | ->]]; cbn; try easy. destruct x; easy.
  - intros ->. unfold list_prefix. destruct n as [[|c x]|]; [|now apply prefix_name|]; apply prefix_none; auto.
Qed.

(* the index and the rest, of a key *)
Definition rd (n : name) (sep k : str) : option (N * name) :=
  match list_key n sep k with
  | Some (ds, r) => match digits_val 0 ds with Some i => Some (i, or_none r) | None => None end
  | None => None
  end.
Lemma alldig_nonzero (ds : str) : ds <> [] -> exists k, List.length ds = S k.
Proof. destruct ds; [easy|]. now eexists. Qed.
Lemma list_key_intro n sep ds t r : separator sep -> ds <> [] -> alldig ds -> ~ starts_digit t ->
  after_sep sep t = Some r -> list_key n sep (list_prefix n sep ++ ds ++ t) = Some (ds, r).
Proof.
  intros S N A T H. unfold list_key. rewrite starts_with_app, skipn_app_len, index_match_run by easy.
  rewrite digit_run_app, skipn_app_len, firstn_app_len by easy.
  destruct (alldig_nonzero ds N) as [k ->]. now rewrite H.
Qed.
Lemma list_key_elim n sep k ds r : separator sep -> list_key n sep k = Some (ds, r) ->
  exists t, k = list_prefix n sep ++ ds ++ t /\ ds <> [] /\ alldig ds /\ ~ starts_digit t /\ after_sep sep t = Some r.
Proof.
  intros S H. unfold list_key in H. destruct (starts_with _ k) eqn:E; [|easy].
  apply starts_with_iff in E. destruct E as [s ->]. rewrite skipn_app_len, index_match_run in H by easy.
  destruct (digit_run_split s) as (A & B & L). destruct (digit_run s) as [|j] eqn:J; [easy|].
  destruct (after_sep sep (skipn (Datatypes.S j) s)) as [r'|] eqn:F; [|easy].
  assert (H1 : ds = firstn (Datatypes.S j) s) by congruence. assert (H2 : r = r') by congruence. subst ds r'. clear H.
  exists (skipn (Datatypes.S j) s). rewrite firstn_skipn. repeat split; try easy.
  intros E. rewrite E in L. discriminate L.
Qed.
Lemma sep_no_digit sep r : separator sep -> ~ starts_digit (sep ++ r).
Proof. intros (c & x & -> & D) (c' & y & [= <- _] & E). congruence. Qed.
Lemma after_sep_sep sep r : after_sep sep (sep ++ r) = Some r.
Proof. unfold after_sep. now rewrite starts_with_app, skipn_app_len. Qed.
Lemma after_sep_elim sep t r : after_sep sep t = Some r ->
  t = sep ++ r \/ (t = [] /\ r = []) \/ (t = [10%N] /\ r = [10%N] /\ starts_with sep t = false).
Proof.
  unfold after_sep. destruct (starts_with sep t) eqn:E.
  - apply starts_with_iff in E. destruct E as [s ->]. rewrite skipn_app_len. intros [= ->]. now left.
  - unfold at_end. destruct t as [|c [|]]; try easy.
    + intros [= <-]. auto.
    + destruct (N.eqb_spec c 10) as [->|]; [|easy]. intros [= <-]. auto.
Qed.
Lemma numeral_alldig s i : numeral s i -> alldig s.
Proof. exact (numeral_chars s i). Qed.
Lemma rd_reads n sep k i ck : separator sep -> rd n sep k = Some (i, ck) <-> reads n sep k i ck.
Proof.
  intros S. unfold rd. split.
  - destruct (list_key n sep k) as [[ds r]|] eqn:E; [|easy].
    destruct (digits_val 0 ds) as [j|] eqn:D; [|easy]. intros [= -> <-].
    apply list_key_elim in E; [|easy]. destruct E as (t & -> & N & A & T & H).
    apply numeral_iff in D. pose proof (proj2 (prefixed_list_prefix n sep _) eq_refl) as P.
    apply after_sep_elim in H as [-> | [[-> ->] | (-> & -> & W)]].
    + destruct r as [|c r]; [rewrite app_nil_r; now apply reads_bare|now apply reads_more].
    + rewrite app_nil_r. now apply reads_last.
    + apply reads_newline; try easy. intros ->. now cbn in W.
  - intros [p ds j P N D|p ds j P N D|p ds j r P N D R|p ds j P N D W];
      apply prefixed_list_prefix in P; subst p; pose proof (numeral_alldig _ _ D) as A; apply numeral_iff in D.
    + assert (E : after_sep sep [] = Some []) by (destruct S as (c & r & -> & _); reflexivity).
      pose proof (list_key_intro n sep ds [] [] S N A) as H. rewrite app_nil_r in H. rewrite H, D; try easy.
      now intros (c & r & ? & _).
    + pose proof (list_key_intro n sep ds (sep ++ []) [] S N A (sep_no_digit sep [] S) (after_sep_sep sep [])) as H.
      rewrite app_nil_r in H. now rewrite H, D.
    + rewrite (list_key_intro n sep ds (sep ++ r) r S N A (sep_no_digit sep r S) (after_sep_sep sep r)), D.
      destruct r; easy.
    + rewrite (list_key_intro n sep ds [10%N] [10%N] S N A), D; try easy.
      * intros (c & r & [= <- _] & E). now rewrite newline_digit in E.
      * unfold after_sep. destruct (starts_with sep [10%N]) eqn:E; [|easy]. exfalso. apply starts_with_iff in E.
        destruct E as [x E]. destruct S as (c & y & -> & _). cbn in E. injection E as <- E. symmetry in E. apply app_eq_nil in E as [-> _]. easy.
Qed.
Lemma list_key_rd n sep k : separator sep ->
  (list_key n sep k = None /\ rd n sep k = None) \/
  exists ds r i, list_key n sep k = Some (ds, r) /\ py_int ds = Ok (Z.of_N i) /\ rd n sep k = Some (i, or_none r).
Proof.
  intros S. unfold rd. destruct (list_key n sep k) as [[ds r]|] eqn:E; [right|now left].
  apply list_key_elim in E; [|easy]. destruct E as (t & _ & N & A & _ & _).
  destruct (digits_numeral ds A) as [i D]. exists ds, r, i. split; [easy|].
  split; [now apply py_int_digits|]. apply numeral_iff in D. now rewrite D.
Qed.

(* ---------------- collecting ---------------- *)
Definition take_of (n : name) (sep : str) (prune : bool) (i : N) (p : name * pyval) : flat_pairs :=
  if is_blank (snd p) && prune then [] else
  match fst p with
  | Some k => match rd n sep k with
              | Some (j, ck) => if N.eqb j i then [(ck, snd p)] else []
              | None => []
              end
  | None => []
  end.
Definition grp n sep prune i ps : flat_pairs := flat_map (take_of n sep prune i) ps.
Definition bad (prune : bool) (p : name * pyval) : bool :=
  negb (is_blank (snd p) && prune) && match fst p with None => true | Some _ => false end.

Lemma Neqb_eq : forall a b : N, N.eqb a b = true <-> a = b.
Proof. exact N.eqb_eq. Qed.
Lemma add_index_same i p g : aget N.eqb i (add_index i p g) = Some (match aget N.eqb i g with Some l => l ++ [p] | None => [p] end).
Proof. unfold add_index. now rewrite (aget_aset_eq N.eqb Neqb_eq). Qed.
Lemma add_index_other i j p g : i <> j -> aget N.eqb j (add_index i p g) = aget N.eqb j g.
Proof. intros H. unfold add_index. apply (aget_aset_neq N.eqb Neqb_eq). congruence. Qed.

Definition joined_to (o : option flat_pairs) (l : flat_pairs) : option flat_pairs :=
  match l with [] => o | _ => Some (match o with Some x => x ++ l | None => l end) end.
Lemma joined_step o a l : joined_to (joined_to o a) l = joined_to o (a ++ l).
Proof.
  destruct a; cbn [joined_to app]; [easy|]. destruct l; cbn [joined_to].
  - rewrite app_nil_r. easy.
  - destruct o; [now rewrite <- app_assoc|easy].
Qed.
Lemma collect_lemma n sep prune ps : separator sep -> forall g, NoDup (keys g) ->
  if existsb (bad prune) ps then collect n sep prune g ps = Err TypeErr
  else exists g', collect n sep prune g ps = Ok g' /\ NoDup (keys g')
       /\ forall i, aget N.eqb i g' = joined_to (aget N.eqb i g) (grp n sep prune i ps).
Proof.
  intros S. induction ps as [|[k v] ps IH]; intros g ND; cbn [existsb collect].
  { exists g. split; [easy|]. split; [easy|]. intros i. easy. }
  unfold bad at 1. unfold grp. cbn [fst snd flat_map]. unfold take_of at 1. cbn [fst snd].
  destruct (is_blank v && prune) eqn:B; cbn [negb andb orb].
  { specialize (IH g ND). destruct (existsb (bad prune) ps); easy. }
  destruct k as [k|]; cbn [orb]; [|easy].
  destruct (list_key_rd n sep k S) as [[-> E]|(ds & r & i & -> & -> & E)].
  { specialize (IH g ND). destruct (existsb (bad prune) ps); [easy|]. destruct IH as (g' & H1 & H2 & H3).
    exists g'. split; [easy|]. split; [easy|]. intros i. rewrite H3. now rewrite E. }
  rewrite N2Z.id. assert (ND' : NoDup (keys (add_index i (or_none r, v) g))) by (now apply (NoDup_keys_aset N.eqb Neqb_eq)).
  specialize (IH _ ND'). destruct (existsb (bad prune) ps); [easy|]. destruct IH as (g' & H1 & H2 & H3).
  exists g'. split; [easy|]. split; [easy|]. intros j. rewrite H3, E.
  destruct (N.eqb_spec i j) as [<-|NE].
  - rewrite <- joined_step. f_equal. rewrite add_index_same. cbn. easy.
  - now rewrite add_index_other.
Qed.

(* ---------------- the plan ---------------- *)
Lemma insert_index_In i l j : In j (insert_index i l) <-> j = i \/ In j l.
Proof.
  induction l as [|k l IH]; cbn; [intuition congruence|]. destruct (i <=? k)%N; cbn; [intuition congruence|].
  rewrite IH. intuition congruence.
Qed.
Lemma insert_index_sorted i l : ~ In i l -> StronglySorted N.lt l -> StronglySorted N.lt (insert_index i l).
Proof.
  intros NI. induction l as [|k l IH]; intros H; cbn; [repeat constructor|].
  apply StronglySorted_inv in H as [H F]. destruct (N.leb_spec i k).
  - constructor; [now constructor|]. constructor.
    + assert (i <> k) by (intros ->; apply NI; now left). lia.
    + eapply Forall_impl; [|exact F]. cbn. intros. lia.
  - constructor.
    + apply IH; [|easy]. intros ?. apply NI. now right.
    + apply Forall_forall. intros x X. apply insert_index_In in X as [-> |X]; [easy|]. rewrite Forall_forall in F. now apply F.
Qed.
Lemma sorted_indexes_In g i : In i (sorted_indexes g) <-> In i (keys g).
Proof. unfold sorted_indexes. induction (keys g); cbn; [easy|]. rewrite insert_index_In, IHl. intuition congruence. Qed.
Lemma sorted_indexes_sorted g : NoDup (keys g) -> StronglySorted N.lt (sorted_indexes g).
Proof.
  unfold sorted_indexes. induction 1 as [|x l NI ND IH]; cbn; [constructor|]. apply insert_index_sorted; [|easy].
  intros X. apply NI. clear - X. induction l; cbn in *; [easy|]. apply insert_index_In in X as [-> |X]; auto.
Qed.
Lemma up_to_firstn l limit o : (o <= limit)%Z -> up_to o limit l = firstn (Z.to_nat (limit - o)) l.
Proof.
  revert o. induction l as [|i l IH]; intros o L; cbn; [now rewrite firstn_nil|].
  destruct (Z.eqb_spec o limit) as [->|].
  - now rewrite Z.sub_diag.
  - rewrite IH by lia. replace (Z.to_nat (limit - o)) with (S (Z.to_nat (limit - (o + 1)))) by lia. easy.
Qed.
Lemma max_of_In l i : In i l -> (i <= max_of l)%N.
Proof. induction l; cbn; [easy|]. intros [->|H]; [lia|]. specialize (IHl H). lia. Qed.
Lemma max_of_mem l : l <> [] -> In (max_of l) l.
Proof.
  induction l as [|i l IH]; intros N; [easy|]. cbn. destruct l as [|j l].
  - left. cbn. lia.
  - destruct (N.max_spec i (max_of (j :: l))) as [[_ ->]|[_ ->]]; [right; now apply IH|now left].
Qed.
Lemma keys_grp n sep prune ps g : (forall i, aget N.eqb i g = joined_to None (grp n sep prune i ps)) ->
  forall i, In i (keys g) <-> grp n sep prune i ps <> [].
Proof.
  intros H i. specialize (H i). split; intros X.
  - intros E. rewrite E in H. cbn in H. now apply (aget_None N.eqb Neqb_eq) in H.
  - destruct (grp n sep prune i ps) as [|q l] eqn:E; [easy|]. cbn in H. apply (aget_Some_keys N.eqb Neqb_eq). now exists (q :: l).
Qed.

(* ---------------- collects ---------------- *)
Lemma collects_grp n sep prune i ps l : separator sep -> existsb (bad prune) ps = false ->
  collects n sep prune i ps l <-> l = grp n sep prune i ps.
Proof.
  intros S. revert l. induction ps as [|[k v] ps IH]; intros l B; cbn [existsb] in B.
  - split; [inversion 1; easy|]. intros ->. constructor.
  - apply orb_false_iff in B as [B1 B2]. specialize (fun l => IH l B2).
    unfold grp. cbn [flat_map]. fold (grp n sep prune i ps). unfold take_of. cbn [fst snd].
    unfold bad in B1. cbn [fst snd] in B1.
    split.
    + inversion 1 as [|k' ps' l' P C|k' v' ps' l' R C|k' v' r ps' l' R P C]; subst; apply IH in C; subst.
      * now cbn.
      * destruct (is_blank v && prune); [easy|]. destruct (rd n sep k') as [[j ck]|] eqn:E; [|easy].
        destruct (N.eqb_spec j i) as [->|]; [|easy]. apply rd_reads in E; [|easy]. now apply R in E.
      * assert (X : is_blank v && prune = false).
        { destruct (is_blank v) eqn:E; [|easy]. apply is_blank_iff in E. destruct prune; [now specialize (P eq_refl)|easy]. }
        rewrite X. apply rd_reads in R; [|easy]. rewrite R, N.eqb_refl. easy.
    + intros ->. destruct (is_blank v && prune) eqn:X.
      * apply andb_true_iff in X as [X1 X2]. apply is_blank_iff in X1. subst v. cbn [app]. apply collects_blank; [easy|]. now apply IH.
      * destruct k as [k|]; [|easy]. destruct (rd n sep k) as [[j ck]|] eqn:E.
        -- destruct (N.eqb_spec j i) as [->|NE].
           ++ cbn [app]. apply collects_take; [now apply rd_reads| |now apply IH].
              intros -> ->. discriminate X.
           ++ cbn [app]. apply collects_other; [|now apply IH]. intros r R. apply rd_reads in R; [|easy]. congruence.
        -- cbn [app]. apply collects_other; [|now apply IH]. intros r R. apply rd_reads in R; [|easy]. congruence.
Qed.
Lemma text_not_bad prune ps : text_keys ps -> existsb (bad prune) ps = false.
Proof.
  induction 1 as [|[k v] ps H _ IH]; cbn; [easy|]. rewrite IH. unfold bad. cbn in *. destruct k; [|easy]. now rewrite andb_false_r.
Qed.

(* ---------------- building ---------------- *)
Lemma build_lemma m sep plan : Forall (fun o => o <> Some []) plan ->
  let '(l, r) := build (fresh m) (set_flat m sep (fresh m)) plan in builds m sep plan l r.
Proof.
  induction 1 as [|o plan O _ IH]; cbn; [constructor|].
  destruct (build _ _ plan) as [l r].
  destruct o as [[|p ps]|]; [easy| |now constructor].
  destruct (set_flat m sep (fresh m) (p :: ps)) as [e [[]|x]] eqn:E; [now apply builds_set|now apply builds_raise].
Qed.

(* C27 *)
Lemma list_pruned_lemma n limit m sep e pairs : separator sep -> text_keys pairs -> (0 <= limit)%Z ->
  exists idx plan l r,
    StronglySorted N.lt idx
    /\ (forall i, In i idx <-> exists q g, collects n sep true i pairs (q :: g))
    /\ Forall2 (gathers n sep true pairs) (firstn (Z.to_nat limit) idx) plan
    /\ builds m sep plan l r
    /\ set_flat (SList n true limit m) sep (EList n e) pairs = (EList n l, r).
Proof.
  intros S T L. pose proof (collect_lemma n sep true pairs S [] (NoDup_nil _)) as C.
  rewrite (text_not_bad true pairs T) in C. destruct C as (g & C & ND & G). cbn [aget] in G.
  pose proof (keys_grp n sep true pairs g G) as K.
  set (plan := list_plan true limit g).
  assert (F : Forall2 (gathers n sep true pairs) (firstn (Z.to_nat limit) (sorted_indexes g)) plan
              /\ Forall (fun o => o <> Some []) plan).
  { unfold plan, list_plan. rewrite up_to_firstn by easy. rewrite Z.sub_0_r.
    assert (X : forall i, In i (firstn (Z.to_nat limit) (sorted_indexes g)) -> In i (keys g)).
    { intros i I. apply sorted_indexes_In. revert I. generalize (Z.to_nat limit). intros a. revert a. induction (sorted_indexes g) as [|x l IH]; intros [|a]; cbn; try easy.
      intros [->|I]; [now left|right; eauto]. }
    induction (firstn (Z.to_nat limit) (sorted_indexes g)) as [|i l IH]; cbn; [split; constructor|].
    destruct IH as [IH1 IH2]; [intros; apply X; now right|].
    specialize (X i (or_introl eq_refl)). apply K in X.
    rewrite G. unfold joined_to. destruct (grp n sep true i pairs) as [|q h] eqn:E; [easy|].
    split; constructor; try easy. cbn. split; [easy|]. apply collects_grp; [easy|now apply text_not_bad|easy]. }
  destruct F as [F1 F2].
  pose proof (build_lemma m sep plan F2) as B. destruct (build _ _ plan) as [l r] eqn:E.
  exists (sorted_indexes g), plan, l, r. split; [now apply sorted_indexes_sorted|]. split.
  { intros i. rewrite sorted_indexes_In, K. split.
    - intros H. destruct (grp n sep true i pairs) as [|q h] eqn:Q; [easy|]. exists q, h.
      apply collects_grp; [easy|now apply text_not_bad|easy].
    - intros (q & h & H). apply collects_grp in H; [|easy|now apply text_not_bad]. now rewrite <- H. }
  split; [easy|]. split; [easy|].
  cbn [set_flat]. rewrite C. destruct g as [|p g].
  - unfold plan in E. unfold list_plan in E. cbn in E. now injection E as <- <-.
  - fold plan. rewrite E. easy.
Qed.
Lemma list_unpruned_lemma n limit m sep e pairs : separator sep -> text_keys pairs ->
  exists l r, set_flat (SList n false limit m) sep (EList n e) pairs = (EList n l, r) /\
  ((forall i, collects n sep false i pairs []) /\ l = [] /\ r = Ok tt
   \/ exists top plan,
        (exists q g, collects n sep false top pairs (q :: g))
        /\ (forall i, (top < i)%N -> collects n sep false i pairs [])
        /\ Forall2 (fun i => gathers n sep false pairs (N.of_nat i)) (seq 0 (Z.to_nat (Z.min (Z.of_N top + 1) limit))) plan
        /\ builds m sep plan l r).
Proof.
  intros S T. pose proof (collect_lemma n sep false pairs S [] (NoDup_nil _)) as C.
  rewrite (text_not_bad false pairs T) in C. destruct C as (g & C & ND & G). cbn [aget] in G.
  pose proof (keys_grp n sep false pairs g G) as K.
  pose proof (text_not_bad false pairs T) as TB.
  cbn [set_flat]. rewrite C.
  destruct g as [|p g].
  { exists [], (Ok tt). split; [easy|]. left. split; [|easy]. intros i. apply collects_grp; [easy..|].
    destruct (grp n sep false i pairs) eqn:E; [easy|]. exfalso. apply (proj2 (K i)). now rewrite E. }
  set (plan := list_plan false limit (p :: g)).
  assert (F : Forall2 (fun i => gathers n sep false pairs (N.of_nat i)) (seq 0 (Z.to_nat (Z.min (Z.of_N (max_of (keys (p :: g))) + 1) limit))) plan
              /\ Forall (fun o => o <> Some []) plan).
  { unfold plan, list_plan. induction (seq 0 _) as [|i l IH]; cbn [map]; [split; constructor|]. destruct IH as [IH1 IH2].
    rewrite G. unfold joined_to. destruct (grp n sep false (N.of_nat i) pairs) as [|q h] eqn:E; split; constructor; try easy; cbn.
    - now apply collects_grp.
    - split; [easy|]. now apply collects_grp. }
  destruct F as [F1 F2]. pose proof (build_lemma m sep plan F2) as B. destruct (build _ _ plan) as [l r] eqn:E.
  exists l, r. split; [easy|]. right. exists (max_of (keys (p :: g))), plan. split; [|split; [|split; easy]].
  - assert (X : In (max_of (keys (p :: g))) (keys (p :: g))) by (apply max_of_mem; easy).
    apply K in X. destruct (grp n sep false _ pairs) as [|q h] eqn:Q; [easy|]. exists q, h. now apply collects_grp.
  - intros i I. apply collects_grp; [easy..|]. destruct (grp n sep false i pairs) eqn:Q; [easy|]. exfalso.
    assert (X : In i (keys (p :: g))) by (apply K; now rewrite Q). apply max_of_In in X. lia.
Qed.
