(* What set_flat gives to scalars, fields and Arrays. *)
From Verif Require Import PyBase PyBaseFacts PyList ModelMap SpecScalar ProofScalar ModelPaths SpecPaths ModelScalar ModelCompound ModelFlat SpecFlat ProofFlat ProofFlat2 ProofFlat3 ProofFlat5 ProofFlat8.

Lemma scalar_first_lemma n k sep st ps :
  (forall a v b, ps = a ++ (n, v) :: b -> ~ In n (map fst a) ->
     set_flat (SScalar n k) sep (EScalar n st) ps =
     (EScalar n (fst (scalar_set k (Scalar None (s_value st) (s_u st)) v)), rmap (fun _ => tt) (snd (scalar_set k (Scalar None (s_value st) (s_u st)) v))))
  /\ (~ In n (map fst ps) -> set_flat (SScalar n k) sep (EScalar n st) ps = (EScalar n (Scalar None (s_value st) (s_u st)), Ok tt)).
Proof.
  split.
  - intros a v b -> N. cbn [set_flat].
    assert (E : flat_first n (a ++ (n, v) :: b) = Some v).
    { induction a as [|[m w] a IH]; cbn [app flat_first].
      - now rewrite name_eqb_refl.
      - rewrite name_eqb_neq; [apply IH|]; intros H; apply N; [now right|left; now cbn]. }
    rewrite E. now destruct (scalar_set k _ v).
  - intros N. cbn [set_flat]. assert (E : flat_first n ps = None).
    { induction ps as [|[m w] ps IH]; cbn [app flat_first]; [easy|].
      rewrite name_eqb_neq; [apply IH|]; intros H; apply N; [now right|left; now cbn]. }
    now rewrite E.
Qed.
Lemma routes_lemma n sep x ps : text_keys ps -> routes n sep x ps (starting x (own_part n sep ps)).
Proof.
  unfold text_keys. induction 1 as [|[[k|] v] ps T _ IH]; [destruct n; constructor| |easy].
  destruct n as [o|]; cbn [own_part] in *.
  - unfold stripped. cbn [flat_map fst]. change (flat_map _ ps) with (stripped (o ++ sep) ps).
    destruct (starts_with (o ++ sep) k) eqn:E.
    + apply starts_with_iff in E as [r ->]. rewrite skipn_app_len. cbn [app starting filter fst snd].
      destruct (starts_with x r) eqn:E.
      * apply starts_with_iff in E as [y ->]. rewrite <- app_assoc. now apply (routes_take (Some o)).
      * apply routes_skip; [|exact IH]. intros y H. cbn [below] in H. rewrite <- app_assoc in H. apply app_inv_head, app_inv_head in H. subst r.
        now rewrite starts_with_app in E.
    + cbn [app]. apply routes_skip; [|exact IH]. intros y ->. cbn [below] in E. now rewrite app_assoc, starts_with_app in E.
  - cbn [starting filter fst]. destruct (starts_with x k) eqn:E.
    + apply starts_with_iff in E as [y ->]. now apply (routes_take None).
    + apply routes_skip; [|exact IH]. intros y ->. cbn [below] in E. now rewrite starts_with_app in E.
Qed.
Lemma dict_go_settled n sep all fs : text_keys all -> NoDup (map fname fs) -> (forall b f, In (b, f) fs -> schema_name f <> None) ->
  forall items items' r, dict_go sep (own_part n sep all) fs items = (items', r) ->
  (forall k, ~ In k (map fname fs) -> aget name_eqb k items' = aget name_eqb k items)
  /\ match r with
     | Ok _ => forall b f, In (b, f) fs -> settled n sep all items items' f
     | Err e => exists fs1 b f fs2 x l u, fs = fs1 ++ (b, f) :: fs2
         /\ (forall b g, In (b, g) fs1 -> settled n sep all items items' g)
         /\ schema_name f = Some x /\ routes n sep x all l
         /\ set_flat f sep (match aget name_eqb (Some x) items with Some u => u | None => fresh f end) l = (u, Err e)
         /\ aget name_eqb (Some x) items' = Some u
         /\ (forall b g, In (b, g) fs2 -> aget name_eqb (schema_name g) items' = aget name_eqb (schema_name g) items)
     end.
Proof.
  intros T. induction fs as [|[b f] fs IH]; intros ND NN items items' r H.
  - cbn in H. injection H as <- <-. easy.
  - cbn [map] in ND. apply NoDup_cons_iff in ND as [NF ND]. unfold fname at 1 in NF. cbn [snd] in NF.
    specialize (IH ND (fun b f I => NN b f (or_intror I))). cbn [dict_go] in H.
    destruct (schema_name f) as [x|] eqn:E; [|now apply (NN b f) in E; [|left]].
    rewrite acc_text in H by now apply own_part_text.
    pose proof (routes_lemma n sep x all T) as R.
    assert (Skip : forall k u, ~ In k (map fname ((b, f) :: fs)) -> aget name_eqb k (aset name_eqb (Some x) u items) = aget name_eqb k items).
    { intros k u NI. apply (aget_aset_neq name_eqb name_eqb_eq'). intros X. apply NI. left. unfold fname. cbn [snd]. congruence. }
    assert (Other : forall b' g u, In (b', g) fs -> aget name_eqb (schema_name g) (aset name_eqb (Some x) u items) = aget name_eqb (schema_name g) items).
    { intros b' g u I. apply (aget_aset_neq name_eqb name_eqb_eq'). intros X. apply NF. apply in_map_iff. exists (b', g). split; [unfold fname; cbn [snd]; congruence|easy]. }
    assert (Lift : forall u b' g, In (b', g) fs -> settled n sep all (aset name_eqb (Some x) u items) items' g -> settled n sep all items items' g).
    { intros u b' g I (y & l & Ey & Rg & S). exists y, l. split; [easy|]. split; [easy|]. rewrite <- Ey in *. rewrite (Other b' g u I) in S. exact S. }
    destruct (starting x (own_part n sep all)) as [|q l] eqn:L.
    + apply IH in H as [H1 H2]. split; [intros k K; apply H1; intros X; apply K; now right|].
      assert (S0 : settled n sep all items items' f).
      { exists x, []. split; [easy|]. split; [easy|]. now apply H1. }
      destruct r as [?|e].
      * intros b' g [[= <- <-]|I]; [easy|eauto].
      * destruct H2 as (fs1 & b1 & g & fs2 & y & l & u & -> & P & Q). exists ((b, f) :: fs1), b1, g, fs2, y, l, u. split; [easy|]. split; [|easy].
        intros b' h [[= <- <-]|I]; [easy|eauto].
    + destruct (set_flat f sep _ (q :: l)) as [u [[]|e]] eqn:F.
      * apply IH in H as [H1 H2].
        split; [intros k K; rewrite H1 by (intros X; apply K; now right); now apply Skip|].
        assert (S0 : settled n sep all items items' f).
        { exists x, (q :: l). split; [easy|]. split; [easy|]. exists u. split; [easy|]. rewrite H1 by easy. apply (aget_aset_eq name_eqb name_eqb_eq'). }
        destruct r as [?|e].
        -- intros b' g [[= <- <-]|I]; [easy|]. eapply Lift; eauto.
        -- destruct H2 as (fs1 & b1 & g & fs2 & y & l' & u' & -> & P & Ey & Rg & Sg & Ag & Q). exists ((b, f) :: fs1), b1, g, fs2, y, l', u'.
           split; [easy|]. split; [|split; [easy|split; [easy|split; [|split; [easy|]]]]].
           ++ intros b' h [[= <- <-]|I]; [easy|]. apply (Lift u b' h); [apply in_or_app; now left|eauto].
           ++ rewrite <- Sg. rewrite <- Ey. erewrite (Other b1 g); [easy|]. apply in_or_app. right. now left.
           ++ intros b' h I. rewrite (Q b' h I). eapply (Other b'). apply in_or_app. right. now right.
      * injection H as <- <-. split; [intros k K; now apply Skip|].
        exists [], b, f, fs, x, (q :: l), u. split; [easy|]. split; [easy|]. split; [easy|]. split; [easy|]. split; [easy|]. split.
        -- apply (aget_aset_eq name_eqb name_eqb_eq').
        -- intros b' g I. now apply (Other b' g).
Qed.
Lemma dict_lemma {cp} {cq} n fs sep items ps : named_fields (SDict n cp fs) -> text_keys ps ->
  exists items' r, set_flat (SDict n cp fs) sep (EDict n cq items) ps = (EDict n cq items', r)
  /\ (forall k, ~ In k (map (fun f => schema_name (snd f)) fs) -> aget name_eqb k items' = aget name_eqb k items)
  /\ match r with
     | Ok _ => forall b f, In (b, f) fs -> settled n sep ps items items' f
     | Err e => exists fs1 b f fs2 x l u, fs = fs1 ++ (b, f) :: fs2
         /\ (forall b g, In (b, g) fs1 -> settled n sep ps items items' g)
         /\ schema_name f = Some x /\ routes n sep x ps l
         /\ set_flat f sep (match aget name_eqb (Some x) items with Some u => u | None => fresh f end) l = (u, Err e)
         /\ aget name_eqb (Some x) items' = Some u
         /\ (forall b g, In (b, g) fs2 -> aget name_eqb (schema_name g) items' = aget name_eqb (schema_name g) items)
     end.
Proof.
  intros N T. apply named_dict in N as [ND N]. rewrite set_flat_dict_text by easy.
  destruct (dict_go sep (own_part n sep ps) fs items) as [items' r] eqn:E. exists items', r. split; [easy|].
  apply (dict_go_settled n sep ps fs T ND) in E; [exact E|]. intros b f I. now apply (N b f).
Qed.

(* ---------------- Array ---------------- *)
Ltac split_if B := match goal with |- context [if ?b then Ok None else _] => destruct b eqn:B end.
Ltac split_name B := match goal with |- context [name_eqb ?a ?b] => destruct (name_eqb a b) eqn:B end.
Ltac split_none B := match goal with |- context [if name_eqb ?a ?b then None else _] => destruct (name_eqb a b) eqn:B end.
Definition outcome (c : name) (q : name * pyval) : option pyval := if name_eqb (fst q) c then Some (snd q) else None.
Lemma array_pair_lemma n c sep prune k v : separator sep -> n <> Some [] -> c <> Some [] -> (forall x, c <> Some (x ++ [10%N])) ->
  match array_pair n c sep prune (Some k, v) with
  | Ok None => forall o, ~ joins n c sep prune k v o
  | Ok (Some q) => joins n c sep prune k v (outcome c q) /\ snd q = v
  | Err _ => False
  end.
Proof.
  intros Sp Nn Nc Nl.
  assert (Se : sep <> []) by (destruct Sp as (? & ? & -> & _); easy).
  assert (K1 : forall x, array_key x sep x = Some []).
  { intros x. unfold array_key. pose proof (starts_with_app x []) as W. rewrite app_nil_r in W. rewrite W, skipn_all. unfold after_sep. now destruct sep. }
  assert (K2 : forall x r, array_key x sep (x ++ sep ++ r) = Some r).
  { intros x r. unfold array_key. now rewrite starts_with_app, skipn_app_len, after_sep_sep. }
  assert (K3 : forall x, sep <> [10%N] -> array_key x sep (x ++ [10%N]) = Some [10%N]).
  { intros x H. unfold array_key. rewrite starts_with_app, skipn_app_len. unfold after_sep. destruct (starts_with sep [10%N]) eqn:E; [|easy].
    exfalso. apply starts_with_iff in E as [y E]. destruct sep as [|a [|]]; try easy. injection E as <- _. easy. }
  destruct n as [[|a x]|]; [easy| |]; cbn [array_pair].
  - set (X := a :: x) in *. destruct (array_key X sep k) as [r|] eqn:E.
    + assert (J : forall o, joins (Some X) c sep prune k v o ->
          (c = None /\ r = [] /\ (prune = true -> v <> VText []))
          \/ (exists y, c = Some y /\ ((r = y /\ (prune = true -> v <> VText [])) \/ (r <> y /\ r <> [])))).
      { intros o J. destruct J as [z v [= <-] -> P|z v [= <-] -> P|z y v [= <-] -> P|z y r' v [= <-] -> N N'|z y v [= <-] -> N|? ? [=]|? [=]|? ? [=]].
        - rewrite K1 in E. injection E as <-. now left.
        - pose proof (K2 X []) as W. rewrite app_nil_r in W. rewrite W in E. injection E as <-. now left.
        - rewrite K2 in E. injection E as <-. right. exists y. auto.
        - rewrite K2 in E. injection E as <-. right. exists y. auto.
        - rewrite K3 in E by easy. injection E as <-. right. exists y. split; [easy|]. right. split; [|easy]. intros <-. now apply (Nl []). }
      assert (D : k = X ++ sep ++ r \/ (k = X /\ r = []) \/ (k = X ++ [10%N] /\ r = [10%N] /\ sep <> [10%N])).
      { unfold array_key in E. destruct (starts_with X k) eqn:W; [|easy]. apply starts_with_iff in W as [t ->]. rewrite skipn_app_len in E.
        apply after_sep_elim in E as [-> |[[-> ->] | (-> & -> & W)]]; [now left|right; left; now rewrite app_nil_r|right; right].
        split; [easy|]. split; [easy|]. intros ->. easy. }
      destruct c as [[|b y]|]; [easy| |]; cbn [truthy_name andb negb].
      * set (Y := b :: y) in *. destruct r as [|d r]; cbn [or_none truthy_name negb].
        -- intros o H. apply J in H as [[F _]|(y' & F & [[F2 _]|[_ F2]])]; [discriminate F|subst y'; discriminate F|easy].
        -- set (Rr := d :: r) in *. cbn [andb]. split_if B.
           ++ apply andb_true_iff in B as [B B3]. apply andb_true_iff in B as [B1 B2]. apply is_blank_iff in B2. apply name_eqb_eq in B3. assert (B4 : Rr = Y) by congruence.
              intros o H. apply J in H as [[F _]|(y' & F & [[_ F2]|[F2 _]])]; [discriminate F|now apply F2|]. apply F2. congruence.
           ++ unfold outcome. cbn [fst snd]. split; [|easy]. split_name Q1.
              ** apply name_eqb_eq in Q1. assert (Q1' : Rr = Y) by congruence. clear Q1. assert (P : prune = true -> v <> VText []).
                 { intros -> ->. cbn in B. discriminate B. }
                 destruct D as [-> | [[_ D] | (_ & D & _)]]; [|discriminate D|exfalso; apply (Nl []); now rewrite <- Q1', D].
                 rewrite Q1'. now eapply joins_child.
              ** assert (Ne : Rr <> Y) by (intros X'; rewrite X', name_eqb_refl in Q1; easy).
                 destruct D as [-> | [[_ D] | (-> & D & D')]]; [now apply (joins_other _ _ _ _ X Y)|discriminate D|now apply (joins_newline _ _ _ _ X Y)].
      * destruct r as [|d r]; cbn [or_none truthy_name negb andb].
        -- rewrite andb_true_r. split_if B.
           ++ apply andb_true_iff in B as [B1 B2]. apply is_blank_iff in B2.
              intros o H. apply J in H as [(_ & _ & F)|(y' & F & _)]; [now apply F|discriminate F].
           ++ unfold outcome. cbn [fst snd]. split; [|easy]. rewrite name_eqb_refl.
              assert (P : prune = true -> v <> VText []). { intros -> ->. cbn in B. discriminate B. }
              destruct D as [-> | [[-> _] | (_ & D & _)]]; [|now eapply joins_own|discriminate D].
              rewrite app_nil_r. now eapply joins_bare.
        -- intros o H. apply J in H as [(_ & F & _)|(y' & F & _)]; discriminate F.
    + intros o J. destruct J as [z v [= <-] -> P|z v [= <-] -> P|z y v [= <-] -> P|z y r' v [= <-] -> N N'|z y v [= <-] -> N|? ? [=]|? [=]|? ? [=]].
      * now rewrite K1 in E.
      * pose proof (K2 X []) as W. rewrite app_nil_r in W. now rewrite W in E.
      * now rewrite K2 in E.
      * now rewrite K2 in E.
      * now rewrite K3 in E.
  - destruct c as [[|b y]|]; [easy| |]; cbn [truthy_name andb negb].
    + set (Y := b :: y) in *. split_if B.
      * apply andb_true_iff in B as [B B3]. apply andb_true_iff in B as [B1 B2]. apply is_blank_iff in B2. 
        intros o J. inversion J; try discriminate; try congruence; match goal with P : prune = true -> _ |- _ => now apply P end.
      * split_none Q0.
        -- apply name_eqb_eq in Q0. injection Q0 as ->. cbn [name_eqb negb]. intros o J. inversion J; discriminate.
        -- split_name Q1; cbn [negb].
           ++ unfold outcome. cbn [fst snd]. rewrite Q1. split; [|easy]. apply name_eqb_eq in Q1. injection Q1 as ->.
              apply joins_named; try easy. intros -> ->. rewrite name_eqb_refl in B. discriminate B.
           ++ intros o J. inversion J; try discriminate.  rewrite H0, name_eqb_refl in Q1. discriminate Q1.
    + split_if B.
      * apply andb_true_iff in B as [B B3]. apply andb_true_iff in B as [B1 B2]. apply is_blank_iff in B2. apply name_eqb_eq in B3. injection B3 as ->.
        intros o J. inversion J; try discriminate; try congruence; match goal with P : prune = true -> _ |- _ => now apply P end.
      * unfold outcome. cbn [fst snd]. split; [|easy]. split_none Q0.
        -- apply name_eqb_eq in Q0. injection Q0 as ->. rewrite name_eqb_refl. apply joins_empty; try easy. intros -> ->. cbn in B. discriminate B.
        -- rewrite name_eqb_neq by easy. apply joins_any; try easy. intros ->. now rewrite name_eqb_refl in Q0.
Qed.
Lemma array_lemma n c k sep prune old ps : separator sep -> text_keys ps -> n <> Some [] -> c <> Some [] -> (forall x, c <> Some (x ++ [10%N])) ->
  exists l r, set_flat (SArray n prune (SScalar c k)) sep (EArray n old) ps = (EArray n l, r) /\ arranges n c k sep prune ps l r.
Proof.
  intros Sp T Nn Nc Nl. 
  set (st := set_flat (SScalar c k) (lit "_") (fresh (SScalar c k))).
  change (set_flat (SArray n prune (SScalar c k)) sep (EArray n old) ps)
    with (let '(l, r) := array_members (array_pair n c sep prune) st ps in (EArray n l, r)).
  assert (G : exists l r, array_members (array_pair n c sep prune) st ps = (l, r) /\ arranges n c k sep prune ps l r).
  { unfold text_keys in T. induction T as [|[[x|] v] ps T _ IH]; [exists [], (Ok tt); split; [easy|constructor]| |easy].
    destruct IH as (l & r & E & A). cbn [array_members].
    pose proof (array_pair_lemma n c sep prune x v Sp Nn Nc Nl) as P.
    destruct (array_pair n c sep prune (Some x, v)) as [[[q w]|]|e]; [|exists l, r; split; [easy|now apply arranges_skip]|easy].
    destruct P as [P Q]. cbn in Q. subst w. unfold st at 1. cbn [set_flat fresh flat_first blank s_value s_u].
    change (name_eqb q c) with (name_eqb (fst (q, v)) c). unfold outcome in P. cbn [fst snd] in P |- *. destruct (name_eqb q c) eqn:N.
    - change (Scalar None VNone []) with blank. destruct (scalar_set k blank v) as [s [b|e]] eqn:Sc; cbn [rmap bind].
      + exists (EScalar c s :: l), r. rewrite E. split; [easy|]. now apply (arranges_set _ _ _ _ _ _ _ _ b).
      + exists [], (Err e). split; [easy|]. now apply (arranges_raise _ _ _ _ _ _ _ s).
    - exists (EScalar c blank :: l), r. rewrite E. split; [easy|]. now apply arranges_new. }
  destruct G as (l & r & E & A). exists l, r. rewrite E. easy.
Qed.

(* ---------------- Compounds and JoinedStrings ---------------- *)
Lemma scalars_of_children items sts : scalar_children items sts <-> sts = scalars_of items.
Proof.
  split.
  - induction 1 as [|k n st l r _ IH|k u l r NS _ IH]; [easy|..]; unfold scalars_of in *; cbn [flat_map fst snd].
    + now rewrite <- IH.
    + destruct u as [n st| | | |]; try exact IH. now destruct (NS n st).
  - intros ->. induction items as [|[k u] l IH]; [constructor|]. unfold scalars_of. cbn [flat_map fst snd]. fold (scalars_of l).
    destruct u as [n st| | | |]; try (apply other_child; [easy|exact IH]). now apply scalar_child.
Qed.
Lemma own_text_of u w : own_text u = Some w <-> text_of u w.
Proof.
  split.
  - destruct u as [n st|n [f|] items|n l|n l|n jd l]; try easy; cbn [own_text].
    + intros [= <-]. constructor.
    + intros [= <-]. unfold composed. destruct (f (scalars_of items)) as [w b] eqn:E. apply (text_of_compound n f items (scalars_of items) w b); [|exact E]. now apply scalars_of_children.
    + intros [= <-]. constructor.
  - destruct 1 as [n st|n f items sts w b S E|n j l]; cbn [own_text]; try easy. apply scalars_of_children in S. subst sts. unfold composed. now rewrite E.
Qed.
Lemma texts_lemma e p u : part e p = Some u -> forall w, text_of u w <-> text_at e (Node p) = true /\ u_at e (Node p) = w.
Proof.
  intros P w. rewrite <- own_text_of. cbn [text_at u_at]. rewrite P. destruct (own_text u) as [v|]; [|easy]. split; [intros [= ->]; easy|]. intros [_ ->]. easy.
Qed.
Lemma scalar_truth_lemma e p u w : part e p = Some u -> text_of u w -> (forall n st, u <> EScalar n st) ->
  (truthy (tree_of e) (Node p) = true <-> w <> [] /\ forall n f items sts, u = EDict n (Some f) items -> scalar_children items sts -> snd (f sts) = true).
Proof.
  intros P T NS. cbn [truthy]. rewrite node_part, P. cbn [option_map]. destruct T as [n st|n f items sts w b S E|n j l].
  - now destruct (NS n st).
  - apply scalars_of_children in S. subst sts. cbn [tree_of]. unfold composed. rewrite E. cbn [fst snd]. split.
    + intros H. apply andb_true_iff in H as [H1 H2]. split; [now destruct w|]. intros n' f' items' sts [= <- <- <-] S. apply scalars_of_children in S. subst sts. now rewrite E.
    + intros [H1 H2]. specialize (H2 n f items _ eq_refl (proj2 (scalars_of_children _ _) eq_refl)). rewrite E in H2. cbn in H2. subst b. now destruct w.
  - cbn [tree_of]. unfold joined_value. split.
    + intros H. split; [now destruct (join (j_glue j) (map s_u l))|easy].
    + intros [H _]. now destruct (join (j_glue j) (map s_u l)).
Qed.
Lemma joined_first_lemma n j sep old ps :
  (forall a v b, ps = a ++ (n, v) :: b -> ~ In n (map fst a) ->
     set_flat (SJoined n j) sep (EJoined n j old) ps =
     (EJoined n j (fst (joined_set (j_glue j) (j_how j) (j_kind j) (j_prune j) old (match v with VText s => JText s | _ => JNotIterable end))),
      rmap (fun _ => tt) (snd (joined_set (j_glue j) (j_how j) (j_kind j) (j_prune j) old (match v with VText s => JText s | _ => JNotIterable end)))))
  /\ (~ In n (map fst ps) -> set_flat (SJoined n j) sep (EJoined n j old) ps = (EJoined n j old, Ok tt)).
Proof.
  assert (N : forall a b, ~ In n (map fst a) -> flat_first n (a ++ b) = flat_first n b).
  { induction a as [|[k v] a IH]; intros b H; [easy|]. cbn [app flat_first]. rewrite name_eqb_neq; [apply IH; intros X; apply H; now right|]. intros ->. apply H. now left. }
  split.
  - intros a v b -> H. cbn [set_flat]. rewrite N by easy. cbn [flat_first]. rewrite name_eqb_refl. unfold joined_input.
    now destruct (joined_set (j_glue j) (j_how j) (j_kind j) (j_prune j) old _).
  - intros H. cbn [set_flat]. pose proof (N ps [] H) as X. rewrite app_nil_r in X. now rewrite X.
Qed.
Lemma nested_joined e p n j l i st : part e p = Some (EJoined n j l) -> nth_error l i = Some st ->
  part e (i :: p) = Some (EScalar (j_child j) st)
  /\ names_to (tree_of e) (i :: p) = names_to (tree_of e) p ++ own_name (j_child j).
Proof.
  intros P E. cbn [part]. rewrite P. cbn [member]. rewrite E. split; [easy|]. cbn [names_to node_at]. rewrite node_part, P. cbn [option_map tree_of kid].
  rewrite nth_error_map, E. cbn. now rewrite app_nil_r.
Qed.
Lemma container_truth_lemma e p u : part e p = Some u -> (forall w, ~ text_of u w) ->
  (truthy (tree_of e) (Node p) = true <-> exists c, member u 0 = Some c).
Proof.
  intros P N. apply (truth_lemma e p u P). destruct (own_text u) as [w|] eqn:W; [|easy]. destruct (N w). now apply own_text_of.
Qed.
Lemma own_key_lemma x cp fs sep cq items a v b : separator sep -> named_fields (SDict (Some x) cp fs) -> text_keys (a ++ b) ->
  set_flat (SDict (Some x) cp fs) sep (EDict (Some x) cq items) (a ++ (Some x, v) :: b)
  = set_flat (SDict (Some x) cp fs) sep (EDict (Some x) cq items) (a ++ b).
Proof.
  intros Sp N T. apply concerns_lemma; try easy.
  - apply Forall_app in T as [T1 T2]. apply Forall_app. split; [easy|]. now constructor.
  - assert (R : forall l : flat_pairs, thinned (concerns sep (SDict (Some x) cp fs)) l l) by (induction l; constructor; easy).
    induction a as [|p a IH]; cbn [app].
    + apply thin_drop; [|apply R]. destruct Sp as (c & r & -> & _). intros (t & f & z & y & _ & _ & E). rewrite <- (app_nil_r x) in E at 1. now apply app_inv_head in E.
    + constructor. apply IH. now apply Forall_cons_iff in T.
Qed.
