From Verif Require Import PyBase PyBaseFacts ModelMarkup SpecMarkup.
From Coq Require Import Permutation Sorted.

(* ---------------- escaping as a character map ---------------- *)
Lemma flat_map_flat_map {A B C} (f : B -> list C) (g : A -> list B) s :
  flat_map f (flat_map g s) = flat_map (fun x => flat_map f (g x)) s.
Proof.
  induction s as [|x s IH]; [easy|]. cbn [flat_map].
  rewrite flat_map_app. now rewrite IH.
Qed.
Lemma flat_map_ext' {A B} (f g : A -> list B) l : (forall x, f x = g x) -> flat_map f l = flat_map g l.
Proof. intros H. induction l; simpl; [easy|]. now rewrite H, IHl. Qed.
Lemma neqb_neq (a b : N) : a <> b -> (a =? b)%N = false.
Proof. intros H. now apply N.eqb_neq. Qed.

(* a character encoder and its table *)
Definition enc (table : list (str * N)) (c : N) : str :=
  match find (fun e => N.eqb (snd e) c) table with
  | Some e => fst e
  | None => [c]
  end.

Ltac enc_one c x := destruct (N.eqb_spec c x); [subst c; reflexivity|].
Ltac enc_fin :=
  unfold enc, xa_table, attr_table, content_table;
  cbn [app find fst snd flat_map];
  repeat match goal with
  | |- context [N.eqb ?a ?b] => rewrite (neqb_neq a b) by (vm_compute; congruence);
                                cbn [app flat_map]
  end; easy.

Lemma markup_escape_enc s : markup_escape_text s = flat_map (enc content_table) s.
Proof.
  unfold markup_escape_text, replace1. rewrite !flat_map_flat_map.
  apply flat_map_ext'. intros c. enc_one c 38%N. enc_one c 60%N. enc_one c 62%N. enc_fin.
Qed.
Lemma sax_escape_enc s : sax_escape s = flat_map (enc content_table) s.
Proof.
  unfold sax_escape, replace1. rewrite !flat_map_flat_map.
  apply flat_map_ext'. intros c. enc_one c 38%N. enc_one c 60%N. enc_one c 62%N. enc_fin.
Qed.
Lemma attribute_escape_enc s : attribute_escape_text s = flat_map (enc attr_table) s.
Proof.
  unfold attribute_escape_text, replace1. rewrite !flat_map_flat_map.
  apply flat_map_ext'. intros c.
  enc_one c 38%N. enc_one c 60%N. enc_one c 62%N. enc_one c 34%N. enc_fin.
Qed.
Lemma replace1_id c r s : ~ In c s -> replace1 c r s = s.
Proof.
  unfold replace1. induction s as [|x s IH]; intros H; simpl; [easy|].
  rewrite neqb_neq by (intros ->; apply H; now left). simpl. rewrite IH; [easy|].
  intros H'. apply H. now right.
Qed.
Lemma memb_N x l : memb N.eqb x l = true <-> In x l.
Proof. apply memb_In. intros; apply N.eqb_eq. Qed.
Lemma memb_N_false x l : memb N.eqb x l = false <-> ~ In x l.
Proof. rewrite <- memb_N. destruct (memb N.eqb x l); split; congruence. Qed.

Lemma el_xa_enc u : el_xa u = flat_map (enc xa_table) u.
Proof.
  unfold el_xa, sax_quoteattr.
  set (data := sax_ws (sax_escape (ch "'" :: u))).
  assert (exists d, data = ch "'" :: d /\ replace1 (ch """") (lit "&quot;") d = flat_map (enc xa_table) u)
    as (d & Ed & Hd).
  { exists (sax_ws (sax_escape u)). split.
    - unfold data, sax_ws, sax_escape, replace1. rewrite !flat_map_flat_map. reflexivity.
    - unfold sax_ws, sax_escape, replace1. rewrite !flat_map_flat_map.
      apply flat_map_ext'. intros c.
      enc_one c 38%N. enc_one c 60%N. enc_one c 62%N. enc_one c 34%N.
      enc_one c 10%N. enc_one c 13%N. enc_one c 9%N. enc_fin. }
  rewrite Ed. assert (memb N.eqb (ch "'") (ch "'" :: d) = true) as -> by reflexivity.
  destruct (memb N.eqb (ch """") (ch "'" :: d)) eqn:Eq.
  - change (replace1 (ch """") (lit "&quot;") (ch "'" :: d))
      with (ch "'" :: replace1 (ch """") (lit "&quot;") d).
    cbn [app skipn]. rewrite Hd. apply removelast_last.
  - apply memb_N_false in Eq. rewrite replace1_id in Hd.
    + rewrite <- Hd. cbn [app skipn]. apply removelast_last.
    + intros H. apply Eq. now right.
Qed.

(* ---------------- decoding ---------------- *)
Lemma decode_skip table bad t s : decode_go table bad (t ++ s) (List.length t) = decode_go table bad s 0.
Proof. induction t as [|c t IH]; [now destruct s|exact IH]. Qed.
(* a well-formed table: entities start with '&', are distinguishable, contain
   no bad characters and cover '&' and the bad characters *)
Definition good_table (table : list (str * N)) (bad : list N) : bool :=
  forallb (fun e => match fst e with
                    | c0 :: t => N.eqb c0 38 && negb (memb N.eqb 38%N t)
                                   && forallb (fun c => negb (memb N.eqb c bad)) (fst e)
                    | _ => false end
                    && match find (fun e' => starts_with (fst e') (fst e)) table with
                       | Some e' => str_eqb (fst e') (fst e) && N.eqb (snd e') (snd e)
                       | None => false end
                    && forallb (fun e' => Nat.eqb (List.length (fst e')) (List.length (fst e))
                                          || negb (starts_with (fst e') (fst e))
                                             && negb (starts_with (fst e) (fst e'))) table)
          table
  && forallb (fun c => existsb (fun e => N.eqb (snd e) c) table) (38%N :: bad)
  && negb (memb N.eqb 38%N bad).
Lemma starts_with_either p q s :
  starts_with p s = true -> starts_with q s = true ->
  starts_with p q = true \/ starts_with q p = true.
Proof.
  revert q s; induction p as [|x p IH]; intros q s Hp Hq; [now left|].
  destruct q as [|y q]; [now right|]. destruct s as [|z s]; [easy|].
  simpl in *. apply andb_true_iff in Hp as [H1 H2]. apply andb_true_iff in Hq as [H3 H4].
  apply N.eqb_eq in H1, H3. subst. rewrite N.eqb_refl. simpl. eauto.
Qed.
Lemma starts_with_len p q : starts_with p q = true -> List.length p = List.length q -> p = q.
Proof.
  revert q; induction p as [|x p IH]; intros [|y q] H E; try easy.
  simpl in *. apply andb_true_iff in H as [H1 H2]. apply N.eqb_eq in H1. subst. f_equal. auto.
Qed.
Lemma find_ext {A} (f g : A -> bool) l : (forall x, In x l -> f x = g x) -> find f l = find g l.
Proof.
  induction l as [|x l IH]; intros H; [easy|]. simpl. rewrite (H x) by now left.
  destruct (g x); [easy|]. apply IH. intros y Hy. apply H. now right.
Qed.
Lemma enc_decode table bad c rest : good_table table bad = true ->
  decode_go table bad (enc table c ++ rest) 0 = option_map (cons c) (decode_go table bad rest 0).
Proof.
  unfold good_table. rewrite !andb_true_iff. intros [[Ht Hb] Hn].
  unfold enc. destruct (find (fun e => N.eqb (snd e) c) table) as [e|] eqn:Ef.
  - apply find_some in Ef as [Hin Hc]. apply N.eqb_eq in Hc.
    rewrite forallb_forall in Ht. specialize (Ht _ Hin).
    apply andb_true_iff in Ht as [Ht H3]. apply andb_true_iff in Ht as [H1 H2].
    destruct e as [[|c0 t] ec]; cbn [fst snd] in *; [easy|].
    apply andb_true_iff in H1 as [H0 _]. apply andb_true_iff in H0 as [H0 _].
    apply N.eqb_eq in H0 as ->.
    cbn [app decode_go]. change (N.eqb 38 38) with true. cbv iota.
    assert (find (fun e0 => starts_with (fst e0) (38%N :: t ++ rest)) table
            = find (fun e0 => starts_with (fst e0) (38%N :: t)) table) as ->.
    { apply find_ext. intros e' He'. rewrite forallb_forall in H3. specialize (H3 _ He').
      apply orb_true_iff in H3. destruct (starts_with (fst e') (38%N :: t)) eqn:E1.
      - apply starts_with_iff in E1 as [r Er]. apply starts_with_iff. exists (r ++ rest).
        rewrite app_assoc, <- Er. reflexivity.
      - destruct (starts_with (fst e') (38%N :: t ++ rest)) eqn:E2; [|easy].
        destruct (starts_with_either (fst e') (38%N :: t) _ E2 (starts_with_app (38%N :: t) rest)) as [E3|E3];
          [congruence|].
        destruct H3 as [H3|H3].
        + apply Nat.eqb_eq in H3. apply starts_with_len in E3; [|now symmetry].
          rewrite <- E3 in E1. rewrite <- E1. rewrite <- (app_nil_r (38%N :: t)) at 2.
          symmetry. apply starts_with_app.
        + apply andb_true_iff in H3 as [_ H3]. apply negb_true_iff in H3.
          exfalso. exact (eq_true_false_abs _ E3 H3). }
    destruct (find (fun e' => starts_with (fst e') (38%N :: t)) table) as [e'|] eqn:Ef; [|easy].
    apply andb_true_iff in H2 as [H2 H4]. apply str_eqb_eq in H2. apply N.eqb_eq in H4.
    rewrite H2, H4, Hc. simpl List.length. rewrite Nat.sub_succ, Nat.sub_0_r, decode_skip. reflexivity.
  - cbn [app decode_go]. pose proof (find_none _ _ Ef) as Hno. simpl in Hno.
    rewrite forallb_forall in Hb.
    assert (forall x, In x (38%N :: bad) -> x <> c) as Hx.
    { intros x Hin ->. specialize (Hb _ Hin). apply existsb_exists in Hb as (e & He & E).
      rewrite (Hno _ He) in E. easy. }
    rewrite neqb_neq by (intros ->; now apply (Hx 38%N); [left|]).
    assert (memb N.eqb c bad = false) as ->; [|easy].
    apply memb_N_false. intros H. now apply (Hx c); [right|].
Qed.
Lemma encode_decode table bad s : good_table table bad = true ->
  decode table bad (flat_map (enc table) s) = Some s.
Proof.
  intros H. unfold decode. induction s as [|c s IH]; [easy|].
  cbn [flat_map]. rewrite enc_decode by easy. now rewrite IH.
Qed.
Lemma enc_shape table bad c : good_table table bad = true ->
  (exists e t, In e table /\ fst e = 38%N :: t /\ enc table c = fst e /\ ~ In 38%N t
               /\ forall x, In x (fst e) -> ~ In x bad)
  \/ (enc table c = [c] /\ c <> 38%N /\ ~ In c bad).
Proof.
  unfold good_table. rewrite !andb_true_iff. intros [[Ht Hb] Hn].
  unfold enc. destruct (find (fun e => N.eqb (snd e) c) table) as [e|] eqn:Ef.
  - left. apply find_some in Ef as [Hin Hc]. 
    rewrite forallb_forall in Ht. specialize (Ht _ Hin).
    apply andb_true_iff in Ht as [Ht H3]. apply andb_true_iff in Ht as [H1 H2].
    destruct e as [[|c0 t] ec]; cbn [fst snd] in *; [easy|].
    apply andb_true_iff in H1 as [H1 H4]. apply andb_true_iff in H1 as [H0 H1].
    apply N.eqb_eq in H0 as ->. exists (38%N :: t, ec), t. repeat split; try easy.
    + apply negb_true_iff in H1. now apply memb_N_false.
    + rewrite forallb_forall in H4. cbn [fst]. intros x Hx. specialize (H4 _ Hx).
      apply negb_true_iff in H4. now apply memb_N_false.
  - right. pose proof (find_none _ _ Ef) as Hno. simpl in Hno.
    rewrite forallb_forall in Hb.
    assert (forall x, In x (38%N :: bad) -> x <> c) as Hx.
    { intros x Hin ->. specialize (Hb _ Hin). apply existsb_exists in Hb as (e & He & E).
      rewrite (Hno _ He) in E. easy. }
    repeat split.
    + intros ->. now apply (Hx 38%N); [left|].
    + intros H. now apply (Hx c); [right|].
Qed.
Lemma encode_inert table bad s : good_table table bad = true ->
  inert table bad (flat_map (enc table) s).
Proof.
  intros Hg. split.
  - intros c Hc. apply in_flat_map in Hc as (x & _ & Hc).
    destruct (enc_shape table bad x Hg) as [(e & t & _ & _ & E & _ & Hb)|(E & _ & Hb)];
      rewrite E in Hc; [now apply Hb|]. destruct Hc as [<-|[]]. easy.
  - induction s as [|c s IH]; intros l r H; [now destruct l|]. cbn [flat_map] in H.
    destruct (enc_shape table bad c Hg) as [(e & t & He & Ee & E & Ht & _)|(E & Hc & _)].
    + rewrite E, Ee in H. destruct l as [|x l].
      * cbn [app] in H. injection H as H. exists e. split; [easy|]. rewrite <- H, Ee.
        apply (starts_with_app (38%N :: t)).
      * cbn [app] in H. injection H as _ H. symmetry in H.
        apply app_eq_app in H as (z & [[-> H]|[-> H]]).
        -- eapply IH. exact H.
        -- destruct z as [|y z]; cbn [app] in H.
           ++ eapply (IH []). symmetry. exact H.
           ++ injection H as <- _. exfalso. apply Ht. apply in_app_iff. right. now left.
    + rewrite E in H. cbn [app] in H. destruct l as [|x l].
      * cbn [app] in H. injection H as H _. easy.
      * injection H as _ H. eapply IH. exact H.
Qed.

Lemma attribute_escape_safe s :
  inert attr_table attr_bad (attribute_escape_text s)
  /\ decode attr_table attr_bad (attribute_escape_text s) = Some s.
Proof.
  rewrite attribute_escape_enc. split; [now apply encode_inert|now apply encode_decode].
Qed.
Lemma markup_escape_safe s :
  inert content_table content_bad (markup_escape_text s)
  /\ decode content_table content_bad (markup_escape_text s) = Some s.
Proof. rewrite markup_escape_enc. split; [now apply encode_inert|now apply encode_decode]. Qed.
Lemma el_x_safe s :
  inert content_table content_bad (el_x s) /\ decode content_table content_bad (el_x s) = Some s.
Proof. unfold el_x. rewrite sax_escape_enc. split; [now apply encode_inert|now apply encode_decode]. Qed.
Lemma el_xa_safe s :
  inert xa_table xa_bad (el_xa s) /\ decode xa_table xa_bad (el_xa s) = Some s.
Proof. rewrite el_xa_enc. split; [now apply encode_inert|now apply encode_decode]. Qed.

(* ---------------- sorting ---------------- *)
Lemma str_ltb_lt a b : str_ltb a b = true <-> text_lt a b.
Proof.
  revert b; induction a as [|x a IH]; intros [|y b]; simpl.
  - split; [easy|]. intros H; inversion H.
  - split; [constructor|easy].
  - split; [easy|]. intros H; inversion H.
  - rewrite orb_true_iff, andb_true_iff, N.ltb_lt, N.eqb_eq, IH. split.
    + intros [H|[-> H]]; now constructor.
    + intros H; inversion H; subst; tauto.
Qed.
Lemma text_lt_total a b : text_lt a b \/ a = b \/ text_lt b a.
Proof.
  revert b; induction a as [|x a IH]; intros [|y b]; auto using text_lt.
  destruct (N.lt_trichotomy x y) as [H|[->|H]]; [left; now constructor| |right; right; now constructor].
  destruct (IH b) as [H|[->|H]]; auto using text_lt.
Qed.
Lemma text_lt_trans a b c : text_lt a b -> text_lt b c -> text_lt a c.
Proof.
  intros H; revert c; induction H; intros c Hc; inversion Hc; subst;
    try (now constructor; eauto); try (constructor; lia).
Qed.
Lemma rank_index k :
  match index_of k static_order with Some i => rank k = i /\ i < 3 | None => rank k = 3 end.
Proof.
  unfold static_order, rank. simpl.
  destruct (str_eqb k (lit "type")), (str_eqb k (lit "name")), (str_eqb k (lit "value")); simpl; lia.
Qed.
Lemma attr_before_ordered {V} (a b : str * V) :
  attr_before (fst a) (fst b) = true <-> ordered_before a b.
Proof.
  unfold attr_before, ordered_before.
  pose proof (rank_index (fst a)) as Ha. pose proof (rank_index (fst b)) as Hb.
  destruct (index_of (fst a) static_order), (index_of (fst b) static_order);
    rewrite ?str_ltb_lt, ?Nat.ltb_lt; intuition lia.
Qed.
Lemma rank_inj a b : rank a = rank b -> rank a < 3 -> a = b.
Proof.
  unfold rank.
  destruct (str_eqb_spec a (lit "type")), (str_eqb_spec a (lit "name")), (str_eqb_spec a (lit "value")),
    (str_eqb_spec b (lit "type")), (str_eqb_spec b (lit "name")), (str_eqb_spec b (lit "value"));
    subst; intros; try lia; try congruence.
Qed.
Lemma ordered_total {V} (a b : str * V) : fst a <> fst b -> ordered_before a b \/ ordered_before b a.
Proof.
  intros H. unfold ordered_before.
  assert (rank (fst a) <= 3 /\ rank (fst b) <= 3) as [Ha Hb].
  { unfold rank. split; repeat destruct (str_eqb _ _); lia. }
  destruct (lt_eq_lt_dec (rank (fst a)) (rank (fst b))) as [[Hlt|He]|Hlt]; [tauto| |tauto].
  destruct (Nat.eq_dec (rank (fst a)) 3) as [E3|E3].
  - destruct (text_lt_total (fst a) (fst b)) as [L|[L|L]]; [left|easy|right]; right;
      repeat split; try lia; easy.
  - exfalso. apply H. apply rank_inj; [easy|lia].
Qed.
Lemma ordered_trans {V} (a b c : str * V) :
  ordered_before a b -> ordered_before b c -> ordered_before a c.
Proof.
  unfold ordered_before. intros [H|(H1 & H2 & H3)] [H'|(H1' & H2' & H3')]; try (left; lia).
  right. repeat split; try easy. eapply text_lt_trans; eauto.
Qed.
Lemma insert_perm {V} (x : str * V) l : Permutation (insert_attr x l) (x :: l).
Proof.
  induction l as [|y l IH]; simpl; [easy|].
  destruct (attr_before (fst y) (fst x)); [|easy].
  rewrite IH. apply perm_swap.
Qed.
Lemma sort_perm {V} (l : list (str * V)) : Permutation (sort_attrs l) l.
Proof. induction l as [|x l IH]; simpl; [easy|]. rewrite insert_perm. now constructor. Qed.
Lemma insert_sorted {V} (x : str * V) l :
  ~ In (fst x) (keys l) -> StronglySorted ordered_before l ->
  StronglySorted ordered_before (insert_attr x l).
Proof.
  induction l as [|y l IH]; intros Hn Hs; simpl.
  - repeat constructor.
  - inversion Hs as [|? ? Hs' Hf]; subst.
    destruct (attr_before (fst y) (fst x)) eqn:E.
    + constructor.
      * apply IH; [|easy]. intros H. apply Hn. now right.
      * apply attr_before_ordered in E.
        eapply Permutation_Forall; [apply Permutation_sym, insert_perm|]. now constructor.
    + constructor; [easy|].
      assert (ordered_before x y) as Hxy.
      { destruct (ordered_total x y) as [H|H]; [|easy|].
        - intros E2. apply Hn. left. now symmetry.
        - apply attr_before_ordered in H. congruence. }
      constructor; [easy|]. eapply Forall_impl; [|exact Hf].
      intros z Hz. eapply ordered_trans; eauto.
Qed.
Lemma sort_sorted {V} (l : list (str * V)) :
  NoDup (keys l) -> StronglySorted ordered_before (sort_attrs l).
Proof.
  induction l as [|x l IH]; intros Hn; simpl; [constructor|].
  inversion Hn; subst. apply insert_sorted; [|auto].
  intros H. apply H1. unfold keys in *. eapply Permutation_in; [|exact H].
  apply Permutation_map, sort_perm.
Qed.

(* ---------------- parsing back ---------------- *)
Lemma span_app f a c r : forallb f a = true -> f c = false -> span f (a ++ c :: r) = (a, c :: r).
Proof.
  induction a as [|x a IH]; intros Ha Hc; simpl in *; [now rewrite Hc|].
  apply andb_true_iff in Ha as [-> Ha]. now rewrite IH.
Qed.
Definition quoted (p : str * str) : str := fst p ++ lit "=""" ++ snd p ++ lit """".
Lemma guts_cons x l : guts (x :: l) = quoted x ++ flat_map (fun p => 32%N :: quoted p) l.
Proof.
  unfold guts. revert x; induction l as [|y l IH]; intros [k t]; cbn [map].
  - simpl. now rewrite app_nil_r.
  - rewrite join_cons by easy. cbn [map] in IH. rewrite IH. destruct y. reflexivity.
Qed.
Lemma header_eq tag l : Forall (fun p => fst p <> []) l ->
  header tag l = 60%N :: tag ++ flat_map (fun p => 32%N :: quoted p) l.
Proof.
  intros H. unfold header. destruct l as [|x l].
  - simpl. now rewrite app_nil_r.
  - rewrite guts_cons. inversion H as [|? ? Hx _]; subst.
    destruct x as [[|c k] t]; [easy|]. reflexivity.
Qed.

Definition ends_ok (rest : str) : Prop := (exists r, rest = 62%N :: r) \/ rest = lit " />".
Definition encodes (p : str * str) (q : str * str) : Prop :=
  fst p = fst q /\ ~ In 34%N (snd p) /\ decode attr_table attr_bad (snd p) = Some (snd q).

Lemma parse_attrs_ok l l' rest fuel :
  Forall2 encodes l l' -> Forall (fun p => wf_name (fst p) = true) l -> ends_ok rest ->
  List.length (flat_map (fun p => 32%N :: quoted p) l) < fuel ->
  parse_attrs fuel (flat_map (fun p => 32%N :: quoted p) l ++ rest) = Some (l', rest).
Proof.
  intros H; revert fuel; induction H as [|p q l l' (E1 & E2 & E3) H IH]; intros fuel Hw Hr Hf.
  - destruct fuel as [|fuel]; [lia|]. destruct Hr as [[r ->]| ->]; reflexivity.
  - inversion Hw as [|? ? Hp Hw']; subst. destruct fuel as [|fuel]; [lia|].
    cbn [flat_map app]. unfold quoted at 1. rewrite <- !app_assoc.
    cbn [parse_attrs]. change (lit "=""") with [61; 34]%N. cbn [app].
    unfold wf_name in Hp. destruct (fst p) as [|c k] eqn:Ep; [easy|].
    rewrite span_app by easy. change (lit """") with [34%N]. cbn [app].
    rewrite (span_app (fun c => negb (c =? 34)%N) (snd p)); [| |reflexivity].
    2:{ apply forallb_forall. intros x Hx. apply negb_true_iff, neqb_neq. intros ->. easy. }
    rewrite E3. rewrite IH; auto.
    + destruct q; simpl in *; subst; reflexivity.
    + cbn [flat_map] in Hf. rewrite app_length in Hf. simpl in Hf.
      unfold quoted in Hf at 1. rewrite !app_length in Hf. simpl in Hf. lia.
Qed.
Lemma parse_header tag l l' rest :
  wf_name tag = true -> Forall2 encodes l l' ->
  Forall (fun p => wf_name (fst p) = true) l -> ends_ok rest ->
  parse_tag (header tag l ++ rest) = Some (tag, l', rest).
Proof.
  intros Ht He Hw Hr. rewrite header_eq.
  2:{ eapply Forall_impl; [|exact Hw]. intros [[|? ?] ?]; easy. }
  cbn [app parse_tag]. rewrite <- app_assoc.
  unfold wf_name in Ht. destruct tag as [|c tag]; [easy|].
  set (tl := flat_map (fun p => 32%N :: quoted p) l ++ rest).
  assert (exists c2 r, tl = c2 :: r /\ name_char c2 = false) as (c2 & r & E & Ec).
  { unfold tl. destruct l; [|eexists _, _; split; [reflexivity|reflexivity]].
    destruct Hr as [[r ->]| ->]; eexists _, _; split; reflexivity. }
  rewrite E, span_app by easy. rewrite <- E. unfold tl.
  rewrite parse_attrs_ok with (l' := l'); try easy. rewrite app_length. lia.
Qed.
