(* after a successful set an element is settled *)
From Verif Require Import PyBase PyBaseFacts PyList ModelUtil ModelMap ModelScalar ModelNest SpecNest ProofNest ProofNest2.
From Coq Require Import Lia Permutation.

Section Objects.
Variable object : data -> pyval.
Notation set := (nested_set object).
Lemma as_name_some k n : as_name k = Ok (Some n) -> as_key n = k.
Proof. destruct k as [[] | |]; cbn; intros H; inversion H; reflexivity. Qed.
Lemma loop_named own fields ps : forall items seen conv items' b,
  set_fields own fields items seen conv ps = (items', Ok b) ->
  exists l, set_fields own fields items seen conv (map (fun kv => Ok (as_key (fst kv), snd kv)) l) = (items', Ok b).
Proof.
  induction ps as [| [[k d] | x] ps IH]; intros items seen conv items' b H.
  - exists []. exact H.
  - cbn [set_fields] in H. destruct (as_name k) as [[n |] | x] eqn:Ek; [| | discriminate].
    + apply as_name_some in Ek.
      destruct (aget name_eqb n fields) as [[new f] |] eqn:Ef; cbn [option_map] in H.
      * destruct (f match aget name_eqb n items with Some e => e | None => new end d) as [e [b' | x]] eqn:Es; [| discriminate].
        destruct (IH _ _ _ _ _ H) as [l Hl]. exists ((n, d) :: l).
        cbn [map set_fields fst snd]. rewrite as_name_key, Ef. cbn [option_map]. rewrite Es. exact Hl.
      * destruct (off_policy own) eqn:Eo; [discriminate |]. apply (IH _ _ _ _ _ H).
    + destruct (off_policy own) eqn:Eo; [discriminate |]. apply (IH _ _ _ _ _ H).
  - discriminate.
Qed.
Lemma dict_set_named own fields items0 d e b :
  set (NDict own fields) (RDict items0) d = (e, Ok b) ->
  exists l, set (NDict own fields) (RDict items0) (DMap l) = (e, Ok b).
Proof.
  cbn [nested_set]. destruct (pairs_of d) as [ps | x]; [| discriminate].
  destruct (set_fields _ _ _ _ _ ps) as [items r] eqn:E. intros H. injection H as <- ->.
  apply loop_named in E. destruct E as [l E]. exists l. cbn [pairs_of].
  match type of E with ?x = _ =>
    match goal with |- context [set_fields ?a ?b ?c ?d ?e ?f] => change (set_fields a b c d e f) with x end
  end. rewrite E. reflexivity.
Qed.
Lemma start_settled own fields :
  NoDup (map fname fields) -> (own = Strict -> Forall (fun f => held f = true) fields) ->
  Forall (fun f => settled (fschema f) (empty (fschema f))) fields ->
  settled (NDict own fields) (empty (NDict own fields)).
Proof.
  intros D S F. cbn [empty]. apply settled_dict.
  - rewrite start_keys. clear - D. induction fields as [| f l IH]; [constructor |].
    cbn [map] in D. inversion D as [| ? ? D1 D2]; subst. cbn [filter].
    destruct (held f); cbn [map]; [| apply IH, D2]. constructor; [| apply IH, D2].
    intros H. apply in_map_iff in H. destruct H as [g [H1 H2]]. apply filter_In in H2. apply D1.
    rewrite <- H1. apply in_map, H2.
  - intros f Hf Hh. rewrite start_keys. apply in_map, filter_In. split; [exact Hf |].
    destruct Hh as [Hh | Hh]; [exact Hh |]. specialize (S Hh). rewrite Forall_forall in S. apply S, Hf.
  - intros n e H. apply in_flat_map in H. destruct H as [[[m b] s] [Hf H]]. cbn [fst snd] in H.
    destruct b; [| destruct H]. destruct H as [H | []]. injection H as <- <-.
    exists (m, true, s). repeat split; [exact Hf |]. rewrite Forall_forall in F. exact (F _ Hf).
Qed.
Lemma empty_settled s : proper s -> steady s -> settled s (empty s).
Proof.
  induction s as [k | own fields IH | c m IH] using nested_rect'; intros P S.
  - inversion S; subst. cbn [empty]. apply settled_scalar; [| assumption | reflexivity].
    symmetry. apply andb_false_r.
  - inversion P as [| ? ? D PF |]; subst. inversion S as [| ? ? SS SF |]; subst.
    apply start_settled; [exact D | exact SS |].
    rewrite Forall_forall in *. intros f Hf. apply IH; [exact Hf | apply PF, Hf | apply SF, Hf].
  - inversion S; subst. cbn [empty]. constructor; [assumption | constructor].
Qed.
Theorem set_settles s : proper s -> steady s -> forall e0 d e, fits s e0 ->
  set s e0 d = (e, Ok true) -> settled s e.
Proof.
  induction s as [k | own fields IH | c m IH] using nested_rect'; intros P S e0 d e F H.
  - inversion S as [? Hn Hi | |]; subst. destruct e0 as [sub0 st0 | |]; try contradiction.
    cbn [nested_set] in H. unfold scalar_set in H.
    destruct (adapt k (plain object d)) as [v | x] eqn:Ea.
    + injection H as <-. apply settled_scalar; [reflexivity | cbn [s_value]; exact (Hi _ _ Ea) |].
      cbn [s_value s_u]. destruct v; reflexivity.
    + destruct x; discriminate.
  - inversion P as [| ? ? D PF |]; subst. inversion S as [| ? ? SS SF |]; subst.
    destruct e0 as [| items0 |]; try contradiction.
    destruct (dict_set_named own fields items0 d e true H) as [l Hl]. clear H d F.
    destruct (dict_set_spec object own fields items0 l D) as [items [E [Hk _]]]. cbv zeta in E, Hk.
    destruct (dict_set_last object own fields items0 l e true D Hl) as [items' [-> G]].
    rewrite E in Hl. injection Hl as <- Hr.
    destruct (verdict (map (outcome object own fields) l)) as [b | x] eqn:V; [| discriminate].
    assert (b = true) by (destruct own; [destruct (forallb _ _) | | |]; congruence). subst b.
    rewrite (tried_all _ _ _ V) in Hk. apply verdict_true_inv in V.
    assert (Hh : forall f, In f fields -> held f = true -> In (fname f) (map fst items)).
    { intros f Hf Hh. rewrite Hk. apply mentions_in. left. apply in_map, filter_In. split; assumption. }
    assert (DK : NoDup (map fst items)).
    { rewrite Hk. apply mentions_nodup. clear - D. induction fields as [| f l IH]; [constructor |].
      cbn [map] in D. inversion D as [| ? ? D1 D2]; subst. cbn [filter].
      destruct (held f); cbn [map]; [| apply IH, D2]. constructor; [| apply IH, D2].
      intros H. apply in_map_iff in H. destruct H as [g [H1 H2]]. apply filter_In in H2. apply D1.
      rewrite <- H1. apply in_map, H2. }
    apply settled_dict; [exact DK | |].
    + intros f Hf [Ho | Ho]; [exact (Hh f Hf Ho) |]. apply Hh; [exact Hf |].
      specialize (SS Ho). rewrite Forall_forall in SS. apply SS, Hf.
    + intros n e Hi.
      assert (Kn : In n (map fst items)) by (apply (in_map fst) in Hi; exact Hi).
      assert (X : exists f, In f fields /\ fname f = n).
      { rewrite Hk in Kn. apply mentions_in in Kn. destruct Kn as [Kn | Kn].
        - apply in_map_iff in Kn. destruct Kn as [f [Hn Hf]]. apply filter_In in Hf. exists f. split; [apply Hf | exact Hn].
        - apply filter_In in Kn. destruct Kn as [_ Kn]. apply existsb_exists in Kn. destruct Kn as [f [Hf Hn]].
          apply name_eqb_eq in Hn. exists f. split; congruence. }
      destruct X as [f [Hf Hn]]. exists f. split; [exact Hf | split; [exact Hn |]].
      assert (Ge : aget name_eqb n items = Some e) by (apply in_aget; assumption).
      rewrite <- Hn, (G f Hf), Hn in Ge. rewrite Forall_forall in IH, PF, SF.
      destruct (rev (given n l)) as [| d ds] eqn:Eg.
      * destruct (held f); [| discriminate]. injection Ge as <-. apply empty_settled; [apply PF, Hf | apply SF, Hf].
      * injection Ge as <-.
        assert (Hd : In (n, d) l).
        { assert (Y : In d (rev (given n l))) by (rewrite Eg; left; reflexivity). apply in_rev in Y.
          unfold given in Y. apply in_map_iff in Y. destruct Y as [[m d'] [Y1 Y2]]. cbn [snd] in Y1. subst d'.
          apply filter_In in Y2. destruct Y2 as [Y2 Y3]. cbn [fst] in Y3. apply name_eqb_eq in Y3. congruence. }
        rewrite Forall_map, Forall_forall in V. specialize (V _ Hd). unfold outcome in V. cbn [fst snd] in V.
        rewrite <- Hn, (find_name fields f D Hf) in V.
        destruct (set (fschema f) (empty (fschema f)) d) as [e r] eqn:Es. cbn [fst snd] in *. subst r.
        apply (IH f Hf (PF f Hf) (SF f Hf) (empty (fschema f)) d e); [apply empty_fits | exact Es].
  - inversion P as [| | ? ? PM]; subst. inversion S as [| | ? ? Hc SM]; subst.
    destruct e0 as [| | c0 l0]; try contradiction. cbn [fits] in F. subst c0.
    destruct (iter_data d) as [l | x] eqn:El; [| cbn [nested_set] in H; rewrite El in H; discriminate].
    rewrite (seq_set object c m l0 d l El) in H.
    destruct (verdict _) as [b | x] eqn:V; [| destruct x; discriminate]. injection H as <- ->.
    apply verdict_true_inv in V. constructor; [exact Hc |]. rewrite Forall_map in *.
    rewrite Forall_forall in *. intros d' Hd. specialize (V d' Hd).
    destruct (set m (empty m) d') as [e r] eqn:Es. cbn [fst snd] in *. subst r.
    apply (IH PM SM (empty m) d' e (empty_fits m) Es).
Qed.
Theorem set_round s : proper s -> steady s -> forall e0 d e, fits s e0 -> set s e0 d = (e, Ok true) ->
  forall e1, fits s e1 -> exists e', set s e1 (record_value e) = (e', Ok true) /\ same e' e.
Proof.
  intros P S e0 d e F H e1 F1. apply settled_round; [exact P | exact (set_settles s P S e0 d e F H) | exact F1].
Qed.
(* a list of pairs is as good as a dictionary *)
Lemma pairs_as_dict s e l : set s e (DSeq (map (fun kv => DSeq [as_key (fst kv); snd kv]) l)) = set s e (DMap l) \/
  match s with NDict _ _ => False | _ => True end.
Proof.
  destruct s as [k | own fields | c m]; [right; exact I | left | right; exact I].
  destruct e as [| items |]; try reflexivity. cbn [nested_set pairs_of iter_data rmap].
  rewrite map_map. unfold as_key. cbn [unpack iter_data]. reflexivity.
Qed.
(* kinds *)
Lemma string_none st v w : adapt (KString st) v = Ok w ->
  w = VNone \/ exists s, w = VText (if st then strip s else s).
Proof.
  intros H. destruct v; cbn [adapt] in H; inversion H; [left; reflexivity | right; eexists; reflexivity ..].
Qed.
Lemma construct_type t args w : construct t args = Ok w -> has_type t w = true.
Proof.
  unfold construct, bind, rmap. intros H.
  repeat match type of H with context [match ?x with _ => _ end] => destruct x; try discriminate end;
    injection H as <-; reflexivity.
Qed.
Lemma temporal_type t st v w : adapt (KTemporal t st) v = Ok w -> w = VNone \/ has_type t w = true.
Proof.
  intros H. destruct v; cbn [adapt] in H; try (injection H as <-; left; reflexivity); right.
  all: match type of H with (if ?h then _ else _) = _ => destruct h eqn:E end;
    [injection H as <-; exact E |]; try discriminate.
  destruct (match_pat _ _) as [g |]; [| discriminate].
  destruct (ints g) as [args | x]; cbn [bind] in H.
  - destruct (construct t args) as [w' | x] eqn:C; [| destruct x; discriminate].
    injection H as <-. exact (construct_type _ _ _ C).
  - destruct x; discriminate.
Qed.
Lemma int_conv_int v n : adaptation true (int_conv v) = Ok n -> exists z, n = VInt z.
Proof.
  destruct v as [| b | z | s | d | d t | t | o]; cbn [int_conv adaptation]; try discriminate.
  - intros H. injection H as <-. eexists; reflexivity.
  - intros H. injection H as <-. eexists; reflexivity.
  - destruct (py_int s) as [z | []]; cbn; intros H; try discriminate. injection H as <-. eexists; reflexivity.
  - destruct (o_int o) as [z | []]; cbn; intros H; try discriminate. injection H as <-. eexists; reflexivity.
Qed.
Lemma standard_idem k : standard k -> forall v w, adapt k v = Ok w -> adapt k w = Ok w.
Proof.
  induction k as [st | nt sg | tr ts fa fs | t st | c IH valid | c IH vals | own]; cbn [standard]; intros S v w H.
  - apply string_none in H. destruct H as [-> | [s ->]]; [reflexivity |]. cbn [adapt vtext].
    destruct st; [rewrite strip_idem |]; reflexivity.
  - cbn [adapt] in H.
    assert (X : w = VNone \/ is_text w = false /\ nt_conv nt w = Ok w /\ (sg = true \/ nt_neg nt w = Ok false)).
    { destruct v; try (left; congruence); right.
      all: match type of H with bind (adaptation _ ?a) _ = _ => destruct a as [n | []] eqn:E; try discriminate end.
      all: cbn [bind adaptation] in H; apply S in E as [E1 E2].
      all: destruct sg; [injection H as <-; now auto |].
      all: destruct (nt_neg nt n) as [[] |] eqn:L; try discriminate; injection H as <-; now auto. }
    destruct X as [-> | (T & C & L)]; [reflexivity |]. destruct w; try reflexivity; try discriminate T; cbn [adapt].
    all: rewrite C; cbn [bind adaptation]; destruct L as [-> | L]; [reflexivity |]; destruct sg; [reflexivity |]; rewrite L; reflexivity.
  - assert (X : exists b, w = VBool b).
    { destruct v; cbn [adapt] in H; try (injection H as <-; eexists; reflexivity).
      destruct (_ || _); [injection H as <-; eexists; reflexivity |].
      destruct (_ || _); [injection H as <-; eexists; reflexivity | discriminate]. }
    destruct X as [b ->]. reflexivity.
  - apply temporal_type in H. destruct H as [-> | H]; [reflexivity |]. cbn [adapt].
    destruct w; rewrite ?H; reflexivity || discriminate.
  - cbn [adapt] in *. destruct (adapt c v) as [n | x] eqn:E; [| discriminate]. cbn [bind] in H.
    destruct (valid n) as [[] | x] eqn:V; try discriminate. cbn [bind] in H. injection H as <-.
    rewrite (IH S v n E). cbn [bind]. rewrite V. reflexivity.
  - cbn [adapt] in *. destruct (adapt c v) as [n | x] eqn:E; [| discriminate]. cbn [bind] in H.
    destruct (py_in n vals) eqn:V; try discriminate. injection H as <-.
    rewrite (IH S v n E). cbn [bind]. rewrite V. reflexivity.
  - destruct S.
Qed.
Lemma integer_standard sg : standard (KInteger sg).
Proof. intros v n E. cbn [nt_conv int_type] in E. assert (X : adaptation true (int_conv v) = Ok n) by now rewrite E. apply int_conv_int in X as [z ->]. now split. Qed.
Lemma standard_steady k : standard k -> adapt k VNone = Ok VNone -> steady (NScalar k).
Proof. intros S N. constructor; [exact N | exact (standard_idem k S)]. Qed.
End Objects.
