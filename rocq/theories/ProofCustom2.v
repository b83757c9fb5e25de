(* Compounds: flattening and back; dates. *)
From Verif Require Import PyBase PyBaseFacts PyList ModelMap SpecScalar ProofScalar ProofScalar2 ProofScalar3 ModelPaths SpecPaths ModelScalar
  ModelFlat SpecFlat ProofFlat ProofFlat2 ModelCompound SpecCompound ProofCompound ProofCompound2 ProofCompound6 ModelCustom SpecCustom ProofCustom.

Lemma below_inj n sep a b : below n sep a = below n sep b -> a = b.
Proof. destruct n; cbn; [|easy]. intros H. now apply app_inv_head, app_inv_head in H. Qed.
Definition key_of (n : name) (sep : str) (p : part) : str := match pt_name p with Some x => below n sep x | None => [] end.
Lemma listed_keys n sep u ps : named ps -> Forall (fun p => pt_name p <> Some []) ps ->
  NoDup (map fst (as_flat (listed n sep u ps))).
Proof.
  intros [NN ND] NE. unfold as_flat, listed. cbn [map fst snd]. rewrite !map_map. cbn [fst].
  constructor.
  - intros I. apply in_map_iff in I as (p & E & I). rewrite Forall_forall in NN, NE. specialize (NN p I). specialize (NE p I).
    destruct (pt_name p) as [x|]; [|easy]. injection E as E. destruct n as [o|]; cbn in E; [|subst; easy].
    apply (f_equal (@List.length N)) in E. rewrite !app_length in E. destruct x; [easy|cbn in E; lia].
  - clear NE. induction ps as [|p ps IH]; cbn [map]; [constructor|].
    apply Forall_cons_iff in NN as [NP NN]. cbn [map] in ND. apply NoDup_cons_iff in ND as [NI ND]. constructor; [|now apply IH].
    intros I. apply in_map_iff in I as (q & E & I). apply NI. apply in_map_iff. exists q. split; [|easy].
    rewrite Forall_forall in NN. specialize (NN q I). destruct (pt_name p), (pt_name q); try easy. injection E as E.
    apply below_inj in E. now subst.
Qed.
Lemma first_is {K A} (l a b : list (K * A)) k v w : NoDup (map fst l) -> l = a ++ (k, v) :: b -> In (k, w) l -> v = w.
Proof.
  intros ND -> I. rewrite map_app in ND. cbn [map fst] in ND. apply NoDup_remove_2 in ND.
  apply in_app_or in I as [I|[[= ->]|I]]; [|easy|]; exfalso; apply ND; apply in_or_app; [left|right]; apply in_map_iff; now exists (k, w).
Qed.
Lemma back n sep ps u : named ps -> Forall (fun p => pt_name p <> Some []) ps ->
  Forall (fun p => reads_back false (pt_kind p) (pt_st p)) ps ->
  exists qs, custom_set_flat n sep (new_parts ps) (as_flat (listed n sep u ps)) = (qs, Ok tt) /\ Forall2 alike ps qs.
Proof.
  intros N NE RB. pose proof (listed_keys n sep u ps N NE) as K.
  assert (N' : named (new_parts ps)).
  { destruct N as [NN ND]. split.
    - unfold new_parts. rewrite Forall_map. exact NN.
    - unfold new_parts. rewrite map_map. exact ND. }
  assert (T : text_keys (as_flat (listed n sep u ps))).
  { unfold text_keys, as_flat. rewrite Forall_map. apply Forall_forall. easy. }
  pose proof (set_flat_custom n sep (new_parts ps) _ N' T) as D.
  destruct (custom_set_flat n sep (new_parts ps) (as_flat (listed n sep u ps))) as [qs r]. cbn [fst snd] in D.
  assert (Has : forall p x, In p ps -> pt_name p = Some x -> In (Some (below n sep x), VText (s_u (pt_st p))) (as_flat (listed n sep u ps))).
  { intros p x I E. unfold as_flat, listed. cbn [map]. right. rewrite map_map. apply in_map_iff. exists p. rewrite E. easy. }
  set (pairs := as_flat (listed n sep u ps)) in *. clearbody pairs.
  assert (G : forall l qs r, incl l ps -> delivers n sep pairs (new_parts l) qs r -> r = Ok tt /\ Forall2 alike l qs).
  { clear D qs r. induction l as [|p l IH]; intros qs r L D.
    - inversion D; subst. split; [easy|constructor].
    - assert (R : forall q s, receives n sep pairs (with_st p blank) q s -> s = Ok tt /\ alike p q).
      { intros q s Rc. assert (I : In p ps) by (apply L; now left).
        inversion Rc as [p' x v a b st s' E Eq Nn S|p' x y E Nn _|p' x E Nn]; subst p'; cbn [pt_name with_st] in E.
        - rewrite (first_is pairs a b _ v _ K Eq (Has p x I E)) in S.
          rewrite Forall_forall in RB. destruct (RB p I) as (raw & bb & W). cbn [pt_kind pt_st with_st] in S.
          change (forgets blank) with blank in S. rewrite W in S. injection S as <- <-. split; [easy|]. repeat split.
        - exfalso. apply Nn. apply in_map_iff. exists (Some (below n sep x), VText (s_u (pt_st p))). split; [easy|]. now apply Has.
        - exfalso. apply (Nn []). rewrite app_nil_r. apply in_map_iff. exists (Some (below n sep x), VText (s_u (pt_st p))). split; [easy|]. now apply Has. }
      inversion D as [|p' q' ps' qs' r' Rc D'|p' q' ps' e Rc]; subst.
      + apply R in Rc as [_ A]. destruct (IH qs' r) as [-> F]; [intros z Z; apply L; now right|easy|]. split; [easy|now constructor].
      + apply R in Rc as [X _]. discriminate X. }
  destruct (G ps qs r (incl_refl _) D) as [-> F]. now exists qs.
Qed.
Lemma round_trip {V R} (c : custom V R) n sep ps u v : named ps -> Forall (fun p => pt_name p <> Some []) ps ->
  Forall (fun p => reads_back false (pt_kind p) (pt_st p)) ps -> cu_compose c ps = Ok (u, v) ->
  exists fl qs, (exists f, forall fuel, (f <= fuel)%nat -> custom_flatten c fuel n sep ps = Ok fl)
    /\ custom_set_flat n sep (new_parts ps) (as_flat fl) = (qs, Ok tt) /\ Forall2 alike ps qs
    /\ (observant c -> custom_u c qs = Ok u /\ custom_value c qs = Ok v).
Proof.
  intros N NE RB C. destruct (flatten_custom c n sep ps N) as [F _]. destruct (F u v C) as [f F'].
  destruct (back n sep ps u N NE RB) as (qs & B & A). exists (listed n sep u ps), qs. split; [now exists f|]. split; [easy|]. split; [easy|].
  intros O. apply (read_lemma c qs). now rewrite <- (O ps qs A).
Qed.

(* ---------------- dates ---------------- *)
Lemma alike3 (a b d : part) qs : Forall2 alike [a; b; d] qs -> exists a' b' d', qs = [a'; b'; d'] /\ alike a a' /\ alike b b' /\ alike d d'.
Proof. intros H. inversion H as [|? a' ? ? A H1]; subst. inversion H1 as [|? b' ? ? B H2]; subst. inversion H2 as [|? d' ? ? D H3]; subst. inversion H3; subst. now exists a', b', d'. Qed.
Lemma date_observant strip_ d : observant (date_custom strip_ d).
Proof.
  intros ps qs F. cbn [cu_compose date_custom]. destruct F as [|a a' ps qs A F]; [easy|]. destruct F as [|b b' ps qs B F]; [easy|].
  destruct F as [|e e' ps qs E F]; [easy|]. destruct F as [|? ? ? ? ? F]; [|easy].
  unfold date_compose. cbn [p_y p_m p_d]. destruct A as (_ & _ & _ & -> & _), B as (_ & _ & _ & -> & _), E as (_ & _ & _ & -> & _). easy.
Qed.
Lemma date_is strip_ dv y m d v :
  let c := date_custom strip_ dv in
  let p := Parts (pt_st y) (pt_st m) (pt_st d) in
  let k := Kinds (pt_kind y) (pt_kind m) (pt_kind d) in
  custom_u c [y; m; d] = date_u strip_ p /\ custom_value c [y; m; d] = date_value strip_ p
  /\ custom_is_empty [y; m; d] = Ok (date_is_empty k p)
  /\ forall p' r, date_set strip_ k p v = (p', r) ->
     custom_set c [y; m; d] v = ([with_st y (p_y p'); with_st m (p_m p'); with_st d (p_d p')],
       match r with Ok true => Ok ToldTrue | Ok false => Ok ToldFalse | Err e => Err e end).
Proof.
  cbn zeta. split; [easy|]. split; [easy|]. split; [easy|]. intros p' r H. unfold date_set in H. unfold custom_set. cbn [cu_explode date_custom].
  destruct (date_explode strip_ _ _ v) as [q [[]|e]]; injection H as <- <-; cbn; [easy|]. now destruct e.
Qed.
Lemma digits_strip s : Forall (fun x => 48 <= x <= 57 \/ x = 45)%N s -> trimmed s s.
Proof.
  assert (D : forall x : N, (48 <= x <= 57 \/ x = 45)%N -> is_space x = false).
  { intros x H. assert (x = 45 \/ x = 48 \/ x = 49 \/ x = 50 \/ x = 51 \/ x = 52 \/ x = 53 \/ x = 54 \/ x = 55 \/ x = 56 \/ x = 57)%N by lia.
    repeat (destruct H0 as [->|H0]; [reflexivity|]). now subst. }
  intros F. exists [], []. rewrite app_nil_r. split; [easy|]. split; [constructor|]. split; [constructor|]. split; intros x r ->.
  - apply Forall_cons_iff in F as [F _]. now apply D.
  - apply Forall_app in F as [_ F]. apply Forall_cons_iff in F as [F _]. now apply D.
Qed.
Lemma padded_back w z : (0 < w)%nat -> reads_back false (KNumber (padded_int w) true) (Scalar (Some (VInt z)) (VInt z) (pad_z w z)).
Proof.
  intros W. unfold reads_back. cbn [andb s_value s_u]. pose proof (pad_z_padded w z W) as (I & F & _).
  exists (Some (VText (pad_z w z))), true. unfold scalar_set, adapt, padded_int, int_conv. cbn [nt_conv].
  assert (E : py_int (strip (pad_z w z)) = Ok z).
  { apply digits_strip in F. apply trimmed_eq in F. rewrite <- F. apply py_int_iff. exists (pad_z w z). split; [|easy]. now apply trimmed_eq. }
  rewrite E. easy.
Qed.

Lemma date_round_trip strip_ dv n sep a b e v d : real_val v -> means_date strip_ v d ->
  NoDup [Some a; Some b; Some e] -> ~ In [] [a; b; e] ->
  let c := date_custom strip_ dv in
  let new := date_fields (Some a) (Some b) (Some e) in
  exists ps fl qs, custom_set c new v = (ps, Ok ToldTrue) /\ custom_value c ps = Ok (VDate d)
    /\ (exists f, forall fuel, (f <= fuel)%nat -> custom_flatten c fuel n sep ps = Ok fl)
    /\ custom_set_flat n sep new (as_flat fl) = (qs, Ok tt) /\ custom_value c qs = Ok (VDate d) /\ custom_u c qs = custom_u c ps.
Proof.
  intros Rv M ND NE. cbn zeta.
  pose proof (explode_means strip_ default_kinds blank_parts v d Rv M) as X. unfold date_numbers in X.
  erewrite set_parts_ok in X; [|apply padded_set|apply padded_set|apply padded_set].
  set (y := pad_z 4 (Z.of_N (d_y d))) in *. set (m := pad_z 2 (Z.of_N (d_m d))) in *. set (dd := pad_z 2 (Z.of_N (d_d d))) in *.
  assert (S : exists ps, custom_set (date_custom strip_ dv) (date_fields (Some a) (Some b) (Some e)) v = (ps, Ok ToldTrue)
    /\ ps = [Part (Some a) (k_y default_kinds) None (Scalar (Some (VInt (Z.of_N (d_y d)))) (VInt (Z.of_N (d_y d))) y);
             Part (Some b) (k_m default_kinds) None (Scalar (Some (VInt (Z.of_N (d_m d)))) (VInt (Z.of_N (d_m d))) m);
             Part (Some e) (k_d default_kinds) None (Scalar (Some (VInt (Z.of_N (d_d d)))) (VInt (Z.of_N (d_d d))) dd)]).
  { eexists. split; [|reflexivity]. unfold custom_set. cbn [cu_explode date_custom date_fields pt_st pt_kind].
    change (Kinds (k_y default_kinds) (k_m default_kinds) (k_d default_kinds)) with default_kinds.
    change (Parts blank blank blank) with blank_parts. rewrite X. reflexivity. }
  destruct S as (ps & S & E).
  assert (H : holds_date (Parts (Scalar (Some (VInt (Z.of_N (d_y d)))) (VInt (Z.of_N (d_y d))) y)
     (Scalar (Some (VInt (Z.of_N (d_m d)))) (VInt (Z.of_N (d_m d))) m) (Scalar (Some (VInt (Z.of_N (d_d d)))) (VInt (Z.of_N (d_d d))) dd)) d).
  { split; [destruct M; easy|]. cbn. repeat split; constructor. }
  apply (value_iff strip_) in H. assert (Vl : custom_value (date_custom strip_ dv) ps = Ok (VDate d)) by now rewrite E.
  assert (C : exists u, cu_compose (date_custom strip_ dv) ps = Ok (u, VDate d)).
  { unfold custom_value in Vl. destruct (cu_compose _ ps) as [[u w]|]; [|easy]. injection Vl as ->. now exists u. }
  destruct C as [u C].
  destruct (round_trip (date_custom strip_ dv) n sep ps u (VDate d)) as (fl & qs & F & B & A & O).
  - rewrite E. split; [repeat constructor; discriminate|exact ND].
  - rewrite E. repeat constructor; intros [= ->]; apply NE; cbn; auto.
  - rewrite E. repeat apply Forall_cons; try apply Forall_nil; apply padded_back; lia.
  - exact C.
  - exists ps, fl, qs. split; [easy|]. split; [easy|]. split; [easy|]. destruct (O (date_observant strip_ dv)) as [O1 O2].
    split; [|split; [easy|]].
    + rewrite E in B. exact B.
    + rewrite O1. unfold custom_u. now rewrite C.
Qed.
(* a pair for the Compound itself tells it nothing *)
Lemma own_pair n sep ps a b v : named ps -> Forall (fun p => pt_name p <> Some []) ps -> text_keys (a ++ b) ->
  custom_set_flat n sep ps (a ++ (Some (match n with Some x => x | None => [] end), v) :: b) = custom_set_flat n sep ps (a ++ b).
Proof.
  intros N NE T. assert (T' : text_keys (a ++ (Some (match n with Some x => x | None => [] end), v) :: b)).
  { unfold text_keys in *. apply Forall_app in T as [T1 T2]. apply Forall_app. split; [easy|]. constructor; [discriminate|easy]. }
  rewrite !set_flat_loop by easy. destruct N as [NN _].
  assert (A : forall x, x <> [] -> starting x (own_part n sep (a ++ (Some (match n with Some x => x | None => [] end), v) :: b)) = starting x (own_part n sep (a ++ b))).
  { intros x Nx. destruct n as [o|]; cbn [own_part].
    - unfold stripped. rewrite !flat_map_app. cbn [flat_map fst snd]. unfold starting. rewrite !filter_app. f_equal.
      destruct (starts_with (o ++ sep) o) eqn:W; [|easy]. cbn [filter fst app]. apply starts_with_iff in W as [r W].
      apply (f_equal (@List.length N)) in W as L. rewrite !app_length in L. assert (sep = []) by (destruct sep; [easy|cbn in L; lia]). subst sep.
      rewrite app_nil_r. rewrite skipn_all. now destruct x.
    - unfold starting. rewrite !filter_app. f_equal. cbn [filter fst]. now destruct x. }
  induction NN as [|p ps NP NN IH]; [easy|]. apply Forall_cons_iff in NE as [NEp NE]. cbn [flat_loop].
  destruct (pt_name p) as [x|]; [|easy]. rewrite A by (intros ->; easy). now rewrite IH.
Qed.
Lemma double_hypotheses : let ps := fst (custom_set (double None) double_parts (DPair (VInt 1) (VInt 2))) in
  named ps /\ Forall (fun p => pt_name p <> Some []) ps /\ Forall (fun p => reads_back false (pt_kind p) (pt_st p)) ps
  /\ observant (double None).
Proof.
  cbn zeta. split; [|split; [|split]].
  - split; [repeat constructor; discriminate|]. repeat constructor; cbn; intuition discriminate.
  - repeat constructor; discriminate.
  - apply Forall_cons; [|apply Forall_cons; [|apply Forall_nil]]; eexists _, true; vm_compute; reflexivity.
  - intros ps qs F. cbn [cu_compose double]. destruct F as [|a a' ps qs A F]; [easy|]. destruct F as [|b b' ps qs B F]; [easy|].
    destruct F as [|? ? ? ? ? F]; [|easy]. unfold part_text, part_value.
    destruct A as (_ & _ & _ & -> & ->), B as (_ & _ & _ & -> & ->). easy.
Qed.
