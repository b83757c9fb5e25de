(* Flattened names and flatten. *)
From Verif Require Import PyBase PyBaseFacts PyList ModelMap SpecScalar ProofScalar ModelPaths SpecPaths ProofPaths8 ModelScalar ModelFlat SpecFlat ProofFlat ProofFlat2 ProofFlat3.

(* ---------------- names ---------------- *)
Lemma somes_app l l' : somes (l ++ l') = somes l ++ somes l'.
Proof. unfold somes. now rewrite flat_map_app. Qed.
Lemma node_up t i q : node_at t (i :: q) <> None -> node_at t q <> None.
Proof. cbn. now destruct (node_at t q). Qed.
Lemma names_somes t p : node_at t p <> None -> somes (map (elem_name t) (path_to t (Node p))) = names_to t p.
Proof.
  induction p as [|i q IH]; intros H.
  - cbn. destruct (tree_name t); reflexivity.
  - pose proof (node_up _ _ _ H) as H'. specialize (IH H').
    pose proof (path_to_lemma t (Node (i :: q)) H) as P. cbn [parent] in P.
    destruct (slotted t q) eqn:SL.
    + assert (X : exists_in t (SlotOf (i :: q))) by easy. pose proof (path_to_lemma t _ X) as P'. cbn [parent tl] in P'.
      rewrite P, P', !map_app, !somes_app, IH. cbn [map elem_name]. cbn [names_to]. unfold slotted in SL.
      destruct (node_at t q) as [[n|n b l|sl n b l]|] eqn:E; try easy. destruct sl; [|easy].
      f_equal. destruct (node_at t (i :: q)) as [u|]; [|easy]. destruct (tree_name u); reflexivity.
    + rewrite P, map_app, somes_app, IH. cbn [map elem_name names_to]. unfold slotted in SL.
      assert (Y : match node_at t q with Some (Seq true _ _ _) => [dec_nat i] | _ => [] end = []).
      { destruct (node_at t q) as [[n|n b l|[|] n b l]|]; easy. }
      rewrite Y, app_nil_r. f_equal. destruct (node_at t (i :: q)) as [u|]; [|easy]. destruct (tree_name u); reflexivity.
Qed.
Lemma name_lemma t p sep : node_at t p <> None -> flattened_name t (Node p) sep = join sep (names_to t p).
Proof. intros H. unfold flattened_name. now rewrite names_somes. Qed.
Lemma slot_name_lemma t i q sep : exists_in t (SlotOf (i :: q)) ->
  flattened_name t (SlotOf (i :: q)) sep = join sep (names_to t q ++ [dec_nat i]).
Proof.
  intros H. unfold flattened_name. pose proof (path_to_lemma t _ H) as P. cbn [parent tl] in P.
  rewrite P, map_app, somes_app, names_somes; [reflexivity|]. destruct H as [H _]. now apply node_up in H.
Qed.

(* ---------------- flatten ---------------- *)
Lemma flatten_lemma {V} t fl deep e sep (value : elem -> V) : exists n, generation t e n = [] /\
  flattens t fl deep e sep value
    (map (fun x => (flattened_name t x sep, value x)) (filter fl (e :: if deep then generations t e n else []))).
Proof.
  destruct (all_children_lemma t e) as (n & E & f & H). exists n. split; [easy|]. exists f. intros fuel F.
  unfold flatten. destruct deep.
  - rewrite H by easy. cbn [rmap filter]. now destruct (fl e).
  - cbn [filter]. now destruct (fl e).
Qed.
Lemma flattens_fun {V} t fl deep e sep (value : elem -> V) r r' :
  flattens t fl deep e sep value r -> flattens t fl deep e sep value r' -> r = r'.
Proof.
  intros [f H] [g H']. specialize (H (f + g)%nat ltac:(lia)). specialize (H' (f + g)%nat ltac:(lia)). congruence.
Qed.

(* ---------------- joined_to names ---------------- *)
Definition good (c : N) (xs : list str) : Prop := Forall (fun x => x <> [] /\ ~ In c x) xs.
Lemma break_inj (c : N) (x y s t : str) : ~ In c x -> ~ In c y -> (s = [] \/ exists r, s = c :: r) -> (t = [] \/ exists r, t = c :: r) ->
  x ++ s = y ++ t -> x = y /\ s = t.
Proof.
  revert y. induction x as [|a x IH]; intros [|b y] NX NY S T E; cbn in *.
  - easy.
  - destruct S as [->|[r ->]]; [easy|]. exfalso. apply NY. left. congruence.
  - destruct T as [->|[r ->]]; [easy|]. exfalso. apply NX. left. congruence.
  - injection E as -> E. destruct (IH y) as [-> ->]; auto.
Qed.
Lemma join_inj c r l l' : good c l -> good c l' -> join (c :: r) l = join (c :: r) l' -> l = l'.
Proof.
  assert (J : forall x l, join (c :: r) (x :: l) = x ++ match l with [] => [] | _ => c :: r ++ join (c :: r) l end).
  { intros a [|b m]; [cbn; now rewrite app_nil_r|]. now rewrite join_cons. }
  intros G. revert l'. induction G as [|x l [N F] G IH]; intros l' G' E.
  - destruct G' as [|y l' [N' F'] G']; [easy|]. rewrite J in E. destruct y; easy.
  - destruct G' as [|y l' [N' F'] G'].
    + rewrite J in E. destruct x; easy.
    + rewrite !J in E. apply break_inj with (c := c) in E; try easy.
      * destruct E as [-> E]. f_equal. destruct l as [|a l], l' as [|b l']; try easy. apply IH; [easy|].
        injection E as E. now apply app_inv_head in E.
      * destruct l; [now left|right; eauto].
      * destruct l'; [now left|right; eauto].
Qed.

(* ---------------- distinct names ---------------- *)
Lemma names_to_app t a p : exists m, names_to t (a ++ p) = names_to t p ++ m.
Proof.
  induction a as [|i a [m IH]].
  - exists []. now rewrite app_nil_r.
  - cbn [app names_to]. rewrite IH. rewrite <- !app_assoc. eauto.
Qed.
Lemma dec_nat_good c i : is_digit c = false -> dec_nat i <> [] /\ ~ In c (dec_nat i).
Proof.
  intros D. split; [apply dec_nonempty|]. intros I. pose proof (dec_ascii (N.of_nat i)) as A. rewrite forallb_forall in A.
  apply A in I. apply adigit_digit in I. congruence.
Qed.
Lemma names_good c r t p : is_digit c = false -> clear_tree (c :: r) t -> node_at t p <> None -> good c (names_to t p).
Proof.
  intros D (_ & C & _). induction p as [|i q IH]; intros H; cbn [names_to]; apply Forall_app; split.
  - constructor.
  - unfold own_name. destruct (node_at t []) as [u|] eqn:E; [|constructor]. specialize (C _ _ E).
    destruct (tree_name u) as [x|]; [|constructor]. destruct (C x eq_refl) as (C1 & C2 & _). repeat constructor; [easy|]. now apply (C2 c r).
  - apply Forall_app. split; [apply IH; now apply node_up in H|].
    destruct (node_at t q) as [[n|n b l|[|] n b l]|]; try constructor; [|constructor]. now apply dec_nat_good.
  - unfold own_name. destruct (node_at t (i :: q)) as [u|] eqn:E; [|constructor]. specialize (C _ _ E).
    destruct (tree_name u) as [x|]; [|constructor]. destruct (C x eq_refl) as (C1 & C2 & _). repeat constructor; [easy|]. now apply (C2 c r).
Qed.
Lemma common (p q : list nat) : exists r a b, p = a ++ r /\ q = b ++ r /\
  (a = [] \/ b = [] \/ exists a' b' i j, a = a' ++ [i] /\ b = b' ++ [j] /\ i <> j).
Proof.
  assert (X : forall P Q : list nat, exists r a b, P = r ++ a /\ Q = r ++ b /\ (a = [] \/ b = [] \/ exists a' b' i j, a = i :: a' /\ b = j :: b' /\ i <> j)).
  { induction P as [|i P IH]; intros [|j Q].
    - exists [], [], []. auto.
    - exists [], [], (j :: Q). auto.
    - exists [], (i :: P), []. auto.
    - destruct (Nat.eq_dec i j) as [->|N].
      + destruct (IH Q) as (r & a & b & -> & -> & H). exists (j :: r), a, b. auto.
      + exists [], (i :: P), (j :: Q). repeat split; auto. right. right. now exists P, Q, i, j. }
  destruct (X (rev p) (rev q)) as (r & a & b & E1 & E2 & H). exists (rev r), (rev a), (rev b).
  rewrite <- !rev_app_distr, <- E1, <- E2, !rev_involutive. repeat split.
  destruct H as [-> | [-> | (a' & b' & i & j & -> & -> & N)]]; auto. right. right. exists (rev a'), (rev b'), i, j. easy.
Qed.
Lemma leaf_below t a p n : node_at t p = Some (Leaf n) -> node_at t (a ++ p) <> None -> a = [].
Proof.
  intros L. destruct a as [|i a]; [easy|]. intros H. exfalso. revert i H. induction a as [|j a IH]; intros i H; cbn in *.
  - now rewrite L in H.
  - apply (IH j). cbn. destruct (node_at t (a ++ p)) as [u|]; [|easy]. cbn in *. destruct (kid u j); easy.
Qed.
Lemma node_suffix t a p : node_at t (a ++ p) <> None -> node_at t p <> None.
Proof. induction a as [|i a IH]; [easy|]. intros H. apply IH. now apply (node_up t i). Qed.
Lemma nodup_names {A} (l : list (name * A)) i j k c d : NoDup (map fst l) -> nth_error l i = Some (k, c) -> nth_error l j = Some (k, d) -> i = j.
Proof.
  intros ND E1 E2. apply (NoDup_nth_error (map fst l)); [easy| |].
  - apply nth_error_Some. now rewrite (map_nth_error fst _ _ E1).
  - now rewrite (map_nth_error fst _ _ E1), (map_nth_error fst _ _ E2).
Qed.
Lemma below_name t sep b r : clear_tree sep t -> node_at t (b ++ r) <> None -> names_to t (b ++ r) = names_to t r -> b = [] \/ inside t r (b ++ r).
Proof.
  intros C H E. destruct b as [|i b _] using rev_ind; [now left|right]. rewrite <- app_assoc in *. cbn [app] in *.
  destruct (names_to_app t b (i :: r)) as [e1 E1]. rewrite E1 in E. cbn [names_to] in E. rewrite <- !app_assoc in E.
  rewrite <- (app_nil_r (names_to t r)) in E at 2. apply app_inv_head in E. apply node_suffix in H as PI.
  destruct C as (Pr & C & K & A).
  destruct (node_at t r) as [[x|x bb l|[|] x bb l]|] eqn:R.
  - cbn in PI. now rewrite R in PI.
  - exfalso. cbn [app node_at] in E, PI. rewrite R in E, PI. cbn [kid] in E, PI. destruct (Pr _ _ _ _ R) as [ND PN].
    destruct (nth_error l i) as [[k1 u]|] eqn:F1; [|now apply PI]. cbn [option_map snd] in E. apply nth_error_In in F1 as I1.
    rewrite (PN _ _ I1) in E. pose proof (K _ _ _ _ _ _ R I1) as K1. now destruct k1.
  - easy.
  - assert (L : exists z, node_at t (i :: r) = Some (Leaf z)).
    { cbn in *. rewrite R in *. cbn [kid] in *. destruct (nth_error l i) as [u|] eqn:F; [|easy].
      apply nth_error_In in F. destruct (A _ _ _ _ _ R F) as [z ->]. now exists z. }
    destruct L as [z1 Z1]. assert (b = []) by now apply (leaf_below t b (i :: r) z1). subst. now exists i, x, bb, l.
  - cbn in PI. now rewrite R in PI.
Qed.
Lemma distinct_nodes_lemma t sep p q : separator sep -> clear_tree sep t -> node_at t p <> None -> node_at t q <> None ->
  flattened_name t (Node p) sep = flattened_name t (Node q) sep ->
  p = q \/ siblings t p q \/ inside t p q \/ inside t q p.
Proof.
  intros (c & s & -> & D) C P' Q' E.
  rewrite !name_lemma in E by easy. apply join_inj in E; [|now apply (names_good c s)|now apply (names_good c s)].
  destruct (common p q) as (r & a & b & -> & -> & [-> | [-> | (a' & b' & i & j & -> & -> & N)]]).
  - cbn [app] in *. destruct (below_name t (c :: s) b r C Q' (eq_sym E)) as [->|H]; auto.
  - cbn [app] in *. destruct (below_name t (c :: s) a r C P' E) as [->|H]; auto.
  - right. left. rewrite <- !app_assoc in *. cbn [app] in *.
    destruct (names_to_app t a' (i :: r)) as [e1 E1]. destruct (names_to_app t b' (j :: r)) as [e2 E2]. rewrite E1, E2 in E.
    cbn [names_to] in E. rewrite <- !app_assoc in E. apply app_inv_head in E.
    apply node_suffix in P' as PI. apply node_suffix in Q' as QI.
    destruct C as (Pr & C & K & A).
    destruct (node_at t r) as [[x|x bb l|[|] x bb l]|] eqn:R.
    + cbn in PI. now rewrite R in PI.
    + exfalso. cbn [app node_at] in E, PI, QI. rewrite R in E, PI, QI. cbn [kid] in E, PI, QI.
      destruct (Pr _ _ _ _ R) as [ND PN].
      destruct (nth_error l i) as [[k1 u]|] eqn:F1; [|now apply PI]. destruct (nth_error l j) as [[k2 v]|] eqn:F2; [|now apply QI].
      cbn [option_map snd] in E. apply nth_error_In in F1 as I1. apply nth_error_In in F2 as I2.
      rewrite (PN _ _ I1), (PN _ _ I2) in E. pose proof (K _ _ _ _ _ _ R I1) as K1. pose proof (K _ _ _ _ _ _ R I2) as K2.
      destruct k1 as [x1|]; [|easy]. destruct k2 as [x2|]; [|easy]. cbn in E. injection E as <- _.
      apply N. now apply (nodup_names l i j (Some x1) u v).
    + exfalso. cbn [app] in E. injection E as E _. now apply dec_nat_inj in E.
    + assert (L : forall k, node_at t (k :: r) <> None -> exists z, node_at t (k :: r) = Some (Leaf z)).
      { intros k H. cbn in *. rewrite R in *. cbn [kid] in *. destruct (nth_error l k) as [u|] eqn:F; [|easy].
        apply nth_error_In in F. destruct (A _ _ _ _ _ R F) as [z ->]. now exists z. }
      destruct (L i PI) as [z1 Z1]. destruct (L j QI) as [z2 Z2].
      assert (a' = []) by now apply (leaf_below t a' (i :: r) z1). assert (b' = []) by now apply (leaf_below t b' (j :: r) z2). subst.
      exists i, j, r, x, bb, l. easy.
    + cbn in PI. now rewrite R in PI.
Qed.
Lemma distinct_lemma t sep p q n m : separator sep -> clear_tree sep t ->
  node_at t p = Some (Leaf n) -> node_at t q = Some (Leaf m) ->
  flattened_name t (Node p) sep = flattened_name t (Node q) sep -> p = q \/ siblings t p q.
Proof.
  intros Sp C P Q E. destruct (distinct_nodes_lemma t sep p q Sp C) as [H|[H|[(i & x & b & l & -> & H)|(i & x & b & l & -> & H)]]]; try congruence; auto.
Qed.
