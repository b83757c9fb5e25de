(* Facts about matching; patterns of digits, classes and fixed texts. *)
From Verif Require Import PyBase PyBaseFacts ModelScalar ModelValidators ModelNetwork ModelMarkup SpecRegex.
From Coq Require Import Lia.

Lemma times_app f a b p : times f (a + b) p = flat_map (times f b) (times f a p).
Proof.
  revert p. induction a as [|a IH]; intros p; cbn [times Nat.add]; [cbn; now rewrite app_nil_r|].
  induction (f p) as [|q l IHl]; [reflexivity|]. cbn [flat_map]. now rewrite IH, IHl, flat_map_app.
Qed.
(* how far a class reaches *)
Fixpoint reach (ok : N -> bool) (s : str) : nat := match s with c :: r => if ok c then S (reach ok r) else 0 | [] => 0 end.
Definition ahead_by (k : nat) (p : pos) : pos := Pos (rev (firstn k (p_aft p)) ++ p_bef p) (skipn k (p_aft p)) (p_cap p).
Lemma ahead_0 p : ahead_by 0 p = p.
Proof. now destruct p. Qed.
Lemma ahead_S k c b s l : ahead_by (S k) (Pos b (c :: s) l) = ahead_by k (Pos (c :: b) s l).
Proof. unfold ahead_by. cbn. now rewrite <- app_assoc. Qed.
Lemma ahead_add j k p : ahead_by k (ahead_by j p) = ahead_by (j + k) p.
Proof.
  destruct p as [b s l]. revert b s. induction j as [|j IH]; intros b s; [now rewrite ahead_0|]. destruct s as [|c s].
  - unfold ahead_by. cbn. now rewrite !firstn_nil, !skipn_nil.
  - cbn [Nat.add]. now rewrite !ahead_S.
Qed.
Lemma reach_length ok s : reach ok s <= List.length s.
Proof. induction s as [|c s IH]; cbn; [lia|]. destruct (ok c); lia. Qed.
Lemma times_step ok n : forall p, times (step ok) n p = if (n <=? reach ok (p_aft p))%nat then [ahead_by n p] else [].
Proof.
  induction n as [|n IH]; intros [b [|c s] l]; cbn [times reach p_aft]; try (now rewrite ahead_0); [reflexivity|].
  unfold step. cbn [p_aft p_bef p_cap]. destruct (ok c); [|reflexivity]. cbn [flat_map]. rewrite app_nil_r, IH, ahead_S. reflexivity.
Qed.
Lemma step_progress ok p : filter (progress p) (step ok p) = step ok p.
Proof.
  destruct p as [b [|c s] l]; [reflexivity|]. unfold step. cbn [p_aft p_bef p_cap]. destruct (ok c); [|reflexivity].
  cbn [filter]. unfold progress. cbn [p_aft List.length]. assert ((List.length s <? S (List.length s))%nat = true) as -> by (apply Nat.ltb_lt; lia). reflexivity.
Qed.
(* as often as possible first *)
Definition down (k : nat) : list nat := rev (seq 0 (S k)).
Lemma down_S k : down (S k) = map S (down k) ++ [0].
Proof. unfold down. change (seq 0 (S (S k))) with (0 :: seq 1 (S k)). rewrite <- seq_shift. cbn [rev]. now rewrite map_rev. Qed.
Lemma more_step ok : forall fuel p, reach ok (p_aft p) <= fuel ->
  more (step ok) false None fuel p = map (fun k => ahead_by k p) (down (reach ok (p_aft p))).
Proof.
  induction fuel as [|fuel IH]; intros [b s l] H; cbn [p_aft] in *.
  - assert (reach ok s = 0) as -> by lia. cbn. now rewrite ahead_0.
  - cbn [more option_map]. rewrite step_progress. destruct s as [|c s]; [cbn; now rewrite ahead_0|].
    unfold step. cbn [p_aft p_bef p_cap reach] in *. destruct (ok c).
    + cbn [flat_map]. rewrite IH by (cbn [p_aft]; lia). cbn [p_aft]. rewrite app_nil_r, down_S, map_app, map_map. cbn [map].
      rewrite ahead_0. f_equal. apply map_ext. intros k. symmetry. apply ahead_S.
    + cbn. now rewrite ahead_0.
Qed.
Lemma more_none f lazy fuel p : more f lazy (Some 0) fuel p = [p].
Proof. destruct fuel; [reflexivity|]. cbn [more]. now destruct lazy. Qed.
(* a class n times *)
Lemma runs_exactly ic n lazy neg l p : runs ic (RRep n (Some n) lazy (RSet neg l)) p =
  if (n <=? reach (in_class ic neg l) (p_aft p))%nat then [ahead_by n p] else [].
Proof.
  cbn [runs option_map]. rewrite Nat.sub_diag. change (fun p0 => step (in_class ic neg l) p0) with (step (in_class ic neg l)).
  rewrite (times_step (in_class ic neg l)). destruct (n <=? _)%nat; [|reflexivity]. cbn [flat_map]. now rewrite more_none.
Qed.
(* a class n times or more *)
Lemma reach_skip ok n s : n <= reach ok s -> reach ok (skipn n s) = reach ok s - n.
Proof.
  revert s. induction n as [|n IH]; intros s H; [cbn; lia|]. destruct s as [|c s]; cbn in *; [lia|]. destruct (ok c); [|lia]. rewrite IH; lia.
Qed.
Lemma runs_at_least ic n neg l p : runs ic (RRep n None false (RSet neg l)) p =
  if (n <=? reach (in_class ic neg l) (p_aft p))%nat
  then map (fun k => ahead_by (n + k) p) (down (reach (in_class ic neg l) (p_aft p) - n)) else [].
Proof.
  cbn [runs option_map]. change (fun p0 => step (in_class ic neg l) p0) with (step (in_class ic neg l)).
  rewrite (times_step (in_class ic neg l)). destruct (n <=? _)%nat eqn:E; [|reflexivity]. apply Nat.leb_le in E. cbn [flat_map]. rewrite app_nil_r, more_step.
  - cbn [ahead_by p_aft]. rewrite reach_skip by exact E. apply map_ext. intros k. apply (ahead_add n k p).
  - cbn [ahead_by p_aft]. apply reach_length.
Qed.

(* ---- dates and times ---- *)
Definition digit_class : N -> bool := in_class false false [Digits].
Lemma digit_class_eq c : digit_class c = is_digit c.
Proof. unfold digit_class, in_class. cbn. destruct (is_digit c); reflexivity. Qed.
Fixpoint rx_of (nms : list str) (n : nat) (p : list pitem) : rx :=
  match p with
  | [] => RCat REnd REmpty
  | PDigits k :: p' => RCat (RGroup n (hd_error nms) (RCat (RRep k (Some k) false (RSet false [Digits])) REmpty)) (rx_of (tl nms) (S n) p')
  | PChar c :: p' => RCat (RSet false [One c]) (rx_of nms n p')
  end.
Lemma take_reach n : forall s, take_digits n s = if (n <=? reach digit_class s)%nat then Some (firstn n s, skipn n s) else None.
Proof.
  induction n as [|n IH]; intros s; [reflexivity|]. destruct s as [|c s]; cbn [take_digits reach]; [reflexivity|]. rewrite digit_class_eq.
  destruct (is_digit c); [|reflexivity]. rewrite IH. cbn [Nat.leb]. destruct (n <=? _)%nat; reflexivity.
Qed.
Lemma firstn_between n p : n <= List.length (p_aft p) -> spanned p (ahead_by n p) = firstn n (p_aft p).
Proof. intros H. unfold spanned, ahead_by. cbn [p_aft]. rewrite skipn_length. f_equal. lia. Qed.
(* the groups found, numbered from n on *)
Fixpoint grouped (n : nat) (l : list str) (cap : list (nat * str)) : list (nat * str) :=
  match l with [] => cap | x :: l' => grouped (S n) l' (aset Nat.eqb n x cap) end.
Lemma runs_rx_of : forall p nms n q, match match_pat p (p_aft q) with
  | Some l => exists q', runs false (rx_of nms n p) q = [q'] /\ p_cap q' = grouped n l (p_cap q)
  | None => runs false (rx_of nms n p) q = [] end.
Proof.
  induction p as [|[k|c] p IH]; intros nms n q.
  - cbn. destruct q as [b [|c [|d s]] l]; cbn; [eexists; split; reflexivity| |reflexivity]. destruct (c =? 10)%N; cbn; [eexists; split; reflexivity|reflexivity].
  - cbn [match_pat rx_of]. rewrite take_reach.
    change (runs false (RCat ?a ?b) q) with (flat_map (runs false b) (runs false a q)).
    change (runs false (RGroup ?i ?m ?r) q) with (map (capture i q) (runs false r q)).
    assert (runs false (RCat (RRep k (Some k) false (RSet false [Digits])) REmpty) q = if (k <=? reach digit_class (p_aft q))%nat then [ahead_by k q] else []) as R.
    { change (runs false (RCat ?a ?b) q) with (flat_map (runs false b) (runs false a q)). rewrite runs_exactly. fold digit_class. now destruct (k <=? _)%nat. }
    rewrite R. destruct (k <=? reach digit_class (p_aft q))%nat eqn:E; [|reflexivity]. apply Nat.leb_le in E. cbn [map flat_map].
    specialize (IH (tl nms) (S n) (capture n q (ahead_by k q))). unfold capture in IH at 1. cbn [p_aft ahead_by] in IH.
    destruct (match_pat p (skipn k (p_aft q))) as [l|].
    + destruct IH as (q' & R' & C). exists q'. rewrite R'. split; [reflexivity|]. rewrite C. unfold capture. cbn [p_cap grouped].
      rewrite firstn_between by (pose proof (reach_length digit_class (p_aft q)); lia). reflexivity.
    + now rewrite IH.
  - cbn [match_pat rx_of]. change (runs false (RCat ?a ?b) q) with (flat_map (runs false b) (runs false a q)).
    change (runs false (RSet false [One c]) q) with (step (in_class false false [One c]) q). destruct q as [b [|x s] l]; [reflexivity|].
    unfold step. cbn [p_aft p_bef p_cap]. assert (in_class false false [One c] x = (x =? c)%N) as -> by (unfold in_class; cbn; now destruct (x =? c)%N).
    destruct (x =? c)%N; [|reflexivity]. cbn [flat_map]. rewrite app_nil_r. apply (IH nms n (Pos (x :: b) s l)).
Qed.
Lemma match_pat_length p : forall s l, match_pat p s = Some l -> List.length l = List.length (filter (fun i => match i with PDigits _ => true | PChar _ => false end) p).
Proof.
  induction p as [|[k|c] p IH]; intros s l H; cbn in *.
  - destruct s as [|c [|d s]]; [now injection H as <-| |discriminate]. destruct (c =? 10)%N; [now injection H as <-|discriminate].
  - destruct (take_digits k s) as [[d r]|]; [|discriminate]. destruct (match_pat p r) as [l'|] eqn:E; [|discriminate]. injection H as <-. cbn. f_equal. eauto.
  - destruct s as [|x s]; [discriminate|]. destruct (x =? c)%N; [eauto|discriminate].
Qed.

Lemma temporal_compiled t r : compiled (temporal_pattern t) r -> r = RCat RBegin (rx_of (temporal_fields t) 1 (regex t)).
Proof. unfold compiled. destruct t; intros H; vm_compute in H |- *; injection H as <-; reflexivity. Qed.
Lemma temporal_match t r s : compiled (temporal_pattern t) r ->
  match_pat (regex t) s = option_map (present r (temporal_fields t)) (re_match false r s)
  /\ forall p, re_match false r s = Some p -> Forall (fun f => group_named r f p <> None) (temporal_fields t).
Proof.
  intros C. apply temporal_compiled in C. pose proof (runs_rx_of (regex t) (temporal_fields t) 1 (Pos [] s [])) as R. cbn [p_aft] in R.
  assert (re_match false r s = hd_error (runs false (rx_of (temporal_fields t) 1 (regex t)) (Pos [] s []))) as E.
  { rewrite C. unfold re_match, match_at. cbn [runs p_bef flat_map]. now rewrite app_nil_r. }
  rewrite E. pose proof (match_pat_length (regex t) s) as L. destruct (match_pat (regex t) s) as [l|].
  - destruct R as (q & -> & Cq). specialize (L l eq_refl). cbn [hd_error option_map]. unfold present, group_named, group. cbn [p_cap] in Cq. rewrite Cq. clear E.
    destruct t; cbn in L; (repeat (destruct l as [|? l]; [discriminate L|])); (destruct l; [|discriminate L]); subst r.
    all: split; [reflexivity|]; intros p [= <-]; rewrite Cq; repeat (constructor; [discriminate|]); constructor.
  - rewrite R. split; [reflexivity|discriminate].
Qed.
