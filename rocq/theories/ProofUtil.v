From Verif Require Import PyBase PyBaseFacts ModelUtil SpecUtil.
Ltac Zify.zify_post_hook ::= Z.div_mod_to_equations.

(* ------------------------- luhn10 ------------------------- *)
Fixpoint lsv (rds : list Z) : Z :=
  match rds with [] => 0 | d :: r => d + 10 * lsv r end%Z.

Lemma decimal_value_lsv ds : decimal_value ds = lsv (rev ds).
Proof.
  unfold decimal_value.
  rewrite <- (rev_involutive ds) at 1. rewrite <- fold_left_rev_right.
  rewrite rev_involutive.
  induction (rev ds) as [|d r IH]; simpl in *; [easy|]. rewrite IH. lia.
Qed.

Lemma lsv_nonneg rds : digit_list rds -> (0 <= lsv rds)%Z.
Proof. induction 1; simpl; lia. Qed.

Lemma pair_ind {A} (P : list A -> Prop) :
  P [] -> (forall a, P [a]) -> (forall a b l, P l -> P (a :: b :: l)) ->
  forall l, P l.
Proof.
  intros H0 H1 H2 l. assert (P l /\ forall a, P (a :: l)) as [H _]; [|exact H].
  induction l as [|x l [IH1 IH2]]; split; auto.
Qed.

Lemma lsv_zero rds :
  digit_list rds -> lsv rds = 0%Z -> Forall (fun d => d = 0%Z) rds.
Proof.
  induction 1 as [|d r Hd Hr IH]; simpl; [constructor|]. intros H.
  pose proof (lsv_nonneg r Hr). constructor; [lia|]. apply IH. lia.
Qed.
Lemma weights_zero rds :
  Forall (fun d => d = 0%Z) rds -> luhn_weights rds = 0%Z.
Proof.
  induction rds as [|a|a b l IH] using pair_ind; intros H; cbn [luhn_weights].
  - easy. - now inversion H.
  - inversion H as [|? ? Ha H']; inversion H' as [|? ? Hb H'']; subst.
    rewrite IH by easy. reflexivity.
Qed.

Lemma luhn_loop_spec fuel rds s :
  digit_list rds -> (lsv rds < 2 ^ Z.of_nat fuel)%Z ->
  luhn_loop fuel (lsv rds) s = Ok (s + luhn_weights rds)%Z.
Proof.
  revert rds s; induction fuel as [|f IH]; intros rds s Hd Hlt.
  - pose proof (lsv_nonneg rds Hd). assert (lsv rds = 0%Z) as E by lia.
    cbn [luhn_loop]. rewrite E. cbn. rewrite weights_zero by now apply lsv_zero.
    f_equal; lia.
  - cbn [luhn_loop]. destruct (Z.eqb_spec (lsv rds) 0) as [E|E].
    { rewrite weights_zero by now apply lsv_zero. f_equal; lia. }
    assert (exists d e r, digit_list r /\ (0 <= d < 10)%Z /\ (0 <= e < 10)%Z
             /\ lsv rds = (d + 10 * e + 100 * lsv r)%Z
             /\ luhn_weights rds = (d + doubled e + luhn_weights r)%Z)
      as (d & e & r & Hr & Hd0 & He & Ev & Ew).
    { destruct rds as [|d [|e r]].
      - easy.
      - exists d, 0%Z, []. inversion Hd; subst. cbn. repeat split; try lia; try constructor; try (unfold doubled; simpl; lia).
      - inversion Hd as [|? ? Hd1 Hd2]; inversion Hd2; subst.
        exists d, e, r. cbn [lsv luhn_weights]. repeat split; try lia; easy. }
    rewrite Ev, Ew.
    replace ((d + 10 * e + 100 * lsv r) / 100)%Z with (lsv r) by lia.
    replace ((d + 10 * e + 100 * lsv r) mod 100)%Z with (d + 10 * e)%Z by lia.
    replace ((d + 10 * e) / 10)%Z with e by lia.
    replace ((d + 10 * e) mod 10)%Z with d by lia.
    rewrite IH; [|easy|].
    + f_equal. unfold doubled. destruct (Z.ltb_spec (2 * e) 10); lia.
    + rewrite Nat2Z.inj_succ, Z.pow_succ_r in Hlt by lia.
      pose proof (lsv_nonneg r Hr). lia.
Qed.

Lemma luhn_fuel_enough n fuel :
  (0 <= n)%Z -> luhn_fuel n <= fuel -> (n < 2 ^ Z.of_nat fuel)%Z.
Proof.
  intros H Hf. unfold luhn_fuel in Hf.
  pose proof (size_nat_bound (Z.to_N n)) as Hb.
  assert (n < 2 ^ Z.of_nat (N.size_nat (Z.to_N n)))%Z as H1.
  { apply N2Z.inj_lt in Hb. rewrite N2Z.inj_pow in Hb.
    rewrite Z2N.id in Hb by easy. rewrite nat_N_Z in Hb. exact Hb. }
  eapply Z.lt_le_trans; [exact H1|]. apply Z.pow_le_mono_r; lia.
Qed.

Lemma digit_list_rev ds : digit_list ds -> digit_list (rev ds).
Proof. apply Forall_rev. Qed.

Lemma decimal_value_nonneg ds : digit_list ds -> (0 <= decimal_value ds)%Z.
Proof. intros H. rewrite decimal_value_lsv. now apply lsv_nonneg, digit_list_rev. Qed.

Lemma luhn10_ok ds fuel :
  digit_list ds -> luhn_fuel (decimal_value ds) <= fuel ->
  luhn10 fuel (decimal_value ds) = Ok (luhn_weights (rev ds) mod 10 =? 0)%Z.
Proof.
  intros H Hf. pose proof (luhn_fuel_enough _ _ (decimal_value_nonneg _ H) Hf) as Hb.
  unfold luhn10. rewrite decimal_value_lsv in *.
  rewrite luhn_loop_spec by (easy || now apply digit_list_rev). reflexivity.
Qed.

Lemma luhn10_correct ds fuel :
  digit_list ds -> luhn_fuel (decimal_value ds) <= fuel ->
  exists b, luhn10 fuel (decimal_value ds) = Ok b /\ (b = true <-> luhn_valid ds).
Proof.
  intros H Hf. eexists. split; [now apply luhn10_ok|]. unfold luhn_valid. lia.
Qed.

(* every non-negative number is the value of some digit list *)
Lemma digits_exist n : (0 <= n)%Z -> exists ds, digit_list ds /\ decimal_value ds = n.
Proof.
  intros H.
  assert (forall k, (0 <= k < n + 1)%Z -> exists rds, digit_list rds /\ lsv rds = k) as G.
  { intros k Hk. generalize dependent n.
    pattern k. apply (well_founded_induction (Z.lt_wf 0)). clear k.
    intros k IH n Hn Hk. destruct (Z.eqb_spec k 0) as [->|Hne].
    - exists []. split; [constructor|easy].
    - destruct (IH (k / 10)%Z ltac:(lia) n Hn ltac:(lia)) as (r & Hr & E).
      exists ((k mod 10)%Z :: r). split; [constructor; [lia|easy]|].
      cbn [lsv]. rewrite E. lia. }
  destruct (G n ltac:(lia)) as (r & Hr & E). exists (rev r).
  split; [now apply digit_list_rev|]. rewrite decimal_value_lsv, rev_involutive. easy.
Qed.

Definition place (i : nat) (d : Z) : Z := if Nat.even i then d else doubled d.
Lemma weights_place l1 : forall d l2,
  luhn_weights (l1 ++ d :: l2) =
  (luhn_weights (l1 ++ 0%Z :: l2) + place (List.length l1) d)%Z.
Proof.
  induction l1 as [|a|a b l IH] using pair_ind; intros d l2.
  - destruct l2 as [|e l2]; cbn [app luhn_weights place List.length Nat.even];
      unfold place; cbn [Nat.even]; lia.
  - cbn [app luhn_weights List.length]. unfold place. cbn [Nat.even].
    replace (doubled 0) with 0%Z by reflexivity. lia.
  - cbn [app luhn_weights List.length]. rewrite IH. unfold place.
    cbn [Nat.even]. lia.
Qed.

Lemma replaced_split (ds : list Z) i (d old : Z) :
  nth_error ds i = Some old ->
  exists l1 l2, ds = l1 ++ old :: l2 /\ replaced ds i d = l1 ++ d :: l2.
Proof.
  intros H. apply nth_error_split in H as (l1 & l2 & -> & <-).
  exists l1, l2. split; [easy|]. unfold replaced.
  induction l1 as [|x l1 IH]; [easy|]. cbn in *. now rewrite IH.
Qed.

Lemma digit_list_replaced ds i d :
  digit_list ds -> (0 <= d < 10)%Z -> digit_list (replaced ds i d).
Proof.
  intros H Hd. unfold replaced, digit_list in *. apply Forall_app. split.
  - rewrite Forall_forall in *. intros x Hx. apply H.
    rewrite <- (firstn_skipn i ds). apply in_app_iff. now left.
  - constructor; [easy|]. rewrite Forall_forall in *. intros x Hx. apply H.
    rewrite <- (firstn_skipn (S i) ds). apply in_app_iff. now right.
Qed.

Lemma luhn10_single_digit ds i d old fuel fuel' :
  digit_list ds -> nth_error ds i = Some old -> (0 <= d < 10)%Z -> d <> old ->
  luhn10 fuel (decimal_value ds) = Ok true ->
  luhn_fuel (decimal_value ds) <= fuel ->
  luhn_fuel (decimal_value (replaced ds i d)) <= fuel' ->
  luhn10 fuel' (decimal_value (replaced ds i d)) = Ok false.
Proof.
  intros H Hi Hd Hne Hok Hf Hf'.
  rewrite luhn10_ok in Hok by easy. injection Hok as Hok.
  rewrite luhn10_ok by (easy || now apply digit_list_replaced). f_equal.
  assert (0 <= old < 10)%Z as Ho.
  { apply nth_error_In in Hi. unfold digit_list in H. rewrite Forall_forall in H.
    now apply H. }
  destruct (replaced_split ds i d old Hi) as (l1 & l2 & E1 & E2).
  rewrite E2. rewrite E1 in Hok. rewrite rev_app_distr in *. cbn [rev] in *.
  rewrite <- !app_assoc in *. cbn [app] in *.
  rewrite weights_place in Hok |- *.
  set (w := luhn_weights _) in *. clearbody w.
  unfold place, doubled in *.
  destruct (Nat.even _); [lia|].
  destruct (Z.ltb_spec (2 * d) 10), (Z.ltb_spec (2 * old) 10); lia.
Qed.

Lemma weights_place2 l x y z :
  luhn_weights (l ++ x :: y :: z) =
  (luhn_weights (l ++ 0%Z :: 0%Z :: z) + place (List.length l) x
   + place (S (List.length l)) y)%Z.
Proof.
  rewrite weights_place.
  replace (l ++ 0%Z :: y :: z) with ((l ++ [0%Z]) ++ y :: z) by now rewrite <- app_assoc.
  rewrite weights_place, app_length, <- app_assoc. cbn [app List.length].
  rewrite Nat.add_1_r. lia.
Qed.

(* transposing two adjacent digits a b changes the sum by a multiple of 10
   only when they are equal or {0, 9} *)
Lemma luhn10_transpose l1 a b l2 fuel fuel' :
  digit_list (l1 ++ a :: b :: l2) -> a <> b ->
  luhn10 fuel (decimal_value (l1 ++ a :: b :: l2)) = Ok true ->
  luhn_fuel (decimal_value (l1 ++ a :: b :: l2)) <= fuel ->
  luhn_fuel (decimal_value (l1 ++ b :: a :: l2)) <= fuel' ->
  luhn10 fuel' (decimal_value (l1 ++ b :: a :: l2))
  = Ok ((a =? 0) && (b =? 9) || (a =? 9) && (b =? 0))%Z.
Proof.
  intros H Hne Hok Hf Hf'.
  rewrite luhn10_ok in Hok by easy. injection Hok as Hok.
  assert (digit_list (l1 ++ b :: a :: l2)) as H'.
  { unfold digit_list in *. apply Forall_app in H as [H1 H2].
    inversion H2 as [|? ? Ha H3]; inversion H3 as [|? ? Hb H4]; subst.
    apply Forall_app. split; [easy|]. repeat constructor; easy || lia. }
  rewrite luhn10_ok by easy. f_equal.
  assert (0 <= a < 10 /\ 0 <= b < 10)%Z as [Ha Hb].
  { apply Forall_app in H as [H1 H2]. inversion H2 as [|? ? Ha H3].
    inversion H3; subst. easy. }
  rewrite rev_app_distr in *. cbn [rev] in *. rewrite <- !app_assoc in *.
  cbn [app] in *.
  rewrite weights_place2 in Hok |- *.
  set (w := luhn_weights _) in *. clearbody w. unfold place, doubled in *.
  rewrite Nat.even_succ, <- Nat.negb_even in *.
  destruct (Nat.even _); cbn [negb] in *;
  destruct (Z.ltb_spec (2 * a) 10), (Z.ltb_spec (2 * b) 10); lia.
Qed.

Lemma luhn_loop_negative fuel n s : (n < 0)%Z -> luhn_loop fuel n s = Err OutOfFuel.
Proof.
  revert n s; induction fuel as [|f IH]; intros n s H; cbn [luhn_loop].
  - destruct (Z.eqb_spec n 0); [lia|easy].
  - destruct (Z.eqb_spec n 0); [lia|]. apply IH. lia.
Qed.
Lemma luhn10_negative fuel n : (n < 0)%Z -> luhn10 fuel n = Err OutOfFuel.
Proof. intros H. unfold luhn10. now rewrite luhn_loop_negative.
Qed.

(* ------------------------- keyslice ------------------------- *)
Section KS.
  Context {K V : Type} (eqb : K -> K -> bool).
  Hypothesis Heq : forall x y, eqb x y = true <-> x = y.

  Lemma py_dict_snoc {B} (l : list (K * B)) k v :
    py_dict eqb (l ++ [(k, v)]) = aset eqb k v (py_dict eqb l).
  Proof. unfold py_dict. now rewrite fold_left_app. Qed.

  Lemma renamed_to_dict (rename : list (K * K)) k new :
    aget eqb k (py_dict eqb rename) = Some new <-> renamed_to rename k new.
  Proof.
    revert new; induction rename as [|[k' n'] r IH] using rev_ind; intros new.
    - split; [easy|]. intros (b & a & E & _). now destruct b.
    - rewrite py_dict_snoc. destruct (eqb k k') eqn:E.
      + apply Heq in E; subst. rewrite aget_aset_eq by easy. split.
        * intros [= <-]. exists r, []. easy.
        * intros (b & a & E & Hn).
          destruct a as [|x a _] using rev_ind.
          -- apply app_inj_tail in E as [_ E]. congruence.
          -- rewrite app_comm_cons, app_assoc in E.
             apply app_inj_tail in E as [_ E]. subst x. exfalso. apply Hn.
             rewrite map_app. apply in_app_iff. right. now left.
      + apply aeqb_neq in E; [|easy]. rewrite aget_aset_neq by easy.
        rewrite IH. split.
        * intros (b & a & -> & Hn). exists b, (a ++ [(k', n')]).
          rewrite <- app_assoc. split; [easy|]. rewrite map_app.
          intros Hin. apply in_app_iff in Hin as [Hin|[Hin|[]]]; [easy|].
          simpl in Hin. congruence.
        * intros (b & a & E' & Hn).
          destruct a as [|x a _] using rev_ind.
          -- apply app_inj_tail in E' as [_ E']. congruence.
          -- rewrite app_comm_cons, app_assoc in E'.
             apply app_inj_tail in E' as [-> <-]. exists b, a. split; [easy|].
             intros Hin. apply Hn. rewrite map_app. apply in_app_iff. now left.
  Qed.

  Lemma not_renamed_dict (rename : list (K * K)) k :
    aget eqb k (py_dict eqb rename) = None <-> not_renamed rename k.
  Proof.
    unfold not_renamed. rewrite aget_None by easy.
    assert (In k (keys (py_dict eqb rename)) <-> In k (map fst rename)) as H; [|tauto].
    induction rename as [|[k' n'] r IH] using rev_ind; [easy|].
    rewrite py_dict_snoc, In_keys_aset, IH, map_app, in_app_iff by easy.
    simpl. intuition.
  Qed.

  Lemma memb_spec x l : memb eqb x l = true <-> In x l.
  Proof. now apply memb_In. Qed.
  Lemma memb_false x l : memb eqb x l = false <-> ~ In x l.
  Proof. rewrite <- memb_spec. destruct (memb eqb x l); split; congruence. Qed.

  Definition keyf (key : option (K -> K)) : K -> K :=
    match key with Some f => f | None => fun k => k end.

  Definition emit1 (include omit : list K) (rename : list (K * K)) (k : K) : option K :=
    match aget eqb k (py_dict eqb rename) with
    | Some new => Some new
    | None => match include with
              | _ :: _ => if memb eqb k include then Some k else None
              | [] => if memb eqb k omit then None else Some k
              end
    end.

  Lemma emit1_spec include omit rename k k' :
    ~ (include <> [] /\ omit <> []) ->
    emit1 include omit rename k = Some k' <-> emitted include omit rename k k'.
  Proof.
    intros Hb. unfold emit1.
    destruct (aget eqb k (py_dict eqb rename)) as [new|] eqn:E.
    - apply renamed_to_dict in E as E'. split.
      + intros [= <-]. now constructor.
      + intros H. inversion H as [? ? Hr|? Hn|? Hn]; subst.
        * apply renamed_to_dict in Hr. congruence.
        * apply not_renamed_dict in Hn. congruence.
        * apply not_renamed_dict in Hn. congruence.
    - apply not_renamed_dict in E as E'.
      assert (forall n, ~ renamed_to rename k n) as Hnr.
      { intros n Hr. apply renamed_to_dict in Hr. congruence. }
      destruct include as [|i0 include].
      + destruct (memb eqb k omit) eqn:Em.
        * apply memb_spec in Em. split; [easy|].
          intros H; inversion H; subst; easy || (exfalso; eapply Hnr; eassumption).
        * apply memb_false in Em. split.
          -- intros [= <-]. now apply em_omit.
          -- intros H; inversion H; subst; [exfalso; eapply Hnr; eassumption|easy|easy].
      + destruct (memb eqb k (i0 :: include)) eqn:Em.
        * apply memb_spec in Em. split.
          -- intros [= <-]. now apply em_include.
          -- intros H; inversion H; subst; [exfalso; eapply Hnr; eassumption|easy|easy].
        * apply memb_false in Em. split; [easy|].
          intros H; inversion H; subst; easy || (exfalso; eapply Hnr; eassumption).
  Qed.

  Lemma keyslice_loop_emit1 include omit rename key (pairs : list (K * V)) :
    ~ (include <> [] /\ omit <> []) ->
    keyslice_loop eqb include omit (py_dict eqb rename) key pairs =
    flat_map (fun kv => match emit1 include omit rename (keyf key (fst kv)) with
                        | Some k' => [(k', snd kv)] | None => [] end) pairs.
  Proof.
    intros Hb. induction pairs as [|[k v] pairs IH]; [easy|].
    cbn [keyslice_loop flat_map fst snd]. rewrite IH.
    unfold emit1, keyf. destruct key as [f|].
    all: match goal with |- context [aget eqb ?x _] => set (kk := x) end;
      destruct (aget eqb kk (py_dict eqb rename)); [easy|];
      destruct include as [|i0 include];
      [destruct omit as [|o0 omit]; [easy|destruct (memb eqb kk (o0 :: omit)); easy]
      |destruct (memb eqb kk (i0 :: include)); easy].
  Qed.

  Lemma truthy_items {A} (l : option (list A)) :
    truthy l = true <-> items l <> [].
  Proof. destruct l as [[|x l]|]; simpl; split; easy. Qed.

  Lemma keyslice_pairs_spec (pairs : list (K * V)) include omit rename key :
    match keyslice_pairs eqb pairs include omit rename key with
    | Ok out => ~ (items include <> [] /\ items omit <> [])
                /\ forall out', sliced (items include) (items omit)
                                       (items rename) (keyf key) pairs out'
                                <-> out' = out
    | Err e => e = TypeErr /\ items include <> [] /\ items omit <> []
    end.
  Proof.
    unfold keyslice_pairs. destruct (truthy include && truthy omit) eqn:E.
    - apply andb_true_iff in E as [H1 H2]. rewrite truthy_items in H1, H2. easy.
    - assert (~ (items include <> [] /\ items omit <> [])) as Hb.
      { intros [H1 H2]. rewrite <- truthy_items in H1, H2.
        rewrite H1, H2 in E. easy. }
      split; [easy|]. rewrite keyslice_loop_emit1 by easy. intros out'.
      split.
      + induction 1 as [|k k' v rest out He Hs IH|k v rest out Hn Hs IH];
          [easy| |]; cbn [flat_map fst snd].
        * apply emit1_spec in He; [|easy]. rewrite He. simpl. now f_equal.
        * destruct (emit1 (items include) (items omit) (items rename) (keyf key k))
            eqn:E1; [|easy].
          apply emit1_spec in E1; [|easy]. now apply Hn in E1.
      + intros ->. induction pairs as [|[k v] pairs IH]; [constructor|].
        cbn [flat_map fst snd].
        destruct (emit1 (items include) (items omit) (items rename) (keyf key k))
          as [k'|] eqn:E1; cbn [app].
        * constructor; [now apply emit1_spec|easy].
        * constructor; [|easy]. intros k' H. apply emit1_spec in H; [|easy]. congruence.
  Qed.
End KS.

(* ------------------------- re_uescape ------------------------- *)
Lemma read_literal_nul t :
  read_literal (lit "\000" ++ t) = option_map (cons 0%N) (read_literal t).
Proof. reflexivity. Qed.
Lemma re_uescape_reads pattern :
  read_literal (re_uescape pattern) = Some pattern.
Proof.
  induction pattern as [|c p IH]; [easy|].
  unfold re_uescape in *. cbn [flat_map].
  destruct (re_alphanum c) eqn:Ea.
  - cbn [app read_literal].
    assert (c <> 92%N) by (intros ->; discriminate Ea).
    destruct (N.eqb_spec c 92); [easy|].
    assert (is_alnum c = true) as -> by (unfold re_alphanum in Ea; unfold is_alnum; lia).
    now rewrite IH.
  - destruct (N.eqb_spec c 0) as [->|Hc0].
    + change (0 =? 0)%N with true. cbv iota. rewrite read_literal_nul, IH. easy.
    + cbn [app read_literal]. change (92 =? 92)%N with true.
      destruct (N.eqb_spec c 48) as [->|_]; [discriminate Ea|].
      assert (is_alnum c = false) as -> by (unfold re_alphanum in Ea; unfold is_alnum; lia).
      now rewrite IH.
Qed.

(* ------------------------- Maybe ------------------------- *)
Definition of_tri (t : tri) : trool :=
  match t with T0 => TFalse | TH => TMaybe | T1 => TTrue end.

Lemma trool_kleene a b :
  (exists c, trool_and (of_tri a) (of_tri b) = Ok (of_tri c)
             /\ tri_num c = Z.min (tri_num a) (tri_num b))
  /\ (exists c, trool_or (of_tri a) (of_tri b) = Ok (of_tri c)
             /\ tri_num c = Z.max (tri_num a) (tri_num b))
  /\ (exists c, trool_not (of_tri a) = Ok (of_tri c)
             /\ tri_num c = 2 - tri_num a)%Z
  /\ trool_truth (of_tri a) = Ok (0 <? tri_num a)%Z.
Proof.
  destruct a, b; (split; [|split; [|split]]);
    (reflexivity || (exists T0; easy) || (exists TH; easy) || (exists T1; easy)).
Qed.
Lemma trool_other a :
  trool_and TOther a = Err TypeErr /\ trool_and a TOther = Err TypeErr
  /\ trool_or TOther a = Err TypeErr /\ trool_or a TOther = Err TypeErr
  /\ trool_not TOther = Err TypeErr /\ trool_truth TOther = Err TypeErr.
Proof. destruct a; easy. Qed.

(* ------------------------- symbol ------------------------- *)
Lemma set_nth_length {A} n (x : A) l : List.length (set_nth n x l) = List.length l.
Proof. revert n; induction l; intros [|n]; simpl; auto. Qed.
Lemma nth_set_nth_eq {A} n (x : A) l :
  n < List.length l -> nth_error (set_nth n x l) n = Some x.
Proof. revert n; induction l; intros [|n] H; simpl in *; try lia; auto. apply IHl. lia. Qed.
Lemma nth_set_nth_neq {A} n m (x : A) l :
  n <> m -> nth_error (set_nth n x l) m = nth_error l m.
Proof. revert n m; induction l; intros [|n] [|m] H; simpl in *; auto; try lia. Qed.
Lemma nth_set_nth {A} n m (x y : A) l :
  nth_error (set_nth n x l) m = Some y ->
  (n = m /\ y = x) \/ (n <> m /\ nth_error l m = Some y).
Proof.
  intros H. destruct (Nat.eq_dec n m) as [->|Hne].
  - left. split; [easy|].
    assert (m < List.length l) as Hl.
    { rewrite <- (set_nth_length m x l). apply nth_error_Some. congruence. }
    rewrite nth_set_nth_eq in H by easy. congruence.
  - right. rewrite nth_set_nth_neq in H by easy. easy.
Qed.

(* Invariant: the lock holder is the only thread inside the critical
   section; the table is injective with values below the counter; every
   finished or bound result is in the table. *)
Definition pc_in (pc : sym_pc) : bool := match pc with SIdle => false | _ => true end.
Record sym_inv (s : sym_state) : Prop := {
  si_lock : forall t th, nth_error (ss_threads s) t = Some th ->
            pc_in (st_pc th) = true -> ss_lock s = Some t;
  si_held : forall t, ss_lock s = Some t ->
            exists th, nth_error (ss_threads s) t = Some th /\ pc_in (st_pc th) = true;
  si_missing : forall t th n, nth_error (ss_threads s) t = Some th ->
            st_pc th = SMissing n -> aget str_eqb n (ss_table s) = None;
  si_found : forall t th n o, nth_error (ss_threads s) t = Some th ->
            st_pc th = SFound n o -> aget str_eqb n (ss_table s) = Some o;
  si_done : forall t th n o, nth_error (ss_threads s) t = Some th ->
            In (n, o) (st_done th) -> aget str_eqb n (ss_table s) = Some o;
  si_fresh : forall n o, aget str_eqb n (ss_table s) = Some o -> o < ss_next s;
  si_inj : forall n n' o, aget str_eqb n (ss_table s) = Some o ->
            aget str_eqb n' (ss_table s) = Some o -> n = n' }.

Lemma sym_init_threads ps t th :
  nth_error (ss_threads (sym_init ps)) t = Some th -> st_pc th = SIdle /\ st_done th = [].
Proof.
  intros H. apply nth_error_In in H. apply in_map_iff in H as (p & <- & _). easy.
Qed.
Lemma sym_inv_init ps : sym_inv (sym_init ps).
Proof.
  split; try (intros t th * H); try (apply sym_init_threads in H as [E1 E2]); try easy.
  all: try (rewrite E1); try (rewrite E2); try easy; try congruence.
Qed.

Lemma sym_inv_step s t s' : sym_inv s -> sym_step s t = Some s' -> sym_inv s'.
Proof.
  intros [Il Ih Im If Id Ifr Ii] H. unfold sym_step in H.
  destruct (nth_error (ss_threads s) t) as [th|] eqn:Et; [|easy].
  assert (t < List.length (ss_threads s)) as Hlt by (apply nth_error_Some; congruence).
  destruct (st_pc th) as [|n|n|n o] eqn:Epc.
  - (* acquire *)
    destruct (st_todo th) as [|n rest]; [easy|].
    destruct (ss_lock s) eqn:El; [easy|]. injection H as <-.
    split; cbn -[nth_error].
    + intros u tu Hu Hin. apply nth_set_nth in Hu as [[-> ->]|[Hne Hu]]; [easy|].
      specialize (Il _ _ Hu Hin). congruence.
    + intros u [= <-]. eexists. split; [now apply nth_set_nth_eq|easy].
    + intros u tu m Hu Hp. apply nth_set_nth in Hu as [[-> ->]|[Hne Hu]]; [easy|eauto].
    + intros u tu m o Hu Hp. apply nth_set_nth in Hu as [[-> ->]|[Hne Hu]]; [easy|eauto].
    + intros u tu m o Hu Hp. apply nth_set_nth in Hu as [[-> ->]|[Hne Hu]]; eauto.
    + eauto. + eauto.
  - (* lookup *)
    assert (ss_lock s = Some t) as El by (eapply Il; [exact Et|now rewrite Epc]).
    destruct (aget str_eqb n (ss_table s)) as [o|] eqn:Eg; injection H as <-;
      (split; cbn -[nth_error];
       [ intros u tu Hu Hin; apply nth_set_nth in Hu as [[-> ->]|[Hne Hu]]; eauto
       | intros u Hu; assert (u = t) as -> by congruence;
         eexists; split; [now apply nth_set_nth_eq|easy]
       | intros u tu m Hu Hp; apply nth_set_nth in Hu as [[-> ->]|[Hne Hu]];
         [cbn in Hp; congruence|eauto]
       | intros u tu m o' Hu Hp; apply nth_set_nth in Hu as [[-> ->]|[Hne Hu]];
         [cbn in Hp; congruence|eauto]
       | intros u tu m o' Hu Hp; apply nth_set_nth in Hu as [[-> ->]|[Hne Hu]]; eauto
       | eauto | eauto ]).
  - (* create and store *)
    assert (ss_lock s = Some t) as El by (eapply Il; [exact Et|now rewrite Epc]).
    assert (aget str_eqb n (ss_table s) = None) as Eg by eauto.
    injection H as <-.
    assert (forall m o, aget str_eqb m (ss_table s) = Some o ->
              aget str_eqb m (aset str_eqb n (ss_next s) (ss_table s)) = Some o) as Hkeep.
    { intros m o Hm. rewrite aget_aset_neq; [easy|apply str_eqb_eq|congruence]. }
    split; cbn -[nth_error].
    + intros u tu Hu Hin; apply nth_set_nth in Hu as [[-> ->]|[Hne Hu]]; eauto.
    + intros u Hu; assert (u = t) as -> by congruence.
      eexists; split; [now apply nth_set_nth_eq|easy].
    + intros u tu m Hu Hp. apply nth_set_nth in Hu as [[-> ->]|[Hne Hu]]; [easy|].
      assert (ss_lock s = Some u) by (eapply Il; [exact Hu|now rewrite Hp]). congruence.
    + intros u tu m o Hu Hp. apply nth_set_nth in Hu as [[-> ->]|[Hne Hu]]; [|eauto].
      cbn in Hp. injection Hp as <- <-. apply aget_aset_eq, str_eqb_eq.
    + intros u tu m o Hu Hp. apply nth_set_nth in Hu as [[-> ->]|[Hne Hu]]; eauto.
    + intros m o Hm. destruct (str_eqb_spec m n) as [->|Hne].
      * rewrite aget_aset_eq in Hm by apply str_eqb_eq. injection Hm as <-. lia.
      * rewrite aget_aset_neq in Hm by (apply str_eqb_eq || easy).
        apply Ifr in Hm. lia.
    + intros m m' o Hm Hm'.
      rewrite (aget_aset str_eqb str_eqb_eq) in Hm.
      rewrite (aget_aset str_eqb str_eqb_eq) in Hm'.
      destruct (str_eqb_spec m n) as [->|Hne], (str_eqb_spec m' n) as [->|Hne'].
      * easy.
      * injection Hm as <-. apply Ifr in Hm'. lia.
      * injection Hm' as <-. apply Ifr in Hm. lia.
      * eauto.
  - (* release *)
    assert (ss_lock s = Some t) as El by (eapply Il; [exact Et|now rewrite Epc]).
    injection H as <-. split; cbn -[nth_error]; try easy.
    + intros u tu Hu Hin. apply nth_set_nth in Hu as [[-> ->]|[Hne Hu]]; [easy|].
      specialize (Il _ _ Hu Hin). congruence.
    + intros u tu m Hu Hp. apply nth_set_nth in Hu as [[-> ->]|[Hne Hu]]; [easy|eauto].
    + intros u tu m o' Hu Hp. apply nth_set_nth in Hu as [[-> ->]|[Hne Hu]]; [easy|eauto].
    + intros u tu m o' Hu Hp. apply nth_set_nth in Hu as [[-> ->]|[Hne Hu]]; [|eauto].
      cbn in Hp. apply in_app_iff in Hp as [Hp|[[= <- <-]|[]]]; eauto.
Qed.

Lemma sym_inv_run s sched : sym_inv s -> sym_inv (sym_run s sched).
Proof.
  revert s; induction sched as [|t sched IH]; intros s H; cbn [sym_run]; [easy|].
  apply IH. destruct (sym_step s t) eqn:E; [|easy]. eauto using sym_inv_step.
Qed.

Lemma sym_singletons programs sched t1 t2 th1 th2 n1 n2 o1 o2 :
  let s := sym_run (sym_init programs) sched in
  nth_error (ss_threads s) t1 = Some th1 -> In (n1, o1) (st_done th1) ->
  nth_error (ss_threads s) t2 = Some th2 -> In (n2, o2) (st_done th2) ->
  (n1 = n2 <-> o1 = o2).
Proof.
  intros s H1 I1 H2 I2. pose proof (sym_inv_run _ sched (sym_inv_init programs)) as Inv.
  fold s in Inv. pose proof (si_done _ Inv _ _ _ _ H1 I1) as E1.
  pose proof (si_done _ Inv _ _ _ _ H2 I2) as E2.
  split; [intros ->; congruence|intros ->]. eapply (si_inj _ Inv); eassumption.
Qed.

(* each thread's finished calls, the one in progress and the rest are its
   program, in order *)
Definition pc_names (pc : sym_pc) : list str :=
  match pc with SIdle => [] | SAcquired n | SMissing n | SFound n _ => [n] end.
Definition calls (th : sym_thread) : list str :=
  map fst (st_done th) ++ pc_names (st_pc th) ++ st_todo th.
Lemma sym_step_calls s t s' :
  sym_step s t = Some s' -> map calls (ss_threads s') = map calls (ss_threads s).
Proof.
  intros H. unfold sym_step in H.
  destruct (nth_error (ss_threads s) t) as [th|] eqn:Et; [|easy].
  assert (forall th', calls th' = calls th ->
           map calls (set_nth t th' (ss_threads s)) = map calls (ss_threads s)) as G.
  { intros th' E. revert Et. generalize (ss_threads s) t. clear -E.
    induction l as [|x l IH]; intros [|u] Et; cbn in *; try easy.
    - injection Et as ->. now rewrite E.
    - now rewrite IH. }
  unfold calls in *.
  destruct (st_pc th) as [|n|n|n o] eqn:Epc; cbn [pc_names app] in G.
  - destruct (st_todo th) as [|n rest]; [easy|].
    destruct (ss_lock s); [easy|]. injection H as <-. now apply G.
  - destruct (aget str_eqb n (ss_table s)); injection H as <-; now apply G.
  - injection H as <-. now apply G.
  - injection H as <-. apply G. cbn. rewrite map_app, <- app_assoc. easy.
Qed.
Lemma sym_run_calls programs sched :
  map calls (ss_threads (sym_run (sym_init programs) sched)) = programs.
Proof.
  assert (map calls (ss_threads (sym_init programs)) = programs) as H.
  { cbn. rewrite map_map. cbn. apply map_id. }
  revert H. generalize (sym_init programs). induction sched as [|t r IH]; intros s H; [easy|].
  cbn [sym_run]. apply IH. destruct (sym_step s t) eqn:E; [|easy].
  now rewrite (sym_step_calls _ _ _ E).
Qed.

(* no deadlock *)
Lemma sym_progress programs sched :
  let s := sym_run (sym_init programs) sched in
  (exists t s', sym_step s t = Some s')
  \/ (forall th, In th (ss_threads s) -> st_todo th = [] /\ st_pc th = SIdle).
Proof.
  intros s. pose proof (sym_inv_run _ sched (sym_inv_init programs)) as Inv. fold s in Inv.
  destruct (ss_lock s) as [t|] eqn:El.
  - left. destruct (si_held _ Inv _ El) as (th & Ht & Hin). exists t.
    unfold sym_step. rewrite Ht. destruct (st_pc th); [easy| | |]; eauto.
    destruct (aget str_eqb n (ss_table s)); eauto.
  - assert (forall th, In th (ss_threads s) -> st_pc th = SIdle) as Hidle.
    { intros th Hin. apply In_nth_error in Hin as [t Ht].
      destruct (pc_in (st_pc th)) eqn:E.
      - rewrite (si_lock _ Inv _ _ Ht E) in El. easy.
      - destruct (st_pc th); easy. }
    destruct (forallb (fun th => match st_todo th with [] => true | _ => false end)
                      (ss_threads s)) eqn:E.
    + right. rewrite forallb_forall in E. intros th Hin. split; [|auto].
      specialize (E _ Hin). cbn in E. destruct (st_todo th); easy.
    + left. assert (exists th, In th (ss_threads s) /\ st_todo th <> []) as (th & Hin & Hne).
      { clear -E. induction (ss_threads s) as [|th l IH]; [easy|]. cbn in E.
        destruct (st_todo th) eqn:Et.
        - destruct IH as (x & Hx & Hn); [easy|]. exists x. split; [now right|easy].
        - exists th. split; [now left|congruence]. }
      apply In_nth_error in Hin as Hn. destruct Hn as [t Ht]. exists t.
      unfold sym_step. rewrite Ht, (Hidle _ Hin), El.
      destruct (st_todo th); [easy|eauto].
Qed.

(* luhn10(n) returns b: the loop ends, with any sufficient iteration bound *)
Definition luhn_returns (n : Z) (b : bool) : Prop :=
  exists enough, forall fuel, enough <= fuel -> luhn10 fuel n = Ok b.

Lemma luhn_returns_iff ds b :
  digit_list ds ->
  luhn_returns (decimal_value ds) b
  <-> b = (luhn_weights (rev ds) mod 10 =? 0)%Z.
Proof.
  intros H. split.
  - intros [e He]. specialize (He (e + luhn_fuel (decimal_value ds)) ltac:(lia)).
    rewrite luhn10_ok in He by (easy || lia). congruence.
  - intros ->. exists (luhn_fuel (decimal_value ds)). intros fuel Hf.
    now apply luhn10_ok.
Qed.
Lemma luhn10_decides ds :
  digit_list ds ->
  exists b, luhn_returns (decimal_value ds) b /\ (b = true <-> luhn_valid ds).
Proof.
  intros H. eexists. split; [apply luhn_returns_iff; easy|]. unfold luhn_valid. lia.
Qed.
Lemma luhn10_error_detected ds i d old :
  digit_list ds -> nth_error ds i = Some old -> (0 <= d < 10)%Z -> d <> old ->
  luhn_returns (decimal_value ds) true ->
  luhn_returns (decimal_value (replaced ds i d)) false.
Proof.
  intros H Hi Hd Hne Hok. exists (luhn_fuel (decimal_value (replaced ds i d))).
  intros fuel Hf. destruct Hok as [e He].
  eapply (luhn10_single_digit ds i d old (e + luhn_fuel (decimal_value ds)));
    try eassumption; try lia. apply He. lia.
Qed.
Lemma luhn10_swap_detected l1 a b l2 :
  digit_list (l1 ++ a :: b :: l2) -> a <> b ->
  luhn_returns (decimal_value (l1 ++ a :: b :: l2)) true ->
  luhn_returns (decimal_value (l1 ++ b :: a :: l2))
               ((a =? 0) && (b =? 9) || (a =? 9) && (b =? 0))%Z.
Proof.
  intros H Hne Hok. exists (luhn_fuel (decimal_value (l1 ++ b :: a :: l2))).
  intros fuel Hf. destruct Hok as [e He].
  eapply (luhn10_transpose l1 a b l2 (e + luhn_fuel (decimal_value (l1 ++ a :: b :: l2))));
    try eassumption; try lia. apply He. lia.
Qed.
