(* repr() of elements. *)
From Verif Require Import PyBase PyBaseFacts PyList ModelUtil ModelMap ModelScalar SpecScalar ProofScalar ProofScalar2 ProofScalar3 ModelNumber SpecNumber ProofNumber3 ModelNest SpecNest SpecText ProofNest4 ProofText
  ModelRepr SpecRepr.
From Coq Require Import Lia.

Section Ind.
  Variable P : looks -> Prop.
  Hypothesis Hs : forall cls n v, P (ofScalar cls n v).
  Hypothesis Hc : forall cls n v, P (ofCompound cls n v).
  Hypothesis Hl : forall l, Forall P l -> P (ofList l).
  Hypothesis Hd : forall l, Forall (fun kv => P (snd kv)) l -> P (ofDict l).
  Fixpoint looks_ind' (e : looks) : P e :=
    match e with
    | ofScalar cls n v => Hs cls n v
    | ofCompound cls n v => Hc cls n v
    | ofList l => Hl l ((fix go l : Forall P l := match l with [] => Forall_nil _ | x :: l' => Forall_cons _ (looks_ind' x) (go l') end) l)
    | ofDict l => Hd l ((fix go l : Forall (fun kv => P (snd kv)) l :=
                           match l with [] => Forall_nil _ | x :: l' => Forall_cons _ (looks_ind' (snd x)) (go l') end) l)
    end.
End Ind.

Section Display.
Variable printable : N -> bool.
Variable object_repr : pyobj -> str.
Lemma decimal_dec n : decimal n (dec n).
Proof. split; [apply dec_plain|apply numeral_iff, dec_val]. Qed.
Lemma decimals l : Forall2 decimal l (map dec l).
Proof. induction l as [|n l IH]; constructor; [apply decimal_dec|exact IH]. Qed.
Lemma named_repr n : clean_name n -> named n (name_repr printable n).
Proof. destruct n as [s|]; cbn; [apply repr_literal|easy]. Qed.
Lemma clock_time c : clock_args c (time_args c).
Proof.
  destruct c as [h m s us]. unfold time_args. cbn [t_h t_m t_s t_us]. destruct (N.eqb_spec us 0) as [->|U]; [destruct (N.eqb_spec s 0) as [->|S]|]; now constructor.
Qed.
Lemma value_expression v : clean_value v -> expression v (value_repr printable object_repr v).
Proof.
  destruct v as [|[]|z|s|[y m d]|[y m d] c|c|o]; intros C; cbn [value_repr]; try constructor.
  - apply dec_z_canonical.
  - now apply repr_literal.
  - apply (call_intro "datetime.date" [y; m; d]). apply decimals.
  - apply (ex_datetime y m d c (time_args c)); [apply clock_time|]. apply (call_intro "datetime.datetime" (y :: m :: d :: time_args c)). apply decimals.
  - apply (ex_time c (time_args c)); [apply clock_time|]. apply (call_intro "datetime.time" (time_args c)). apply decimals.
  - easy.
Qed.
Notation look := (look printable object_repr).
Lemma each_ok l ts : each l = Ok ts <-> Forall2 (fun r t => r = Ok t) l ts.
Proof.
  revert ts. induction l as [|r l IH]; intros ts; cbn [each].
  - split; [intros [= <-]; constructor|intros H; now inversion H].
  - destruct r as [t|x]; cbn [bind].
    + destruct (each l) as [us|x] eqn:E; cbn [rmap].
      * split; [intros [= <-]; constructor; [easy|now apply IH]|]. intros H. inversion H as [|? t' ? ts' Ht Hts]; subst. injection Ht as <-. apply IH in Hts. congruence.
      * split; [easy|]. intros H. inversion H as [|? t' ? ts' Ht Hts]; subst. apply IH in Hts. congruence.
    + split; [easy|]. intros H. inversion H as [|? t' ? ts' Ht Hts]; subst. discriminate.
Qed.
Lemma display e : forall t, clean_looks e -> look e = Ok t -> displays e t.
Proof.
  induction e as [cls n v|cls n v|l IH|l IH] using looks_ind'; intros t C H; inversion C as [? ? ? Cn Cv|? ? ? Cn Cv|? Cl|? Cl]; subst.
  - cbn [ModelRepr.look] in H. unfold scalar_repr in H. destruct v as [v|x]; [|easy]. injection H as <-. constructor; [now apply named_repr|now apply value_expression, Cv].
  - cbn [ModelRepr.look] in H. unfold compound_repr, scalar_repr in H. injection H as <-. destruct v as [v|x]; cbn [rmap]; constructor; try now apply named_repr. now apply value_expression, Cv.
  - cbn [ModelRepr.look] in H. destruct (each (map look l)) as [ts|x] eqn:E; [|easy]. injection H as <-. apply each_ok in E. unfold bracket. constructor.
    clear C. revert ts E. induction l as [|e l IHl]; intros ts E; inversion E as [|? t ? ts' Ht Hts]; subst; constructor.
    + inversion IH; subst. inversion Cl; subst. auto.
    + inversion IH; subst. inversion Cl; subst. auto.
  - cbn [ModelRepr.look] in H. match type of H with rmap _ ?E = _ => destruct E as [ts|x] eqn:Ee; [|easy] end. injection H as <-. apply each_ok in Ee. unfold bracket. constructor.
    clear C. revert ts Ee. induction l as [|[k e] l IHl]; intros ts E; inversion E as [|? t ? ts' Ht Hts]; subst; constructor.
    + inversion IH; subst. inversion Cl as [|? ? [Ck Ce]]; subst. cbn [fst snd] in *. destruct (look e) as [u|x]; [|easy]. cbn [rmap] in Ht. injection Ht as <-.
      exists (name_repr printable k), u. split; [now apply named_repr|]. split; [auto|easy].
    + inversion IH; subst. inversion Cl; subst. auto.
Qed.
Lemma sane_ok e : sane e -> exists t, look e = Ok t.
Proof.
  induction e as [cls n v|cls n v|l IH|l IH] using looks_ind'; intros S; inversion S as [| |? F|? F]; subst; cbn [ModelRepr.look].
  - now eexists.
  - now eexists.
  - assert (exists ts, each (map look l) = Ok ts) as [ts ->]; [|now eexists].
    clear S. induction l as [|e l IHl]; [now exists []|]. inversion IH as [|? ? He Hl]; subst. inversion F as [|? ? Se Sl]; subst.
    destruct (He Se) as [t Et]. destruct (IHl Hl Sl) as [ts Ets]. cbn [map each]. rewrite Et, Ets. now eexists.
  - match goal with |- exists t, rmap _ ?E = _ => assert (exists ts, E = Ok ts) as [ts ->]; [|now eexists] end.
    clear S. induction l as [|[k e] l IHl]; [now exists []|]. inversion IH as [|? ? He Hl]; subst. inversion F as [|? ? Se Sl]; subst. cbn [snd] in *.
    destruct (He Se) as [t Et]. destruct (IHl Hl Sl) as [ts Ets]. cbn [map each fst snd]. rewrite Et, Ets. now eexists.
Qed.
Lemma each_err l1 x l2 : Forall (fun r => exists t, r = Ok t) l1 -> each (l1 ++ Err x :: l2) = Err x.
Proof. induction 1 as [|r l [t ->] F IH]; cbn [app each bind]; [easy|]. now rewrite IH. Qed.
Lemma troubled_err e : forall x, troubled e x -> look e = Err x.
Proof.
  induction e as [cls n v|cls n v|l IH|l IH] using looks_ind'; intros x T; inversion T as [|l1 e l2 ? S Te|l1 k e l2 ? S Te]; subst; cbn [ModelRepr.look].
  - reflexivity.
  - rewrite map_app. cbn [map]. apply Forall_app in IH as [_ IH]. inversion IH as [|? ? He _]; subst. rewrite (He _ Te), each_err; [easy|].
    rewrite Forall_map. eapply Forall_impl; [|exact S]. intros a. apply sane_ok.
  - rewrite map_app. cbn [map fst snd]. apply Forall_app in IH as [_ IH]. inversion IH as [|? ? He _]; subst. cbn [snd] in He. rewrite (He _ Te). cbn [rmap]. rewrite each_err; [easy|].
    rewrite Forall_map. eapply Forall_impl; [|exact S]. intros a Sa. destruct (sane_ok _ Sa) as [t ->]. now eexists.
Qed.
Lemma sane_or e : sane e \/ exists x, troubled e x.
Proof.
  induction e as [cls n v|cls n v|l IH|l IH] using looks_ind'.
  - destruct v as [v|x]; [left; constructor|right; exists x; constructor].
  - left. constructor.
  - enough (Forall sane l \/ exists l1 e l2 x, l = l1 ++ e :: l2 /\ Forall sane l1 /\ troubled e x) as [H|(l1 & e & l2 & x & -> & S & T)].
    { left. now constructor. } { right. exists x. now constructor. }
    induction IH as [|e l [S|[x T]] F [H|(l1 & e' & l2 & x' & -> & S' & T')]]; try (left; now constructor).
    + right. exists (e :: l1), e', l2, x'. split; [easy|]. split; [now constructor|exact T'].
    + right. exists [], e, l, x. now split.
    + right. exists [], e, (l1 ++ e' :: l2), x. now split.
  - enough (Forall (fun kv => sane (snd kv)) l \/ exists l1 k e l2 x, l = l1 ++ (k, e) :: l2 /\ Forall (fun kv => sane (snd kv)) l1 /\ troubled e x) as [H|(l1 & k & e & l2 & x & -> & S & T)].
    { left. now constructor. } { right. exists x. now constructor. }
    induction IH as [|[k e] l [S|[x T]] F [H|(l1 & k' & e' & l2 & x' & -> & S' & T')]]; try (left; now constructor).
    + right. exists ((k, e) :: l1), k', e', l2, x'. split; [easy|]. split; [now constructor|exact T'].
    + right. exists [], k, e, l, x. now split.
    + right. exists [], k, e, (l1 ++ (k', e') :: l2), x. now split.
Qed.
Lemma look_raises e x : look e = Err x <-> troubled e x.
Proof.
  split; [|apply troubled_err]. intros H. destruct (sane_or e) as [S|[y T]].
  - destruct (sane_ok e S) as [t E]. congruence.
  - pose proof (troubled_err _ _ T). congruence.
Qed.
Lemma look_sane e : sane e <-> exists t, look e = Ok t.
Proof.
  split; [apply sane_ok|]. intros [t E]. destruct (sane_or e) as [S|[y T]]; [easy|]. apply troubled_err in T. congruence.
Qed.
End Display.

(* ---------------- reading it ---------------- *)
Definition digitish (c : N) : Prop := (48 <= c <= 57)%N.
Definition stops (x : str) : Prop := exists c r, x = c :: r /\ ~ digitish c.
Lemma digits_stop t : forall t' x y, Forall digitish t -> Forall digitish t' -> stops x -> stops y -> t ++ x = t' ++ y -> t = t' /\ x = y.
Proof.
  induction t as [|c t IH]; intros [|c' t'] x y D D' X Y E; cbn [app] in E.
  - now split.
  - destruct X as (c & r & -> & N). inversion D'; subst. injection E as -> _. easy.
  - destruct Y as (c0 & r & -> & N). inversion D; subst. injection E as -> _. easy.
  - injection E as -> E. inversion D; subst. inversion D'; subst. destruct (IH t' x y) as [-> ->]; try easy.
Qed.
Lemma decimal_digits n t : decimal n t -> Forall digitish t.
Proof. now intros [[H _] _]. Qed.
Lemma decimal_fun n m t : decimal n t -> decimal m t -> n = m.
Proof. intros [_ A] [_ B]. apply numeral_iff in A, B. congruence. Qed.
Lemma plain_some t : plain_digits t -> exists c r, t = c :: r /\ digitish c.
Proof.
  intros [F H]. destruct t as [|c r]; [destruct H as [|H]; [easy|now cbn in H]|]. inversion F; subst. now exists c, r.
Qed.
Lemma tail_stops (l : list str) close x : ~ digitish close -> stops (flat_map (fun b => lit ", " ++ b) l ++ close :: x).
Proof.
  intros C. destruct l as [|b l]; cbn [flat_map app]; [now exists close, x|]. eexists _, _. cbn [lit app]. split; [reflexivity|]. unfold digitish. cbn. lia.
Qed.
Lemma tails_numbers l : forall ts l' ts' x y, Forall2 decimal l ts -> Forall2 decimal l' ts' ->
  flat_map (fun b => lit ", " ++ b) ts ++ 41%N :: x = flat_map (fun b => lit ", " ++ b) ts' ++ 41%N :: y -> l = l' /\ x = y.
Proof.
  assert (~ digitish 41) as C by (unfold digitish; lia).
  induction l as [|n l IH]; intros ts l' ts' x y F G E; inversion F as [|? t ? us Ht Fu]; subst; inversion G as [|n' t' l2 us' Ht' Gu]; subst; cbn [flat_map app] in E.
  - injection E as ->. now split.
  - discriminate E.
  - discriminate E.
  - rewrite <- !app_assoc in E. apply app_inv_head in E. apply digits_stop in E as [-> E]; try (now apply tail_stops); try (eapply decimal_digits; eauto).
    destruct (IH _ _ _ _ _ Fu Gu E) as [-> ->]. now rewrite (decimal_fun _ _ _ Ht Ht').
Qed.
Lemma numbers_prefix n l ts n' l' ts' x y : Forall2 decimal (n :: l) ts -> Forall2 decimal (n' :: l') ts' ->
  join (lit ", ") ts ++ 41%N :: x = join (lit ", ") ts' ++ 41%N :: y -> n :: l = n' :: l' /\ x = y.
Proof.
  assert (~ digitish 41) as C by (unfold digitish; lia).
  intros F G E. inversion F as [|? t ? us Ht Fu]; subst; inversion G as [|? t' ? us' Ht' Gu]; subst. rewrite !join_tail, <- !app_assoc in E.
  apply digits_stop in E as [-> E]; try (now apply tail_stops); try (eapply decimal_digits; eauto).
  destruct (tails_numbers _ _ _ _ _ _ Fu Gu E) as [-> ->]. now rewrite (decimal_fun _ _ _ Ht Ht').
Qed.
Lemma literal_prefix s t s' t' x y : literal s t -> literal s' t' -> t ++ x = t' ++ y -> s = s' /\ x = y.
Proof.
  intros [q b _ U _] [q' b' _ U' _] E. cbn [app] in E. injection E as <- E. rewrite <- !app_assoc in E. cbn [app] in E.
  pose proof (U x) as A. rewrite E, U' in A. injection A as -> ->. now split.
Qed.
Lemma literal_head s t : literal s t -> exists q r, t = q :: r /\ (q = 34 \/ q = 39)%N.
Proof. intros [q b H _ _]. exists q, (b ++ [q]). split; [easy|]. destruct H as [[-> _]|[-> _]]; auto. Qed.
Lemma int_head z t : canonical_int t z -> exists c r, t = c :: r /\ (c = 45%N \/ digitish c).
Proof.
  intros [_ [[_ P]|(_ & u & -> & _)]]; [|exists 45%N, u; auto]. destruct (plain_some t P) as (c & r & -> & D). exists c, r. auto.
Qed.
Lemma int_prefix z t z' t' x y : canonical_int t z -> canonical_int t' z' -> stops x -> stops y -> t ++ x = t' ++ y -> z = z' /\ x = y.
Proof.
  intros C C' X Y E.
  assert (t = t' /\ x = y) as [-> ->].
  { destruct C as [_ [[_ P]|(_ & u & -> & P)]], C' as [_ [[_ P']|(_ & u' & -> & P')]].
    - destruct P as [D _], P' as [D' _]. now apply digits_stop in E.
    - destruct (plain_some t P) as (c & r & -> & D). injection E as -> _. unfold digitish in D. lia.
    - destruct (plain_some t' P') as (c & r & -> & D). injection E as <- _. unfold digitish in D. lia.
    - cbn [app] in E. injection E as E. destruct P as [D _], P' as [D' _]. apply digits_stop in E as [-> ->]; now try easy. }
  split; [|easy]. destruct C as [I _], C' as [I' _]. apply exponent_iff in I, I'. congruence.
Qed.
Lemma call_prefix f n l t n' l' t' x y : call f (n :: l) t -> call f (n' :: l') t' -> t ++ x = t' ++ y -> n :: l = n' :: l' /\ x = y.
Proof.
  intros C C' E. inversion C as [? ts F]; subst. inversion C' as [? ts' G]; subst. rewrite <- !app_assoc in E. apply app_inv_head in E.
  apply app_inv_head in E. now apply (numbers_prefix _ _ _ _ _ _ _ _ F G) in E.
Qed.
Lemma clock_fun c c' l : clock_args c l -> clock_args c' l -> c = c'.
Proof. intros A B. inversion A; subst; inversion B; subst; reflexivity. Qed.
Lemma clock_some c l : clock_args c l -> exists n r, l = n :: r.
Proof. intros A. inversion A; subst; eauto. Qed.
Ltac head_of :=
  match goal with
  | H : literal _ ?t |- _ => let q := fresh "q" in let r := fresh "r" in let E := fresh "E" in destruct (literal_head _ _ H) as (q & r & -> & E); clear H
  | H : canonical_int ?t _ |- _ => let q := fresh "q" in let r := fresh "r" in let E := fresh "E" in destruct (int_head _ _ H) as (q & r & -> & E); clear H
  | H : call _ _ ?t |- _ => inversion H; subst; clear H
  end.
Ltac heads E := exfalso; repeat head_of; cbn in E; try discriminate E; injection E; intros; subst; unfold digitish in *; repeat match goal with H : _ \/ _ |- _ => destruct H end; try lia; try discriminate.
Lemma expression_prefix v t v' t' x y : expression v t -> expression v' t' -> stops x -> stops y -> t ++ x = t' ++ y -> v = v' /\ x = y.
Proof.
  intros A B X Y E. inversion A; subst; inversion B; subst; try (now heads E).
  - apply app_inv_head in E. now split.
  - apply app_inv_head in E. now split.
  - apply app_inv_head in E. now split.
  - match goal with H : canonical_int t _, H' : canonical_int t' _ |- _ => destruct (int_prefix _ _ _ _ _ _ H H' X Y E) as [-> ->] end. now split.
  - match goal with H : literal _ t, H' : literal _ t' |- _ => destruct (literal_prefix _ _ _ _ _ _ H H' E) as [-> ->] end. now split.
  - match goal with H : call _ _ t, H' : call _ _ t' |- _ => destruct (call_prefix _ _ _ _ _ _ _ _ _ H H' E) as [P ->] end. injection P as -> -> ->. now split.
  - match goal with H : clock_args c ?l, H' : clock_args c0 ?l' |- _ => destruct (clock_some _ _ H) as (n & r & ->); destruct (clock_some _ _ H') as (n' & r' & ->) end.
    match goal with H : call _ _ t, H' : call _ _ t' |- _ => destruct (call_prefix _ _ _ _ _ _ _ _ _ H H' E) as [P ->] end. rewrite P in *. split; [|easy]. f_equal. eapply clock_fun; eauto.
  - match goal with H : call _ _ t, H' : call _ _ t' |- _ => destruct (call_prefix _ _ _ _ _ _ _ _ _ H H' E) as [P ->] end. injection P as -> -> -> P. rewrite P in *. split; [|easy]. f_equal. eapply clock_fun; eauto.
Qed.
Lemma named_prefix n t n' t' x y : named n t -> named n' t' -> t ++ x = t' ++ y -> n = n' /\ x = y.
Proof.
  destruct n as [s|], n' as [s'|]; cbn [named]; intros A B E; subst.
  - destruct (literal_prefix _ _ _ _ _ _ A B E) as [-> ->]. now split.
  - now heads E.
  - now heads E.
  - apply app_inv_head in E. now split.
Qed.
Lemma cls_prefix cls cls' x y : ~ In 32%N cls -> ~ In 32%N cls' -> cls ++ 32%N :: x = cls' ++ 32%N :: y -> cls = cls' /\ x = y.
Proof.
  revert cls'. induction cls as [|c cls IH]; intros [|c' cls'] H H' E; cbn [app] in E; injection E; intros; subst; clear E.
  - now split.
  - exfalso. apply H'. now left.
  - exfalso. apply H. now left.
  - destruct (IH cls') as [-> ->]; [intros I; apply H; now right|intros I; apply H'; now right|assumption|]. now split.
Qed.
Lemma exn_prefix e e' x y : e <> OutOfFuel -> e' <> OutOfFuel -> exn_name e ++ 62%N :: x = exn_name e' ++ 62%N :: y -> e = e' /\ x = y.
Proof. destruct e, e'; intros A B E; try easy; cbn in E; try discriminate E; injection E as ->; now split. Qed.
Lemma gt_stops x : stops (62%N :: x).
Proof. exists 62%N, x. split; [easy|]. unfold digitish. lia. Qed.
Lemma tails_joined {A} (D : A -> str -> Prop) (R : A -> A -> Prop) close : close <> 44%N -> ~ digitish close -> forall l ts l' ts' x y, Forall2 D l ts -> Forall2 D l' ts' ->
  (forall a t b t' x y, In a l -> In b l' -> D a t -> D b t' -> stops x -> stops y -> t ++ x = t' ++ y -> R a b /\ x = y) ->
  flat_map (fun b => lit ", " ++ b) ts ++ close :: x = flat_map (fun b => lit ", " ++ b) ts' ++ close :: y -> Forall2 R l l' /\ x = y.
Proof.
  intros C Cd. induction l as [|a l IH]; intros ts l' ts' x y F G P E; inversion F as [|? t ? us Ht Fu]; subst; inversion G as [|b t' l2 us' Ht' Gu]; subst; cbn [flat_map app] in E.
  - injection E as ->. split; [constructor|easy].
  - exfalso. apply (f_equal (@hd_error BinNums.N)) in E. injection E as E. apply C. now rewrite E.
  - exfalso. apply (f_equal (@hd_error BinNums.N)) in E. injection E as E. apply C. now rewrite <- E.
  - rewrite <- !app_assoc in E. apply app_inv_head in E. apply P with (3 := Ht) (4 := Ht') in E; [|now left|now left|now apply tail_stops|now apply tail_stops].
    destruct E as [HR E]. apply IH with (1 := Fu) (2 := Gu) in E; [destruct E as [H ->]; split; [now constructor|easy]|].
    intros a' u b' u' x' y' I J. apply P; now right.
Qed.
Lemma joined_prefix {A} (D : A -> str -> Prop) (R : A -> A -> Prop) close l ts l' ts' x y : close <> 44%N -> Forall2 D l ts -> Forall2 D l' ts' -> ~ digitish close ->
  (forall a t, D a t -> exists h r, t = h :: r /\ h <> close) ->
  (forall a t b t' x y, In a l -> In b l' -> D a t -> D b t' -> stops x -> stops y -> t ++ x = t' ++ y -> R a b /\ x = y) ->
  join (lit ", ") ts ++ close :: x = join (lit ", ") ts' ++ close :: y -> Forall2 R l l' /\ x = y.
Proof.
  intros C F G Cd Hh P E. inversion F as [|a t l1 us Ht Fu]; subst; inversion G as [|b t' l2 us' Ht' Gu]; subst; rewrite ?join_tail in E; try (cbn in E; injection E as ->; split; [constructor|easy]).
  - exfalso. destruct (Hh _ _ Ht') as (h & r & -> & N). cbn in E. injection E as E _. congruence.
  - exfalso. destruct (Hh _ _ Ht) as (h & r & -> & N). cbn in E. injection E as E _. congruence.
  - rewrite <- !app_assoc in E. apply P with (3 := Ht) (4 := Ht') in E; [|now left|now left|now apply tail_stops|now apply tail_stops].
    destruct E as [HR E]. apply (tails_joined D R close C Cd) with (1 := Fu) (2 := Gu) in E; [destruct E as [H ->]; split; [now constructor|easy]|].
    intros a' u b' u' x' y' I J. apply P; now right.
Qed.
Lemma display_head e t : displays e t -> exists h r, t = h :: r /\ (h = 60 \/ h = 91 \/ h = 123)%N.
Proof. intros H. inversion H; subst; cbn; eauto 10. Qed.
Lemma named_head n t : named n t -> exists h r, t = h :: r /\ (h = 78 \/ h = 34 \/ h = 39)%N.
Proof.
  destruct n; cbn [named]; [|intros ->; cbn; eauto 6]. intros H. destruct (literal_head _ _ H) as (q & r & -> & [-> | ->]); eauto 8.
Qed.
Lemma display_prefix a : forall b t t' x y, displays a t -> displays b t' -> spaceless a -> spaceless b -> t ++ x = t' ++ y -> told a b /\ x = y.
Proof.
  induction a as [cls n v|cls n v|l IH|l IH] using looks_ind'; intros b t t' x y A B Sa Sb E;
    inversion A; subst; inversion B; subst; try (now cbn in E; discriminate E); inversion Sa; subst; inversion Sb; subst.
  Local Ltac clean E := repeat (first [rewrite <- app_assoc in E | progress cbn [lit app] in E]).
  Local Ltac start E := rewrite <- !app_assoc in E; apply app_inv_head in E; apply cls_prefix in E as [-> E]; [|easy|easy];
    match goal with H : named _ _, H' : named _ _ |- _ => apply (named_prefix _ _ _ _ _ _ H H') in E as [-> E] end.
  1,2,4,5: start E; apply app_inv_head in E; match goal with H : expression _ _, H' : expression _ _ |- _ => apply (expression_prefix _ _ _ _ _ _ H H') in E as [-> E]; try (apply gt_stops) end.
  1,2,3,4: injection E as ->; split; [|easy]; eapply to_value; cbn; auto.
  - start E. cbn in E. discriminate E.
  - start E. cbn in E. discriminate E.
  - start E. cbn in E. discriminate E.
  - start E. cbn in E. discriminate E.
  - start E. apply app_inv_head in E. apply exn_prefix in E as [-> ->]; [|congruence|congruence]. split; [constructor|easy].
  - rewrite <- !app_assoc in E. apply app_inv_head in E.
    match goal with H : Forall2 _ l _, H' : Forall2 _ l0 _ |- _ => apply (joined_prefix displays told _ _ _ _ _ _ _) with (2 := H) (3 := H') in E end.
    + destruct E as [F ->]. split; [now constructor|easy].
    + easy.
    + unfold digitish. cbn. lia.
    + intros a t D. destruct (display_head _ _ D) as (h & r & -> & Hh). exists h, r. split; [easy|]. intros ->. destruct Hh as [Hh|[Hh|Hh]]; vm_compute in Hh; discriminate.
    + rewrite Forall_forall in *. intros a t b t' x' y' I J D D' _ _. eapply IH; eauto.
  - rewrite <- !app_assoc in E. apply app_inv_head in E.
    match goal with H : Forall2 _ l _, H' : Forall2 _ l0 _ |- _ =>
      apply (joined_prefix _ (fun x y => fst x = fst y /\ told (snd x) (snd y)) _ _ _ _ _ _ _) with (2 := H) (3 := H') in E end.
    + destruct E as [F ->]. split; [now constructor|easy].
    + easy.
    + unfold digitish. cbn. lia.
    + intros a t (k & v & Hk & _ & ->). destruct (named_head _ _ Hk) as (h & r & -> & Hh). exists h, (r ++ lit ": " ++ v). split; [easy|]. intros ->. destruct Hh as [Hh|[Hh|Hh]]; vm_compute in Hh; discriminate.
    + rewrite Forall_forall in *. intros a t b t' x' y' I J (k & v & Hk & Hv & ->) (k' & v' & Hk' & Hv' & ->) _ _ E'. rewrite <- !app_assoc in E'.
      apply (named_prefix _ _ _ _ _ _ Hk Hk') in E' as [N E']. apply app_inv_head in E'.
      destruct (IH _ I (snd b) v v' x' y' Hv Hv' (H2 _ I) (H3 _ J) E') as [T ->]. now repeat split.
Qed.
Theorem display_unique a b t : displays a t -> displays b t -> spaceless a -> spaceless b -> told a b.
Proof. intros A B Sa Sb. destruct (display_prefix a b t t [] []) as [T _]; auto. Qed.

(* ---------------- the others ---------------- *)
Section Others.
Variable printable : N -> bool.
Variable object_repr : pyobj -> str.
Lemma slot_ok n e u : clean_name n -> look printable object_repr e = Ok u ->
  exists k, named n k /\ slot_repr printable object_repr n e = Ok (lit "<ListSlot[" ++ k ++ lit "] for " ++ u ++ lit ">").
Proof. intros C H. unfold slot_repr. rewrite H. cbn [rmap]. exists (name_repr printable n). split; [now apply named_repr|easy]. Qed.
Lemma slot_err n e x : look printable object_repr e = Err x -> slot_repr printable object_repr n e = Err x.
Proof. intros H. unfold slot_repr. now rewrite H. Qed.
Lemma path_ok s : unicode s -> exists t, literal s t /\ path_repr printable s = lit "pathexpr(" ++ t ++ lit ")".
Proof. intros U. exists (py_repr printable s). split; [now apply repr_literal|easy]. Qed.
Lemma path_inj s s' : unicode s -> unicode s' -> path_repr printable s = path_repr printable s' -> s = s'.
Proof.
  intros U U' E. unfold path_repr in E. apply app_inv_head in E. now destruct (literal_prefix _ _ _ _ _ _ (repr_literal printable s U) (repr_literal printable s' U') E).
Qed.
Lemma settings_ok l : settings_clean l -> settings_show l (texts_repr printable object_repr l).
Proof.
  intros C. unfold texts_repr, bracket. constructor. induction C as [|[k v] l [Ck Cv] _ IH]; cbn [map fst snd] in *; constructor; [|exact IH].
  exists (py_repr printable k), (value_repr printable object_repr v). split; [now apply repr_literal|]. split; [now apply value_expression|easy].
Qed.
Lemma settings_prefix l t l' t' x y : settings_show l t -> settings_show l' t' -> t ++ x = t' ++ y -> l = l' /\ x = y.
Proof.
  intros [ts F] [ts' G] E. rewrite <- !app_assoc in E. apply app_inv_head in E.
  apply (joined_prefix _ eq _ _ _ _ _ _ _) with (2 := F) (3 := G) in E.
  - destruct E as [H ->]. split; [|easy]. clear -H. induction H; congruence.
  - easy.
  - unfold digitish. cbn. lia.
  - intros a u (k & v & Hk & _ & ->). destruct (literal_head _ _ Hk) as (h & r & -> & Hh). exists h, (r ++ lit ": " ++ v). split; [easy|].
    intros ->. destruct Hh as [Hh|Hh]; vm_compute in Hh; discriminate.
  - intros [a1 a2] u [b1 b2] u' x' y' I J (k & v & Hk & Hv & ->) (k' & v' & Hk' & Hv' & ->) X Y E'. cbn [fst snd] in *. rewrite <- !app_assoc in E'.
    apply (literal_prefix _ _ _ _ _ _ Hk Hk') in E' as [-> E']. apply app_inv_head in E'. apply (expression_prefix _ _ _ _ _ _ Hv Hv' X Y) in E' as [-> ->]. now split.
Qed.
Lemma settings_inj l l' t : settings_show l t -> settings_show l' t -> l = l'.
Proof. intros A B. now destruct (settings_prefix l t l' t [] [] A B eq_refl). Qed.
Lemma context_ok cls l : settings_clean l -> exists t, settings_show l t /\ context_repr printable object_repr cls l = cls ++ lit "(" ++ t ++ lit ")".
Proof. intros C. exists (texts_repr printable object_repr l). split; [now apply settings_ok|easy]. Qed.
Lemma shown_key n : clean_name n -> name_shown n (show_key printable n).
Proof. destruct n as [s|]; cbn; [|easy]. intros U. exists (py_repr printable s). split; [now apply repr_literal|easy]. Qed.
Lemma message_ok cls n child expr : clean_name n -> clean_name child -> unicode expr -> complains cls n child expr (no_child printable cls n child expr).
Proof.
  intros Cn Cc Ce. unfold no_child, show_text. destruct n as [[|c s]|].
  - rewrite <- !app_assoc. apply co_unnamed; [now right|now apply shown_key|now apply repr_literal].
  - cbn [show_key]. unfold show_text. rewrite <- !app_assoc. apply (co_named _ _ _ _ (c :: s)); [now split|now apply repr_literal|now apply shown_key|now apply repr_literal].
  - rewrite <- !app_assoc. apply co_unnamed; [now left|now apply shown_key|now apply repr_literal].
Qed.
End Others.
Lemma alike : exists a b t, clean_looks a /\ clean_looks b /\ spaceless a /\ spaceless b
  /\ (forall p o, look p o a = Ok t /\ look p o b = Ok t) /\ a <> b.
Proof.
  exists (ofScalar (lit "Pair") None (Ok (VInt 1))), (ofCompound (lit "Pair") None (Ok (VInt 1))), (lit "<Pair None; value=1>").
  assert (~ In 32%N (lit "Pair")) as N by (cbn; intuition discriminate).
  repeat match goal with |- _ /\ _ => split end; try (constructor; [easy|]; intros ? [= <-]; exact I); try (constructor; easy); try discriminate.
Qed.
(* an element of each sort *)
Definition sample_looks : looks :=
  ofDict [(Some (lit "n"), ofScalar (lit "String") (Some (lit "n")) (Ok (VText (lit "it's"))));
          (Some (lit "l"), ofList [ofScalar (lit "Integer") None (Ok (VInt (-7))); ofScalar (lit "Time") None (Ok (VTime (Time 9 30 0 0)))]);
          (None, ofCompound (lit "Pair") (Some (lit "p")) (Err NotImplErr))].
