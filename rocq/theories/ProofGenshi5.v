(* Proofs: directives and rendering. *)
From Verif Require Import PyBase PyBaseFacts ModelMarkup SpecMarkup ProofMarkup ProofMarkup4 ProofMarkup5 ModelGenshi SpecGenshi ProofGenshi ProofGenshi2 ProofGenshi3 ProofGenshi4.

(* ---- the order of directives ---- *)
Lemma splits_filter ds f o : splits ds f o -> f = filter (fun d => negb (is_local d)) ds /\ o = filter is_local ds.
Proof.
  induction 1 as [|n ds f o S0 (-> & ->)|d ds f o D S0 (-> & ->)]; cbn [filter is_local negb]; [easy|easy|].
  destruct d; cbn [is_local negb]; try easy. now elim (D n).
Qed.
Lemma splits_exists ds : exists f o, splits ds f o.
Proof.
  induction ds as [|d ds (f & o & IH)]; [exists [], []; constructor|]. destruct d as [b|k raw|s|s|n].
  5: { exists (DForeign n :: f), o. now constructor. }
  all: eexists f, (_ :: o); constructor; [easy|exact IH].
Qed.
Lemma foreign_only l : Forall (fun d => is_local d = false) (filter (fun d => negb (is_local d)) l).
Proof. apply Forall_forall. intros x I. apply filter_In in I as (_ & I). now apply negb_true_iff in I. Qed.
Lemma local_only l : Forall (fun d => is_local d = true) (filter is_local l).
Proof. apply Forall_forall. intros x I. now apply filter_In in I as (_ & I). Qed.
Lemma filter_all {A} (f : A -> bool) l : Forall (fun x => f x = true) l -> filter f l = l.
Proof. induction 1 as [|x l E F IH]; [easy|]. cbn. now rewrite E, IH. Qed.
Lemma filter_none {A} (f : A -> bool) l : Forall (fun x => f x = false) l -> filter f l = [].
Proof. induction 1 as [|x l E F IH]; [easy|]. cbn. now rewrite E, IH. Qed.
Lemma order_sorted : forall fs fuel o, Forall (fun d => is_local d = false) fs -> Forall (fun d => is_local d = true) o ->
  List.length fs < fuel -> forall f, is_local f = false -> call_order (S fuel) f (fs ++ o) = (f :: fs, first_of o).
Proof.
  induction fs as [|g fs IH]; intros fuel o Ff Fo L f Lf; cbn [call_order app]; rewrite Lf.
  - destruct o as [|d o]; [reflexivity|]. inversion Fo as [|? ? Ld Fo']; subst. destruct fuel as [|fuel]; [cbn in L; lia|]. cbn [call_order]. rewrite Ld.
    rewrite (filter_none (fun d => negb (is_local d))); [|eapply Forall_impl; [|exact Fo']; intros x Hx; cbn in *; now rewrite Hx].
    rewrite filter_all by easy. reflexivity.
  - inversion Ff as [|? ? Lg Ff']; subst. cbn [List.length] in L. destruct fuel as [|fuel]; [lia|]. rewrite IH; [reflexivity|easy|easy|lia|easy].
Qed.
Lemma order_local ds d fuel : is_local d = true -> S (List.length ds) < fuel ->
  call_order fuel d ds = (filter (fun d => negb (is_local d)) (d :: ds), first_of (filter is_local (d :: ds))).
Proof.
  intros Ld L. destruct fuel as [|fuel]; [lia|]. cbn [call_order filter]. rewrite Ld. cbn [negb].
  pose proof (foreign_only ds) as Ff. pose proof (local_only ds) as Fo.
  assert (List.length (filter (fun d => negb (is_local d)) ds) <= List.length ds) as Lf by (clear; induction ds as [|x l IHl]; cbn; [lia|destruct (negb (is_local x)); cbn; lia]).
  destruct (filter (fun d => negb (is_local d)) ds) as [|g f]; [reflexivity|]. inversion Ff as [|? ? Lg Ff']; subst. cbn [List.length] in *.
  destruct fuel as [|fuel]; [lia|]. cbn [app]. rewrite order_sorted; [reflexivity|easy|now constructor|lia|easy].
Qed.
Lemma order_spec : forall ds d fuel, List.length ds + S (List.length ds) < fuel ->
  call_order fuel d ds = (filter (fun d => negb (is_local d)) (d :: ds), first_of (filter is_local (d :: ds))).
Proof.
  induction ds as [|e ds IH]; intros d fuel L; destruct (is_local d) eqn:Ld.
  - apply order_local; [easy|cbn in *; lia].
  - destruct fuel; [lia|]. cbn [call_order filter negb]. now rewrite Ld.
  - apply order_local; [easy|cbn [List.length] in *; lia].
  - destruct fuel as [|fuel]; [lia|]. cbn [List.length] in L. cbn [call_order]. rewrite Ld, IH by lia.
    change (filter (fun d0 => negb (is_local d0)) (d :: e :: ds)) with (if negb (is_local d) then d :: filter (fun d0 => negb (is_local d0)) (e :: ds) else filter (fun d0 => negb (is_local d0)) (e :: ds)).
    change (filter is_local (d :: e :: ds)) with (if is_local d then d :: filter is_local (e :: ds) else filter is_local (e :: ds)). now rewrite Ld.
Qed.
Theorem directive_order_spec ds f o : splits ds f o -> directive_order ds = (f, first_of o).
Proof.
  intros S0. apply splits_filter in S0 as (-> & ->). destruct ds as [|d ds]; [reflexivity|]. unfold directive_order. rewrite order_spec; [reflexivity|]. cbn [List.length]. lia.
Qed.

(* ---- settings ---- *)
Lemma to_context_tabindex k : to_context k = lit "tabindex" -> k = lit "tabindex".
Proof.
  pose proof (setting_spec k) as S0. intros E. rewrite E in S0. remember (lit "tabindex") as t eqn:Et. destruct S0 as [k k' I|k H]; [|easy].
  exfalso. unfold control_table in I. cbn [In] in I. repeat destruct I as [I|I]; try easy; injection I as <- <-; discriminate.
Qed.
Theorem manipulator_spec : forall l m m', manipulator l m = Ok m' ->
  exists pairs, Forall2 option_says l pairs
    /\ (forall k, aget str_eqb k m' = match aget str_eqb k (rev pairs) with Some v => Some v | None => aget str_eqb k m end)
    /\ (NoDup (keys m) -> NoDup (keys m')).
Proof.
  induction l as [|[k v] l IH]; intros m m' E; cbn [manipulator] in E.
  - injection E as <-. exists []. repeat split; [constructor|easy].
  - destruct (str_eqb (to_context k) (lit "tabindex")) eqn:Et.
    + destruct (py_int v) as [z|] eqn:Z; [|discriminate]. cbn [rmap bind] in E. apply IH in E as (pairs & F & G & N0). apply str_eqb_eq in Et.
      exists ((lit "tabindex", MInt z) :: pairs). split; [|split].
      * constructor; [|easy]. rewrite (to_context_tabindex k Et). now constructor.
      * intros k'. rewrite G, sget_set, Et. cbn [rev]. rewrite aget_app. cbn [aget]. now destruct (aget str_eqb k' (rev pairs)), (str_eqb k' (lit "tabindex")).
      * intros Nm. apply N0. now apply (NoDup_keys_aset _ str_eqb_eq).
    + cbn [bind] in E. apply IH in E as (pairs & F & G & N0). exists ((to_context k, MText v) :: pairs). split; [|split].
      * constructor; [|easy]. constructor; [apply setting_spec|]. intros K. rewrite K in Et. discriminate.
      * intros k'. rewrite G, sget_set. cbn [rev]. rewrite aget_app. cbn [aget]. now destruct (aget str_eqb k' (rev pairs)), (str_eqb k' (to_context k)).
      * intros Nm. apply N0. now apply (NoDup_keys_aset _ str_eqb_eq).
Qed.
Theorem manipulator_error : forall l m e, manipulator l m = Err e <-> exists l1 v l2, l = l1 ++ (lit "tabindex", v) :: l2 /\ py_int v = Err e
  /\ (forall v', In (lit "tabindex", v') l1 -> exists z, py_int v' = Ok z).
Proof.
  induction l as [|[k v] l IH]; intros m e; cbn [manipulator].
  - split; [discriminate|]. intros ([|] & ? & ? & K & _); discriminate.
  - destruct (str_eqb (to_context k) (lit "tabindex")) eqn:Et.
    + apply str_eqb_eq, to_context_tabindex in Et. subst k. destruct (py_int v) as [z|x] eqn:Z; cbn [rmap bind].
      * rewrite IH. split.
        -- intros (l1 & v0 & l2 & -> & Zv & H). exists ((lit "tabindex", v) :: l1), v0, l2. repeat split; try easy. intros v' [K|I]; [injection K as <-; eauto|auto].
        -- intros ([|p l1] & v0 & l2 & K & Zv & H); [injection K as <- <-; congruence|]. injection K as <- ->. exists l1, v0, l2. repeat split; try easy. intros v' I. apply H. now right.
      * split.
        -- intros [= ->]. exists [], v, l. repeat split; easy.
        -- intros ([|p l1] & v0 & l2 & K & Zv & H); [injection K as <- <-; congruence|]. injection K as <- ->. destruct (H v (or_introl eq_refl)). congruence.
    + cbn [bind]. rewrite IH. split.
      * intros (l1 & v0 & l2 & -> & Zv & H). exists ((k, v) :: l1), v0, l2. repeat split; try easy. intros v' [K|I]; [|auto]. injection K as -> ->. now rewrite str_eqb_refl in Et || discriminate Et.
      * intros ([|p l1] & v0 & l2 & K & Zv & H); [injection K as -> -> ->; discriminate Et|]. injection K as <- ->. exists l1, v0, l2. repeat split; try easy. intros v' I. apply H. now right.
Qed.
