(* Canonical paths. *)
From Verif Require Import PyBase PyBaseFacts PyList ProofPyList ModelUtil ModelSeq ModelProps ModelDsl SpecScalar ProofScalar ModelPaths SpecPaths ProofPaths ProofPaths2 ProofPaths3 ProofPaths4 ProofPaths5.

Inductive oideal (t : tree) : list op -> list nat -> list nat -> Prop :=
| oideal_end p : oideal t [] p p
| oideal_top r p q : oideal t r [] q -> oideal t (TOP :: r) p q
| oideal_up r p q : oideal t r (tl p) q -> oideal t (UP :: r) p q
| oideal_here r p q : oideal t r p q -> oideal t (HERE :: r) p q
| oideal_name x r p p' q : takes t (Node p) x (Node p') -> oideal t r p' q -> oideal t (NAME x :: r) p q.
Definition sliceless (l : list op) : Prop := forall s, ~ In (SLICE s) l.
Lemma oideal_app t a b p q : oideal t (a ++ b) p q <-> exists m, oideal t a p m /\ oideal t b m q.
Proof.
  revert p. induction a as [|o a IH]; intros p; cbn [app].
  - split; [intros H; exists p; split; [constructor|easy]|]. intros (m & H1 & H2). now inversion H1; subst.
  - split.
    + intros H. inversion H; subst;
        match goal with K : oideal t (a ++ b) _ _ |- _ => apply IH in K as (m & K1 & K2) end; exists m; (split; [econstructor|]; eauto).
    + intros (m & H1 & H2). inversion H1; subst; econstructor; eauto; apply IH; eauto.
Qed.
Lemma oideal_one t o p q : oideal t [o] p q <->
  match o with TOP => q = [] | UP => q = tl p | HERE => q = p | NAME x => takes t (Node p) x (Node q) | SLICE _ => False end.
Proof.
  split.
  - intros H. destruct o; inversion H; subst; try (match goal with K : oideal t [] _ _ |- _ => inversion K; subst end; easy).
  - destruct o; intros H; try easy; subst; repeat (econstructor; eauto).
Qed.
Lemma takes_cons t p x q : takes t (Node p) x (Node q) -> tl q = p.
Proof. intros H. now inversion H; subst. Qed.

(* the shape of canonical operations, last first: names over .. or / or nothing *)
Inductive shape : list op -> Prop :=
| shape_up n : shape (repeat UP n)
| shape_top : shape [TOP]
| shape_here : shape [HERE]
| shape_name x c : shape c -> shape (NAME x :: c).
Lemma shape_ups c : shape (UP :: c) -> exists k, c = repeat UP k.
Proof. intros H. inversion H as [k E| | |]. destruct k as [|k]; [discriminate E|]. injection E as <-. eauto. Qed.
(* collapsing keeps where the steps go *)
Lemma canon_step_oideal t n c o p m q : o <> TOP -> (forall s, o <> SLICE s) -> (1 < n)%nat -> shape c -> ~ In HERE c ->
  oideal t (rev c) p m -> oideal t [o] m q ->
  shape (canon_step n c o) /\ ~ In HERE (canon_step n c o) /\ oideal t (rev (canon_step n c o)) p q.
Proof.
  intros T S L Sh NH H1 H2. apply oideal_one in H2. destruct o as [| | |s|x]; [easy| | |now destruct (S s)|].
  - (* UP *) subst q. destruct c as [|o' c'].
    + cbn. inversion H1; subst. split; [apply (shape_up 1)|]. split; [now intros [|[]]|]. repeat constructor.
    + destruct o' as [| | |s|x]; cbn [canon_step].
      * split; [easy|]. split; [easy|]. inversion Sh as [k E| | |]; [destruct k; discriminate E|subst].
        cbn [rev app] in *. apply oideal_one in H1. subst m. now apply oideal_one.
      * split; [|split; [now intros [|H]|]].
        -- apply shape_ups in Sh as [k ->]. apply (shape_up (2 + k)).
        -- change (rev (UP :: UP :: c')) with (rev (UP :: c') ++ [UP]). apply oideal_app. exists m. split; [easy|]. now apply oideal_one.
      * exfalso. apply NH. now left.
      * inversion Sh as [k E| | |]; destruct k; discriminate E.
      * assert (shape c') as Sh'. { inversion Sh as [k E| | |]; [destruct k; discriminate E|easy]. }
        split; [easy|]. split; [intros K; apply NH; now right|].
        cbn [rev] in H1. apply oideal_app in H1 as (k & K1 & K2). apply oideal_one in K2. apply takes_cons in K2. now subst.
  - (* HERE *) cbn [canon_step]. apply Nat.ltb_lt in L. rewrite L. subst. easy.
  - (* NAME *) cbn [canon_step]. split; [now constructor|]. split; [intros [K|K]; easy|]. cbn [rev].
    apply oideal_app. exists m. split; [easy|]. now apply oideal_one.
Qed.
Lemma canon_fold_oideal t n l : (1 < n)%nat -> ~ In TOP l -> sliceless l -> forall c p m q, shape c -> ~ In HERE c ->
  oideal t (rev c) p m -> oideal t l m q ->
  shape (fold_left (canon_step n) l c) /\ oideal t (rev (fold_left (canon_step n) l c)) p q.
Proof.
  intros L. induction l as [|o l IH]; intros T S c p m q Sh NH H1 H2; cbn [fold_left].
  - inversion H2; subst. easy.
  - change (o :: l) with ([o] ++ l) in H2. apply oideal_app in H2 as (k & K1 & K2).
    destruct (canon_step_oideal t n c o p m k) as (Q1 & Q2 & Q3); auto.
    + intros ->. apply T. now left.
    + intros s ->. apply (S s). now left.
    + apply IH with k; auto; [intros K; apply T; now right|intros s K; apply (S s); now right].
Qed.
Lemma canonicalize_oideal t l p q : only_first_top l -> sliceless l -> oideal t l p q ->
  shape (rev (canonicalize l)) /\ oideal t (canonicalize l) p q.
Proof.
  intros T S H. unfold canonicalize. rewrite rev_involutive. destruct l as [|o [|o2 l]].
  - cbn. split; [apply (shape_up 0)|easy].
  - assert (fold_left (canon_step (List.length [o])) [o] [] = [o]) as -> by (destruct o; reflexivity).
    split; [|easy]. destruct o; [constructor|apply (shape_up 1)|constructor|destruct (S s); now left|constructor; apply (shape_up 0)].
  - set (n := List.length (o :: o2 :: l)). assert (1 < n)%nat as L by (cbn; lia). clearbody n.
    destruct o as [| | |s|x].
    2,3,5: apply (canon_fold_oideal t n) with p; auto; [intros [K|K]; [easy|now apply T]|apply (shape_up 0)|constructor].
    + change (fold_left (canon_step n) (TOP :: o2 :: l) []) with (fold_left (canon_step n) (o2 :: l) [TOP]).
      inversion H; subst. apply (canon_fold_oideal t n) with []; auto; [intros s K; apply (S s); now right|constructor|now intros [|[]]|repeat constructor].
    + destruct (S s). now left.
Qed.

(* where the canonical operations go *)
Lemma climb_up t p : climbable t p -> up_of t (Node p) = Node (tl p).
Proof.
  intros H. unfold up_of. destruct p as [|i q]; [reflexivity|]. cbn [parent].
  destruct (H [] i q eq_refl) as [-> ->]. reflexivity.
Qed.
Lemma climb_tl t p : climbable t p -> climbable t (tl p).
Proof. destruct p as [|i p]; [easy|]. intros H a j q E. cbn in E. subst p. apply (H (i :: a) j q eq_refl). Qed.
Lemma run_app t strict a b e u : run_ops t strict a e = Ok (Found u) -> run_ops t strict (a ++ b) e = run_ops t strict b u.
Proof.
  revert e. induction a as [|o a IH]; intros e; cbn [run_ops app]; [now intros [= ->]|].
  destruct o as [| | |s|x]; auto.
  - destruct (get_slice (children t e) s); [cbn [rmap]; discriminate|discriminate].
  - destruct (index t e x); auto. destruct (is_lookup e0 || _); [destruct strict|]; discriminate.
Qed.
Lemma repeat_end {A} (x : A) n : repeat x n ++ [x] = x :: repeat x n.
Proof. induction n as [|n IH]; [easy|]. cbn. now rewrite IH. Qed.
Lemma rev_repeat' {A} (x : A) n : rev (repeat x n) = repeat x n.
Proof. induction n as [|n IH]; [easy|]. cbn [repeat rev]. rewrite IH. apply repeat_end. Qed.
Lemma run_ups t strict n : forall p q, climbable t p -> oideal t (repeat UP n) p q ->
  run_ops t strict (repeat UP n) (Node p) = Ok (Found (Node q)).
Proof.
  induction n as [|n IH]; intros p q C H; inversion H; subst; [reflexivity|]. cbn [repeat run_ops].
  fold (up_of t (Node p)). rewrite climb_up by easy. apply IH; [now apply climb_tl|easy].
Qed.
Lemma run_shape t strict c p q : proper t -> node_at t p <> None -> shape c -> In TOP c \/ climbable t p ->
  oideal t (rev c) p q -> run_ops t strict (rev c) (Node p) = Ok (Found (Node q)).
Proof.
  intros P X Sh. revert q. induction Sh as [n| | |x c Sh IH]; intros q C H.
  - rewrite rev_repeat' in *. apply run_ups; [|easy]. destruct C as [C|C]; [|easy]. apply repeat_spec in C. discriminate C.
  - cbn [rev app] in *. apply oideal_one in H. subst. cbn [run_ops]. rewrite root_lemma by easy. reflexivity.
  - cbn [rev app] in *. apply oideal_one in H. subst. reflexivity.
  - cbn [rev] in *. apply oideal_app in H as (m & H1 & H2). rewrite (run_app _ _ _ _ _ (Node m)).
    + apply oideal_one in H2. rewrite run_name. apply index_takes_lemma in H2; [|easy]. rewrite H2. reflexivity.
    + apply IH; [|easy]. destruct C as [[C|C]|C]; [discriminate C|now left|now right].
Qed.

Lemma top_stays n l : forall c, (exists c', c = c' ++ [TOP]) -> exists c', fold_left (canon_step n) l c = c' ++ [TOP].
Proof.
  induction l as [|o l IH]; intros c H; [easy|]. cbn [fold_left]. apply IH. destruct H as [c' ->].
  destruct o as [| | |s|x]; cbn [canon_step].
  - now exists (TOP :: c').
  - destruct c' as [|[| | |s|x] c']; cbn [app].
    + now exists [].
    + now exists (TOP :: c').
    + now exists (UP :: UP :: c').
    + now exists c'.
    + now exists c'.
    + now exists c'.
  - destruct (Nat.ltb 1 n); [now exists c'|now exists (HERE :: c')].
  - now exists (SLICE s :: c').
  - now exists (NAME x :: c').
Qed.
Lemma canonicalize_top l : In TOP (rev (canonicalize (TOP :: l))).
Proof.
  unfold canonicalize. rewrite rev_involutive. change (fold_left (canon_step (List.length (TOP :: l))) (TOP :: l) [])
    with (fold_left (canon_step (List.length (TOP :: l))) l [TOP]).
  destruct (top_stays (List.length (TOP :: l)) l [TOP]) as [c' ->]; [now exists []|]. apply in_app_iff. right. now left.
Qed.
Lemma canonical_lemma t l p q strict : proper t -> node_at t p <> None -> only_first_top l -> sliceless l ->
  hd_error l = Some TOP \/ climbable t p -> oideal t l p q ->
  run_ops t strict (canonicalize l) (Node p) = Ok (Found (Node q)).
Proof.
  intros P X T S C H. destruct (canonicalize_oideal t l p q T S H) as [Sh Hi].
  rewrite <- (rev_involutive (canonicalize l)) in Hi |- *. apply run_shape; auto.
  destruct C as [C|C]; [|now right]. left. destruct l as [|o l]; [easy|]. injection C as ->. apply canonicalize_top.
Qed.


Lemma ideal_oideal t l p q : ideal t l p q -> oideal t (map op_of l) p q /\ sliceless (map op_of l).
Proof.
  induction 1 as [p|r p q H [IH1 IH2]|r p q H [IH1 IH2]|x r p p' q T H [IH1 IH2]|i r p p' q T H [IH1 IH2]];
    (split; [econstructor; eauto|intros s K; destruct K as [K|K]; try discriminate K; now apply (IH2 s)]) || idtac.
  split; [constructor|intros s []].
Qed.
Lemma oft_ops absolute l : only_first_top (ops_of absolute l).
Proof.
  unfold only_first_top, ops_of. assert (~ In TOP (map op_of l)) as H.
  { intros K. apply in_map_iff in K as (s & K & _). destruct s; discriminate K. }
  destruct absolute; cbn; [easy|]. intros K. apply H. destruct (map op_of l); [easy|now right].
Qed.
Lemma find_ideal_lemma t p q absolute l single strict : proper t -> node_at t p <> None -> writable l ->
  absolute = true \/ climbable t p -> ideal t l (if absolute : bool then [] else p) q ->
  finds [] t (Node p) (path_text absolute l) single strict (Ok (if single then One (Some (Node q)) else Many [Node q])).
Proof.
  intros P X W C H. apply ideal_oideal in H as [H S].
  assert (oideal t (ops_of absolute l) p q) as I. { destruct absolute; [now constructor|easy]. }
  assert (sliceless (ops_of absolute l)) as S'.
  { intros s K. unfold ops_of in K. apply in_app_iff in K as [K|K]; [destruct absolute; [destruct K as [K|[]]; discriminate K|easy]|now apply (S s)]. }
  exists 1%nat. intros fuel F. rewrite find_empty, tokenize_path by easy. cbn [bind].
  unfold evaluate. destruct fuel as [|fuel]; [lia|]. cbn [run_contexts]. rewrite (canonical_lemma t (ops_of absolute l) p q); try easy.
  - cbn [bind app]. destruct fuel, single; reflexivity.
  - apply oft_ops.
  - destruct C as [-> |C]; [now left|now right].
Qed.
