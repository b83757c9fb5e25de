(* When no linear order of the bases exists; class statements that fail. *)
From Verif Require Import PyBase PyBaseFacts PyList ModelUtil ModelSeq ModelProps SpecProps ProofMap ProofProps ProofProps2 ModelDsl SpecDsl ProofDsl ProofDsl2 ProofDsl3 ProofDsl4 ProofDsl5 ProofDsl6 ProofDsl7 ProofDsl8.

Definition fits (L : list nat) (ls : list (list nat)) : Prop := NoDup L /\ Forall (fun l => subseq l L) ls.
Lemma subseq_in {A} (l L : list A) : subseq l L -> forall x, In x l -> In x L.
Proof. induction 1 as [|x l L S IH|x l L S IH]; intros y I; [easy| |right; now apply IH]. destruct I as [->|I]; [now left|right; now apply IH]. Qed.
Lemma subseq_tail {A} x (l L : list A) : subseq (x :: l) L -> subseq l L.
Proof.
  intros S. remember (x :: l) as m eqn:E. revert E. induction S as [|y l' L S IH|y l' L S IH]; intros E; [easy| |apply Sub_skip; now apply IH].
  injection E as _ E2. rewrite E2 in S. now apply Sub_skip.
Qed.
Lemma subseq_nodup {A} (l L : list A) : subseq l L -> NoDup L -> NoDup l.
Proof.
  induction 1 as [|x l L S IH|x l L S IH]; intros N; [constructor| |]; inversion N as [|? ? N1 N2]; subst; [|now apply IH].
  constructor; [|now apply IH]. intros I. apply N1. now apply (subseq_in l L).
Qed.
Lemma fits_drop L ls h : fits L ls -> fits L (map (drop h) ls).
Proof.
  intros (N & F). split; [easy|]. apply Forall_forall. intros l I. apply in_map_iff in I as (m & <- & I). rewrite Forall_forall in F. specialize (F m I).
  destruct m as [|x m]; [constructor|]. cbn [drop]. destruct (Nat.eqb x h); [|easy]. now apply subseq_tail in F.
Qed.
(* the first of L that is in some list heads every list it is in *)
Lemma first_head L : forall ls, fits L ls -> forallb (fun l => match l with [] => true | _ => false end) ls = false ->
  exists h t, In (h :: t) ls /\ good_head ls h = true.
Proof.
  induction L as [|x L IH]; intros ls (N & F) E; rewrite Forall_forall in F.
  - exfalso. enough (forallb (fun l : list nat => match l with [] => true | _ => false end) ls = true) by congruence.
    apply forallb_forall. intros l I. specialize (F l I). inversion F; reflexivity.
  - inversion N as [|? ? N1 N2]; subst.
    destruct (existsb (fun l => match l with y :: _ => Nat.eqb y x | [] => false end) ls) eqn:Ex.
    + apply existsb_exists in Ex as (l & I & El). destruct l as [|y l]; [easy|]. apply Nat.eqb_eq in El as ->. exists x, l. split; [easy|].
      unfold good_head. apply forallb_forall. intros m J. destruct m as [|z m]; [easy|]. specialize (F _ J).
      destruct (memb Nat.eqb x m) eqn:Em; [|easy]. apply (memb_In Nat.eqb Nat.eqb_eq) in Em. exfalso.
      inversion F as [|? ? ? S|? ? ? S]; subst; [now apply N1, (subseq_in m L)|]. apply N1, (subseq_in _ _ S). now right.
    + assert (F' : fits L ls).
      { split; [easy|]. apply Forall_forall. intros l I. specialize (F l I). inversion F as [|y m ? S|]; subst; [constructor| |easy].
        exfalso. enough (existsb (fun l => match l with y :: _ => Nat.eqb y x | [] => false end) ls = true) by congruence.
        apply existsb_exists. exists (x :: m). split; [easy|]. apply Nat.eqb_refl. }
      apply (IH ls F' E).
Qed.
Lemma find_head_some ls rest h t : In (h :: t) rest -> good_head ls h = true -> find_head ls rest <> None.
Proof.
  intros I G. induction rest as [|l rest IH]; [easy|]. cbn [find_head]. destruct I as [->|I].
  - now rewrite G.
  - destruct l as [|x l]; [now apply IH|]. destruct (good_head ls x); [easy|now apply IH].
Qed.
Definition total (ls : list (list nat)) : nat := list_sum (map (@List.length nat) ls).
Lemma total_drop h ls : total (map (drop h) ls) <= total ls /\ (forall t, In (h :: t) ls -> total (map (drop h) ls) < total ls).
Proof.
  unfold total. induction ls as [|l ls IH]; [easy|]. cbn [map]. unfold list_sum in *. cbn [fold_right] in *. destruct IH as (A & B).
  assert (D : List.length (drop h l) <= List.length l) by (destruct l as [|x l]; cbn [drop]; [easy|destruct (Nat.eqb x h); cbn; lia]).
  split; [lia|]. intros t [->|I]; [|specialize (B t I); lia]. cbn [drop]. rewrite Nat.eqb_refl. cbn [List.length] in *. lia.
Qed.
Lemma merge_total fuel : forall ls, total ls < fuel ->
  match merge fuel ls with Ok _ => True | Err x => x = TypeErr /\ forall L, ~ fits L ls end.
Proof.
  induction fuel as [|fuel IH]; intros ls T; [lia|]. cbn [merge]. destruct (forallb _ ls) eqn:Fa; [easy|].
  destruct (find_head ls ls) as [h|] eqn:Fh.
  - destruct (find_head_in ls ls h Fh) as (_ & t & I). destruct (total_drop h ls) as (_ & D). specialize (D t I).
    specialize (IH (map (drop h) ls) ltac:(lia)). fold (drop h).
    change (map (fun l : list nat => match l with [] => [] | x :: t0 => if Nat.eqb x h then t0 else l end) ls) with (map (drop h) ls).
    destruct (merge fuel (map (drop h) ls)); [easy|]. cbn [rmap bind]. destruct IH as (-> & Nf). split; [easy|].
    intros L F. now apply (Nf L), fits_drop.
  - split; [easy|]. intros L F. destruct (first_head L ls F Fa) as (h & t & I & G). now apply (find_head_some ls ls h t I G).
Qed.

Section P.
Context {V : Type}.
Notation kd := (classes V).
Notation val := (value V).
Implicit Types (k : kd).
Variable text_of : val -> str.
Definition orderly k bases (L : list nat) : Prop := NoDup L /\ subseq bases L /\ forall b, In b bases -> subseq (mro k b) L.
Lemma orderly_fits k bases L : orderly k bases L <-> fits L (map (mro k) bases ++ [bases]).
Proof.
  unfold orderly, fits. rewrite Forall_app. split.
  - intros (A & B & C). split; [easy|]. split; [|repeat constructor; easy]. apply Forall_forall. intros l I.
    apply in_map_iff in I as (b & <- & I). now apply C.
  - intros (A & B & C). inversion C; subst. split; [easy|]. split; [easy|]. intros b I. rewrite Forall_forall in B. apply B. now apply in_map.
Qed.
Lemma linearise_total k bases :
  (exists lin, linearise k bases = Ok lin) \/ (linearise k bases = Err TypeErr /\ forall L, ~ orderly k bases L).
Proof.
  unfold linearise. pose proof (merge_total (S (total (map (mro k) bases ++ [bases]))) (map (mro k) bases ++ [bases]) ltac:(lia)) as H.
  fold (total (map (mro k) bases ++ [bases])). destruct (merge _ _) as [lin|x]; [left; now exists lin|right]. destruct H as (-> & H).
  split; [easy|]. intros L O. apply orderly_fits in O. now apply (H L).
Qed.
Lemma linearise_iff k bases : kwf k -> (forall b, In b bases -> b < k_next k) ->
  ((exists lin, linearise k bases = Ok lin) <-> exists L, NoDup L /\ subseq bases L /\ forall b, In b bases -> subseq (mro k b) L)
  /\ forall x, linearise k bases = Err x -> x = TypeErr.
Proof.
  intros W B. split; [split|].
  - intros (lin & H). exists lin. destruct (linearise_spec k bases lin W B H) as (N & _ & S1 & S2). easy.
  - intros (L & N & S1 & S2). destruct (linearise_total k bases) as [H|(_ & H)]; [easy|]. exfalso. now apply (H L).
  - intros x H. destruct (linearise_total k bases) as [(lin & E)|(E & _)]; congruence.
Qed.
Lemma plain_conflict k bases members props : existsb (k_form k) bases = false ->
  (forall L, ~ (NoDup L /\ subseq bases L /\ forall b, In b bases -> subseq (mro k b) L)) -> kwf k -> (forall b, In b bases -> b < k_next k) ->
  declare text_of k bases members props = (k, Err TypeErr).
Proof.
  intros F N W B. unfold declare. rewrite F. destruct (linearise_total k bases) as [(lin & E)|(E & _)]; [|now rewrite E].
  exfalso. destruct (linearise_spec k bases lin W B E) as (A & _ & C & D). now apply (N lin).
Qed.
Lemma form_conflict k bases members props : kwf k -> declarable k bases members -> form_declarable k bases members ->
  existsb (k_form k) bases = true ->
  (forall L, ~ (NoDup L /\ subseq bases L /\ forall b, In b bases -> subseq (mro k b) L)) ->
  exists k', declare text_of k bases members props = (k', Err TypeErr) /\ kwf k' /\ extends k k'.
Proof.
  intros W D FD F N. assert (Li : linearise k bases = Err TypeErr).
  { destruct (linearise_total k bases) as [(lin & E)|(E & _)]; [|easy]. exfalso.
    destruct (linearise_spec k bases lin W (db_bases _ _ _ D) E) as (A & _ & C & H). now apply (N lin). }
  unfold ModelDsl.declare. rewrite F.
  destruct (bases_ok k bases [] (fd_base _ _ _ FD)) as (c1 & B1). rewrite B1.
  destruct (fd_own _ _ _ FD) as (l & ns & Q1 & Q2).
  assert (Q3 : match aget str_eqb (lit "field_schema") members with Some v => iterate v | None => Ok [] end = Ok l).
  { destruct (aget str_eqb (lit "field_schema") members) as [[]|]; try easy; cbn in Q1 |- *; congruence. }
  rewrite Q3. cbn [bind]. destruct (overwrite_ok k l c1 ns Q2) as (c2 & B2). rewrite B2.
  assert (Hm : forall a c, In (a, VClass c) members -> is_element_class k (VClass c) = true ->
     exists x, name_of k (VClass c) = Ok x /\ (x = Some a \/ copyable k c /\ getattr k c (lit "named") = Some (VCloner MNamed))).
  { intros a c I E. apply (fd_members _ _ _ FD a c). unfold own_member.
    rewrite (In_aget str_eqb str_eqb_eq a (VClass c) members (db_once _ _ _ D) I). cbn [is_element_class] in E. now rewrite E. }
  destruct (declared_spec text_of members k W (db_born _ _ _ D) Hm) as (k1 & fields & A1 & W1 & E1 & Fo). rewrite A1.
  change (Forall2 (is_own k k1) (filter (is_el k) members) fields) in Fo.
  destruct (fields_named k k1 _ fields W E1 Fo) as (ns' & Nf). destruct (overwrite_ok k1 fields c2 ns' Nf) as (c3 & B3). rewrite B3.
  rewrite (linearise_later k k1 bases W E1 (db_bases _ _ _ D)), Li. now exists k1.
Qed.
Lemma declared_skip k l1 l2 : (forall a v, In (a, v) l1 -> is_element_class k v = false) -> forall k1 e,
  declared text_of k l2 = (k1, Err e) -> declared text_of k (l1 ++ l2) = (k1, Err e).
Proof.
  intros H k1 e E. induction l1 as [|(a, v) l1 IH]; [easy|]. cbn [app declared]. rewrite (H a v) by now left.
  rewrite IH; [easy|]. intros a' v' I. apply (H a' v'). now right.
Qed.
Lemma form_member_fails k bases l1 a c l2 props k1 e l ns :
  existsb (k_form k) bases = true ->
  (forall b, In b bases -> exists l ns, seq_items (getattr k b (lit "field_schema")) = Some l /\ names_of k l = Ok ns) ->
  seq_items (aget str_eqb (lit "field_schema") (l1 ++ (a, VClass c) :: l2)) = Some l -> names_of k l = Ok ns ->
  (forall a v, In (a, v) l1 -> forall c, v = VClass c -> ~ In element_class (mro k c)) ->
  In element_class (mro k c) ->
  name_of k (VClass c) = Err e /\ k1 = k
  \/ (exists x, name_of k (VClass c) = Ok x /\ x <> Some a) /\ call text_of k c (lit "named") (AOne (VText a)) = (k1, Err e) ->
  declare text_of k bases (l1 ++ (a, VClass c) :: l2) props = (k1, Err e).
Proof.
  intros F Fb Q1 Q2 H1 Hc Hf. unfold ModelDsl.declare. rewrite F.
  destruct (bases_ok k bases [] Fb) as (c1 & B1). rewrite B1. set (members := l1 ++ (a, VClass c) :: l2) in *.
  assert (Q3 : match aget str_eqb (lit "field_schema") members with Some v => iterate v | None => Ok [] end = Ok l).
  { destruct (aget str_eqb (lit "field_schema") members) as [[]|]; try easy; cbn in Q1 |- *; congruence. }
  rewrite Q3. cbn [bind]. destruct (overwrite_ok k l c1 ns Q2) as (c2 & B2). rewrite B2.
  assert (E : declared text_of k members = (k1, Err e)).
  { apply declared_skip.
    - intros a' v I. specialize (H1 a' v I). destruct v; try easy. cbn [is_element_class]. specialize (H1 c0 eq_refl).
      destruct (memb Nat.eqb element_class (mro k c0)) eqn:M; [|easy]. now apply (memb_In Nat.eqb Nat.eqb_eq) in M.
    - cbn [declared is_element_class]. apply (memb_In Nat.eqb Nat.eqb_eq) in Hc. rewrite Hc. destruct Hf as [(Nx & ->)|((x & Nx & Ne) & Ec)]; rewrite Nx; [easy|].
      destruct (name_eqb_spec (Some a) x) as [Ex|_]; [now rewrite Ex in Ne|]. now rewrite Ec. }
  now rewrite E.
Qed.
End P.
