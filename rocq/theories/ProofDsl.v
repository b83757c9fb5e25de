(* Schema declaration: what each step does to the classes that exist. *)
From Verif Require Import PyBase PyBaseFacts PyList ModelUtil ModelSeq ModelProps SpecProps ProofMap ProofProps ProofProps2 ModelDsl SpecDsl.

Section P.
Context {V : Type}.
Notation kd := (classes V).
Notation val := (value V).
Implicit Types (k : kd) (c n : nat) (a : str) (v : val).

Lemma extends_refl k : extends k k.
Proof. split; try easy. Qed.
Lemma extends_trans k1 k2 k3 : extends k1 k2 -> extends k2 k3 -> extends k1 k3.
Proof.
  intros E F. pose proof (ex_next _ _ E). split.
  - pose proof (ex_next _ _ F). lia.
  - intros c H0. rewrite (ex_mro _ _ F) by lia. now apply (ex_mro _ _ E).
  - intros c H0. rewrite (ex_attrs _ _ F) by lia. now apply (ex_attrs _ _ E).
  - intros c H0. rewrite (ex_form _ _ F) by lia. now apply (ex_form _ _ E).
  - intros c H0. rewrite (ex_own _ _ F) by lia. now apply (ex_own _ _ E).
  - intros d c key H0. rewrite (ex_says _ _ F) by lia. now apply (ex_says _ _ E).
  - rewrite (ex_cls _ _ F). apply (ex_cls _ _ E).
  - intros i. destruct (ex_local _ _ E i) as (A & B), (ex_local _ _ F i) as (A' & B'). split; [congruence|]. intros. now rewrite B'.
Qed.
Lemma mro_below k c b : kwf k -> In b (mro k c) -> b < k_next k /\ c < k_next k.
Proof.
  intros W I. destruct (Nat.lt_ge_cases c (k_next k)) as [L|L].
  - destruct (kw_mro _ W c L) as (r & E & _ & H). rewrite E in I. destruct I as [<-|I]; [easy|]. split; [now apply H|easy].
  - destruct (kw_unborn _ W c L) as (E & _). now rewrite E in I.
Qed.
Lemma first_attr_ext (f g : nat -> list (str * val)) a l : (forall c, In c l -> f c = g c) -> first_attr f a l = first_attr g a l.
Proof.
  induction l as [|c l IH]; intros H; [easy|]. cbn [first_attr]. rewrite (H c) by now left.
  rewrite IH; [easy|]. intros. apply H. now right.
Qed.
Lemma find_desc_ext (f g : nat -> option nat) l : (forall c, In c l -> f c = g c) -> find_desc f l = find_desc g l.
Proof.
  induction l as [|c l IH]; intros H; [easy|]. cbn [find_desc]. rewrite (H c) by now left.
  rewrite IH; [easy|]. intros. apply H. now right.
Qed.
Lemma upto_ext (f g : nat -> option nat) d l : (forall c, In c l -> f c = g c) -> upto f d l = upto g d l.
Proof.
  induction l as [|c l IH]; intros H; [easy|]. rewrite !upto_cons, (H c) by now left.
  rewrite IH; [easy|]. intros. apply H. now right.
Qed.
Lemma desc_list k c : desc (k_props k) c = find_desc (w_own (k_props k)) (mro k c).
Proof. easy. Qed.
Lemma says_eq k d c key : class_says (k_props k) d c key
  = first_some (fun b => mention (k_props k) d b key) (upto (w_own (k_props k)) d (mro k c)).
Proof. easy. Qed.
Lemma first_some_ext {A B} (f g : A -> option B) l : (forall x, In x l -> f x = g x) -> first_some f l = first_some g l.
Proof.
  induction l as [|c l IH]; intros H; [easy|]. cbn [first_some]. rewrite (H c) by now left.
  rewrite IH; [easy|]. intros. apply H. now right.
Qed.
Lemma extends_desc k k' c : kwf k -> extends k k' -> c < k_next k -> desc (k_props k') c = desc (k_props k) c.
Proof.
  intros W E L. rewrite !desc_list, (ex_mro _ _ E c L). apply find_desc_ext. intros b I. apply (ex_own _ _ E).
  now apply mro_below in I.
Qed.
Lemma extends_getattr k k' c a : kwf k -> extends k k' -> c < k_next k -> getattr k' c a = getattr k c a.
Proof.
  intros W E L. unfold getattr. rewrite (ex_mro _ _ E c L). rewrite (first_attr_ext _ (k_attrs k)); [easy|].
  intros b I. apply (ex_attrs _ _ E). now apply mro_below in I.
Qed.
Lemma extends_sees k k' c key : kwf k -> extends k k' -> c < k_next k ->
  class_sees (k_props k') c key = class_sees (k_props k) c key.
Proof.
  intros W E L. unfold class_sees. rewrite (extends_desc k k' c W E L). destruct (desc (k_props k) c) as [d|]; [|easy].
  f_equal. rewrite !says_eq, (ex_mro _ _ E c L).
  rewrite (upto_ext _ (w_own (k_props k))); [|intros b I; apply (ex_own _ _ E); now apply mro_below in I].
  apply first_some_ext. intros b I. apply (ex_says _ _ E). apply upto_incl in I. now apply mro_below in I.
Qed.
Lemma extends_looks k k' c : kwf k -> extends k k' -> c < k_next k -> looks_same k k' c.
Proof.
  intros W E L. split.
  - now apply (ex_mro _ _ E).
  - intros a. now apply extends_getattr.
  - intros a. unfold hasattr. rewrite (extends_getattr k k' c a), (extends_desc k k' c); easy.
  - now apply (ex_form _ _ E).
  - unfold name_of. now rewrite (extends_getattr k k' c).
  - intros. now apply extends_sees.
Qed.
Lemma extends_inst k k' i key : kwf k -> extends k k' -> w_cls (k_props k) i < k_next k ->
  inst_sees (k_props k') i key = inst_sees (k_props k) i key.
Proof.
  intros W E L. destruct (ex_local _ _ E i) as (A & B). unfold inst_sees. rewrite A, B, (ex_cls _ _ E).
  now rewrite (extends_sees k k' _ key W E L).
Qed.
(* names of existing classes stay *)
Lemma name_born k f (n : name) : kwf k -> name_of k f = Ok n -> exists c, f = VClass c /\ c < k_next k.
Proof.
  intros W. destruct f as [| | | |c| | | | | |]; try easy. intros H. exists c. split; [easy|].
  destruct (Nat.lt_ge_cases c (k_next k)) as [L|L]; [easy|]. destruct (kw_unborn _ W c L) as (E & _).
  cbn in H. unfold getattr in H. now rewrite E in H.
Qed.
Lemma extends_name k k' f (n : name) : kwf k -> extends k k' -> name_of k f = Ok n -> name_of k' f = Ok n.
Proof.
  intros W E H. destruct (name_born k f n W H) as (c & -> & L). now rewrite (lk_name _ _ _ (extends_looks k k' c W E L)).
Qed.

(* setattr on a class the older k0 does not have *)
Lemma setattr_wf k c a v : kwf k -> kwf (setattr k c a v).
Proof. intros W. split; apply W. Qed.
Lemma setattr_extends k0 k c a v : extends k0 k -> k_next k0 <= c -> extends k0 (setattr k c a v).
Proof.
  intros E L. split; try apply E. intros b Lb. cbn [setattr set_attrs k_attrs]. rewrite fset_neq by lia. now apply (ex_attrs _ _ E).
Qed.
(* attributes of a class that comes first in its MRO *)
Lemma getattr_head k n r a : mro k n = n :: r -> getattr k n a
  = match aget str_eqb a (k_attrs k n) with
    | Some v => Some (unwrap v)
    | None => option_map unwrap (first_attr (k_attrs k) a r)
    end.
Proof.
  intros E. unfold getattr. rewrite E. cbn [first_attr]. destruct (aget str_eqb a (k_attrs k n)) as [v|].
  - now destruct v.
  - destruct (first_attr (k_attrs k) a r) as [v|]; [now destruct v|easy].
Qed.
Lemma getattr_unwrap k c a : getattr k c a = option_map unwrap (first_attr (k_attrs k) a (mro k c)).
Proof. unfold getattr. destruct (first_attr (k_attrs k) a (mro k c)) as [v|]; [now destruct v|easy]. Qed.

(* attributes as an overlay: n's own over those of c *)
Record overlay k0 c k n (own : list (str * val)) : Prop := Overlay {
  ov_wf : kwf k;
  ov_ext : extends k0 k;
  ov_new : k_next k0 <= n < k_next k;
  ov_mro : mro k n = n :: mro k0 c;
  ov_own : k_attrs k n = own }.
Lemma overlay_get k0 c k n own : kwf k0 -> overlay k0 c k n own -> forall a,
  getattr k n a = match aget str_eqb a own with Some v => Some (unwrap v) | None => getattr k0 c a end.
Proof.
  intros W O a. rewrite (getattr_head k n _ a (ov_mro _ _ _ _ _ O)), (ov_own _ _ _ _ _ O).
  destruct (aget str_eqb a own); [easy|]. rewrite getattr_unwrap. f_equal. apply first_attr_ext. intros b I.
  apply (ex_attrs _ _ (ov_ext _ _ _ _ _ O)). now apply mro_below in I.
Qed.
Lemma overlay_set k0 c k n own a v : overlay k0 c k n own -> overlay k0 c (setattr k n a v) n (aset str_eqb a v own).
Proof.
  intros O. split.
  - apply setattr_wf, O.
  - apply setattr_extends; [apply O|apply (ov_new _ _ _ _ _ O)].
  - apply (ov_new _ _ _ _ _ O).
  - apply (ov_mro _ _ _ _ _ O).
  - cbn [setattr set_attrs k_attrs]. rewrite fset_eq. now rewrite (ov_own _ _ _ _ _ O).
Qed.

(* making classes *)
Lemma sound_world (w w' : world V) : sound w ->
  (forall d c r, addr w' d c = Some r -> addr w d c = Some r) ->
  w_next w <= w_next w' -> w_dict w' = w_dict w -> w_local w' = w_local w -> sound w'.
Proof.
  intros Hs A N D L. split.
  - intros d c d' c' r H H'. now apply (so_inj _ Hs d c d' c' r); apply A.
  - intros d c r H. apply A, (so_lt _ Hs) in H. lia.
  - intros r. rewrite D. apply (so_dict _ Hs).
  - intros i l. rewrite L. apply (so_local _ Hs).
  - intros i l. rewrite L. apply (so_whole _ Hs).
Qed.
Lemma new_class_spec k lin form members : kwf k -> NoDup lin -> (forall b, In b lin -> b < k_next k) ->
  let '(k', n) := new_class k lin form members in
  kwf k' /\ extends k k' /\ n = k_next k /\ k_next k' = S n /\ mro k' n = n :: lin /\ k_attrs k' n = members
  /\ k_form k' n = form /\ w_own (k_props k') n = None /\ (forall d key, mention (k_props k') d n key = None).
Proof.
  intros W N B. cbn [new_class]. set (n := k_next k). set (k' := Classes _ _ _ _ _).
  assert (Ad : forall d c, addr (k_props k') d c = if Nat.eqb c n then None else addr (k_props k) d c).
  { intros d c. unfold addr, k'. cbn. unfold fset. destruct (Nat.eqb_spec c n) as [->|].
    - destruct (kw_unborn _ W n (le_n _)) as (_ & _ & M). now rewrite M.
    - easy. }
  assert (Mn : mro k' n = n :: lin) by (unfold mro, k'; cbn; apply fset_eq).
  assert (Mo : forall c, c <> n -> mro k' c = mro k c) by (intros; unfold mro, k'; cbn; now apply fset_neq).
  assert (Me : forall d c key, c <> n -> mention (k_props k') d c key = mention (k_props k) d c key).
  { intros d c key Ne. unfold mention. rewrite Ad. destruct (Nat.eqb_spec c n); easy. }
  split; [|split; [|split; [easy|split; [easy|split; [easy|split; [|split; [|split]]]]]]].
  - split.
    + apply (sound_world (k_props k)); [apply W| |easy..]. intros d c r. rewrite Ad. now destruct (Nat.eqb c n).
    + intros c L. change (k_next k') with (S n) in *. destruct (Nat.eq_dec c n) as [->|Ne].
      * exists lin. split; [easy|]. split; [constructor; [|easy]|].
        -- intros I. apply B in I. unfold n in I. lia.
        -- intros b I. apply B in I. unfold n. lia.
      * destruct (kw_mro _ W c) as (r & E & N' & B'); [unfold n in *; lia|]. exists r. rewrite (Mo c Ne). split; [easy|].
        split; [easy|]. intros b I. apply B' in I. unfold n. lia.
    + intros c L. change (k_next k') with (S n) in *. assert (Ne : c <> n) by (unfold n in *; lia). rewrite (Mo c Ne).
      destruct (kw_unborn _ W c) as (A1 & A2 & A3); [unfold n in *; lia|]. split; [easy|]. split; [|easy].
      cbn. now rewrite fset_neq.
    + intros d L. destruct (kw_desc _ W d L) as (A1 & A2). split; [|easy]. intros c. cbn. unfold fset. destruct (Nat.eqb c n); [easy|]. apply A1.
  - split; try easy.
    + change (k_next k') with (S n). unfold n. lia.
    + intros c L. apply Mo. unfold n. lia.
    + intros c L. cbn. rewrite fset_neq; [easy|]. unfold n. lia.
    + intros c L. cbn. rewrite fset_neq; [easy|]. unfold n. lia.
    + intros c L. cbn. rewrite fset_neq; [easy|]. unfold n. lia.
    + intros d c key L. apply Me. unfold n. lia.
  - unfold k'. cbn. apply fset_eq.
  - unfold k'. cbn. apply fset_eq.
  - unfold k'. cbn. apply fset_eq.
  - intros d key. unfold mention. now rewrite Ad, Nat.eqb_refl.
Qed.
Lemma set_properties_spec k0 k n l : kwf k -> extends k0 k -> k_next k0 <= n < k_next k ->
  (forall d, w_map (k_props k) d n = None) ->
  let k' := set_properties k n l in
  kwf k' /\ extends k0 k' /\ k_next k' = k_next k /\ (forall c, mro k' c = mro k c) /\ (forall c, k_attrs k' c = k_attrs k c)
  /\ (forall c, k_form k' c = k_form k c)
  /\ (forall r key, mro k n = n :: r -> class_sees (k_props k') n key = last_for key l)
  /\ (forall r, mro k n = n :: r -> desc (k_props k') n = Some (k_desc k)).
Proof.
  intros W E L Mn k'. set (d := k_desc k). set (r := w_next (k_props k)).
  destruct (kw_desc _ W d (le_n _)) as (D1 & D2).
  assert (Ad : forall d' c, addr (k_props k') d' c
    = if Nat.eqb c n then (if Nat.eqb d' d then Some r else None) else if Nat.eqb d' d then None else addr (k_props k) d' c).
  { intros d' c. unfold addr, k', set_properties. cbn. fold d r. unfold fset. destruct (Nat.eqb_spec c n) as [->|Nc].
    - rewrite Mn. rewrite (Nat.eqb_sym d d'). now destruct (Nat.eqb_spec d' d) as [->|].
    - destruct (Nat.eqb_spec d' d) as [->|Nd]; [|easy]. rewrite D2. destruct (w_own (k_props k) c) as [d'|] eqn:O; [|easy].
      destruct (Nat.eqb_spec d' d) as [->|]; [|easy]. now apply D1 in O. }
  assert (Kd : kwf k').
  { split.
    - assert (Hs := kw_sound _ W). split.
      + intros d1 c1 d2 c2 r'. rewrite !Ad. destruct (Nat.eqb_spec c1 n) as [->|N1], (Nat.eqb_spec c2 n) as [->|N2],
          (Nat.eqb_spec d1 d) as [->|M1], (Nat.eqb_spec d2 d) as [->|M2]; try easy.
        * intros [= <-] H. apply (so_lt _ Hs) in H. unfold r in H. lia.
        * intros H [= <-]. apply (so_lt _ Hs) in H. unfold r in H. lia.
        * apply (so_inj _ Hs).
      + intros d1 c1 r'. rewrite Ad. change (w_next (k_props k')) with (S r).
        destruct (Nat.eqb c1 n), (Nat.eqb d1 d); try easy.
        * intros [= <-]. lia.
        * intros H. apply (so_lt _ Hs) in H. unfold r. lia.
      + intros r'. cbn. fold r. unfold fset. destruct (Nat.eqb r' r); [apply d_update_nodup; constructor|apply (so_dict _ Hs)].
      + apply (so_local _ Hs).
      + apply (so_whole _ Hs).
    - apply (kw_mro _ W).
    - intros c Lc. change (k_next k') with (k_next k) in *. destruct (kw_unborn _ W c Lc) as (A1 & A2 & A3).
      split; [easy|]. split; [|easy]. cbn. rewrite fset_neq; [easy|]. lia.
    - intros d' Ld. change (k_desc k') with (S d) in *. destruct (kw_desc _ W d') as (A1 & A2); [unfold d in *; lia|].
      split; [|easy]. intros c. cbn. fold d. unfold fset. destruct (Nat.eqb c n); [|apply A1]. intros [= ->]. lia. }
  assert (Ex : extends k0 k').
  { split; try apply E.
    - intros c Lc. cbn. rewrite fset_neq by lia. now apply (ex_own _ _ E).
    - intros d' c key Lc. rewrite <- (ex_says _ _ E d' c key Lc). unfold mention. rewrite Ad.
      destruct (Nat.eqb_spec c n) as [->|Nc]; [lia|]. destruct (Nat.eqb_spec d' d) as [->|Nd].
      + unfold addr. rewrite D2. destruct (w_own (k_props k) c) as [d'|] eqn:O; [|easy].
        destruct (Nat.eqb_spec d' d) as [->|]; [|easy]. now apply D1 in O.
      + destruct (addr (k_props k) d' c) as [r'|] eqn:A; [|easy]. cbn. fold r. rewrite fset_neq; [easy|].
        apply (so_lt _ (kw_sound _ W)) in A. unfold r. lia. }
  split; [exact Kd|]. split; [exact Ex|]. repeat (split; [easy|]). split.
  - intros rr key M. unfold class_sees. rewrite desc_list. change (mro k' n) with (mro k n). rewrite M. cbn [find_desc].
    change (w_own (k_props k') n) with (fset (w_own (k_props k)) n (Some d) n). rewrite fset_eq.
    rewrite says_eq. change (mro k' n) with (mro k n). rewrite M, upto_cons.
    change (w_own (k_props k') n) with (fset (w_own (k_props k)) n (Some d) n). rewrite fset_eq, Nat.eqb_refl. cbn [first_some].
    unfold mention. rewrite Ad, !Nat.eqb_refl. cbn. fold r. rewrite fset_eq, d_update_get. now destruct (last_for key l).
  - intros rr M. rewrite desc_list. change (mro k' n) with (mro k n). rewrite M. cbn [find_desc].
    change (w_own (k_props k') n) with (fset (w_own (k_props k)) n (Some d) n). now rewrite fset_eq.
Qed.
End P.
