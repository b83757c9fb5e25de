(* Class statements. *)
From Verif Require Import PyBase PyBaseFacts PyList ModelUtil ModelSeq ModelProps SpecProps ProofMap ProofProps ProofProps2 ModelDsl SpecDsl ProofDsl ProofDsl2 ProofDsl3 ProofDsl4 ProofDsl5.

Section P.
Context {V : Type}.
Notation kd := (classes V).
Notation val := (value V).
Implicit Types (k : kd).
Notation nget := (aget name_eqb).

Lemma along_first k lin a : along k lin a = option_map unwrap (first_attr (k_attrs k) a lin).
Proof. unfold along. f_equal. induction lin as [|b l IH]; [easy|]. cbn [first_some first_attr]. now rewrite IH. Qed.
Lemma first_some_desc (own : nat -> option nat) l : first_some own l = find_desc own l.
Proof. induction l as [|b l IH]; [easy|]. cbn. now rewrite IH. Qed.
Lemma upto_in (own : nat -> option nat) d l b : In b (upto own d l) -> In b l.
Proof.
  induction l as [|x r IH]; [easy|]. cbn [upto]. intros [->|I]; [now left|]. right. apply IH.
  destruct (own x) as [d'|]; [|easy]. now destruct (Nat.eqb d' d).
Qed.
(* making the class itself *)
Lemma finish_spec k0 k lin form members props : kwf k -> extends k0 k -> NoDup lin -> (forall b, In b lin -> b < k_next k0) ->
  let '(k1, n) := new_class k lin form members in
  declared_class k0 lin (fun a => aget str_eqb a members) props (match props with Some l => set_properties k1 n l | None => k1 end) n form.
Proof.
  intros W E Nl Ll. assert (Ll' : forall b, In b lin -> b < k_next k). { intros b I. pose proof (ex_next _ _ E). specialize (Ll b I). lia. }
  pose proof (new_class_spec k lin form members W Nl Ll') as S. unfold new_class in *.
  set (n := k_next k) in *. set (k1 := Classes _ _ _ _ _) in *. destruct S as (S1 & S2 & _ & S4 & S5 & S6 & S7 & S8 & S9).
  assert (E1 : extends k0 k1) by (eapply extends_trans; eauto). pose proof (ex_next _ _ E) as Nx.
  assert (Lt : k_next k0 <= n < k_next k1) by (unfold n; rewrite S4; unfold n; lia).
  assert (At : forall a, getattr k1 n a = match aget str_eqb a members with Some v => Some (unwrap v) | None => along k0 lin a end).
  { intros a. rewrite (getattr_head k1 n lin a S5), S6, along_first. destruct (aget str_eqb a members); [easy|]. f_equal.
    apply first_attr_ext. intros c I. apply (ex_attrs _ _ E1). now apply Ll. }
  destruct props as [l|].
  - assert (Fm : forall d, w_map (k_props k1) d n = None).
    { intros d. unfold k1. cbn [k_props w_map]. apply (kw_unborn _ W n). unfold n. lia. }
    destruct (set_properties_spec k0 k1 n l S1 E1 Lt Fm) as (A1 & A2 & A3 & A4 & A5 & A6 & A7 & A8). split; try easy.
    intros key. now apply (A7 lin).
  - split; try easy. intros key. unfold class_sees, sees_along. rewrite desc_list, S5. cbn [find_desc]. rewrite S8, first_some_desc.
    rewrite (find_desc_ext (w_own (k_props k1)) (w_own (k_props k0)) lin).
    2: { intros c I. apply (ex_own _ _ E1). now apply Ll. }
    destruct (find_desc (w_own (k_props k0)) lin) as [d|]; [|easy]. rewrite says_eq, S5. cbn [upto first_some]. rewrite S9, S8. f_equal.
    rewrite (upto_ext (w_own (k_props k1)) (w_own (k_props k0)) d lin).
    2: { intros c I. apply (ex_own _ _ E1). now apply Ll. }
    apply first_some_ext. intros b I. apply (ex_says _ _ E1). apply Ll. now apply upto_in in I.
Qed.

Variable text_of : val -> str.
Notation call := (call text_of).
Notation declared := (declared text_of).
Notation declare := (declare text_of).

Lemma linearise_later k k' bases : kwf k -> extends k k' -> (forall b, In b bases -> b < k_next k) -> linearise k' bases = linearise k bases.
Proof.
  intros W E L. unfold linearise. replace (map (mro k') bases) with (map (mro k) bases); [easy|].
  apply map_ext_in. intros b I. symmetry. apply (ex_mro _ _ E). now apply L.
Qed.
Lemma declared_kept members : forall k, kwf k -> kwf (fst (declared k members)) /\ extends k (fst (declared k members)).
Proof.
  induction members as [|(a, v) members IH]; intros k W; [split; [easy|apply extends_refl]|]. cbn [ModelDsl.declared].
  destruct (is_element_class k v) eqn:El.
  - destruct (name_of k v) as [x|]; [|split; [easy|apply extends_refl]]. destruct (name_eqb (Some a) x).
    + destruct (IH k W) as (A & B). now destruct (declared k members).
    + destruct v; try (split; [easy|apply extends_refl]). destruct (call_kept text_of k c (lit "named") (AOne (VText a)) W) as (A & B & _).
      destruct (call k c (lit "named") (AOne (VText a))) as (k1, [n|]); cbn [rmap bind fst] in *; [|easy].
      destruct (IH k1 A) as (A' & B'). destruct (declared k1 members) as (k2, r). cbn [fst] in *. split; [easy|]. eapply extends_trans; eauto.
  - destruct (IH k W) as (A & B). now destruct (declared k members).
Qed.
Lemma declare_kept k bases members props : kwf k -> (forall b, In b bases -> b < k_next k) -> kept k (declare k bases members props).
Proof.
  intros W L. assert (Fin : forall k1 mem form, kwf k1 -> extends k k1 ->
    kept k (match linearise k1 bases with
            | Err x => (k1, Err x)
            | Ok lin => let '(k2, n) := new_class k1 lin form mem in (match props with Some l => set_properties k2 n l | None => k2 end, Ok n)
            end)).
  { intros k1 mem form W1 E1. rewrite (linearise_later k k1) by easy. destruct (linearise k bases) as [lin|] eqn:Li.
    - destruct (linearise_ok k bases lin W L Li) as (Nl & Il).
      assert (Ll : forall b, In b lin -> b < k_next k). { intros b I. apply Il in I as (c & I & J). now apply (mro_below k c b W). }
      pose proof (finish_spec k k1 lin form mem props W1 E1 Nl Ll) as S. destruct (new_class k1 lin form mem) as (k2, n).
      destruct S. split; [easy|]. split; [easy|]. intros n' [= <-]. easy.
    - easy. }
  unfold ModelDsl.declare. destruct (existsb (k_form k) bases); [|apply Fin; [easy|apply extends_refl]].
  destruct (base_fields k bases []); [|split; [easy|]; split; [apply extends_refl|easy]].
  destruct (bind _ _); [|split; [easy|]; split; [apply extends_refl|easy]].
  pose proof (declared_kept members k W) as (A & B). destruct (declared k members) as (k1, [(fields, rest)|]); [|easy].
  cbn [fst] in *. destruct (add_and_overwrite k1 fields a0); [|easy]. now apply Fin.
Qed.

(* histories *)
Lemma kstep_kept k o : kwf k -> proper_op k o -> kept k (kstep text_of k o).
Proof. intros W P. destruct o; cbn [kstep]; [now apply call_kept|now apply declare_kept]. Qed.
Lemma run_k_kept os : forall k, kwf k -> proper_ops text_of k os -> kwf (run_k text_of k os) /\ extends k (run_k text_of k os).
Proof.
  induction os as [|o os IH]; intros k W P; [split; [easy|apply extends_refl]|]. destruct P as (P & Q).
  unfold run_k. cbn [fold_left]. destruct (kstep_kept k o W P) as (A & B & _). destruct (IH _ A Q) as (A' & B'). split; [easy|].
  eapply extends_trans; eauto.
Qed.

(* a class that is not a Form *)
Lemma plain_declare k bases members props lin : kwf k -> declarable k bases members -> existsb (k_form k) bases = false ->
  linearise k bases = Ok lin ->
  exists k' n, declare k bases members props = (k', Ok n)
  /\ declared_class k lin (fun a => aget str_eqb a members) props k' n false.
Proof.
  intros W D F Li. destruct (linearise_ok k bases lin W (db_bases _ _ _ D) Li) as (Nl & Il).
  assert (Ll : forall b, In b lin -> b < k_next k). { intros b I. apply Il in I as (c & I & J). now apply (mro_below k c b W). }
  unfold ModelDsl.declare. rewrite F, Li. pose proof (finish_spec k k lin false members props W (extends_refl k) Nl Ll) as S.
  destruct (new_class k lin false members) as (k2, n). now exists (match props with Some l => set_properties k2 n l | None => k2 end), n.
Qed.

(* existence *)
Lemma overwrite_ok k fs : forall c ns, names_of k fs = Ok ns -> exists c', add_and_overwrite k fs c = Ok c'.
Proof.
  induction fs as [|f fs IH]; intros c ns H; [eexists; reflexivity|]. cbn [names_of] in H. cbn [add_and_overwrite].
  destruct (name_of k f) as [n|]; [|easy]. cbn [bind] in *. destruct (names_of k fs) as [ns'|]; [|easy]. now apply (IH _ ns').
Qed.
Lemma unseen_ok k fs : forall c ns, names_of k fs = Ok ns -> exists c', add_unseen k fs c = Ok c'.
Proof.
  induction fs as [|f fs IH]; intros c ns H; [eexists; reflexivity|]. cbn [names_of] in H. cbn [add_unseen].
  destruct (name_of k f) as [n|]; [|easy]. cbn [bind] in *. destruct (names_of k fs) as [ns'|]; [|easy]. now apply (IH _ ns').
Qed.
Lemma bases_ok k bases : forall c,
  (forall b, In b bases -> exists l ns, seq_items (getattr k b (lit "field_schema")) = Some l /\ names_of k l = Ok ns) ->
  exists c', base_fields k bases c = Ok c'.
Proof.
  induction bases as [|b bases IH]; intros c H; [eexists; reflexivity|]. cbn [base_fields].
  destruct (H b) as (l & ns & A & B); [now left|].
  assert (Q : match getattr k b (lit "field_schema") with Some v => iterate v | None => Ok [] end = Ok l).
  { destruct (getattr k b (lit "field_schema")) as [[]|]; try easy; cbn in A |- *; congruence. }
  rewrite Q. cbn [bind]. destruct (unseen_ok k l c ns B) as (c1 & ->). cbn [bind]. apply IH. intros b' I. apply H. now right.
Qed.

(* the members that become fields *)
Lemma name_wrapped (x : val) : match unwrap x with VText s => Ok (Some s) | _ => Ok None end
  = @Ok name (match unwrap x with VText s => Some s | _ => None end).
Proof. now destruct (unwrap x). Qed.
Lemma derived_name k c k' n a : derived k c k' n [(lit "name", VText a)] -> name_of k' (VClass n) = Ok (Some a).
Proof. intros D. cbn [name_of]. now rewrite (dv_changes _ _ _ _ _ D (lit "name") (VText a)). Qed.
Lemma own_field_name k c a k' f : kwf k -> extends k k' -> own_field k c (Some a) k' f -> name_of k' (VClass f) = Ok (Some a).
Proof.
  intros W E. unfold own_field. destruct (named_so k (Some a) (VClass c)) eqn:N.
  - intros ->. unfold named_so in N. destruct (name_of k (VClass c)) as [x|] eqn:Nx; [|easy].
    destruct (name_eqb_spec x (Some a)) as [->|]; [|easy]. now apply (extends_name k).
  - intros (D & _). now apply (derived_name k c).
Qed.
Lemma same_props_later k c k1 n k2 : kwf k1 -> same_props k c k1 n -> n < k_next k1 -> extends k1 k2 -> same_props k c k2 n.
Proof. intros W S L E key. rewrite (extends_sees k1 k2 n key W E L). apply S. Qed.
Lemma own_field_later k c a k1 f k2 : kwf k1 -> own_field k c (Some a) k1 f -> extends k1 k2 -> own_field k c (Some a) k2 f.
Proof.
  intros W O E. unfold own_field in *. destruct (named_so k (Some a) (VClass c)); [easy|]. destruct O as (D & S).
  split; [now apply (derived_later k c k1)|]. apply (same_props_later k c k1); try easy. apply (dv_fresh _ _ _ _ _ D).
Qed.
Lemma own_field_earlier k c a k0 k1 f : kwf k -> extends k k0 -> c < k_next k ->
  (name_of k (VClass c) <> Ok (Some a) -> copyable k c) -> (exists x, name_of k (VClass c) = Ok x) ->
  own_field k0 c (Some a) k1 f -> own_field k c (Some a) k1 f.
Proof.
  intros W E L Cp (x & Nx) O. unfold own_field in *. unfold named_so in *. rewrite (extends_name k k0 _ x W E Nx) in O. rewrite Nx in *.
  destruct (name_eqb_spec x (Some a)) as [->|Ne]; [easy|]. destruct O as (D & S). split.
  - apply (derived_earlier k c k0 k1); try easy. apply Cp. congruence.
  - intros key. rewrite (S key). now apply extends_sees.
Qed.
Definition is_el k (p : str * val) : bool := is_element_class k (snd p).
(* fields, in the order of the members *)
Lemma declared_spec members : forall k, kwf k -> (forall a c, In (a, VClass c) members -> c < k_next k) ->
  (forall a c, In (a, VClass c) members -> is_element_class k (VClass c) = true ->
     exists x, name_of k (VClass c) = Ok x /\ (x = Some a \/ copyable k c /\ getattr k c (lit "named") = Some (VCloner MNamed))) ->
  exists k' fields, declared k members = (k', Ok (fields, filter (fun p => negb (is_el k p)) members)) /\ kwf k' /\ extends k k'
  /\ Forall2 (fun p f => exists c f', snd p = VClass c /\ f = VClass f' /\ own_field k c (Some (fst p)) k' f')
             (filter (is_el k) members) fields.
Proof.
  induction members as [|(a, v) members IH]; intros k W B H.
  - exists k, []. split; [easy|]. split; [easy|]. split; [apply extends_refl|constructor].
  - assert (B' : forall a c, In (a, VClass c) members -> c < k_next k) by (intros a' c' I; apply (B a' c'); now right).
    assert (H' : forall a c, In (a, VClass c) members -> is_element_class k (VClass c) = true ->
      exists x, name_of k (VClass c) = Ok x /\ (x = Some a \/ copyable k c /\ getattr k c (lit "named") = Some (VCloner MNamed)))
      by (intros a' c' I; apply H; now right).
    assert (Ext : forall k1, kwf k1 -> extends k k1 ->
      exists k' fields, declared k1 members = (k', Ok (fields, filter (fun p => negb (is_el k p)) members)) /\ kwf k' /\ extends k1 k'
      /\ Forall2 (fun p f => exists c f', snd p = VClass c /\ f = VClass f' /\ own_field k c (Some (fst p)) k' f')
             (filter (is_el k) members) fields).
    { intros k1 W1 E1. assert (El : forall p, In p members -> is_el k1 p = is_el k p).
      { intros (a', v') I. unfold is_el. cbn [snd]. destruct v'; try easy. cbn [is_element_class]. rewrite (ex_mro _ _ E1); [easy|]. now apply (B' a'). }
      destruct (IH k1 W1) as (k' & fields & A1 & A2 & A3 & A4).
      - intros a' c' I. pose proof (ex_next _ _ E1). specialize (B' a' c' I). lia.
      - intros a' c' I Ic. assert (Ic' : is_element_class k (VClass c') = true) by (change (is_el k (a', VClass c') = true); rewrite <- (El _ I); exact Ic).
        destruct (H' a' c' I Ic') as (x & Nx & Hx). exists x. split; [now apply (extends_name k)|].
        destruct Hx as [Hx|(C & G)]; [now left|right]. split.
        + intros F. rewrite (ex_form _ _ E1) in F by now apply (B' a'). destruct (C F) as (l & ns & S1 & S2). exists l, ns.
          rewrite (extends_getattr k k1) by (try easy; now apply (B' a')). split; [easy|]. now apply (extends_names k).
        + rewrite (extends_getattr k k1); try easy. now apply (B' a').
      - exists k', fields. rewrite A1. split; [|split; [easy|split; [easy|]]].
        + f_equal. f_equal. f_equal. apply filter_ext_in. intros p I. now rewrite El.
        + rewrite (filter_ext_in (is_el k) (is_el k1)) by (intros p I; symmetry; now apply El).
          assert (I' : forall p, In p (filter (is_el k1) members) -> In p members /\ is_el k1 p = true) by (intros p I; now apply filter_In).
          revert A4 I'. generalize (filter (is_el k1) members). clear - W E1 B' H' W1 El. intros l F. induction F as [|p f l fs Hp F IHF]; intros I'; [constructor|].
          constructor; [|apply IHF; intros q I; apply I'; now right].
          destruct Hp as (c & f' & P1 & P2 & P3). exists c, f'. split; [easy|]. split; [easy|].
          destruct p as (a', v'). cbn [fst snd] in *. subst v'. destruct (I' (a', VClass c)) as (I & Ie); [now left|].
          rewrite El in Ie by easy. unfold is_el in Ie. cbn [snd] in Ie.
          destruct (H' a' c I Ie) as (x & Nx & Hx). apply (own_field_earlier k c a' k1); try easy.
          * now apply (B' a').
          * intros Ne. destruct Hx as [->|(C & _)]; [easy|exact C].
          * now exists x. }
    cbn [ModelDsl.declared filter]. replace (is_el k (a, v)) with (is_element_class k v) by easy.
    destruct (is_element_class k v) eqn:El; cbn [negb].
    + destruct v as [| | | |c| | | | | |]; try easy. destruct (H a c) as (x & Nx & Hx); [now left|easy|]. rewrite Nx.
      destruct (name_eqb_spec (Some a) x) as [<-|Ne].
      * destruct (Ext k W (extends_refl k)) as (k' & fields & A1 & A2 & A3 & A4). exists k', (VClass c :: fields). rewrite A1.
        split; [easy|]. split; [easy|]. split; [easy|]. constructor; [|easy]. exists c, c. split; [easy|]. split; [easy|].
        cbn [fst own_field]. unfold named_so. rewrite Nx. now destruct (name_eqb_spec (Some a) (Some a)).
      * destruct Hx as [->|(C & G)]; [easy|].
        destruct (named_call text_of k c (lit "named") (VText a) W C G) as (k1 & n & E & W1 & E1 & D & S).
        rewrite E. cbn [rmap bind]. destruct (Ext k1 W1 E1) as (k' & fields & A1 & A2 & A3 & A4). exists k', (VClass n :: fields). rewrite A1.
        split; [easy|]. split; [easy|]. split; [eapply extends_trans; eauto|]. constructor; [|easy]. exists c, n. split; [easy|]. split; [easy|].
        cbn [fst]. apply (own_field_later k c a k1); try easy. cbn [own_field]. unfold named_so. rewrite Nx.
        destruct (name_eqb_spec x (Some a)) as [->|]; [easy|]. easy.
    + destruct (Ext k W (extends_refl k)) as (k' & fields & A1 & A2 & A3 & A4). exists k', fields. rewrite A1. easy.
Qed.
End P.
