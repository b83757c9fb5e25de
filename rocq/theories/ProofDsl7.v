(* Declaring a Form. *)
From Verif Require Import PyBase PyBaseFacts PyList ModelUtil ModelSeq ModelProps SpecProps ProofMap ProofProps ProofProps2 ModelDsl SpecDsl ProofDsl ProofDsl2 ProofDsl3 ProofDsl4 ProofDsl5 ProofDsl6.

Section P.
Context {V : Type}.
Notation kd := (classes V).
Notation val := (value V).
Implicit Types (k : kd).
Notation nget := (aget name_eqb).
Variable text_of : val -> str.
Notation declare := (declare text_of).

Lemma aget_filter (f : str * val -> bool) a l : NoDup (keys l) ->
  aget str_eqb a (filter f l) = match aget str_eqb a l with Some v => if f (a, v) then Some v else None | None => None end.
Proof.
  induction l as [|(a', v) l IH]; intros N; [easy|]. inversion N as [|? ? N1 N2]; subst. cbn [filter aget].
  destruct (str_eqb_spec a a') as [->|Ne].
  - destruct (f (a', v)) eqn:E; [cbn [aget]; now rewrite str_eqb_refl|]. rewrite (IH N2).
    replace (aget str_eqb a' l) with (@None val); [easy|]. symmetry. now apply (aget_None str_eqb str_eqb_eq).
  - rewrite <- (IH N2). destruct (f (a', v)); [|easy]. cbn [aget]. destruct (str_eqb_spec a a'); easy.
Qed.
Lemma keys_filter (f : str * val -> bool) l : NoDup (keys l) -> NoDup (keys (filter f l)).
Proof.
  induction l as [|p l IH]; intros N; [easy|]. inversion N as [|? ? N1 N2]; subst. cbn [filter]. destruct (f p); [|now apply IH].
  constructor; [|now apply IH]. intros I. apply N1. unfold keys in *. apply in_map_iff in I as (q & <- & I). apply in_map. now apply filter_In in I.
Qed.
Definition is_own k k' (p : str * val) (f : val) : Prop :=
  exists c f', snd p = VClass c /\ f = VClass f' /\ own_field k c (Some (fst p)) k' f'.
Lemma own_named k k' (p : str * val) f x : kwf k -> extends k k' -> is_own k k' p f -> named_so k' x f = name_eqb x (Some (fst p)).
Proof.
  intros W E (c & f' & _ & -> & O). apply named_so_ok. now apply (own_field_name k c).
Qed.
Lemma last_own k k' l fields : kwf k -> extends k k' -> Forall2 (is_own k k') l fields -> NoDup (keys l) -> forall x,
  match match x with Some a => aget str_eqb a l | None => None end with
  | Some v => exists c f, v = VClass c /\ last_named k' x fields = Some (VClass f) /\ own_field k c x k' f
  | None => last_named k' x fields = None
  end.
Proof.
  intros W E F N x. induction F as [|p f l fields Hp F IH]; [now destruct x|]. inversion N as [|? ? N1 N2]; subst.
  specialize (IH N2). rewrite last_named_cons, (own_named k k' p f x W E Hp). destruct Hp as (c & f' & P1 & -> & P3).
  destruct p as (a', v). cbn [fst snd] in *. subst v. destruct x as [a|].
  - cbn [aget]. destruct (str_eqb_spec a a') as [->|Ne].
    + assert (G : aget str_eqb a' l = None) by now apply (aget_None str_eqb str_eqb_eq). rewrite G in IH. rewrite IH.
      exists c, f'. split; [easy|]. split; [|easy]. now destruct (name_eqb_spec (Some a') (Some a')).
    + destruct (aget str_eqb a l).
      * destruct IH as (c0 & f0 & A & B & C). exists c0, f0. rewrite B. easy.
      * rewrite IH. destruct (name_eqb_spec (Some a) (Some a')); congruence.
  - rewrite IH. now destruct (name_eqb_spec None (Some a')).
Qed.
Lemma own_member_filter k members x : NoDup (keys members) ->
  match x with Some a => aget str_eqb a (filter (is_el k) members) | None => None end
  = option_map VClass (own_member k members x).
Proof.
  intros N. destruct x as [a|]; [|easy]. rewrite aget_filter by easy. unfold own_member. destruct (aget str_eqb a members) as [v|]; [|easy].
  unfold is_el. cbn [snd]. destruct v; try easy. cbn [is_element_class]. now destruct (memb Nat.eqb element_class (mro k c)).
Qed.
Lemma coll_later k k' c : kwf k -> extends k k' -> coll_ok k c -> coll_ok k' c.
Proof. intros W E (A & B). split; [easy|]. intros n f I. apply (extends_name k); try easy. now apply B. Qed.
Lemma fields_named k k' l fields : kwf k -> extends k k' -> Forall2 (is_own k k') l fields -> exists ns, names_of k' fields = Ok ns.
Proof.
  intros W E F. induction F as [|p f l fields Hp F IH]; [eexists; reflexivity|]. cbn [names_of]. destruct IH as (ns & ->).
  destruct Hp as (c & f' & _ & -> & O). rewrite (own_field_name k c (fst p) k' f' W E O). eexists. reflexivity.
Qed.
Lemma form_declare k bases members props lin : kwf k -> declarable k bases members -> form_declarable k bases members ->
  existsb (k_form k) bases = true -> linearise k bases = Ok lin ->
  exists k' n fs, declare k bases members props = (k', Ok n)
  /\ declared_class k lin (form_attrs k members fs) props k' n true
  /\ form_fields k bases members k' fs.
Proof.
  intros W D FD F Li. destruct (linearise_ok k bases lin W (db_bases _ _ _ D) Li) as (Nl & Il).
  assert (Ll : forall b, In b lin -> b < k_next k). { intros b I. apply Il in I as (c & I & J). now apply (mro_below k c b W). }
  unfold ModelDsl.declare. rewrite F.
  destruct (bases_ok k bases [] (fd_base _ _ _ FD)) as (c1 & B1). rewrite B1.
  assert (C0 : coll_ok k []) by (split; [constructor|easy]).
  destruct (base_fields_spec k bases [] C0 c1 B1) as (C1 & _ & G1).
  destruct (fd_own _ _ _ FD) as (l & ns & Q1 & Q2).
  assert (Q3 : match aget str_eqb (lit "field_schema") members with Some v => iterate v | None => Ok [] end = Ok l).
  { destruct (aget str_eqb (lit "field_schema") members) as [[]|]; try easy; cbn in Q1 |- *; congruence. }
  rewrite Q3. cbn [bind]. destruct (overwrite_ok k l c1 ns Q2) as (c2 & B2). rewrite B2.
  destruct (overwrite_spec k l c1 C1 c2 B2) as (C2 & _ & G2).
  assert (Hm : forall a c, In (a, VClass c) members -> is_element_class k (VClass c) = true ->
     exists x, name_of k (VClass c) = Ok x /\ (x = Some a \/ copyable k c /\ getattr k c (lit "named") = Some (VCloner MNamed))).
  { intros a c I E. apply (fd_members _ _ _ FD a c). unfold own_member.
    rewrite (In_aget str_eqb str_eqb_eq a (VClass c) members (db_once _ _ _ D) I). cbn [is_element_class] in E. now rewrite E. }
  destruct (declared_spec text_of members k W (db_born _ _ _ D) Hm) as (k1 & fields & A1 & W1 & E1 & Fo). rewrite A1.
  change (Forall2 (is_own k k1) (filter (is_el k) members) fields) in Fo.
  destruct (fields_named k k1 _ fields W E1 Fo) as (ns' & Nf). destruct (overwrite_ok k1 fields c2 ns' Nf) as (c3 & B3). rewrite B3.
  destruct (overwrite_spec k1 fields c2 (coll_later k k1 c2 W E1 C2) c3 B3) as (C3 & _ & G3).
  rewrite (linearise_later k k1 bases W E1 (db_bases _ _ _ D)), Li.
  set (rest := filter _ members). set (mem := aset _ _ _ rest).
  assert (Ll1 : forall b, In b lin -> b < k_next k1). { intros b I. pose proof (ex_next _ _ E1). specialize (Ll b I). lia. }
  pose proof (finish_spec k k1 lin true mem props W1 E1 Nl Ll) as S.
  pose proof (finish_spec k1 k1 lin true mem props W1 (extends_refl k1) Nl Ll1) as S'.
  destruct (new_class k1 lin true mem) as (k2, n). set (k' := match props with Some l => set_properties k2 n l | None => k2 end) in *.
  assert (E' := dc_ext _ _ _ _ _ _ _ S').
  exists k', n, (map snd c3). split; [easy|]. split.
  - destruct S as [S1 S2 S3 S4 S5 S6 S7]. split; try easy. intros a. rewrite S6. unfold form_attrs, mem.
    destruct (str_eqb_spec a (lit "field_schema")) as [->|Ne]; [now rewrite (aget_aset_eq str_eqb str_eqb_eq)|].
    rewrite (aget_aset_neq str_eqb str_eqb_eq) by easy. unfold rest. rewrite aget_filter by apply D.
    unfold own_member. destruct (aget str_eqb a members) as [v|]; [|easy]. unfold is_el. cbn [snd].
    destruct v; try easy. cbn [is_element_class]. now destruct (memb Nat.eqb element_class (mro k c)).
  - exists (fun x => nget x c3). split; [apply coll_one_each; now apply (coll_later k1)|]. intros x. rewrite G3.
    pose proof (last_own k k1 _ fields W E1 Fo (keys_filter _ _ (db_once _ _ _ D)) x) as Lo.
    rewrite (own_member_filter k members x (db_once _ _ _ D)) in Lo. destruct (own_member k members x) as [c|] eqn:Om; cbn [option_map] in Lo.
    + destruct Lo as (c0 & f & [= <-] & -> & O). exists f. split; [easy|]. destruct x as [a|]; [|easy]. now apply (own_field_later k c a k1).
    + rewrite Lo, G2, G1. unfold field_schema_of. rewrite Q1. now destruct (last_named k x l).
Qed.
End P.
