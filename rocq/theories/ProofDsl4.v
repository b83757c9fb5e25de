(* using, with_properties, and every call: nothing that existed changes. *)
From Verif Require Import PyBase PyBaseFacts PyList ModelUtil ModelSeq ModelProps SpecProps ProofMap ProofProps ProofProps2 ModelDsl SpecDsl ProofDsl ProofDsl2 ProofDsl3.

Section P.
Context {V : Type}.
Notation kd := (classes V).
Notation val := (value V).
Implicit Types (k : kd) (a : str) (v : val).

(* one setting *)
Definition wrap v : val := if callable v then VStatic v else v.
Definition put k n a v : kd := if str_eqb a (lit "properties") then match v with VDict d => set_properties k n d | _ => k end
                               else setattr k n a (wrap v).
Lemma set_all_cons k n a v l : set_all k n ((a, v) :: l) = if hasattr k n a then set_all (put k n a v) n l else (k, Err TypeErr).
Proof. easy. Qed.
Lemma unwrap_wrap v : unwrap (wrap v) = unwrap v.
Proof. now destruct v. Qed.
Definition fresh_maps k n : Prop := forall d, w_map (k_props k) d n = None.
Lemma put_map k n a v : fresh_maps k n -> fresh_maps (put k n a v) n.
Proof. intros F. unfold put. destruct (str_eqb a (lit "properties")); [destruct v|]; easy. Qed.
Lemma put_next k n a v : k_next (put k n a v) = k_next k.
Proof. unfold put. destruct (str_eqb a (lit "properties")); [destruct v|]; easy. Qed.
Lemma put_mro k n a v c : mro (put k n a v) c = mro k c.
Proof. unfold put. destruct (str_eqb a (lit "properties")); [destruct v|]; easy. Qed.
Lemma put_form k n a v c : k_form (put k n a v) c = k_form k c.
Proof. unfold put. destruct (str_eqb a (lit "properties")); [destruct v|]; easy. Qed.
Lemma put_ok k0 k n a v : kwf k -> extends k0 k -> k_next k0 <= n < k_next k -> fresh_maps k n ->
  kwf (put k n a v) /\ extends k0 (put k n a v).
Proof.
  intros W E L F. unfold put. destruct (str_eqb a (lit "properties")).
  - destruct v; try easy. destruct (set_properties_spec k0 k n l W E L F) as (A & B & _). easy.
  - split; [now apply setattr_wf|]. now apply setattr_extends.
Qed.
Lemma put_own k n a v : k_attrs (put k n a v) n = if str_eqb a (lit "properties") then k_attrs k n else aset str_eqb a (wrap v) (k_attrs k n).
Proof.
  unfold put. destruct (str_eqb a (lit "properties")); [now destruct v|]. cbn [setattr set_attrs k_attrs]. apply fset_eq.
Qed.
Lemma put_attrs k n a v c : c <> n -> k_attrs (put k n a v) c = k_attrs k c.
Proof.
  intros Ne. unfold put. destruct (str_eqb a (lit "properties")); [now destruct v|]. cbn [setattr set_attrs k_attrs]. now apply fset_neq.
Qed.
Lemma put_overlay k0 c k n own a v : overlay k0 c k n own -> fresh_maps k n ->
  overlay k0 c (put k n a v) n (if str_eqb a (lit "properties") then own else aset str_eqb a (wrap v) own).
Proof.
  intros O F. destruct (put_ok k0 k n a v) as (A & B); try apply O; [easy|]. split; [easy|easy| | |].
  - rewrite put_next. apply O.
  - rewrite put_mro. apply O.
  - rewrite put_own. now rewrite (ov_own _ _ _ _ _ O).
Qed.
(* what others of the class's attributes are not affected *)
Lemma put_hasattr k n a v a' : a' <> a -> mro k n <> [] -> hasattr (put k n a v) n a' = hasattr k n a'.
Proof.
  intros Ne Hm. unfold hasattr, getattr. rewrite put_mro. destruct (str_eqb_spec a' (lit "properties")) as [->|N'].
  - unfold put. destruct (str_eqb_spec a (lit "properties")) as [->|]; [easy|]. easy.
  - assert (E : forall l, first_attr (k_attrs (put k n a v)) a' l = first_attr (k_attrs k) a' l).
    { induction l as [|b l IH]; [easy|]. cbn [first_attr]. rewrite IH.
      destruct (Nat.eq_dec b n) as [->|Nb]; [|now rewrite put_attrs].
      rewrite put_own. destruct (str_eqb a (lit "properties")); [easy|].
      now rewrite (aget_aset_neq str_eqb str_eqb_eq). }
    now rewrite E.
Qed.
Lemma set_all_ok k0 n l : forall k, kwf k -> extends k0 k -> k_next k0 <= n < k_next k -> fresh_maps k n ->
  kwf (fst (set_all k n l)) /\ extends k0 (fst (set_all k n l)) /\ k_next (fst (set_all k n l)) = k_next k.
Proof.
  induction l as [|(a, v) l IH]; intros k W E L F; [easy|]. rewrite set_all_cons. destruct (hasattr k n a); [|easy].
  destruct (put_ok k0 k n a v W E L F) as (A & B). destruct (IH (put k n a v) A B) as (C1 & C2 & C3); [now rewrite put_next|now apply put_map|].
  rewrite put_next in C3. easy.
Qed.
Fixpoint last_props (l : list (str * val)) : option (list (str * V)) :=
  match l with
  | [] => None
  | (a, v) :: r => match last_props r with
                   | Some d => Some d
                   | None => if str_eqb a (lit "properties") then match v with VDict d => Some d | _ => None end else None
                   end
  end.
Lemma set_all_spec k0 c n l : forall k own, overlay k0 c k n own -> fresh_maps k n -> NoDup (keys l) ->
  (forall a, In a (keys l) -> hasattr k n a = true) ->
  exists k' own', set_all k n l = (k', Ok tt) /\ overlay k0 c k' n own' /\ k_form k' n = k_form k n
  /\ (forall a, aget str_eqb a own' = match (if str_eqb a (lit "properties") then None else aget str_eqb a l) with
                                      | Some v => Some (wrap v) | None => aget str_eqb a own end)
  /\ forall key, class_sees (k_props k') n key = match last_props l with
                                                 | Some d => last_for key d | None => class_sees (k_props k) n key end.
Proof.
  induction l as [|(a, v) l IH]; intros k own O F N H.
  - exists k, own. split; [easy|]. split; [easy|]. split; [easy|]. split; [|easy]. intros a. now destruct (str_eqb a (lit "properties")).
  - inversion N as [|? ? N1 N2]; subst. rewrite set_all_cons, (H a) by now left.
    assert (Hm : mro k n <> []) by (rewrite (ov_mro _ _ _ _ _ O); easy).
    destruct (IH (put k n a v) _ (put_overlay k0 c k n own a v O F) (put_map k n a v F) N2) as (k' & own' & A & B & C & D & E).
    { intros a' I. rewrite put_hasattr; [apply H; now right| |easy]. now intros ->. }
    exists k', own'. split; [easy|]. split; [easy|]. split; [rewrite C; apply put_form|]. split.
    + intros a'. rewrite D. cbn [aget]. destruct (str_eqb_spec a' (lit "properties")) as [->|Np].
      * destruct (str_eqb_spec a (lit "properties")) as [->|Na]; [easy|]. rewrite (aget_aset_neq str_eqb str_eqb_eq); [easy|]. congruence.
      * destruct (str_eqb_spec a' a) as [->|Na].
        -- replace (aget str_eqb a l) with (@None val) by (symmetry; now apply (aget_None str_eqb str_eqb_eq)).
           destruct (str_eqb_spec a (lit "properties")); [easy|]. now rewrite (aget_aset_eq str_eqb str_eqb_eq).
        -- destruct (aget str_eqb a' l); [easy|]. destruct (str_eqb_spec a (lit "properties")); [easy|].
           now rewrite (aget_aset_neq str_eqb str_eqb_eq).
    + intros key. rewrite E. cbn [last_props]. destruct (last_props l); [easy|]. unfold put.
      destruct (str_eqb a (lit "properties")); [|easy]. destruct v as [| | | | | | | |d| |]; try easy.
      destruct (set_properties_spec k0 k n d (ov_wf _ _ _ _ _ O) (ov_ext _ _ _ _ _ O) (ov_new _ _ _ _ _ O) F) as (_ & _ & _ & _ & _ & _ & S & _).
      now apply (S (mro k0 c)), O.
Qed.
Lemma set_all_unknown n l a : forall k, mro k n <> [] -> NoDup (keys l) -> In a (keys l) -> hasattr k n a = false ->
  exists k', set_all k n l = (k', Err TypeErr).
Proof.
  induction l as [|(a0, v) l IH]; intros k Hm N I H; [easy|]. rewrite set_all_cons. destruct (hasattr k n a0) eqn:E; [|eauto].
  inversion N as [|? ? N1 N2]; subst. destruct I as [<-|I]; [cbn in H; congruence|]. apply IH; [now rewrite put_mro|easy..|].
  rewrite put_hasattr; [easy| |easy]. intros ->. easy.
Qed.
(* what using makes of its arguments *)
Definition prep a v : val := if str_eqb a (lit "validators") then match v with VSeq _ xs => VSeq false xs | v => v end else v.
Lemma prepare_spec (l : list (str * val)) : NoDup (keys l) -> using_types l -> prepare l = Ok (map (fun p => (fst p, prep (fst p) (snd p))) l).
Proof.
  induction l as [|(a, v) l IH]; intros N (H1 & H2); [easy|]. inversion N as [|? ? N1 N2]; subst. cbn [prepare map fst snd].
  rewrite IH; [|easy|].
  - cbn [aget] in H1, H2. unfold prep. destruct (str_eqb_spec a (lit "validators")) as [->|Nv].
    + destruct (H1 v) as (b & xs & ->); [now rewrite str_eqb_refl|]. easy.
    + destruct (str_eqb_spec a (lit "properties")) as [->|Np]; [|easy]. destruct (H2 v) as (d & ->); [now rewrite str_eqb_refl|]. easy.
  - split; intros v' G; [apply H1|apply H2]; cbn [aget];
      (match goal with |- (if str_eqb ?x a then _ else _) = _ => destruct (str_eqb_spec x a) as [<-|]; [|easy] end);
      exfalso; apply N1; apply (aget_Some_keys str_eqb str_eqb_eq); eauto.
Qed.
Lemma prepare_bad (l : list (str * val)) : ~ using_types l -> NoDup (keys l) -> prepare l = Err TypeErr.
Proof.
  induction l as [|(a, v) l IH]; intros H N; [destruct H; split; easy|]. inversion N as [|? ? N1 N2]; subst. cbn [prepare].
  assert (K : using_types l -> ~ using_types [(a, v)]).
  { intros (U1 & U2) (U3 & U4). apply H. cbn [aget] in *. split; intros v' G; cbn [aget] in G;
      (match type of G with (if str_eqb ?x a then _ else _) = _ => specialize (U3 v'); specialize (U4 v'); destruct (str_eqb x a); auto end). }
  destruct (str_eqb_spec a (lit "validators")) as [->|Nv].
  - destruct v; cbn [iterate rmap bind]; try easy. rewrite IH; [easy| |easy]. intros U. apply K; [easy|].
    split; intros v' G; cbn [aget] in G; [|easy]. rewrite str_eqb_refl in G. injection G as <-. eauto.
  - destruct (str_eqb_spec a (lit "properties")) as [->|Np].
    + destruct v; cbn [bind]; try easy. rewrite IH; [easy| |easy]. intros U. apply K; [easy|].
      split; intros v' G; cbn [aget] in G; [easy|]. rewrite str_eqb_refl in G. injection G as <-. eauto.
    + cbn [bind]. rewrite IH; [easy| |easy]. intros U. apply K; [easy|].
      split; intros v' G; cbn [aget] in G.
      * destruct (str_eqb_spec (lit "validators") a); [congruence|easy].
      * destruct (str_eqb_spec (lit "properties") a); [congruence|easy].
Qed.
Lemma prep_keys l : keys (map (fun p : str * val => (fst p, prep (fst p) (snd p))) l) = keys l.
Proof. unfold keys. now rewrite map_map. Qed.
Lemma prep_get l a : aget str_eqb a (map (fun p : str * val => (fst p, prep (fst p) (snd p))) l) = option_map (prep a) (aget str_eqb a l).
Proof.
  induction l as [|(a', v) l IH]; [easy|]. cbn [map aget fst snd]. destruct (str_eqb_spec a a') as [->|]; easy.
Qed.
Lemma settings_get (l : list (str * val)) a : a <> lit "properties" -> aget str_eqb a (settings l) = option_map (prep a) (aget str_eqb a l).
Proof.
  intros Np. induction l as [|(a', v) l IH]; [easy|]. unfold settings in *. cbn [flat_map fst snd aget].
  destruct (str_eqb_spec a' (lit "properties")) as [->|N'].
  - destruct (str_eqb_spec a (lit "properties")); [easy|]. exact IH.
  - cbn [app aget]. destruct (str_eqb_spec a a') as [->|]; [|exact IH]. unfold prep; cbn [option_map]. destruct (str_eqb a' (lit "validators")); destruct v; reflexivity.
Qed.
Lemma settings_no_props (l : list (str * val)) : aget str_eqb (lit "properties") (settings l) = None.
Proof.
  induction l as [|(a', v) l IH]; [easy|]. unfold settings in *. cbn [flat_map fst snd].
  destruct (str_eqb_spec a' (lit "properties")) as [->|N']; [exact IH|]. cbn [app aget].
  destruct (str_eqb_spec (lit "properties") a'); [congruence|exact IH].
Qed.
Lemma last_props_get (l : list (str * val)) : NoDup (keys l) -> last_props (map (fun p : str * val => (fst p, prep (fst p) (snd p))) l)
  = match aget str_eqb (lit "properties") l with Some (VDict d) => Some d | _ => None end.
Proof.
  induction l as [|(a, v) l IH]; intros N; [easy|]. inversion N as [|? ? N1 N2]; subst. cbn [map last_props fst snd aget].
  rewrite (IH N2). destruct (str_eqb_spec a (lit "properties")) as [->|Np].
  - replace (aget str_eqb (lit "properties") l) with (@None val) by (symmetry; now apply (aget_None str_eqb str_eqb_eq)).
    rewrite str_eqb_refl. now destruct v.
  - destruct (str_eqb_spec (lit "properties") a); [congruence|]. now destruct (aget str_eqb (lit "properties") l) as [[]|].
Qed.

Variable text_of : val -> str.
Notation call := (call text_of).
Notation body := (body text_of).
Lemma clone_hasattr k c k1 n fields a : kwf k -> cloned k c k1 n (base_attrs k c fields) ->
  hasattr k1 n a = true <-> known k c a.
Proof.
  intros W K. unfold known, hasattr. rewrite (clone_desc k c k1 n _ W K). destruct (str_eqb_spec a (lit "properties")) as [->|Np].
  - split; [now left|]. intros [H|[H|[H|(H & _)]]]; [easy|discriminate H..].
  - rewrite (overlay_get k c k1 n _ W (cl_over _ _ _ _ _ K)). unfold base_attrs. cbn [app aget].
    destruct (str_eqb_spec a (lit "__doc__")) as [->|N1]; [split; [intros _; now right; left|easy]|].
    destruct (str_eqb_spec a (lit "__module__")) as [->|N2]; [split; [intros _; now right; right; left|easy]|].
    destruct (k_form k c); cbn [app aget].
    + destruct (str_eqb_spec a (lit "field_schema")) as [->|N3]; [split; [intros _; now right; right; right|easy]|]. intuition easy.
    + intuition easy.
Qed.
Lemma using_call k c m l : kwf k -> copyable k c -> getattr k c m = Some (VCloner MUsing) -> NoDup (keys l) ->
  (using_types l -> (forall a, In a (keys l) -> known k c a) ->
     exists k' n, call k c m (AKw l) = (k', Ok n) /\ kwf k' /\ extends k k' /\ derived k c k' n (settings l)
     /\ forall key, class_sees (k_props k') n key = match aget str_eqb (lit "properties") l with
                                                    | Some (VDict d) => last_for key d
                                                    | _ => class_sees (k_props k) c key end)
  /\ (~ using_types l -> refused k (call k c m (AKw l)) TypeErr)
  /\ (forall a, In a (keys l) -> ~ known k c a -> refused k (call k c m (AKw l)) TypeErr).
Proof.
  intros W C G N. destruct (call_cloned text_of k c m MUsing (AKw l) W C G) as (k1 & n & fields & K & B & ->).
  cbn [ModelDsl.body]. unfold using_on. assert (O := cl_over _ _ _ _ _ K).
  assert (Hm : mro k1 n <> []) by (rewrite (ov_mro _ _ _ _ _ O); easy).
  assert (Bad : ~ using_types l -> refused k (fst (match prepare l with Ok l' => set_all k1 n l' | Err x => (k1, Err x) end),
     rmap (fun _ => n) (snd (match prepare l with Ok l' => set_all k1 n l' | Err x => (k1, Err x) end))) TypeErr).
  { intros U. rewrite (prepare_bad l U N). now apply (clone_refused k c k1 n (base_attrs k c fields)). }
  split; [|split; [exact Bad|]].
  - intros U Kn. rewrite (prepare_spec l N U).
    set (l' := map (fun p => (fst p, prep (fst p) (snd p))) l).
    destruct (set_all_spec k c n l' k1 _ O (cl_map _ _ _ _ _ K)) as (k' & own' & A1 & A2 & A3 & A4 & A5).
    { unfold l'. now rewrite prep_keys. }
    { intros a I. unfold l' in I. rewrite prep_keys in I. apply (clone_hasattr k c k1 n fields a W K). now apply Kn. }
    exists k', n. rewrite A1. split; [easy|]. split; [apply A2|]. split; [apply A2|]. split.
    + apply (derived_overlay k c k' n own' fields (settings l) W A2).
      * rewrite A3. apply (cl_form _ _ _ _ _ K).
      * exact B.
      * intros a. rewrite A4. unfold l'. rewrite prep_get. destruct (str_eqb_spec a (lit "properties")) as [->|Np].
        -- now rewrite settings_no_props.
        -- rewrite settings_get by easy. destruct (aget str_eqb a l); [|easy]. cbn [option_map]. now rewrite unwrap_wrap.
    + intros key. rewrite A5. unfold l'. rewrite last_props_get by easy. rewrite (clone_sees k c k1 n _ key W K).
      now destruct (aget str_eqb (lit "properties") l) as [[]|].
  - intros a I U. assert (Dec : using_types l \/ ~ using_types l).
    { unfold using_types. assert (forall v : val, (exists b xs, v = VSeq b xs) \/ ~ exists b xs, v = VSeq b xs)
        by (intros []; try (right; intros (? & ? & ?); easy); left; eauto).
      assert (forall v : val, (exists d, v = VDict d) \/ ~ exists d, v = VDict d)
        by (intros []; try (right; intros (? & ?); easy); left; eauto).
      destruct (aget str_eqb (lit "validators") l) as [v|]; destruct (aget str_eqb (lit "properties") l) as [v'|].
      - destruct (H v) as [D|D], (H0 v') as [D'|D'];
          [left; split; intros ? [= <-]; easy|right; intros (Q1 & Q2); apply D'; now apply Q2|right; intros (Q1 & Q2); apply D; now apply Q1..].
      - destruct (H v) as [D|D]; [left; split; [intros ? [= <-]|]; easy|right; intros (Q1 & Q2); apply D; now apply Q1].
      - destruct (H0 v') as [D'|D']; [left; split; [|intros ? [= <-]]; easy|right; intros (Q1 & Q2); apply D'; now apply Q2].
      - left. easy. }
    destruct Dec as [D|D]; [|now apply Bad]. rewrite (prepare_spec l N D).
    set (l' := map (fun p => (fst p, prep (fst p) (snd p))) l).
    destruct (set_all_unknown n l' a k1 Hm) as (k' & E).
    { unfold l'. now rewrite prep_keys. }
    { unfold l'. now rewrite prep_keys. }
    { destruct (hasattr k1 n a) eqn:E; [|easy]. now apply (clone_hasattr k c k1 n fields a W K) in E. }
    destruct (set_all_ok k n l' k1) as (Q1 & Q2 & _); [apply O|apply O|apply O|exact (cl_map _ _ _ _ _ K)|].
    rewrite E in *. exists k'. easy.
Qed.

(* with_properties *)
Lemma update_maps (w : world V) c d l d' c' : desc w c = Some d -> (d', c') <> (d, c) ->
  let w' := fst (class_step c (PUpdate l) w) in
  w_map w' d' c' = w_map w d' c' /\ w_init w' = w_init w.
Proof.
  intros D Ne. unfold class_step. rewrite D. cbn [type_step]. unfold base_frame.
  assert (G : forall w0 : world V, w_map w0 = w_map w -> w_init w0 = w_init w -> forall r,
     w_map (set_map w0 d c r) d' c' = w_map w d' c' /\ w_init (set_map w0 d c r) = w_init w).
  { intros w0 E1 E2 r. cbn. rewrite E1, E2. split; [|easy]. unfold fset. destruct (Nat.eqb_spec d' d) as [->|]; [|easy].
    destruct (Nat.eqb_spec c' c) as [->|]; [easy|]. easy. }
  destruct (w_map w d c); [easy|]. destruct (mine w d c); [now apply G|]. cbn [new_dict]. now apply G.
Qed.
Lemma find_desc_in (own : nat -> option nat) l d : find_desc own l = Some d -> exists b, In b l /\ own b = Some d.
Proof.
  induction l as [|b l IH]; [easy|]. cbn [find_desc]. destruct (own b) eqn:E; intros H.
  - injection H as <-. exists b. now split; [left|].
  - destruct (IH H) as (b' & I & Q). exists b'. now split; [right|].
Qed.
Definition with_world k (w : world V) : kd := Classes w (k_attrs k) (k_form k) (k_next k) (k_desc k).
Lemma with_properties_ok k0 k n l : kwf k -> extends k0 k -> k_next k0 <= n < k_next k ->
  let k' := with_world k (fst (class_step n (PUpdate l) (k_props k))) in kwf k' /\ extends k0 k'.
Proof.
  intros W E L k'. destruct (desc (k_props k) n) as [d|] eqn:D.
  2: { assert (Ek : k' = k). { unfold k', class_step. rewrite D. now destruct k. } rewrite Ek. easy. }
  pose proof (class_step_spec (k_props k) n d (PUpdate l) (kw_sound _ W) D) as S.
  assert (Mp : forall d' c', (d', c') <> (d, n) -> w_map (k_props k') d' c' = w_map (k_props k) d' c').
  { intros d' c' Ne. now destruct (update_maps (k_props k) n d l d' c' D Ne). }
  assert (Dd : d < k_desc k).
  { destruct (Nat.lt_ge_cases d (k_desc k)) as [|Ge]; [easy|]. destruct (kw_desc _ W d Ge) as (X & _).
    destruct (find_desc_in _ _ _ D) as (b & _ & Ob). now apply X in Ob. }
  unfold k' in *. destruct (class_step n (PUpdate l) (k_props k)) as (w', r) eqn:Cs. cbn [fst] in *. fold k' in Mp.
  destruct S as (S1 & ((A1 & A2 & A3) & A4 & A5 & A6) & _). split.
  - split.
    + exact S1.
    + intros c Lc. change (mro (with_world k w') c) with (w_mro w' c). rewrite A1. now apply (kw_mro _ W).
    + intros c Lc. change (mro (with_world k w') c) with (w_mro w' c). change (k_props (with_world k w')) with w'. rewrite A1, A2.
      change (k_next (with_world k w')) with (k_next k) in Lc. destruct (kw_unborn _ W c Lc) as (X & Y & Z). split; [exact X|].
      split; [exact Y|]. intros d'. rewrite Mp; [apply Z|]. intros [= -> ->]. lia.
    + intros d' Ld. change (k_desc (with_world k w')) with (k_desc k) in Ld. change (k_props (with_world k w')) with w'.
      rewrite A2. destruct (kw_desc _ W d' Ld) as (X & Y). split; [exact X|]. intros c. rewrite Mp; [apply Y|]. intros [= -> ->]. lia.
  - assert (T := E). split; try apply T.
    + intros c Lc. change (mro (with_world k w') c) with (w_mro w' c). rewrite A1. now apply (ex_mro _ _ T).
    + intros c Lc. change (k_props (with_world k w')) with w'. rewrite A2. now apply (ex_own _ _ T).
    + intros d' c key Lc. change (k_props (with_world k w')) with w'. rewrite A6; [now apply (ex_says _ _ T)|]. intros [= -> ->]. lia.
    + change (k_props (with_world k w')) with w'. rewrite A3. apply (ex_cls _ _ T).
    + intros i. change (k_props (with_world k w')) with w'. destruct (A4 i) as (X & Y), (ex_local _ _ T i) as (X' & Y').
      split; [congruence|]. intros. now rewrite Y.
Qed.
End P.
