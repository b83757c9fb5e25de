(* Property inheritance: each call reads and changes exactly what it should. *)
From Verif Require Import PyBase PyBaseFacts ModelUtil ModelSeq ModelProps SpecProps ProofMap.

Lemma NoDup_app' {A} (l l' : list A) : NoDup l -> NoDup l' -> (forall x, In x l -> In x l' -> False) -> NoDup (l ++ l').
Proof.
  induction l as [|a l IH]; [easy|]. intros N N' D. inversion N as [|? ? N1 N2]; subst. cbn. constructor.
  - rewrite in_app_iff. intros [I|I]; [easy|]. apply (D a); [now left|easy].
  - apply IH; [easy..|]. intros x I I'. apply (D x); [now right|easy].
Qed.

Section P.
Context {V : Type}.
Notation wd := (world V).
Implicit Types (w : wd) (d c i r : nat) (k : str).

Lemma mine_spec w d c : mine w d c = true <-> w_own w c = Some d.
Proof.
  unfold mine. destruct (w_own w c) as [d'|]; [|easy]. rewrite Nat.eqb_eq. split; congruence.
Qed.
Lemma addr_alt w d c : addr w d c = match w_map w d c with Some r => Some r | None => if mine w d c then Some (w_init w d) else None end.
Proof. unfold addr, mine. destruct (w_map w d c), (w_own w c); try easy. Qed.

(* same as seen by everybody *)
Record same (w w' : wd) : Prop := Same {
  sm_classes : same_classes w w';
  sm_addr : forall d c, addr w' d c = addr w d c;
  sm_dict : w_dict w' = w_dict w;
  sm_next : w_next w' = w_next w;
  sm_local : w_local w' = w_local w }.
Lemma same_refl w : same w w. Proof. now repeat split. Qed.
Lemma same_trans w1 w2 w3 : same w1 w2 -> same w2 w3 -> same w1 w3.
Proof.
  intros [(A & B & C) D E F G] [(A' & B' & C') D' E' F' G']. split; [split; [|split]; congruence| |congruence..].
  intros. rewrite D'. apply D.
Qed.
Lemma same_mention w w' : same w w' -> forall d c k, mention w' d c k = mention w d c k.
Proof. intros S d c k. unfold mention. now rewrite (sm_addr _ _ S), (sm_dict _ _ S). Qed.
Lemma same_sound w w' : same w w' -> sound w -> sound w'.
Proof.
  intros S H. destruct H as [A B C D E]. split.
  - intros d c d' c' r. rewrite !(sm_addr _ _ S). apply A.
  - intros d c r. rewrite (sm_addr _ _ S), (sm_next _ _ S). apply B.
  - intros r. now rewrite (sm_dict _ _ S).
  - intros i l. rewrite (sm_local _ _ S). apply D.
  - intros i l. rewrite (sm_local _ _ S). apply E.
Qed.
Lemma set_map_same w d c : w_map w d c = None -> mine w d c = true -> same w (set_map w d c (w_init w d)).
Proof.
  intros Hm Mi. split; try easy. intros d' c'. rewrite !addr_alt.
  change (mine (set_map w d c (w_init w d)) d' c') with (mine w d' c'). cbn [set_map w_map w_init].
  unfold fset. destruct (Nat.eqb_spec d' d) as [->|]; [|easy]. destruct (Nat.eqb_spec c' c) as [->|]; [|easy].
  now rewrite Hm, Mi.
Qed.
Lemma frame_spec w d c : let '(w', f) := frame_at w d c in same w w' /\ f = addr w d c.
Proof.
  unfold frame_at. rewrite addr_alt. destruct (w_map w d c) eqn:E; [split; [apply same_refl|easy]|].
  destruct (mine w d c) eqn:M; [|split; [apply same_refl|easy]]. split; [now apply set_map_same|easy].
Qed.
Lemma mine_same w w' d c : same_classes w w' -> mine w' d c = mine w d c.
Proof. intros (_ & E & _). unfold mine. now rewrite E. Qed.
Lemma upto_cons own d c rest : upto own d (c :: rest)
  = c :: if (match own c with Some d' => Nat.eqb d' d | None => false end) then [] else upto own d rest.
Proof. cbn [upto]. now destruct (own c). Qed.
Lemma find_spec d k : forall mro w,
  let '(w', o) := t_find d mro k w in
  same w w' /\ o = first_some (fun b => mention w d b k) (upto (w_own w) d mro).
Proof.
  induction mro as [|c rest IH]; intros w; [split; [apply same_refl|easy]|].
  cbn [t_find]. pose proof (frame_spec w d c) as F. destruct (frame_at w d c) as (w1, f). destruct F as (S & ->).
  rewrite upto_cons. change (match w_own w c with Some d' => Nat.eqb d' d | None => false end) with (mine w d c).
  cbn [first_some]. unfold mention at 1.
  assert (R : let '(w', o) := t_find d rest k w1 in
              same w w' /\ o = first_some (fun b => mention w d b k) (upto (w_own w) d rest)).
  { specialize (IH w1). destruct (t_find d rest k w1) as (w2, o). destruct IH as (S2 & ->). split; [now apply same_trans with w1|].
    rewrite (proj1 (proj2 (sm_classes _ _ S))).
    generalize (upto (w_own w) d rest). intros l. induction l as [|b l IHl]; [easy|]. cbn [first_some].
    rewrite (same_mention _ _ S). now rewrite IHl. }
  destruct (addr w d c) as [r|] eqn:A.
  - rewrite (sm_dict _ _ S). destruct (aget str_eqb k (w_dict w r)) as [v|]; [easy|].
    destruct (mine w d c) eqn:M; [easy|exact R].
  - destruct (mine w d c) eqn:M; [|exact R]. rewrite addr_alt, M in A. now destruct (w_map w d c).
Qed.
Lemma get_spec d c k w :
  let '(w', r) := t_get d c k w in
  same w w' /\ r = match shown (class_says w d c k) with Some v => Ok (Val v) | None => Err KeyErr end.
Proof.
  unfold t_get, class_says. pose proof (find_spec d k (w_mro w c) w) as K.
  destruct (t_find d (w_mro w c) k w) as (w', o). destruct K as (S & ->). split; [easy|].
  now destruct (first_some _ _) as [[v|]|].
Qed.

(* iteration *)
Lemma scan_spec : forall (l : pdict V) seen, NoDup (keys l) ->
  let '(seen', out) := scan seen l in
  (forall k, In k seen' <-> In k seen \/ In k (keys l))
  /\ (forall k v, In (k, v) out <-> ~ In k seen /\ aget str_eqb k l = Some (Val v))
  /\ NoDup (keys out).
Proof.
  induction l as [|(k0, v0) l IH]; intros seen N; cbn [scan].
  - split; [cbn; tauto|]. split; [|constructor]. intros k v. cbn. split; [easy|]. now intros (_ & ?).
  - inversion N as [|? ? N1 N2]; subst.
    destruct (memb str_eqb k0 seen) eqn:E.
    + apply (memb_In str_eqb str_eqb_eq) in E. specialize (IH seen N2). destruct (scan seen l) as (seen', out).
      destruct IH as (A & B & C). split; [|split; [|exact C]].
      * intros k. rewrite A. cbn. intuition. subst. now left.
      * intros k v. rewrite B. cbn [aget]. destruct (str_eqb_spec k k0) as [->|Ne].
        -- tauto.
        -- tauto.
    + assert (E' : ~ In k0 seen) by (intros I; apply (memb_In str_eqb str_eqb_eq) in I; congruence).
      specialize (IH (k0 :: seen) N2). destruct (scan (k0 :: seen) l) as (seen', out). destruct IH as (A & B & C).
      assert (B' : forall k v, In (k, v) out <-> k <> k0 /\ ~ In k seen /\ aget str_eqb k l = Some (Val v)).
      { intros k v. rewrite B. cbn. intuition. }
      split; [|split].
      * intros k. rewrite A. cbn. intuition.
      * intros k v. cbn [aget]. destruct v0 as [x|]; cbn [In].
        -- rewrite B'. destruct (str_eqb_spec k k0) as [->|Ne].
           ++ split; [intros [H|H]; [now inversion H|tauto]|]. intros (_ & [= ->]). now left.
           ++ split; [intros [H|H]; [now inversion H; subst|tauto]|]. tauto.
        -- rewrite B'. destruct (str_eqb_spec k k0) as [->|Ne]; [|tauto]. split; [tauto|]. now intros (_ & ?).
      * destruct v0 as [x|]; [|exact C]. cbn. constructor; [|exact C]. intros I. apply in_map_iff in I.
        destruct I as ((k, v) & Ek & I). cbn in Ek. subst k. apply B' in I. tauto.
Qed.
Definition says_list w d (l : list nat) k := first_some (fun b => mention w d b k) l.
Lemma says_same w w' d l k : same w w' -> says_list w' d l k = says_list w d l k.
Proof.
  intros S. unfold says_list. induction l as [|b l IH]; [easy|]. cbn [first_some]. now rewrite (same_mention _ _ S), IH.
Qed.
Lemma t_items_spec d : forall mro seen w, sound w ->
  let '(w', its) := t_items d mro seen w in
  same w w' /\ NoDup (keys its)
  /\ forall k v, In (k, v) its <-> ~ In k seen /\ says_list w d (upto (w_own w) d mro) k = Some (Val v).
Proof.
  induction mro as [|c rest IH]; intros seen w Hs.
  - cbn. split; [apply same_refl|]. split; [constructor|]. intros k v. split; [easy|]. now intros (_ & ?).
  - cbn [t_items]. pose proof (frame_spec w d c) as F. destruct (frame_at w d c) as (w1, f). destruct F as (S & ->).
    rewrite upto_cons. change (match w_own w c with Some d' => Nat.eqb d' d | None => false end) with (mine w d c).
    assert (Hs1 := same_sound _ _ S Hs).
    assert (R : forall sn, let '(w', its) := t_items d rest sn w1 in
                same w w' /\ NoDup (keys its)
                /\ forall k v, In (k, v) its <-> ~ In k sn /\ says_list w d (upto (w_own w) d rest) k = Some (Val v)).
    { intros sn. specialize (IH sn w1 Hs1). destruct (t_items d rest sn w1) as (w2, its). destruct IH as (S2 & N & K).
      split; [now apply same_trans with w1|]. split; [exact N|]. intros k v. rewrite K.
      now rewrite (proj1 (proj2 (sm_classes _ _ S))), (says_same _ _ _ _ _ S). }
    unfold says_list in *. cbn [first_some].
    destruct (addr w d c) as [r|] eqn:A.
    + rewrite (sm_dict _ _ S). pose proof (scan_spec (w_dict w r) seen (so_dict _ Hs r)) as K.
      destruct (scan seen (w_dict w r)) as (seen', out). destruct K as (K1 & K2 & K3).
      assert (M0 : forall k, mention w d c k = aget str_eqb k (w_dict w r)) by (intros k; unfold mention; now rewrite A).
      destruct (mine w d c) eqn:M.
      * split; [exact S|]. split; [exact K3|]. intros k v. rewrite K2, M0. cbn [first_some].
        now destruct (aget str_eqb k (w_dict w r)).
      * specialize (R seen'). destruct (t_items d rest seen' w1) as (w2, out'). destruct R as (R1 & R2 & R3).
        split; [exact R1|]. split.
        -- unfold keys. rewrite map_app. apply NoDup_app'; [exact K3|exact R2|].
           intros k I1 I2. apply in_map_iff in I1, I2. destruct I1 as ((k1, v1) & E1 & I1), I2 as ((k2, v2) & E2 & I2).
           cbn in E1, E2. subst. apply K2 in I1. apply R3 in I2. destruct I1 as (_ & I1), I2 as (I2 & _).
           apply I2, K1. right. apply (aget_Some_keys str_eqb str_eqb_eq). eauto.
        -- intros k v. rewrite in_app_iff, K2, R3, K1, M0. pose proof (aget_Some_keys str_eqb str_eqb_eq k (w_dict w r)) as G.
           destruct (aget str_eqb k (w_dict w r)) as [s|] eqn:E.
           ++ split; [|tauto]. intros [H|(H & _)]; [tauto|]. exfalso. apply H. right. apply G. eauto.
           ++ assert (~ In k (keys (w_dict w r))) by (intros I; apply G in I; destruct I; congruence). intuition congruence.
    + assert (M : mine w d c = false).
      { destruct (mine w d c) eqn:M; [|easy]. rewrite addr_alt, M in A. now destruct (w_map w d c). }
      rewrite M. specialize (R seen). destruct (t_items d rest seen w1) as (w2, its). destruct R as (R1 & R2 & R3).
      split; [exact R1|]. split; [exact R2|]. intros k v. rewrite R3. unfold mention at 2. now rewrite A.
Qed.
(* writing *)
Lemma aset_mem m k (s : slot V) k' : aget str_eqb k' (aset str_eqb k s m) = upd (fun k' => aget str_eqb k' m) k (Some s) k'.
Proof. rewrite (aget_aset str_eqb str_eqb_eq). easy. Qed.
Lemma d_update_get l : forall (m : pdict V) k, aget str_eqb k (d_update m l) = match last_for k l with Some v => Some (Val v) | None => aget str_eqb k m end.
Proof.
  unfold d_update. induction l as [|(k0, v0) l IH]; intros m k; [easy|]. cbn [fold_left fst snd last_for]. rewrite IH.
  destruct (last_for k l); [easy|]. rewrite aset_mem. unfold upd. now destruct (str_eqb k k0).
Qed.
Lemma d_update_nodup l : forall m : pdict V, NoDup (keys m) -> NoDup (keys (d_update m l)).
Proof.
  unfold d_update. induction l as [|(k0, v0) l IH]; intros m N; [easy|]. cbn [fold_left]. apply IH. now apply (NoDup_keys_aset str_eqb str_eqb_eq).
Qed.
Lemma d_mark_get l : forall (m : pdict V) k, aget str_eqb k (d_mark m l) = if memb str_eqb k l then Some Deleted else aget str_eqb k m.
Proof.
  unfold d_mark. induction l as [|k0 l IH]; intros m k; [easy|]. cbn [fold_left]. rewrite IH.
  rewrite aset_mem. unfold upd, memb. cbn [existsb]. destruct (str_eqb k k0); cbn [orb]; now destruct (existsb (str_eqb k) l).
Qed.
Lemma d_mark_nodup l : forall m : pdict V, NoDup (keys m) -> NoDup (keys (d_mark m l)).
Proof.
  unfold d_mark. induction l as [|k0 l IH]; intros m N; [easy|]. cbn [fold_left]. apply IH. now apply (NoDup_keys_aset str_eqb str_eqb_eq).
Qed.

Lemma same_changed w w' d c : same w w' -> class_changed w w' d c (mention w d c).
Proof.
  intros S. split; [apply S|]. split; [intros; unfold whole, own_says; now rewrite (sm_local _ _ S)|]. split; [intros; now apply same_mention|].
  intros. now apply same_mention.
Qed.
Lemma changed_trans w w1 w2 d c says says' : class_changed w w1 d c says -> class_changed w1 w2 d c says' -> class_changed w w2 d c says'.
Proof.
  intros ((A1 & A2 & A3) & B & C & D) ((A1' & A2' & A3') & B' & C' & D').
  split; [split; [|split]; congruence|]. split; [intros i; destruct (B i) as (B1 & B2), (B' i) as (B1' & B2'); split; [congruence|intros; now rewrite B2']|].
  split; [easy|]. intros. rewrite D'; auto.
Qed.
Lemma changed_ext w w' d c says says' : (forall k, says k = says' k) -> class_changed w w' d c says -> class_changed w w' d c says'.
Proof. intros E (A & B & C & D). repeat (split; [easy|]). split; [|easy]. intros k. now rewrite C. Qed.
Lemma base_frame_spec d c w : sound w ->
  let '(w', f) := base_frame d c w in
  sound w' /\ class_changed w w' d c (mention w d c) /\ addr w' d c = Some f
  /\ (forall d' c', (d', c') <> (d, c) -> addr w' d' c' = addr w d' c')
  /\ w_local w' = w_local w.
Proof.
  intros Hs. unfold base_frame. destruct (w_map w d c) as [r|] eqn:E.
  { split; [easy|]. split; [apply same_changed, same_refl|]. rewrite addr_alt, E. easy. }
  destruct (mine w d c) eqn:M.
  { pose proof (set_map_same w d c E M) as S. split; [now apply (same_sound w)|]. split; [now apply same_changed|].
    rewrite (sm_addr _ _ S), addr_alt, E, M. split; [easy|]. split; [intros; apply (sm_addr _ _ S)|easy]. }
  cbn [new_dict].
  set (w' := set_map _ d c (w_next w)).
  assert (A1 : addr w' d c = Some (w_next w)).
  { rewrite addr_alt. subst w'. cbn [set_map w_map]. now rewrite !fset_eq. }
  assert (A2 : forall d' c', (d', c') <> (d, c) -> addr w' d' c' = addr w d' c').
  { intros d' c' Ne. rewrite !addr_alt. change (mine w' d' c') with (mine w d' c'). subst w'. cbn [set_map w_map w_init].
    unfold fset. destruct (Nat.eqb_spec d' d) as [->|]; [|easy]. destruct (Nat.eqb_spec c' c) as [->|]; [|easy]. easy. }
  assert (A0 : addr w d c = None) by now rewrite addr_alt, E, M.
  assert (D : forall r, r <> w_next w -> w_dict w' r = w_dict w r) by (intros; subst w'; cbn; now apply fset_neq).
  assert (D' : w_dict w' (w_next w) = []) by (subst w'; cbn; apply fset_eq).
  assert (Dec : forall d' c', {(d', c') = (d, c)} + {(d', c') <> (d, c)}).
  { intros. destruct (Nat.eq_dec d' d) as [->|]; [|right; congruence]. destruct (Nat.eq_dec c' c) as [->|]; [now left|right; congruence]. }
  split; [|split; [|split; [exact A1|split; [exact A2|easy]]]].
  - split.
    + intros d1 c1 d2 c2 r. destruct (Dec d1 c1) as [[= -> ->]|N1], (Dec d2 c2) as [[= -> ->]|N2].
      * easy.
      * rewrite A1, (A2 _ _ N2). intros [= <-] H. apply (so_lt _ Hs) in H. lia.
      * rewrite A1, (A2 _ _ N1). intros H [= <-]. apply (so_lt _ Hs) in H. lia.
      * rewrite (A2 _ _ N1), (A2 _ _ N2). apply (so_inj _ Hs).
    + intros d1 c1 r. change (w_next w') with (S (w_next w)). destruct (Dec d1 c1) as [[= -> ->]|N1].
      * rewrite A1. intros [= <-]. lia.
      * rewrite (A2 _ _ N1). intros H. apply (so_lt _ Hs) in H. lia.
    + intros r. destruct (Nat.eq_dec r (w_next w)) as [->|N]; [rewrite D'; constructor|]. rewrite (D _ N). apply (so_dict _ Hs).
    + apply (so_local _ Hs).
    + apply (so_whole _ Hs).
  - split; [easy|]. split; [easy|]. split.
    + intros k. unfold mention. rewrite A1, A0, D'. easy.
    + intros d' c' k Ne. unfold mention. rewrite (A2 _ _ Ne). destruct (addr w d' c') as [r|] eqn:R; [|easy].
      rewrite D; [easy|]. apply (so_lt _ Hs) in R. lia.
Qed.
Lemma set_dict_spec w d c f m : sound w -> addr w d c = Some f -> NoDup (keys m) ->
  sound (set_dict w f m) /\ class_changed w (set_dict w f m) d c (fun k => aget str_eqb k m).
Proof.
  intros Hs A N. assert (AA : forall d' c', addr (set_dict w f m) d' c' = addr w d' c') by easy.
  split.
  - split; [apply (so_inj _ Hs)|apply (so_lt _ Hs)| |apply (so_local _ Hs)|apply (so_whole _ Hs)].
    intros r. cbn [set_dict w_dict]. unfold fset. destruct (Nat.eqb r f); [easy|]. apply (so_dict _ Hs).
  - split; [easy|]. split; [easy|]. split.
    + intros k. unfold mention. rewrite AA, A. cbn [set_dict w_dict]. now rewrite fset_eq.
    + intros d' c' k Ne. unfold mention. rewrite AA. destruct (addr w d' c') as [r|] eqn:R; [|easy].
      cbn [set_dict w_dict]. rewrite fset_neq; [easy|]. intros ->. destruct (so_inj _ Hs _ _ _ _ _ A R). now subst.
Qed.
(* the base frame, written *)
Lemma write_spec d c w (g : pdict V -> pdict V) : sound w -> (forall m, NoDup (keys m) -> NoDup (keys (g m))) ->
  let '(w', f) := base_frame d c w in
  let w2 := set_dict w' f (g (w_dict w' f)) in
  sound w2 /\ exists m, (forall k, aget str_eqb k m = mention w d c k) /\ class_changed w w2 d c (fun k => aget str_eqb k (g m)).
Proof.
  intros Hs G. pose proof (base_frame_spec d c w Hs) as B. destruct (base_frame d c w) as (w', f).
  destruct B as (Hs' & C & A & _ & _). destruct (set_dict_spec w' d c f (g (w_dict w' f)) Hs' A) as (S2 & C2); [apply G, (so_dict _ Hs')|].
  split; [exact S2|]. exists (w_dict w' f). split.
  - intros k. destruct C as (_ & _ & C & _). rewrite <- C. unfold mention. now rewrite A.
  - now apply changed_trans with w' (mention w d c).
Qed.
Lemma t_items_sees d c w : sound w -> desc w c = Some d ->
  let '(w', its) := t_items d (w_mro w c) [] w in
  same w w' /\ NoDup (keys its) /\ forall k v, In (k, v) its <-> class_sees w c k = Some v.
Proof.
  intros Hs D. pose proof (t_items_spec d (w_mro w c) [] w Hs) as K. destruct (t_items d (w_mro w c) [] w) as (w', its).
  destruct K as (A & B & C). split; [easy|]. split; [easy|]. intros k v. rewrite C. unfold class_sees, class_says.
  rewrite D. unfold says_list. destruct (first_some _ _) as [[x|]|]; cbn; intuition congruence.
Qed.
Lemma get_sees d c k w : desc w c = Some d ->
  let '(w', r) := t_get d c k w in
  same w w' /\ r = match class_sees w c k with Some v => Ok (Val v) | None => Err KeyErr end.
Proof. intros D. pose proof (get_spec d c k w) as K. destruct (t_get d c k w). unfold class_sees. now rewrite D. Qed.
Lemma items_memb (its : list (str * V)) (sees : str -> option V) : (forall k v, In (k, v) its <-> sees k = Some v) ->
  forall k, memb str_eqb k (map fst its) = match sees k with Some _ => true | None => false end.
Proof.
  intros H k. destruct (memb str_eqb k (map fst its)) eqn:E.
  - apply (memb_In str_eqb str_eqb_eq) in E. apply in_map_iff in E. destruct E as ((k', v) & <- & I). apply H in I. cbn. now rewrite I.
  - destruct (sees k) as [v|] eqn:S; [|easy]. apply H in S. apply (in_map fst) in S. cbn in S.
    apply (memb_In str_eqb str_eqb_eq) in S. congruence.
Qed.
Lemma items_bool (its : list (str * V)) (sees : str -> option V) : (forall k v, In (k, v) its <-> sees k = Some v) ->
  match its with [] => false | _ => true end = true <-> exists k v, sees k = Some v.
Proof.
  intros H. destruct its as [|(k, v) its].
  - split; [easy|]. intros (k & v & E). now apply H in E.
  - split; [|easy]. intros _. exists k, v. apply H. now left.
Qed.

Lemma class_step_spec w c d o : sound w -> desc w c = Some d ->
  let '(w', r) := class_step c o w in
  sound w' /\ class_changed w w' d c (class_after (class_sees w c) (mention w d c) o)
  /\ class_answers (class_sees w c) (mention w d c) o r.
Proof.
  intros Hs D. unfold class_step. rewrite D.
  assert (Wk : forall w1 k, same w w1 ->
      let '(w', f) := base_frame d c w1 in let w2 := set_dict w' f (aset str_eqb k Deleted (w_dict w' f)) in
      sound w2 /\ class_changed w w2 d c (upd (mention w d c) k (Some Deleted))).
  { intros w1 k S. pose proof (write_spec d c w1 (aset str_eqb k Deleted) (same_sound _ _ S Hs)) as W.
    destruct (base_frame d c w1) as (w', f). destruct W as (W1 & m & W2 & W3); [intros; now apply (NoDup_keys_aset str_eqb str_eqb_eq)|].
    split; [easy|]. apply changed_trans with w1 (mention w d c); [now apply same_changed|].
    eapply changed_ext; [|exact W3]. intros k'. cbv beta. rewrite aset_mem. unfold upd. destruct (str_eqb k' k); [easy|].
    now rewrite W2, (same_mention _ _ S). }
  destruct o as [k|k v|k v|k| |k dflt| |k v|l|k| |]; cbn [type_step].
  - pose proof (get_sees d c k w D) as G. destruct (t_get d c k w) as (w', r). destruct G as (S & ->).
    split; [now apply (same_sound w)|]. split; [now apply same_changed|]. cbn. now destruct (class_sees w c k).
  - pose proof (get_sees d c k w D) as G. destruct (t_get d c k w) as (w', r). destruct G as (S & ->).
    split; [now apply (same_sound w)|]. split; [now apply same_changed|]. cbn. now destruct (class_sees w c k).
  - pose proof (write_spec d c w (aset str_eqb k (Val v)) Hs) as W. destruct (base_frame d c w) as (w', f).
    destruct W as (W1 & m & W2 & W3); [intros; now apply (NoDup_keys_aset str_eqb str_eqb_eq)|].
    split; [easy|]. split; [|easy]. eapply changed_ext; [|exact W3]. intros k'. cbv beta. rewrite aset_mem. cbn. unfold upd.
    now destruct (str_eqb k' k).
  - pose proof (get_sees d c k w D) as G. destruct (t_get d c k w) as (w1, r). destruct G as (S & ->).
    destruct (class_sees w c k) as [v|] eqn:E.
    + specialize (Wk w1 k S). destruct (base_frame d c w1) as (w', f). destruct Wk as (W1 & W2). split; [exact W1|].
      cbn [class_after class_answers answers after]. rewrite E. easy.
    + split; [now apply (same_sound w)|]. cbn [class_after class_answers answers after]. rewrite E. split; [now apply same_changed|easy].
  - pose proof (base_frame_spec d c w Hs) as B. destruct (base_frame d c w) as (w1, f). destruct B as (Hs1 & C1 & A1 & A2 & A3).
    assert (D1 : desc w1 c = Some d).
    { destruct C1 as ((M1 & M2 & _) & _). unfold desc. rewrite M1, M2. exact D. }
    assert (Se : forall k, class_sees w1 c k = class_sees w c k).
    { intros k. unfold class_sees. rewrite D, D1. f_equal. unfold class_says. destruct C1 as ((M1 & M2 & _) & _ & M3 & M4).
      rewrite M1, M2. generalize (upto (w_own w) d (w_mro w c)). intros l. induction l as [|b l IHl]; [easy|].
      cbn [first_some]. rewrite IHl. replace (mention w1 d b k) with (mention w d b k); [easy|].
      destruct (Nat.eq_dec b c) as [->|Ne]; [now rewrite M3|]. rewrite M4; [easy|]. congruence. }
    pose proof (t_items_sees d c w1 Hs1 D1) as T. destruct (t_items d (w_mro w1 c) [] w1) as (w2, its). destruct T as (S & N & T).
    assert (A' : addr w2 d c = Some f) by now rewrite (sm_addr _ _ S).
    destruct (set_dict_spec w2 d c f (d_mark (w_dict w2 f) (map fst its)) (same_sound _ _ S Hs1) A') as (R1 & R2).
    { apply d_mark_nodup. rewrite (sm_dict _ _ S). apply (so_dict _ Hs1). }
    split; [exact R1|]. split; [|easy].
    apply changed_trans with w1 (mention w d c); [exact C1|].
    apply changed_trans with w2 (mention w1 d c); [now apply same_changed|].
    eapply changed_ext; [|exact R2]. intros k. cbv beta. rewrite d_mark_get, (items_memb its _ T), Se. cbn [class_after].
    destruct (class_sees w c k); [easy|]. rewrite (sm_dict _ _ S). destruct C1 as (_ & _ & C1 & _). rewrite <- C1.
    unfold mention. now rewrite A1.
  - pose proof (get_sees d c k w D) as G. destruct (t_get d c k w) as (w1, r). destruct G as (S & ->).
    destruct (class_sees w c k) as [v|] eqn:E.
    + specialize (Wk w1 k S). destruct (base_frame d c w1) as (w', f). destruct Wk as (W1 & W2). split; [exact W1|].
      cbn [class_after class_answers answers after]. rewrite E. easy.
    + split; [now apply (same_sound w)|]. cbn [class_after class_answers answers after]. rewrite E. split; [now apply same_changed|easy].
  - split; [easy|]. split; [apply same_changed, same_refl|easy].
  - pose proof (base_frame_spec d c w Hs) as B. destruct (base_frame d c w) as (w1, f). destruct B as (Hs1 & C1 & A1 & A2 & A3).
    assert (Mk : aget str_eqb k (w_dict w1 f) = mention w d c k).
    { destruct C1 as (_ & _ & C1 & _). rewrite <- C1. unfold mention. now rewrite A1. }
    rewrite Mk. cbn [class_after class_answers]. destruct (mention w d c k) as [s|] eqn:E; [easy|].
    destruct (set_dict_spec w1 d c f (aset str_eqb k (Val v) (w_dict w1 f)) Hs1 A1) as (R1 & R2).
    { apply (NoDup_keys_aset str_eqb str_eqb_eq), (so_dict _ Hs1). }
    split; [exact R1|]. split; [|easy]. apply changed_trans with w1 (mention w d c); [exact C1|].
    eapply changed_ext; [|exact R2]. intros k'. cbv beta. rewrite aset_mem. unfold upd. destruct (str_eqb k' k); [easy|].
    destruct C1 as (_ & _ & C1 & _). rewrite <- C1. unfold mention. now rewrite A1.
  - pose proof (write_spec d c w (fun m => d_update m l) Hs) as W. destruct (base_frame d c w) as (w', f).
    destruct W as (W1 & m & W2 & W3); [intros; now apply d_update_nodup|].
    split; [easy|]. split; [|easy]. eapply changed_ext; [|exact W3]. intros k'. cbv beta. rewrite d_update_get. cbn.
    now rewrite W2.
  - pose proof (t_items_sees d c w Hs D) as T. destruct (t_items d (w_mro w c) [] w) as (w', its). destruct T as (S & N & T).
    split; [now apply (same_sound w)|]. split; [now apply same_changed|]. cbn. now rewrite (items_memb its _ T).
  - pose proof (t_items_sees d c w Hs D) as T. destruct (t_items d (w_mro w c) [] w) as (w', its). destruct T as (S & N & T).
    split; [now apply (same_sound w)|]. split; [now apply same_changed|]. cbn. eauto.
  - pose proof (t_items_sees d c w Hs D) as T. destruct (t_items d (w_mro w c) [] w) as (w', its). destruct T as (S & N & T).
    split; [now apply (same_sound w)|]. split; [now apply same_changed|]. cbn. eexists. split; [reflexivity|]. now apply items_bool.
Qed.
End P.
