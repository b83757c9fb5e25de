(* Properties of instances; what is shown after a call; histories. *)
From Verif Require Import PyBase PyBaseFacts ModelUtil ModelSeq ModelProps SpecProps ProofMap ProofProps.

Section P.
Context {V : Type}.
Notation wd := (world V).
Implicit Types (w : wd) (d c i : nat) (k : str).

Lemma aget_iff_In (its : list (str * V)) k v : NoDup (keys its) -> aget str_eqb k its = Some v <-> In (k, v) its.
Proof. intros N. split; [apply (aget_In str_eqb str_eqb_eq)|now apply (In_aget str_eqb str_eqb_eq)]. Qed.
Lemma vals_get (its : list (str * V)) k v : NoDup (keys its) ->
  aget str_eqb k (map (fun kv => (fst kv, Val (snd kv))) its) = Some (Val v) <-> In (k, v) its.
Proof.
  intros N. rewrite <- (aget_iff_In its k v N). clear N. induction its as [|(k0, v0) its IH]; [easy|]. cbn [map aget fst snd].
  destruct (str_eqb k k0); [|easy]. split; congruence.
Qed.
Lemma vals_keys (its : list (str * V)) : keys (map (fun kv => (fst kv, Val (snd kv))) its) = keys its.
Proof. unfold keys. now rewrite map_map. Qed.

Definition linst w i (l : pdict V) k : option V :=
  match aget str_eqb k l with Some s => shown (Some s) | None => class_sees w (w_cls w i) k end.
Lemma i_items_spec d i l w : sound w -> desc w (w_cls w i) = Some d -> NoDup (keys l) ->
  let '(w', its) := i_items d (w_cls w i) l w in
  same w w' /\ NoDup (keys its) /\ forall k v, In (k, v) its <-> linst w i l k = Some v.
Proof.
  intros Hs D N. unfold i_items. pose proof (scan_spec l [] N) as K. destruct (scan [] l) as (seen, out).
  destruct K as (K1 & K2 & K3). pose proof (t_items_sees d (w_cls w i) w Hs D) as T.
  destruct (t_items d (w_mro w (w_cls w i)) [] w) as (w', its). destruct T as (S & N' & T).
  pose proof (scan_spec (map (fun kv => (fst kv, Val (snd kv))) its) seen) as Q. rewrite vals_keys in Q. specialize (Q N').
  destruct (scan seen _) as (seen', out'). destruct Q as (Q1 & Q2 & Q3). cbn [snd]. split; [exact S|]. split.
  - unfold keys. rewrite map_app. apply NoDup_app'; [exact K3|exact Q3|]. intros k I1 I2.
    apply in_map_iff in I1, I2. destruct I1 as ((k1, v1) & E1 & I1), I2 as ((k2, v2) & E2 & I2). cbn in E1, E2. subst.
    apply K2 in I1. apply Q2 in I2. destruct I1 as (_ & I1), I2 as (I2 & _). apply I2, K1. right.
    apply (aget_Some_keys str_eqb str_eqb_eq). eauto.
  - intros k v. rewrite in_app_iff, K2, Q2, K1, (vals_get its k v N'), T. unfold linst.
    pose proof (aget_Some_keys str_eqb str_eqb_eq k l) as G. destruct (aget str_eqb k l) as [s|] eqn:E.
    + assert (In k (keys l)) by (apply G; eauto). destruct s; cbn; intuition congruence.
    + assert (~ In k (keys l)) by (intros I; apply G in I; destruct I; congruence). cbn in *. intuition congruence.
Qed.
Lemma i_get_spec d i l k w : desc w (w_cls w i) = Some d ->
  let '(w', r) := i_get d (w_cls w i) l k w in
  same w w' /\ r = match linst w i l k with Some v => Ok (Val v) | None => Err KeyErr end.
Proof.
  intros D. unfold i_get, linst. destruct (aget str_eqb k l) as [[v|]|].
  - split; [apply same_refl|easy].
  - split; [apply same_refl|easy].
  - apply (get_sees d (w_cls w i) k w D).
Qed.
Lemma set_local_sound w i l : sound w ->
  match l with NoLocal => True | Storage l => NoDup (keys l) | Whole l => NoDup (keys l) end ->
  sound (set_local w i l).
Proof.
  intros Hs N. split; [apply (so_inj _ Hs)|apply (so_lt _ Hs)|apply (so_dict _ Hs)| |]; intros j l'; cbn [set_local w_local]; unfold fset;
    destruct (Nat.eqb_spec j i) as [->|]; try apply (so_local _ Hs); try apply (so_whole _ Hs); intros ->; exact N.
Qed.
Lemma put_changed w w' i l : same w w' -> inst_changed w (set_local w' i (Storage l)) i (fun k => aget str_eqb k l).
Proof.
  intros S. split; [apply S|]. split; [intros; apply (same_mention _ _ S)|].
  split; [unfold whole; cbn [set_local w_local]; now rewrite fset_eq|].
  split; [intros k; unfold own_says; cbn [set_local w_local]; now rewrite fset_eq|].
  intros j Ne. cbn [set_local w_local]. rewrite fset_neq by easy. now rewrite (sm_local _ _ S).
Qed.
Lemma put_sound w w' i l : sound w -> same w w' -> NoDup (keys l) -> sound (set_local w' i (Storage l)).
Proof. intros Hs S N. apply set_local_sound; [now apply (same_sound w)|exact N]. Qed.
Lemma same_inst_changed w w' i l : same w w' -> w_local w i = Storage l -> inst_changed w w' i (fun k => aget str_eqb k l).
Proof.
  intros S L. split; [apply S|]. split; [intros; apply (same_mention _ _ S)|].
  unfold whole, own_says. rewrite (sm_local _ _ S), L. easy.
Qed.
Lemma ichanged_ext w w' i says says' : (forall k, says k = says' k) -> inst_changed w w' i says -> inst_changed w w' i says'.
Proof. intros E (A & B & C & D & F). repeat (split; [easy|]). split; [|easy]. intros k. now rewrite D. Qed.

Definition inst_pop (o : pop V) : option str := match o with PPop k _ => Some k | _ => None end.
Lemma local_step_spec w i d l o : sound w -> desc w (w_cls w i) = Some d -> w_local w i = Storage l -> inst_pop o = None ->
  let '(w', r) := local_step d (w_cls w i) i l o w in
  sound w' /\ inst_changed w w' i (inst_after (class_sees w (w_cls w i)) (linst w i l) (fun k => aget str_eqb k l) o)
  /\ inst_answers (linst w i l) (fun k => aget str_eqb k l) o r.
Proof.
  intros Hs D L Np. pose proof (so_local _ Hs i l L) as N. pose proof (same_refl w) as S0.
  destruct o as [k|k v|k v|k| |k dflt| |k v|its|k| |]; try easy; cbn [local_step inst_after inst_answers after answers].
  - pose proof (i_get_spec d i l k w D) as G. destruct (i_get _ _ _ _ _) as (w', r). destruct G as (S & ->).
    split; [now apply (same_sound w)|]. split; [now apply same_inst_changed|]. now destruct (linst w i l k).
  - pose proof (i_get_spec d i l k w D) as G. destruct (i_get _ _ _ _ _) as (w', r). destruct G as (S & ->).
    split; [now apply (same_sound w)|]. split; [now apply same_inst_changed|]. now destruct (linst w i l k).
  - split; [apply (put_sound w); [easy..|now apply (NoDup_keys_aset str_eqb str_eqb_eq)]|]. split; [|easy].
    eapply ichanged_ext; [|now apply put_changed]. intros k'. cbv beta. now rewrite aset_mem.
  - pose proof (i_get_spec d i l k w D) as G. destruct (i_get _ _ _ _ _) as (w', r). destruct G as (S & ->).
    destruct (linst w i l k) as [v|].
    + split; [apply (put_sound w); [easy..|now apply (NoDup_keys_aset str_eqb str_eqb_eq)]|]. split; [|easy].
      eapply ichanged_ext; [|now apply put_changed]. intros k'. cbv beta. now rewrite aset_mem.
    + split; [now apply (same_sound w)|]. split; [now apply same_inst_changed|easy].
  - pose proof (t_items_sees d (w_cls w i) w Hs D) as T. destruct (t_items _ _ _ _) as (w', its). destruct T as (S & N' & T).
    split; [apply (put_sound w); [easy..|apply d_mark_nodup; constructor]|]. split; [|easy].
    eapply ichanged_ext; [|now apply put_changed]. intros k. cbv beta. rewrite d_mark_get, (items_memb its _ T).
    now destruct (class_sees w (w_cls w i) k).
  - split; [easy|]. split; [now apply same_inst_changed|easy].
  - pose proof (i_get_spec d i l k w D) as G. destruct (i_get _ _ _ _ _) as (w', r). destruct G as (S & ->).
    destruct (linst w i l k) as [v'|] eqn:E.
    + split; [now apply (same_sound w)|]. split; [now apply same_inst_changed|easy].
    + destruct (aget str_eqb k l) as [s|] eqn:E'.
      * split; [now apply (same_sound w)|]. split; [now apply same_inst_changed|easy].
      * split; [apply (put_sound w); [easy..|now apply (NoDup_keys_aset str_eqb str_eqb_eq)]|]. split; [|easy].
        eapply ichanged_ext; [|now apply put_changed]. intros k'. cbv beta. now rewrite aset_mem.
  - split; [apply (put_sound w); [easy..|now apply d_update_nodup]|]. split; [|easy].
    eapply ichanged_ext; [|now apply put_changed]. intros k'. cbv beta. now rewrite d_update_get.
  - pose proof (i_items_spec d i l w Hs D N) as T. destruct (i_items _ _ _ _) as (w', its). destruct T as (S & N' & T).
    split; [now apply (same_sound w)|]. split; [now apply same_inst_changed|]. now rewrite (items_memb its _ T).
  - pose proof (i_items_spec d i l w Hs D N) as T. destruct (i_items _ _ _ _) as (w', its). destruct T as (S & N' & T).
    split; [now apply (same_sound w)|]. split; [now apply same_inst_changed|]. eauto.
  - pose proof (i_items_spec d i l w Hs D N) as T. destruct (i_items _ _ _ _) as (w', its). destruct T as (S & N' & T).
    split; [now apply (same_sound w)|]. split; [now apply same_inst_changed|]. eexists. split; [reflexivity|]. now apply items_bool.
Qed.

(* the storage, created on first access *)
Definition storage w i : pdict V := match w_local w i with Storage l => l | _ => [] end.
Lemma storage_says w i : whole w i = None -> forall k, aget str_eqb k (storage w i) = own_says w i k.
Proof. intros W k. unfold storage, own_says. now destruct (w_local w i). Qed.
Lemma linst_sees w i : whole w i = None -> forall k, linst w i (storage w i) k = inst_sees w i k.
Proof. intros W k. unfold linst, inst_sees. now rewrite W, storage_says. Qed.
Definition touch w i : wd := match w_local w i with NoLocal => set_local w i (Storage []) | _ => w end.
Lemma inst_step_touch w i d o : desc w (w_cls w i) = Some d -> whole w i = None ->
  inst_step i o w = local_step d (w_cls w i) i (storage w i) o (touch w i).
Proof. intros D W. unfold inst_step, storage, touch. rewrite D. unfold whole in W. now destruct (w_local w i). Qed.
Lemma touch_spec w i : sound w -> whole w i = None ->
  sound (touch w i) /\ w_local (touch w i) i = Storage (storage w i)
  /\ inst_changed w (touch w i) i (own_says w i).
Proof.
  intros Hs W. unfold touch, storage, inst_changed, own_says, whole in *. destruct (w_local w i) eqn:E.
  - split; [apply set_local_sound; [easy|constructor]|]. cbn [set_local w_local]. rewrite fset_eq.
    split; [easy|]. repeat (split; [easy|]). intros j Ne. now rewrite fset_neq.
  - rewrite E. easy.
  - easy.
Qed.
Lemma touch_eqs w i : w_cls (touch w i) = w_cls w /\ (forall c, desc (touch w i) c = desc w c)
  /\ (forall c k, class_sees (touch w i) c k = class_sees w c k)
  /\ (forall d c k, mention (touch w i) d c k = mention w d c k).
Proof. unfold touch. now destruct (w_local w i). Qed.
Lemma ichanged_trans w w1 w2 i says says' : inst_changed w w1 i says -> inst_changed w1 w2 i says' -> inst_changed w w2 i says'.
Proof.
  intros ((A1 & A2 & A3) & B & C & D & E) ((A1' & A2' & A3') & B' & C' & D' & E').
  split; [split; [|split]; congruence|]. split; [intros; now rewrite B'|]. split; [easy|]. split; [easy|].
  intros j Ne. rewrite E'; auto.
Qed.

Lemma answers_ext (sees sees' : str -> option V) o r : (forall k, sees k = sees' k) -> answers sees o r -> answers sees' o r.
Proof.
  intros E. destruct o; cbn; try (rewrite E; easy); try easy.
  - intros (l & A & B & C). exists l. split; [easy|]. split; [easy|]. intros. now rewrite <- E.
  - intros (b & A & B). exists b. split; [easy|]. rewrite B. split; intros (k & v & H); exists k, v; [now rewrite <- E|now rewrite E].
Qed.
Lemma inst_step_spec w i d o : sound w -> desc w (w_cls w i) = Some d -> whole w i = None -> inst_pop o = None ->
  let '(w', r) := inst_step i o w in
  sound w' /\ inst_changed w w' i (inst_after (class_sees w (w_cls w i)) (inst_sees w i) (own_says w i) o)
  /\ inst_answers (inst_sees w i) (own_says w i) o r.
Proof.
  intros Hs D W Np. rewrite (inst_step_touch w i d o D W). destruct (touch_spec w i Hs W) as (T1 & T2 & T3).
  destruct (touch_eqs w i) as (E1 & E2 & E3 & E4).
  pose proof (local_step_spec (touch w i) i d (storage w i) o T1) as K. rewrite E1, E2 in K. specialize (K D T2 Np).
  destruct (local_step _ _ _ _ _ _) as (w', r). destruct K as (K1 & K2 & K3).
  assert (Q : forall k, linst (touch w i) i (storage w i) k = inst_sees w i k).
  { intros k. rewrite <- (linst_sees w i W). unfold linst. now rewrite E1, E3. }
  split; [exact K1|]. split.
  - apply ichanged_trans with (touch w i) (own_says w i); [exact T3|]. eapply ichanged_ext; [|exact K2].
    intros k. destruct o; cbn [inst_after after]; rewrite ?E3, ?Q, ?(storage_says w i W); try easy; unfold upd;
    repeat match goal with |- context[match ?x with _ => _ end] => destruct x end; try easy; now rewrite ?(storage_says w i W).
  - destruct o; cbn [inst_answers] in *; try (eapply answers_ext; [|exact K3]; exact Q).
    rewrite Q, (storage_says w i W) in K3. exact K3.
Qed.
Lemma inst_pop_own w i d k dflt s : sound w -> desc w (w_cls w i) = Some d -> own_says w i k = Some s ->
  let '(w', r) := inst_step i (PPop k dflt) w in
  sound w' /\ inst_changed w w' i (upd (own_says w i) k None) /\ r = Ok (POSlot s).
Proof.
  intros Hs D O. unfold inst_step. rewrite D. unfold own_says in *. destruct (w_local w i) as [|l|l] eqn:E; try easy.
  cbn [local_step]. rewrite O. split; [apply (put_sound w); [easy|apply same_refl|]|].
  - apply (NoDup_keys_adel str_eqb str_eqb_eq), (so_local _ Hs i l E).
  - split; [|easy]. eapply ichanged_ext; [|apply put_changed, same_refl]. intros k'. cbv beta.
    rewrite (aget_adel str_eqb str_eqb_eq). easy.
Qed.
Lemma inst_pop_class w i d k dflt : sound w -> desc w (w_cls w i) = Some d -> whole w i = None -> own_says w i k = None ->
  let '(w', r) := inst_step i (PPop k dflt) w in
  sound w' /\ class_changed w w' d (w_cls w i) (class_after (class_sees w (w_cls w i)) (mention w d (w_cls w i)) (PPop k dflt))
  /\ answers (class_sees w (w_cls w i)) (PPop k dflt) r.
Proof.
  intros Hs D W O. rewrite (inst_step_touch w i d _ D W). destruct (touch_spec w i Hs W) as (T1 & T2 & T3).
  destruct (touch_eqs w i) as (E1 & E2 & E3 & E4). cbn [local_step]. rewrite (storage_says w i W), O.
  pose proof (class_step_spec (touch w i) (w_cls w i) d (PPop k dflt) T1) as K. rewrite E2 in K. specialize (K D).
  unfold class_step in K. rewrite E2, D in K. destruct (type_step _ _ _ _) as (w', r). destruct K as (K1 & K2 & K3).
  split; [exact K1|]. split.
  - apply changed_trans with (touch w i) (mention w d (w_cls w i)).
    + destruct T3 as (A & B & C & F & G). split; [exact A|]. split; [|split; [apply B|intros; apply B]].
      intros j. destruct (Nat.eq_dec j i) as [->|Ne]; [rewrite C; easy|]. unfold whole, own_says. now rewrite (G j Ne).
    + eapply changed_ext; [|exact K2]. intros k'. cbn [class_after after]. rewrite E3. destruct (class_sees w (w_cls w i) k); [|apply E4].
      unfold upd. now rewrite E4.
  - cbn [class_answers answers] in K3 |- *. now rewrite E3 in K3.
Qed.

(* plain dicts *)
Lemma plain_spec (l : list (str * V)) o : NoDup (keys l) ->
  let '(l', r) := plain_step l o in
  NoDup (keys l') /\ dict_after (fun k => aget str_eqb k l) (fun k => aget str_eqb k l') o r
  /\ dict_answers (fun k => aget str_eqb k l) o r.
Proof.
  intros N. assert (Del : forall k k', aget str_eqb k' (adel str_eqb k l) = upd (fun k => aget str_eqb k l) k None k').
  { intros. now rewrite (aget_adel str_eqb str_eqb_eq). }
  assert (Set' : forall k v k', aget str_eqb k' (aset str_eqb k v l) = upd (fun k => aget str_eqb k l) k (Some v) k').
  { intros. now rewrite (aget_aset str_eqb str_eqb_eq). }
  assert (Same : forall k o' k', aget str_eqb k l = o' -> aget str_eqb k' l = upd (fun k => aget str_eqb k l) k o' k').
  { intros k o' k' <-. unfold upd. destruct (str_eqb_spec k' k) as [->|]; easy. }
  destruct o as [k|k v|k v|k| |k dflt| |k v|its|k| |]; cbn [plain_step dict_after dict_answers answers].
  - now destruct (aget str_eqb k l).
  - now destruct (aget str_eqb k l).
  - split; [now apply (NoDup_keys_aset str_eqb str_eqb_eq)|]. split; [apply Set'|easy].
  - destruct (aget str_eqb k l) eqn:E.
    + split; [now apply (NoDup_keys_adel str_eqb str_eqb_eq)|]. split; [apply Del|easy].
    + split; [easy|]. split; [now intros; apply Same|easy].
  - split; [constructor|]. easy.
  - destruct (aget str_eqb k l) eqn:E.
    + split; [now apply (NoDup_keys_adel str_eqb str_eqb_eq)|]. split; [apply Del|easy].
    + split; [easy|]. split; [now intros; apply Same|now destruct dflt].
  - destruct l as [|(k, v) l]; [split; [easy|]; split; [now left|easy]|]. inversion N as [|? ? N1 N2]; subst.
    split; [easy|]. split; [|easy]. right. exists k, v. split; [easy|]. cbn [aget]. rewrite str_eqb_refl. split; [easy|].
    intros k'. unfold upd. destruct (str_eqb_spec k' k) as [->|]; [|easy]. now apply (aget_None str_eqb str_eqb_eq).
  - destruct (aget str_eqb k l) eqn:E.
    + split; [easy|]. split; [now intros; apply Same|easy].
    + split; [now apply (NoDup_keys_aset str_eqb str_eqb_eq)|]. split; [apply Set'|easy].
  - split; [|split; [|easy]].
    + clear Del Set' Same. revert l N. induction its as [|kv its IH]; intros l N; [easy|]. cbn [fold_left]. apply IH.
      now apply (NoDup_keys_aset str_eqb str_eqb_eq).
    + clear Del Set' Same N. intros k'. revert l. induction its as [|(k0, v0) its IH]; intros l; [easy|].
      cbn [fold_left last_for fst snd]. rewrite IH. destruct (last_for k' its); [easy|].
      rewrite (aget_aset str_eqb str_eqb_eq). now destruct (str_eqb k' k0).
  - now destruct (aget str_eqb k l).
  - split; [easy|]. split; [easy|]. exists l. split; [easy|]. split; [easy|]. intros. symmetry. now apply aget_iff_In.
  - split; [easy|]. split; [easy|]. eexists. split; [reflexivity|]. apply items_bool. intros. symmetry. now apply aget_iff_In.
Qed.
Definition untouched w w' : Prop := same_classes w w' /\ forall d c k, mention w' d c k = mention w d c k.
Lemma inst_whole_spec w i d l o : sound w -> desc w (w_cls w i) = Some d -> whole w i = Some l ->
  let '(w', r) := inst_step i o w in
  sound w' /\ same_classes w w' /\ (forall d c k, mention w' d c k = mention w d c k)
  /\ (forall j, j <> i -> w_local w' j = w_local w j)
  /\ exists l', whole w' i = Some l' /\ dict_after (fun k => aget str_eqb k l) (fun k => aget str_eqb k l') o r
  /\ dict_answers (fun k => aget str_eqb k l) o r.
Proof.
  intros Hs D W. unfold inst_step. rewrite D. unfold whole in W. destruct (w_local w i) as [| |l0] eqn:E; try easy.
  injection W as ->. pose proof (plain_spec l o (so_whole _ Hs i l E)) as P. destruct (plain_step l o) as (l', r).
  destruct P as (P1 & P2 & P3). split; [now apply set_local_sound|]. split; [easy|]. split; [easy|].
  split; [intros; cbn [set_local w_local]; now apply fset_neq|].
  exists l'. split; [|easy]. unfold whole. cbn [set_local w_local]. now rewrite fset_eq.
Qed.
Lemma assign_spec w i d l : sound w -> desc w (w_cls w i) = Some d -> NoDup (keys l) ->
  let '(w', r) := world_step w (Assign i l) in
  sound w' /\ r = Ok PONone /\ same_classes w w' /\ (forall d c k, mention w' d c k = mention w d c k)
  /\ (forall j, j <> i -> w_local w' j = w_local w j) /\ whole w' i = Some l.
Proof.
  intros Hs D N. cbn [world_step]. unfold inst_assign. rewrite D. split; [now apply set_local_sound|].
  repeat (split; [easy|]). split; [intros; cbn [set_local w_local]; now apply fset_neq|].
  unfold whole. cbn [set_local w_local]. now rewrite fset_eq.
Qed.

(* soundness lasts *)
Lemma step_sound w o : sound w -> proper o -> sound (fst (world_step w o)).
Proof.
  intros Hs P. destruct o as [c o|i o|i l]; cbn [world_step].
  - destruct (desc w c) as [d|] eqn:D; [|unfold class_step; now rewrite D].
    pose proof (class_step_spec w c d o Hs D) as K. destruct (class_step c o w). apply K.
  - destruct (desc w (w_cls w i)) as [d|] eqn:D; [|unfold inst_step; now rewrite D].
    destruct (whole w i) as [l|] eqn:W.
    { pose proof (inst_whole_spec w i d l o Hs D W) as K. destruct (inst_step i o w). apply K. }
    destruct (inst_pop o) as [k|] eqn:P'.
    + destruct o; try easy. injection P' as ->. destruct (own_says w i k) as [s|] eqn:O.
      * pose proof (inst_pop_own w i d k default s Hs D O) as K. destruct (inst_step _ _ w). apply K.
      * pose proof (inst_pop_class w i d k default Hs D W O) as K. destruct (inst_step _ _ w). apply K.
    + pose proof (inst_step_spec w i d o Hs D W P') as K. destruct (inst_step i o w). apply K.
  - destruct (desc w (w_cls w i)) as [d|] eqn:D; [|unfold inst_assign; now rewrite D].
    pose proof (assign_spec w i d l Hs D P) as K. cbn [world_step] in K. destruct (inst_assign i l w). apply K.
Qed.
Lemma run_sound os : forall w, sound w -> Forall proper os -> sound (run_world w os).
Proof.
  unfold run_world. induction os as [|o os IH]; intros w Hs F; [easy|]. inversion F; subst. cbn [fold_left].
  apply IH; [now apply step_sound|easy].
Qed.
(* class and instance creation do not interfere: MRO, declaring classes and
   types of instances never change *)
Lemma step_classes w o : sound w -> proper o -> same_classes w (fst (world_step w o)).
Proof.
  intros Hs P. destruct o as [c o|i o|i l]; cbn [world_step].
  - destruct (desc w c) as [d|] eqn:D; [|unfold class_step; now rewrite D].
    pose proof (class_step_spec w c d o Hs D) as K. destruct (class_step c o w). apply K.
  - destruct (desc w (w_cls w i)) as [d|] eqn:D; [|unfold inst_step; now rewrite D].
    destruct (whole w i) as [l|] eqn:W.
    { pose proof (inst_whole_spec w i d l o Hs D W) as K. destruct (inst_step i o w). apply K. }
    destruct (inst_pop o) as [k|] eqn:P'.
    + destruct o; try easy. injection P' as ->. destruct (own_says w i k) as [s|] eqn:O.
      * pose proof (inst_pop_own w i d k default s Hs D O) as K. destruct (inst_step _ _ w). apply K.
      * pose proof (inst_pop_class w i d k default Hs D W O) as K. destruct (inst_step _ _ w). apply K.
    + pose proof (inst_step_spec w i d o Hs D W P') as K. destruct (inst_step i o w). apply K.
  - destruct (desc w (w_cls w i)) as [d|] eqn:D; [|unfold inst_assign; now rewrite D].
    pose proof (assign_spec w i d l Hs D P) as K. cbn [world_step] in K. destruct (inst_assign i l w). apply K.
Qed.

(* views *)
Lemma says_ext w w' d l k : (forall b, In b l -> mention w' d b k = mention w d b k) ->
  first_some (fun b => mention w' d b k) l = first_some (fun b => mention w d b k) l.
Proof.
  induction l as [|b l IH]; intros H; [easy|]. cbn [first_some]. rewrite H by now left. rewrite IH; [easy|]. intros. apply H. now right.
Qed.
Lemma upto_incl own d l : incl (upto own d l) l.
Proof.
  induction l as [|c l IH]; [easy|]. rewrite upto_cons. intros b [->|I]; [now left|]. right.
  destruct (own c) as [d'|]; [destruct (Nat.eqb d' d); [easy|]|]; now apply IH.
Qed.
Lemma sees_ext w w' b : same_classes w w' ->
  (forall d c k, desc w b = Some d -> In c (w_mro w b) -> mention w' d c k = mention w d c k) ->
  forall k, class_sees w' b k = class_sees w b k.
Proof.
  intros (A & B & C) H k. unfold class_sees, class_says. replace (desc w' b) with (desc w b) by (unfold desc; now rewrite A, B).
  destruct (desc w b) as [d|]; [|easy]. rewrite A, B. f_equal. apply says_ext. intros c I. apply H; [easy|]. eapply upto_incl, I.
Qed.
Lemma class_sees_head w c d : desc w c = Some d -> hd_error (w_mro w c) = Some c -> forall k,
  class_sees w c k = match mention w d c k with
                     | Some s => shown (Some s)
                     | None => shown (first_some (fun b => mention w d b k) (tl (upto (w_own w) d (w_mro w c))))
                     end.
Proof.
  intros D H k. unfold class_sees, class_says. rewrite D. destruct (w_mro w c) as [|c' r]; [easy|]. injection H as ->.
  rewrite upto_cons. cbn [first_some tl]. now destruct (mention w d c k).
Qed.
Lemma class_shows w c d o : sound w -> desc w c = Some d -> hd_error (w_mro w c) = Some c -> NoDup (w_mro w c) -> forall k,
  class_sees (fst (class_step c o w)) c k = sees_after (class_sees w c) (mention w d c) o k.
Proof.
  intros Hs D H N k. pose proof (class_step_spec w c d o Hs D) as K. destruct (class_step c o w) as (w', r). cbn [fst].
  destruct K as (_ & ((A & B & _) & _ & M & M') & _).
  assert (D' : desc w' c = Some d) by (unfold desc; now rewrite A, B).
  assert (R : first_some (fun b => mention w' d b k) (tl (upto (w_own w') d (w_mro w' c)))
            = first_some (fun b => mention w d b k) (tl (upto (w_own w) d (w_mro w c)))).
  { rewrite A, B. destruct (w_mro w c) as [|c' mr]; [easy|]. injection H as ->. rewrite upto_cons. cbn [tl]. apply says_ext.
    intros b I. apply M'. intros [= ->]. inversion N as [|? ? N1 N2]. apply N1.
    destruct (w_own w c) as [d'|]; [destruct (Nat.eqb d' d); [easy|]|]; eapply upto_incl; exact I. }
  pose proof (class_sees_head w c d D H) as Hd.
  rewrite (class_sees_head w' c d D' ltac:(now rewrite A)), R, M. clear R M M'.
  destruct o as [k0|k0 v|k0 v|k0| |k0 dflt| |k0 v|l|k0| |]; cbn [class_after after sees_after]; rewrite ?Hd; try easy.
  - unfold upd. destruct (str_eqb k k0); [easy|]. now rewrite Hd.
  - destruct (match mention w d c k0 with Some _ => _ | None => _ end) eqn:E.
    + unfold upd. destruct (str_eqb k k0); [easy|]. now rewrite Hd.
    + unfold upd. destruct (str_eqb_spec k k0) as [->|]; [now rewrite E|]. now rewrite Hd.
  - destruct (match mention w d c k with Some _ => _ | None => _ end) eqn:E; [easy|]. now rewrite E.
  - destruct (match mention w d c k0 with Some _ => _ | None => _ end) eqn:E.
    + unfold upd. destruct (str_eqb k k0); [easy|]. now rewrite Hd.
    + unfold upd. destruct (str_eqb_spec k k0) as [->|]; [now rewrite E|]. now rewrite Hd.
  - destruct (mention w d c k0); [now rewrite Hd|]. unfold upd. destruct (str_eqb k k0); [easy|]. now rewrite Hd.
  - now destruct (last_for k l).
Qed.
Lemma inst_sees_none w i : whole w i = None -> forall k,
  inst_sees w i k = match own_says w i k with Some s => shown (Some s) | None => class_sees w (w_cls w i) k end.
Proof. intros W k. unfold inst_sees. now rewrite W. Qed.
Lemma inst_shows w i d o : sound w -> desc w (w_cls w i) = Some d -> whole w i = None -> inst_pop o = None -> forall k,
  inst_sees (fst (inst_step i o w)) i k
  = match o with
    | PSetdefault k' v => match inst_sees w i k', own_says w i k' with
                          | None, None => upd (inst_sees w i) k' (Some v) k | _, _ => inst_sees w i k end
    | _ => sees_after (inst_sees w i) (own_says w i) o k
    end.
Proof.
  intros Hs D W Np k. pose proof (inst_step_spec w i d o Hs D W Np) as K. destruct (inst_step i o w) as (w', r). cbn [fst].
  destruct K as (_ & (A & M & W' & O & _) & _).
  assert (C : class_sees w' (w_cls w' i) k = class_sees w (w_cls w i) k).
  { rewrite (proj2 (proj2 A)). apply sees_ext; [exact A|]. intros. apply M. }
  rewrite (inst_sees_none w' i W'), C, O. pose proof (inst_sees_none w i W) as E.
  destruct o as [k0|k0 v|k0 v|k0| |k0 dflt| |k0 v|l|k0| |]; try easy; cbn [inst_after after sees_after]; try (now rewrite E).
  - unfold upd. destruct (str_eqb k k0); [easy|]. now rewrite E.
  - destruct (inst_sees w i k0) eqn:E0; unfold upd; destruct (str_eqb_spec k k0) as [->|]; try easy; rewrite <- E; easy.
  - now destruct (class_sees w (w_cls w i) k).
  - destruct (inst_sees w i k0) eqn:E0; [now rewrite E|]. destruct (own_says w i k0) eqn:E1; [now rewrite E|].
    unfold upd. destruct (str_eqb k k0); [easy|]. now rewrite E.
  - destruct (last_for k l); [easy|]. now rewrite E.
Qed.

(* isolation *)
Lemma class_isolated w c o b : sound w -> ~ In c (w_mro w b) \/ desc w b <> desc w c ->
  forall k, class_sees (fst (class_step c o w)) b k = class_sees w b k.
Proof.
  intros Hs H. destruct (desc w c) as [d|] eqn:D; [|unfold class_step; now rewrite D].
  pose proof (class_step_spec w c d o Hs D) as K. destruct (class_step c o w) as (w', r). cbn [fst].
  destruct K as (_ & (A & _ & _ & M) & _). apply sees_ext; [exact A|]. intros d' c' k Db I. apply M. intros [= -> ->].
  destruct H as [H|H]; [easy|]. congruence.
Qed.
Lemma class_locals w c o i : sound w ->
  let w' := fst (class_step c o w) in w_cls w' = w_cls w /\ whole w' i = whole w i /\ forall k, own_says w' i k = own_says w i k.
Proof.
  intros Hs. destruct (desc w c) as [d|] eqn:D; [|unfold class_step; now rewrite D].
  pose proof (class_step_spec w c d o Hs D) as K. destruct (class_step c o w) as (w', r). cbn [fst].
  destruct K as (_ & (A & B & _) & _). split; [apply A|]. apply B.
Qed.
Lemma class_isolated_inst w c o i : sound w -> ~ In c (w_mro w (w_cls w i)) \/ desc w (w_cls w i) <> desc w c \/ whole w i <> None ->
  forall k, inst_sees (fst (class_step c o w)) i k = inst_sees w i k.
Proof.
  intros Hs H k. destruct (class_locals w c o i Hs) as (A & B & C). unfold inst_sees. rewrite A, B, C.
  destruct (whole w i); [easy|]. destruct (own_says w i k); [easy|]. apply class_isolated; [easy|].
  destruct H as [H|[H|H]]; [now left|now right|easy].
Qed.
(* an inheriting class or instance that says something itself is unaffected *)
Lemma class_shadowed w c o b d k : sound w -> desc w b = Some d -> hd_error (w_mro w b) = Some b -> b <> c -> mention w d b k <> None ->
  class_sees (fst (class_step c o w)) b k = class_sees w b k.
Proof.
  intros Hs Db Hb Ne Mb. destruct (desc w c) as [d'|] eqn:D; [|unfold class_step; now rewrite D].
  pose proof (class_step_spec w c d' o Hs D) as K. destruct (class_step c o w) as (w', r). cbn [fst].
  destruct K as (_ & (A & _ & _ & M) & _).
  assert (Db' : desc w' b = Some d) by (destruct A as (A1 & A2 & _); unfold desc; now rewrite A1, A2).
  assert (Hb' : hd_error (w_mro w' b) = Some b) by (destruct A as (A1 & _); now rewrite A1).
  rewrite (class_sees_head w b d Db Hb), (class_sees_head w' b d Db' Hb'), M by congruence. now destruct (mention w d b k).
Qed.
(* a subclass that says nothing itself follows *)
Lemma class_inherits w b c d rest : desc w b = Some d -> desc w c = Some d -> w_mro w b = b :: rest -> w_mro w c = rest ->
  forall k, mention w d b k = None -> w_own w b = None -> class_sees w b k = class_sees w c k.
Proof.
  intros Db Dc Mb Mc k M O. unfold class_sees, class_says. rewrite Db, Dc, Mb, Mc, upto_cons, O. cbn [first_some]. now rewrite M.
Qed.
Lemma inst_isolated w i o : sound w -> (forall k, inst_pop o = Some k -> own_says w i k <> None \/ whole w i <> None) ->
  let w' := fst (inst_step i o w) in
  (forall b k, class_sees w' b k = class_sees w b k) /\ forall j k, j <> i -> inst_sees w' j k = inst_sees w j k.
Proof.
  intros Hs H w'.
  assert (K : same_classes w w' /\ (forall d c k, mention w' d c k = mention w d c k) /\ forall j, j <> i -> w_local w' j = w_local w j).
  { subst w'. destruct (desc w (w_cls w i)) as [d|] eqn:D; [|unfold inst_step; now rewrite D].
    destruct (whole w i) as [l|] eqn:W.
    { pose proof (inst_whole_spec w i d l o Hs D W) as K. destruct (inst_step i o w). now destruct K as (_ & K1 & K2 & K3 & _). }
    destruct (inst_pop o) as [k|] eqn:P'.
    + destruct o; try easy. injection P' as ->. destruct (own_says w i k) as [s|] eqn:O; [|now destruct (H k eq_refl)].
      pose proof (inst_pop_own w i d k default s Hs D O) as K. destruct (inst_step _ _ w). now destruct K as (_ & (K1 & K2 & _ & _ & K3) & _).
    + pose proof (inst_step_spec w i d o Hs D W P') as K. destruct (inst_step i o w). now destruct K as (_ & (K1 & K2 & _ & _ & K3) & _). }
  destruct K as (A & B & C).
  assert (E : forall b k, class_sees w' b k = class_sees w b k) by (intros; apply sees_ext; [exact A|intros; apply B]).
  split; [exact E|]. intros j k Ne. unfold inst_sees, whole, own_says. rewrite (C j Ne), (proj2 (proj2 A)), E. easy.
Qed.
End P.
