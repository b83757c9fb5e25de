(* set of nested elements *)
From Verif Require Import PyBase PyBaseFacts PyList ModelUtil ModelMap ModelScalar ModelNest SpecNest.
From Coq Require Import Lia Permutation.

(* induction under the lists *)
Lemma nested_rect' (P : nested -> Prop) :
  (forall k, P (NScalar k)) ->
  (forall own fields, Forall (fun f => P (fschema f)) fields -> P (NDict own fields)) ->
  (forall c m, P m -> P (NSeq c m)) -> forall s, P s.
Proof.
  intros HS HD HQ. fix F 1. intros [k | own fields | c m].
  - apply HS.
  - apply HD. revert fields. fix G 1. intros [| f fields]; constructor; [apply F | apply G].
  - apply HQ, F.
Qed.
Lemma record_rect' (P : record -> Prop) :
  (forall sub st, P (RScalar sub st)) ->
  (forall l, Forall (fun kv => P (snd kv)) l -> P (RDict l)) ->
  (forall c l, Forall P l -> P (RSeq c l)) -> forall e, P e.
Proof.
  intros HS HD HQ. fix F 1. intros [sub st | l | c l].
  - apply HS.
  - apply HD. revert l. fix G 1. intros [| f l]; constructor; [apply F | apply G].
  - apply HQ. revert l. fix G 1. intros [| f l]; constructor; [apply F | apply G].
Qed.

(* ---- association lists ---- *)
Lemma aget_aset {V} n m (v : V) l :
  aget name_eqb n (aset name_eqb m v l) = if name_eqb n m then Some v else aget name_eqb n l.
Proof.
  induction l as [| [k w] l IH]; cbn [aset aget].
  - destruct (name_eqb n m); reflexivity.
  - destruct (name_eqb_spec m k) as [E | E]; cbn [aget].
    + subst k. destruct (name_eqb_spec n m); reflexivity.
    + rewrite IH. destruct (name_eqb_spec n k) as [E' | E'], (name_eqb_spec n m) as [E2 | E2]; congruence.
Qed.
Lemma aset_keys {V} m (v : V) l :
  map fst (aset name_eqb m v l) = if memb name_eqb m (map fst l) then map fst l else map fst l ++ [m].
Proof.
  induction l as [| [k w] l IH]; cbn [aset map memb existsb].
  - reflexivity.
  - unfold memb in *. cbn [existsb fst]. destruct (name_eqb_spec m k) as [E | E]; cbn [map fst orb].
    + reflexivity.
    + rewrite IH. destruct (existsb _ _); reflexivity.
Qed.
Lemma aget_in {V} n (v : V) l : aget name_eqb n l = Some v -> In (n, v) l.
Proof.
  induction l as [| [k w] l IH]; cbn [aget]; [discriminate |].
  destruct (name_eqb_spec n k) as [E | E]; intros H.
  - injection H as <-. left. congruence.
  - right. apply IH, H.
Qed.
Lemma in_aget {V} n (v : V) l : NoDup (map fst l) -> In (n, v) l -> aget name_eqb n l = Some v.
Proof.
  induction l as [| [k w] l IH]; cbn [aget map fst]; intros D; [intros [] |].
  inversion D as [| ? ? D1 D2]; subst. intros [H | H].
  - injection H as -> ->. rewrite name_eqb_refl. reflexivity.
  - destruct (name_eqb_spec n k) as [E | E]; [subst; exfalso; apply D1; apply (in_map fst) in H; exact H |].
    apply IH; assumption.
Qed.
Lemma aget_none {V} n (l : list (name * V)) : aget name_eqb n l = None <-> ~ In n (map fst l).
Proof.
  induction l as [| [k w] l IH]; cbn [aget map fst In].
  - intuition.
  - destruct (name_eqb_spec n k) as [E | E]; [split; [discriminate | intros H; exfalso; apply H; left; congruence] |].
    rewrite IH. intuition congruence.
Qed.
Lemma memb_name n l : memb name_eqb n l = true <-> In n l.
Proof. apply memb_In. intros; apply name_eqb_eq. Qed.

(* ---- what a call leaves does not depend on what was there ---- *)
Section Objects.
Variable object : data -> pyval.
Notation set := (nested_set object).

Lemma empty_fits s : fits s (empty s).
Proof. destruct s; cbn; exact I || reflexivity. Qed.
Lemma set_fits s e d : fits s e -> fits s (fst (set s e d)).
Proof.
  destruct s as [k | own fields | c m], e as [sub st | items | c' l]; cbn; try (intros []; fail); intros H.
  - destruct (scalar_set k st (plain object d)). exact I.
  - destruct (pairs_of d); [| exact I]. destruct (set_fields _ _ _ _ _ _). exact I.
  - destruct (iter_data d); [| reflexivity]. destruct (set_members _ _) as [es [b | []]]; reflexivity.
Qed.
Lemma set_forgets s e1 e2 d : fits s e1 -> fits s e2 ->
  snd (set s e1 d) = snd (set s e2 d) /\
  (forall b, snd (set s e1 d) = Ok b -> fst (set s e1 d) = fst (set s e2 d)).
Proof.
  destruct s as [k | own fields | c m], e1 as [sub st | items | c' l]; cbn [fits]; try (intros []; fail);
    destruct e2 as [sub2 st2 | items2 | c2 l2]; try (intros _ []; fail); intros H1 H2; cbn [nested_set].
  - unfold scalar_set. destruct (adapt k (plain object d)) as [v | []]; cbn; split; try reflexivity; discriminate.
  - destruct (pairs_of d); [| split; [reflexivity | discriminate]]. destruct (set_fields _ _ _ _ _ _).
    split; reflexivity.
  - destruct (iter_data d); [| split; reflexivity].
    destruct (set_members _ _) as [es [b | []]]; split; reflexivity.
Qed.

(* ---- sequences ---- *)
Lemma set_members_spec (f : data -> record * res bool) l :
  set_members f l = match verdict (map (fun d => snd (f d)) l) with
                    | Ok b => (map (fun d => fst (f d)) l, Ok b)
                    | Err x => ([], Err x)
                    end.
Proof.
  induction l as [| d l IH]; cbn [set_members map verdict]; [reflexivity |].
  destruct (f d) as [e [b | x]]; cbn [fst snd]; [| reflexivity].
  rewrite IH. destruct (verdict _); reflexivity.
Qed.
Lemma seq_set c m l0 d l : iter_data d = Ok l ->
  set (NSeq c m) (RSeq c l0) d =
  match verdict (map (fun d => snd (set m (empty m) d)) l) with
  | Ok b => (RSeq c (map (fun d => fst (set m (empty m) d)) l), Ok b)
  | Err TypeErr => (RSeq c [], Ok false)
  | Err x => (RSeq c [], Err x)
  end.
Proof.
  intros H. cbn [nested_set]. rewrite H, set_members_spec. destruct (verdict _) as [b | []]; reflexivity.
Qed.

(* ---- mappings ---- *)
Section Fields.
Variable own : policy.
Variable fields : list (name * bool * nested).
Definition field_of (n : name) : option nested := aget name_eqb n (map (fun f => (fname f, fschema f)) fields).
Definition pair_outcome (kv : name * data) : res bool :=
  match field_of (fst kv) with
  | Some s => snd (set s (empty s) (snd kv))
  | None => match own with Duck => Ok true | _ => Err KeyErr end
  end.
Notation setters := (map (fun f => (fst (fst f), (empty (snd f), set (snd f)))) fields).
Notation start := (flat_map (fun f : name * bool * nested => if snd (fst f) : bool then [(fst (fst f), empty (snd f))] else []) fields).
Lemma setters_get n : aget name_eqb n setters = option_map (fun s => (empty s, set s)) (field_of n).
Proof.
  unfold field_of. induction fields as [| [[m b] s] l IH]; cbn [map aget fst snd fname fschema]; [reflexivity |].
  destruct (name_eqb n m); [reflexivity | exact IH].
Qed.
Definition as_key (n : name) : data := DVal (match n with Some s => VText s | None => VNone end).
Lemma as_name_key n : as_name (as_key n) = Ok (Some n).
Proof. destruct n; reflexivity. Qed.

Definition fitting (items : list (name * record)) : Prop :=
  forall n e s, aget name_eqb n items = Some e -> field_of n = Some s -> fits s e.
Definition member (items : list (name * record)) (n : name) (s : nested) (ds : list data) : option record :=
  match aget name_eqb n items, ds with
  | None, [] => None
  | o, _ => Some (fold_left (fun e d => fst (set s e d)) ds (match o with Some e => e | None => empty s end))
  end.
Lemma fields_loop : forall l items seen conv, fitting items ->
  let r := set_fields own setters items seen conv (map (fun kv => Ok (as_key (fst kv), snd kv)) l) in
  let done := filter (fun kv => match field_of (fst kv) with Some _ => true | None => false end)
                     (tried pair_outcome l) in
  snd r = match verdict (map pair_outcome l) with
          | Err x => Err x
          | Ok b => match own with
                    | Strict => if forallb (fun f => memb name_eqb (fst f) (map fst (rev done) ++ seen)) setters
                                then Ok (conv && b) else Err TypeErr
                    | _ => Ok (conv && b)
                    end
          end /\
  map fst (fst r) = mentions (map fst items) (map fst done) /\
  (forall n s, field_of n = Some s -> aget name_eqb n (fst r) = member items n s (given n done)).
Proof.
  induction l as [| [n d] l IH]; intros items seen conv F.
  - cbn [map set_fields fst snd tried filter verdict mentions rev given app].
    cbv zeta. cbn [tried filter map rev app mentions].
    rewrite andb_true_r. split; [destruct own; reflexivity | split; [reflexivity |]].
    + intros n s Hs. unfold member, given. cbn [filter map]. destruct (aget name_eqb n items); reflexivity.
  - cbv zeta. cbn [map set_fields fst snd]. rewrite as_name_key, setters_get.
    cbn [tried].
    assert (Po : pair_outcome (n, d) = match field_of n with
                                       | Some s => snd (set s (empty s) d)
                                       | None => match own with Duck => Ok true | _ => Err KeyErr end
                                       end) by reflexivity.
    rewrite !Po. clear Po.
    destruct (field_of n) as [s |] eqn:Es; cbn [option_map].
    + set (old := match aget name_eqb n items with Some e => e | None => empty s end).
      assert (Fo : fits s old).
      { unfold old. destruct (aget name_eqb n items) as [e |] eqn:Ee; [exact (F n e s Ee Es) | apply empty_fits]. }
      pose proof (set_forgets s old (empty s) d Fo (empty_fits s)) as [Hr He].
      pose proof (set_fits s old d Fo) as Fe.
      destruct (set s old d) as [e r] eqn:Eset. cbn [fst snd] in Hr, He, Fe.
      rewrite <- Hr. destruct r as [b | x].
      * assert (F' : fitting (aset name_eqb n e items)).
        { intros m e' s' Hm Hs'. rewrite aget_aset in Hm. destruct (name_eqb_spec m n) as [E | E].
          - subst m. injection Hm as <-. rewrite Es in Hs'. injection Hs' as <-. exact Fe.
          - exact (F m e' s' Hm Hs'). }
        pose proof (IH (aset name_eqb n e items) (n :: seen) (conv && b) F') as IH'.
        cbv zeta in IH'. destruct IH' as [IH1 [IH2 IH3]].
        cbn [filter fst]. rewrite Es. cbn [map verdict fst rev].
        split; [| split].
        -- rewrite IH1. destruct (verdict (map pair_outcome l)) as [b' | x]; [| reflexivity].
           rewrite map_app, <- app_assoc. cbn [map app fst].
           rewrite <- andb_assoc. reflexivity.
        -- rewrite IH2. cbn [mentions]. f_equal. apply aset_keys.
        -- intros m s' Hs'. rewrite (IH3 m s' Hs'). unfold member, given. rewrite aget_aset. cbn [filter fst].
           destruct (name_eqb_spec m n) as [E | E]; [| reflexivity].
           subst m. rewrite Es in Hs'. injection Hs' as <-. cbn [map snd fold_left].
           unfold old in Eset. destruct (aget name_eqb n items); cbn [fold_left]; rewrite Eset; reflexivity.
      * cbn [filter fst]. rewrite Es. cbn [map filter mentions fst verdict snd].
        split; [| split].
        -- reflexivity.
        -- apply aset_keys.
        -- intros m s' Hs'. unfold member, given. cbn [filter fst]. rewrite aget_aset.
           destruct (name_eqb_spec m n) as [E | E].
           ++ subst m. rewrite Es in Hs'. injection Hs' as <-. cbn [map snd fold_left].
              unfold old in Eset. destruct (aget name_eqb n items); cbn [fold_left]; rewrite Eset; reflexivity.
           ++ cbn [map]. destruct (aget name_eqb m items); reflexivity.
    + assert (G : forall (p : policy), off_policy p = false -> p = Duck) by (intros []; cbn; congruence).
      destruct (off_policy own) eqn:Ep.
      * assert (Hx : (match own with Duck => Ok true | _ => Err KeyErr end) = @Err bool KeyErr)
          by (destruct own; cbn in Ep; congruence).
        rewrite Hx. cbn [filter fst]. rewrite Es. cbn [map filter mentions fst snd verdict].
        split; [reflexivity | split; [reflexivity |]].
        intros m s' Hs'. unfold member, given. cbn [filter map]. destruct (aget name_eqb m items); reflexivity.
      * apply G in Ep.
        assert (Hx : (match own with Duck => Ok true | _ => Err KeyErr end) = @Ok bool true)
          by (rewrite Ep; reflexivity).
        rewrite Hx. cbn [filter fst]. rewrite Es.
        pose proof (IH items seen conv F) as IH'. cbv zeta in IH'. destruct IH' as [IH1 [IH2 IH3]].
        split; [| split; [exact IH2 | exact IH3]].
        rewrite IH1. cbn [map verdict]. destruct (verdict (map pair_outcome l)); [| reflexivity].
        rewrite andb_true_l. reflexivity.
Qed.
End Fields.
End Objects.
