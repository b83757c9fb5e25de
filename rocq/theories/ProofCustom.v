(* Compounds with a compose and an explode of their own. *)
From Verif Require Import PyBase PyBaseFacts PyList ModelMap SpecScalar ProofScalar ModelPaths SpecPaths ModelScalar ModelFlat SpecFlat
  ProofFlat ProofFlat2 ProofFlat3 ProofFlat4 ProofFlat5 ProofFlat9 ModelCompound ModelCustom SpecCustom.

Lemma unit_iff {A} (r : res A) : (rmap (fun _ => tt) r = Ok tt <-> exists t, r = Ok t)
  /\ forall e, rmap (fun _ => tt) r = Err e <-> r = Err e.
Proof. destruct r as [a|e]; cbn; split; split; try easy; eauto. - now intros [? ?]. - congruence. - congruence. Qed.

Section Plain.
Context {V R : Type} (c : custom V R).
Lemma set_lemma ps v qs :
  (cu_explode c ps v = (qs, Ok None) -> custom_set c ps v = (qs, Ok ToldTrue))
  /\ (forall x, cu_explode c ps v = (qs, Ok (Some x)) -> custom_set c ps v = (qs, Ok (ToldResult x)))
  /\ (cu_explode c ps v = (qs, Err NotImplErr) -> custom_set c ps v = (qs, Err NotImplErr))
  /\ (forall e, e <> NotImplErr -> cu_explode c ps v = (qs, Err e) -> custom_set c ps v = (qs, Ok ToldFalse)).
Proof.
  unfold custom_set. split; [|split; [|split]]; intros; try (now rewrite H). rewrite H0. destruct e; easy.
Qed.
Lemma set_raises ps v qs e : custom_set c ps v = (qs, Err e) -> e = NotImplErr /\ cu_explode c ps v = (qs, Err NotImplErr).
Proof.
  unfold custom_set. destruct (cu_explode c ps v) as [q [[x|]|[]]]; intros H; try discriminate H. injection H as <- <-. easy.
Qed.
Lemma assign_lemma ps v qs :
  (forall o, cu_explode c ps v = (qs, Ok o) -> custom_assign c ps v = (qs, Ok tt))
  /\ (forall e, cu_explode c ps v = (qs, Err e) -> custom_assign c ps v = (qs, Err e)).
Proof. unfold custom_assign. split; intros; now rewrite H. Qed.
Lemma read_lemma ps :
  (forall u v, cu_compose c ps = Ok (u, v) -> custom_u c ps = Ok u /\ custom_value c ps = Ok v)
  /\ (forall e, cu_compose c ps = Err e -> custom_u c ps = Err e /\ custom_value c ps = Err e).
Proof. unfold custom_u, custom_value. split; intros; now rewrite H. Qed.
Lemma blank_parts_lemma ps : Forall2 (fun p q => pt_name q = pt_name p /\ pt_kind q = pt_kind p /\ pt_default q = pt_default p
    /\ s_value (pt_st q) = VNone /\ s_u (pt_st q) = [] /\ s_raw (pt_st q) = None) ps (new_parts ps).
Proof. induction ps; cbn; constructor; easy. Qed.
Lemma init_lemma ps :
  (ps = [] -> forall v, custom_init c ps v = ([], Err TypeErr))
  /\ (ps <> [] ->
      (exists qs, custom_init c ps None = (qs, Ok tt)
         /\ Forall2 (fun p q => pt_name q = pt_name p /\ pt_kind q = pt_kind p /\ pt_default q = pt_default p
              /\ s_value (pt_st q) = VNone /\ s_u (pt_st q) = [] /\ s_raw (pt_st q) = None) ps qs
         /\ forall v, fst (custom_init c ps (Some v)) = fst (custom_set c qs v)
            /\ (snd (custom_init c ps (Some v)) = Ok tt <-> exists t, snd (custom_set c qs v) = Ok t)
            /\ (forall e, snd (custom_init c ps (Some v)) = Err e <-> snd (custom_set c qs v) = Err e))).
Proof.
  split; [now intros -> v|]. intros N. exists (new_parts ps). destruct ps as [|p ps]; [easy|].
  split; [reflexivity|]. split; [apply blank_parts_lemma|]. intros v. cbn [custom_init].
  destruct (custom_set c (new_parts (p :: ps)) v) as [q r]; cbn [fst snd]. split; [easy|]. apply unit_iff.
Qed.
Lemma bool_lemma truth ps :
  (forall u v, cu_compose c ps = Ok (u, v) -> exists b, custom_bool c truth ps = Ok b /\ (b = true <-> u <> [] /\ truth v = true))
  /\ (forall e, cu_compose c ps = Err e -> custom_bool c truth ps = Err e).
Proof.
  unfold custom_bool, custom_u, custom_value. split; intros; rewrite H; cbn; [|easy].
  destruct u as [|x u]; eexists; (split; [reflexivity|]); [split; [discriminate|now intros [? ?]]|split; [now split|now intros [? ?]]].
Qed.
Lemma repr_lemma repr_ ps :
  (forall s, custom_repr c repr_ ps = inl s <-> exists u v, cu_compose c ps = Ok (u, v) /\ repr_ v = Ok s)
  /\ (forall e, custom_repr c repr_ ps = inr e <->
        cu_compose c ps = Err e \/ exists u v, cu_compose c ps = Ok (u, v) /\ repr_ v = Err e).
Proof.
  unfold custom_repr, custom_value. destruct (cu_compose c ps) as [[u v]|e0]; cbn.
  - destruct (repr_ v) as [s0|e0] eqn:E; split.
    + intros s. split; [intros [= ->]; eauto|]. intros (? & ? & [= <- <-] & H). congruence.
    + intros e. split; [discriminate|]. intros [H|(? & ? & [= <- <-] & H)]; [discriminate H|congruence].
    + intros s. split; [discriminate|]. intros (? & ? & [= <- <-] & H). congruence.
    + intros e. split; [intros [= ->]; right; eauto|]. intros [H|(? & ? & [= <- <-] & H)]; [discriminate H|congruence].
  - split.
    + intros s. split; [discriminate|]. now intros (? & ? & H & _).
    + intros e. split; [intros [= ->]; now left|]. intros [[= ->]|(? & ? & H & _)]; easy.
Qed.
Lemma defaults_lemma ps : defaults ps (fst (parts_set_default ps)) (snd (parts_set_default ps)).
Proof.
  induction ps as [|p ps IH]; cbn; [constructor|]. destruct p as [n k [d|] s]; cbn.
  - destruct (scalar_set k s d) as [st [b|e]] eqn:E; cbn.
    + destruct (parts_set_default ps) as [qs r]. cbn in *. econstructor; eassumption.
    + econstructor; eassumption.
  - destruct (parts_set_default ps) as [qs r]. cbn in *. now constructor.
Qed.
Lemma set_default_lemma ps :
  (forall v, cu_default c = Some v -> fst (custom_set_default c ps) = fst (custom_set c ps v)
     /\ (forall e, snd (custom_set_default c ps) = Err e <-> snd (custom_set c ps v) = Err e)
     /\ (snd (custom_set_default c ps) = Ok tt <-> exists t, snd (custom_set c ps v) = Ok t))
  /\ (cu_default c = None -> defaults ps (fst (custom_set_default c ps)) (snd (custom_set_default c ps))).
Proof.
  unfold custom_set_default. split; intros; rewrite H; [|apply defaults_lemma].
  destruct (custom_set c ps v) as [q r]; cbn [fst snd]. split; [easy|]. split; apply unit_iff.
Qed.
End Plain.
Lemma fold_andb bs : forall b, fold_left andb bs b = true <-> b = true /\ Forall (fun x => x = true) bs.
Proof.
  induction bs as [|x bs IH]; cbn; intros b; [split; [now split|now intros [? _]]|].
  rewrite IH, andb_true_iff, Forall_cons_iff. tauto.
Qed.
Lemma empty_lemma ps :
  (ps = [] -> custom_is_empty ps = Err TypeErr)
  /\ (ps <> [] -> exists b, custom_is_empty ps = Ok b
      /\ (b = true <-> Forall (fun p => scalar_is_empty (pt_kind p) (pt_st p) = true) ps)).
Proof.
  split; [now intros ->|]. unfold custom_is_empty. destruct ps as [|p ps]; [easy|]. intros _. cbn [map]. eexists. split; [reflexivity|].
  rewrite fold_andb, Forall_cons_iff. assert (A : forall l, Forall (fun x => x = true) (map (fun p => scalar_is_empty (pt_kind p) (pt_st p)) l)
    <-> Forall (fun p => scalar_is_empty (pt_kind p) (pt_st p) = true) l).
  { intros l. rewrite Forall_map. reflexivity. }
  rewrite A. reflexivity.
Qed.
Lemma abstract_lemma {V R} d repr_ truth ps v : let c := @abstract V R d in
  custom_u c ps = Err NotImplErr /\ custom_value c ps = Err NotImplErr /\ custom_set c ps v = (ps, Err NotImplErr)
  /\ custom_assign c ps v = (ps, Err NotImplErr) /\ custom_bool c truth ps = Err NotImplErr
  /\ custom_repr c repr_ ps = inr NotImplErr /\ custom_serialize v = Err TypeErr.
Proof. easy. Qed.

(* ---------------- flatten ---------------- *)
Lemma in_turn_ok {K A B} (f : B -> K) (g : B -> A) l : in_turn (map (fun x => (f x, Ok (g x))) l) = Ok (map (fun x => (f x, g x)) l).
Proof. induction l as [|x l IH]; cbn; [easy|]. now rewrite IH. Qed.
Definition ptree (n : name) (ps : list part) : tree := Map n true (map (fun p => (pt_name p, Leaf (pt_name p))) ps).
Lemma ptree_kid n ps i p : nth_error ps i = Some p -> node_at (ptree n ps) [i] = Some (Leaf (pt_name p)).
Proof. intros H. cbn. rewrite nth_error_map, H. reflexivity. Qed.
Lemma ptree_name n ps i p x sep : nth_error ps i = Some p -> pt_name p = Some x ->
  flattened_name (ptree n ps) (Node [i]) sep = below n sep x.
Proof.
  intros H E. rewrite name_lemma by now rewrite (ptree_kid n ps i p H).
  unfold names_to. rewrite (ptree_kid n ps i p H). cbn. rewrite E. destruct n as [o|]; cbn; [|easy].
  now rewrite ?app_nil_r, <- ?app_assoc.
Qed.
Lemma ptree_root n ps sep : flattened_name (ptree n ps) (Node []) sep = match n with Some x => x | None => [] end.
Proof. rewrite name_lemma by easy. cbn. destruct n; easy. Qed.
Lemma ptree_leaf n ps i : (i < List.length ps)%nat -> kids (ptree n ps) (Node [i]) = [].
Proof.
  intros H. destruct (nth_error ps i) as [p|] eqn:E; [|apply nth_error_None in E; lia].
  unfold kids. now rewrite (ptree_kid n ps i p E).
Qed.
Lemma ptree_later n ps k : generation (ptree n ps) (Node []) (S k) = [].
Proof.
  induction k as [|k IH]; cbn [generation]; [|cbn [generation] in IH; now rewrite IH].
  unfold kids at 2, ptree at 2. cbn [node_at]. rewrite flat_map_concat_map, map_map.
  rewrite (map_ext_in _ (fun _ => [])); [now induction (seq 0 _)|].
  intros i I. apply in_seq in I as [_ I]. apply ptree_leaf. rewrite map_length in I. lia.
Qed.
Lemma ptree_all n ps k : generation (ptree n ps) (Node []) k = [] ->
  generations (ptree n ps) (Node []) k = map (fun i => Node [i]) (seq 0 (List.length ps)).
Proof.
  assert (G0 : generation (ptree n ps) (Node []) 0 = map (fun i => Node [i]) (seq 0 (List.length ps))).
  { cbn. now rewrite map_length. }
  intros H. destruct k as [|k].
  - rewrite <- G0, H. reflexivity.
  - unfold generations. cbn [seq flat_map]. rewrite G0, flat_map_concat_map, <- seq_shift, map_map.
    rewrite (map_ext _ (fun _ => [])) by (intros i; apply ptree_later). clear H. rewrite <- (app_nil_r (map _ (seq 0 (List.length ps)))) at 2. f_equal. now induction (seq 0 k).
Qed.
Lemma seq_nth {A B} (l : list A) (g : nat -> B) (h : A -> B) : (forall i a, nth_error l i = Some a -> g i = h a) ->
  map g (seq 0 (List.length l)) = map h l.
Proof.
  revert g. induction l as [|a l IH]; intros g H; [easy|]. cbn. f_equal; [now apply (H O)|].
  rewrite <- seq_shift, map_map. apply IH. intros i b E. now apply (H (S i)).
Qed.
Lemma flatten_custom {V R} (c : custom V R) n sep ps : named ps ->
  (forall u v, cu_compose c ps = Ok (u, v) -> exists f, forall fuel, (f <= fuel)%nat -> custom_flatten c fuel n sep ps = Ok (listed n sep u ps))
  /\ (forall e, cu_compose c ps = Err e -> exists f, forall fuel, (f <= fuel)%nat -> custom_flatten c fuel n sep ps = Err e).
Proof.
  intros [NN _]. destruct (flatten_lemma (ptree n ps) (fun _ => true) true (Node []) sep (custom_u_at c ps)) as (k & G & f & F).
  rewrite (ptree_all n ps k G) in F.
  assert (E : forall fuel, (f <= fuel)%nat -> custom_flatten c fuel n sep ps =
     in_turn ((match n with Some x => x | None => [] end, custom_u c ps)
              :: map (fun p => (match pt_name p with Some x => below n sep x | None => [] end, Ok (s_u (pt_st p)))) ps)).
  { intros fuel L. unfold custom_flatten. change (Map n true _) with (ptree n ps). rewrite F by easy. cbn [bind]. f_equal.
    assert (X : forall l : list elem, filter (fun _ => true) l = l) by (induction l; cbn; congruence). rewrite X. cbn [map].
    rewrite ptree_root. f_equal. rewrite map_map. apply seq_nth. intros i p I. cbn [custom_u_at]. rewrite I.
    rewrite Forall_forall in NN. specialize (NN p (nth_error_In _ _ I)). destruct (pt_name p) as [x|] eqn:Ex; [|easy].
    now rewrite (ptree_name n ps i p x sep I Ex). }
  split.
  - intros u v C. exists f. intros fuel L. rewrite E by easy. cbn [in_turn]. unfold custom_u. rewrite C. cbn [rmap bind fst].
    now rewrite in_turn_ok.
  - intros e C. exists f. intros fuel L. rewrite E by easy. cbn [in_turn]. unfold custom_u. now rewrite C.
Qed.

(* ---------------- set_flat ---------------- *)
Definition item (p : part) : name * element := (pt_name p, EScalar (pt_name p) (pt_st p)).
Definition fld (p : part) : bool * schema := (true, SScalar (pt_name p) (pt_kind p)).
Fixpoint flat_loop (ps : flat_pairs) (l : list part) : list part * res unit :=
  match l with
  | [] => ([], Ok tt)
  | p :: l' =>
      match pt_name p with
      | None => (l, Ok tt)
      | Some x =>
          match starting x ps with
          | [] => let '(l', r) := flat_loop ps l' in (p :: l', r)
          | acc =>
              let '(st, r) := match flat_first (pt_name p) acc with
                              | Some v => scalar_set (pt_kind p) (forgets (pt_st p)) v
                              | None => (forgets (pt_st p), Ok true)
                              end in
              match r with
              | Err e => (with_st p st :: l', Err e)
              | Ok _ => let '(l', r) := flat_loop ps l' in (with_st p st :: l', r)
              end
          end
      end
  end.
Lemma aget_mid k (l1 l2 : list part) p : pt_name p = k -> ~ In k (map pt_name l1) ->
  aget name_eqb k (map item (l1 ++ p :: l2)) = Some (EScalar k (pt_st p)).
Proof.
  intros E. induction l1 as [|q l1 IH]; cbn; intros N.
  - rewrite E, name_eqb_refl. reflexivity.
  - rewrite name_eqb_neq; [apply IH|]; intros H; apply N; [now right|left; congruence].
Qed.
Lemma aset_mid k (l1 l2 : list part) p st : pt_name p = k -> ~ In k (map pt_name l1) ->
  aset name_eqb k (EScalar k st) (map item (l1 ++ p :: l2)) = map item (l1 ++ with_st p st :: l2).
Proof.
  intros E. induction l1 as [|q l1 IH]; cbn; intros N.
  - rewrite E, name_eqb_refl. unfold item. cbn. now rewrite E.
  - rewrite name_eqb_neq; [f_equal; apply IH|]; intros H; apply N; [now right|left; congruence].
Qed.
Lemma loop_lemma sep ps l : text_keys ps -> Forall (fun p => pt_name p <> None) l -> forall done, NoDup (map pt_name (done ++ l)) ->
  dict_go sep ps (map fld l) (map item (done ++ l)) =
  (map item (done ++ fst (flat_loop ps l)), snd (flat_loop ps l)).
Proof.
  intros T NN. induction NN as [|p l NP NN IH]; intros done ND; [cbn; now rewrite app_nil_r|].
  cbn [map dict_go fld]. cbn [schema_name]. cbn [flat_loop]. destruct (pt_name p) as [x|] eqn:E; [|easy].
  rewrite acc_text by easy.
  assert (ND' : ~ In (Some x) (map pt_name done)).
  { rewrite map_app in ND. rewrite <- E. intros I.
    cbn [map] in ND. apply NoDup_remove_2 in ND. apply ND. apply in_or_app. now left. }
  assert (Step : forall q, pt_name q = Some x -> dict_go sep ps (map fld l) (map item (done ++ q :: l)) =
     (map item (done ++ q :: fst (flat_loop ps l)), snd (flat_loop ps l))).
  { intros q Q. change (done ++ q :: l) with (done ++ [q] ++ l). rewrite app_assoc. rewrite IH.
    - now rewrite <- app_assoc.
    - rewrite <- app_assoc. cbn [app]. rewrite map_app in *. cbn [map] in *. now rewrite Q, <- E. }
  destruct (starting x ps) as [|a acc] eqn:A.
  - rewrite (Step p E). now destruct (flat_loop ps l).
  - rewrite aget_mid by easy. cbn [set_flat].
    change (Scalar None (s_value (pt_st p)) (s_u (pt_st p))) with (forgets (pt_st p)).
    destruct (flat_first (Some x) (a :: acc)) as [v|].
    + destruct (scalar_set (pt_kind p) (forgets (pt_st p)) v) as [st [b|e]]; cbn [rmap]; rewrite aset_mid by easy.
      * rewrite Step by easy. now destruct (flat_loop ps l).
      * reflexivity.
    + rewrite aset_mid by easy. rewrite Step by easy. now destruct (flat_loop ps l).
Qed.
Lemma flat_loop_shape ps l : Forall2 (fun p q => exists st, q = with_st p st) l (fst (flat_loop ps l)).
Proof.
  assert (Same : forall l, Forall2 (fun p q => exists st, q = with_st p st) l l).
  { induction l0 as [|p l0 IH]; constructor; [|easy]. exists (pt_st p). now destruct p. }
  induction l as [|p l IH]; cbn [flat_loop]; [constructor|]. destruct (pt_name p); [|apply Same].
  destruct (starting s ps).
  - destruct (flat_loop ps l). constructor; [exists (pt_st p); now destruct p|easy].
  - destruct (match flat_first _ _ with Some v => _ | None => _ end) as [st [b|e]].
    + destruct (flat_loop ps l). constructor; [now exists st|easy].
    + constructor; [now exists st|apply Same].
Qed.
Lemma from_lemma n ps qs : NoDup (map pt_name ps) -> Forall2 (fun p q => exists st, q = with_st p st) ps qs ->
  parts_from ps (EDict n None (map item qs)) = qs.
Proof.
  intros ND F. unfold parts_from.
  assert (G : forall done l qs', Forall2 (fun p q => exists st, q = with_st p st) l qs' ->
     NoDup (map pt_name (done ++ l)) ->
     map (fun p => match aget name_eqb (pt_name p) (map item (done ++ qs')) with Some (EScalar _ st) => with_st p st | _ => p end) l = qs').
  { intros done l qs' H. revert done. induction H as [|p q l qs' [st ->] H IH]; intros done N; [easy|]. cbn [map]. f_equal.
    - rewrite aget_mid with (p := with_st p st); [easy|easy|].
      rewrite map_app in N. cbn [map] in N. apply NoDup_remove_2 in N. intros I. apply N. apply in_or_app. now left.
    - specialize (IH (done ++ [with_st p st])). rewrite <- !app_assoc in IH. cbn [app] in IH. apply IH.
      rewrite map_app in *. cbn [map] in *. easy. }
  exact (G [] ps qs F ND).
Qed.
Lemma set_flat_loop n sep ps pairs : named ps -> text_keys pairs ->
  custom_set_flat n sep ps pairs = flat_loop (own_part n sep pairs) ps.
Proof.
  intros [NN ND] T. unfold custom_set_flat, parts_schema, parts_element. rewrite set_flat_dict_text by easy.
  change (map (fun p => (true, SScalar (pt_name p) (pt_kind p))) ps) with (map fld ps).
  change (map (fun p => (pt_name p, EScalar (pt_name p) (pt_st p))) ps) with (map item ps).
  pose proof (loop_lemma sep (own_part n sep pairs) ps (own_part_text n sep pairs T) NN [] ND) as L. cbn [app] in L. rewrite L.
  rewrite from_lemma; [now destruct (flat_loop _ _)|easy|apply flat_loop_shape].
Qed.
Lemma routes_key n sep x ps l : routes n sep x ps l -> forall y, In (Some (x ++ y)) (map fst l) <-> In (Some (below n sep (x ++ y))) (map fst ps).
Proof.
  assert (Inj : forall a b, below n sep a = below n sep b -> a = b).
  { destruct n; cbn; [|easy]. intros a b H. now apply app_inv_head, app_inv_head in H. }
  induction 1 as [|r v ps l H IH|k v ps l N H IH]; intros y; cbn [map fst In]; [easy| |].
  - rewrite IH. split; (intros [E|I]; [left|now right]).
    + injection E as E. now rewrite E.
    + injection E as E. now apply Inj in E as ->.
  - rewrite IH. split; [now right|]. intros [[= E]|I]; [|easy]. now apply N in E.
Qed.
Lemma routes_first n sep x ps l v a b : routes n sep x ps l -> l = a ++ (Some x, v) :: b -> ~ In (Some x) (map fst a) ->
  exists a' b', ps = a' ++ (Some (below n sep x), v) :: b' /\ ~ In (Some (below n sep x)) (map fst a').
Proof.
  assert (Inj : forall a b, below n sep a = below n sep b -> a = b).
  { destruct n; cbn; [|easy]. intros p q H. now apply app_inv_head, app_inv_head in H. }
  intros H. revert a. induction H as [|r w ps l H IH|k w ps l N H IH]; intros a E NI.
  - now destruct a.
  - destruct a as [|q a].
    + cbn in E. injection E as E -> <-. rewrite E. exists [], ps. easy.
    + cbn in E. injection E as <- E. destruct (IH a E) as (a' & b' & -> & N'); [intros I; apply NI; now right|].
      exists ((Some (below n sep (x ++ r)), w) :: a'), b'. split; [easy|]. cbn. intros [[= X]|I]; [|easy].
      apply Inj in X. apply NI. left. cbn [fst]. f_equal. exact X.
  - destruct (IH a E NI) as (a' & b' & -> & N'). exists ((Some k, w) :: a'), b'. split; [easy|]. cbn. intros [[= X]|I]; [|easy].
    apply (N []). now rewrite app_nil_r.
Qed.
Lemma flat_first_some k l v : flat_first k l = Some v -> exists a b, l = a ++ (k, v) :: b /\ ~ In k (map fst a).
Proof.
  induction l as [|[m w] l IH]; cbn; [easy|]. destruct (name_eqb m k) eqn:E.
  - intros [= ->]. apply name_eqb_eq' in E as ->. now exists [], l.
  - intros H. destruct (IH H) as (a & b & -> & N). exists ((m, w) :: a), b. split; [easy|]. cbn. intros [->|I]; [|easy].
    now rewrite name_eqb_refl in E.
Qed.
Lemma flat_first_none k l : flat_first k l = None -> ~ In k (map fst l).
Proof.
  induction l as [|[m w] l IH]; cbn; [easy|]. destruct (name_eqb m k) eqn:E; [easy|]. intros H [->|I]; [|now apply IH].
  now rewrite name_eqb_refl in E.
Qed.
Lemma routes_tails n sep x ps l : routes n sep x ps l -> Forall (fun p => exists y, fst p = Some (x ++ y)) l.
Proof. induction 1; [constructor|constructor; [cbn; eauto|easy]|easy]. Qed.
Lemma set_flat_custom n sep ps pairs : named ps -> text_keys pairs ->
  delivers n sep pairs ps (fst (custom_set_flat n sep ps pairs)) (snd (custom_set_flat n sep ps pairs)).
Proof.
  intros N T. rewrite set_flat_loop by easy. destruct N as [NN _].
  induction NN as [|p ps NP NN IH]; cbn [flat_loop]; [constructor|].
  destruct (pt_name p) as [x|] eqn:E; [|easy]. pose proof (routes_lemma n sep x pairs T) as Ro.
  pose proof (routes_key _ _ _ _ _ Ro) as RK. pose proof (routes_tails _ _ _ _ _ Ro) as RT.
  destruct (starting x (own_part n sep pairs)) as [|a acc] eqn:A.
  - destruct (flat_loop (own_part n sep pairs) ps) as [qs r]. cbn in *. apply delivers_next; [|exact IH].
    apply (receives_nothing n sep pairs p x E). intros y I. now apply RK in I.
  - destruct (flat_first (Some x) (a :: acc)) as [v|] eqn:F.
    + apply flat_first_some in F as (l1 & l2 & Eq & N1). destruct (routes_first _ _ _ _ _ v l1 l2 Ro Eq N1) as (a' & b' & Eq' & N').
      destruct (scalar_set (pt_kind p) (forgets (pt_st p)) v) as [st [b|e]] eqn:S.
      * destruct (flat_loop (own_part n sep pairs) ps) as [qs r]. cbn in *. apply delivers_next; [|exact IH].
        exact (receives_value n sep pairs p x v a' b' st (Ok b) E Eq' N' S).
      * cbn. apply delivers_raise. exact (receives_value n sep pairs p x v a' b' st (Err e) E Eq' N' S).
    + destruct (flat_loop (own_part n sep pairs) ps) as [qs r]. cbn [fst snd] in *. apply delivers_next; [|exact IH].
      apply Forall_cons_iff in RT as [[y Y] _]. apply (receives_like n sep pairs p x y E).
      * intros I. rewrite <- (app_nil_r x) in I. apply RK in I. rewrite app_nil_r in I. now apply (flat_first_none _ _ F).
      * apply RK. left. easy.
Qed.
