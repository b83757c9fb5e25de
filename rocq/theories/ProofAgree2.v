(* The two front ends agree on every page. *)
From Verif Require Import PyBase PyBaseFacts ModelMarkup SpecMarkup ProofMarkup ProofMarkup2 ProofMarkup3 ProofMarkup4 ProofMarkup5.
From Verif Require Import ModelGenshi SpecGenshi SpecAgree ProofGenshi3 ProofGenshi4 ProofGenshi5 ProofGenshi6 ProofAgree.
From Verif Require Import SpecForm.
From Verif Require ProofForm.
From Coq Require Import Permutation Sorted.

(* ---------------- the mapping handed to the transforms ---------------- *)
Definition switch_pairs (m : mark) : attrs := map (fun p => (lit (snd (fst p)), MText (snd p))) (mk_switches m).
Definition attr_pairs (m : mark) : attrs := map (fun p => (fst p, MText (snd p))) (mk_attrs m).
Definition mark_pairs (m : mark) : attrs := switch_pairs m ++ attr_pairs m.
Definition mark_text (m : mark) : mv := match mk_contents m with Some t => MText t | None => MNone end.
Definition mark_attrs (m : mark) : gattrs := map (fun p => (QName None (fst p), inl (MText (snd p)))) (mk_attrs m).
Definition mark_controls (m : mark) : list directive := map (fun p => DControl (lit (fst (fst p))) [PText (snd p)]) (mk_switches m).

Lemma aset_fresh {V} k (v : V) m : ~ In k (keys m) -> aset str_eqb k v m = m ++ [(k, v)].
Proof.
  induction m as [|[k' v'] m IH]; [reflexivity|]. cbn [aset keys map fst]. intros N. destruct (str_eqb_spec k k') as [->|D]; [elim N; now left|].
  cbn [app]. f_equal. apply IH. intros I. apply N. now right.
Qed.
Lemma mark_keys m : keys (mark_pairs m) = map (fun p => lit (snd (fst p))) (mk_switches m) ++ map fst (mk_attrs m).
Proof. unfold mark_pairs, switch_pairs, attr_pairs, keys. now rewrite map_app, !map_map. Qed.
Lemma table_context k k' : In (k, k') control_table -> to_context (lit k) = lit k' /\ drop_tail_underscores (lit k') = lit k' /\ wf_name (lit k') = true /\ lit k' <> lit "contents".
Proof.
  intros I. simpl in I. repeat (destruct I as [[= <- <-]|I]; [split; [reflexivity|]; split; [reflexivity|]; split; [reflexivity|discriminate]|]). destruct I.
Qed.
Lemma NoDup_mid {A} (l1 : list A) x l2 : NoDup (l1 ++ x :: l2) -> ~ In x l1 /\ NoDup ((l1 ++ [x]) ++ l2).
Proof.
  intros N. split.
  - apply NoDup_remove_2 in N. intros I. apply N. apply in_or_app. now left.
  - now rewrite <- app_assoc.
Qed.
Lemma NoDup_left {A} (l1 l2 : list A) : NoDup (l1 ++ l2) -> NoDup l1.
Proof.
  induction l1 as [|x l1 IH]; [constructor|]. cbn [app]. inversion 1 as [|? ? N1 N2]; subst. constructor; [|now apply IH].
  intros I. apply N1. apply in_or_app. now left.
Qed.
Lemma NoDup_right {A} (l1 l2 : list A) : NoDup (l1 ++ l2) -> NoDup l2.
Proof. induction l1 as [|x l1 IH]; [easy|]. cbn [app]. inversion 1; subst. now apply IH. Qed.
Lemma inject_marks : forall l acc, Forall (fun p => In (fst p) control_table) l ->
  NoDup (keys acc ++ map (fun p => lit (snd (fst p))) l) ->
  inject_all acc (map (fun p => DControl (lit (fst (fst p))) [PText (snd p)]) l) = Ok (acc ++ map (fun p => (lit (snd (fst p)), MText (snd p))) l).
Proof.
  induction l as [|[[k k'] t] l IH]; intros acc F N; [now rewrite app_nil_r|]. inversion F as [|? ? F1 F2]; subst. cbn [fst snd] in *.
  cbn [map fst snd inject_all inject bind]. apply table_context in F1 as (C & _). rewrite C. cbn [map piece_text List.concat]. rewrite app_nil_r.
  cbn [map fst snd] in N. apply NoDup_mid in N as (N1 & N2). rewrite aset_fresh by exact N1.
  rewrite IH; [now rewrite <- app_assoc|exact F2|]. unfold keys. rewrite map_app. exact N2.
Qed.
Lemma read_marks : forall l a ex m, NoDup (keys ex ++ map fst l) -> NoDup (keys m ++ map fst l) ->
  read_attrs (map (fun p => (QName None (fst p), inl (MText (snd p)))) l) a ex m
  = Ok (a, ex ++ map (fun p => (fst p, QName None (fst p))) l, m ++ map (fun p => (fst p, MText (snd p))) l).
Proof.
  induction l as [|[k t] l IH]; intros a ex m N1 N2; [now rewrite !app_nil_r|]. cbn [map fst snd read_attrs q_ns q_local bind].
  cbn [map fst] in N1, N2. apply NoDup_mid in N1 as (N1 & N1'). apply NoDup_mid in N2 as (N2 & N2').
  rewrite (aset_fresh k (QName None k) ex) by exact N1. rewrite (aset_fresh k (MText t) m) by exact N2.
  rewrite IH; [now rewrite <- !app_assoc|..]; unfold keys; rewrite map_app; assumption.
Qed.
Lemma keyed_same : forall l m : attrs, NoDup (keys m ++ keys l) -> Forall (fun p => drop_tail_underscores (fst p) = fst p) l ->
  fold_left (fun m p => aset str_eqb (rstrip_by (N.eqb (ch "_")) (fst p)) (snd p) m) l m = m ++ l.
Proof.
  induction l as [|[k v] l IH]; intros m N F; [now rewrite app_nil_r|]. inversion F as [|? ? F1 F2]; subst. cbn [fst] in F1. cbn [fold_left fst snd].
  rewrite drop_tail_eq, F1. cbn [keys map fst] in N. apply NoDup_mid in N as (N1 & N2). rewrite aset_fresh by exact N1.
  rewrite IH; [now rewrite <- app_assoc| |exact F2]. unfold keys. rewrite map_app. exact N2.
Qed.
Lemma mark_good m : proper_mark m -> NoDup (keys (mark_pairs m))
  /\ Forall (fun p => wf_name (fst p) = true /\ drop_tail_underscores (fst p) = fst p /\ fst p <> lit "contents") (mark_pairs m).
Proof.
  intros (_ & S & N & A). split; [now rewrite mark_keys|]. unfold mark_pairs, switch_pairs, attr_pairs. apply Forall_app. split.
  - apply Forall_map. eapply Forall_impl; [|exact S]. intros [[k k'] t] I. cbn [fst snd] in *. apply table_context in I as (_ & D & W & C). auto.
  - apply Forall_map. eapply Forall_impl; [|exact A]. intros [k t] H. exact H.
Qed.
Lemma mark_texts m : proper_mark m -> texts (mark_pairs m).
Proof.
  intros P. destruct (mark_good m P) as [N F]. split; [exact N|]. apply Forall_forall. intros p I. split.
  - rewrite Forall_forall in F. now apply F in I.
  - unfold mark_pairs, switch_pairs, attr_pairs in I. apply in_app_or in I as [I|I]; apply in_map_iff in I as (x & <- & _); eexists; reflexivity.
Qed.
Lemma mark_kw m : proper_mark m ->
  let kw := match mk_contents m with Some t => [(lit "contents", MText t)] | None => [] end ++ mark_pairs m in
  get_or "contents" kw MNone = mark_text m /\ unicode_keyed (del "contents" kw) = mark_pairs m.
Proof.
  intros P kw. destruct (mark_good m P) as [N F].
  assert (aget str_eqb (lit "contents") (mark_pairs m) = None) as G.
  { apply sget_out. intros I. apply in_map_iff in I as (p & E & I). rewrite Forall_forall in F. apply F in I as (_ & _ & C). now apply C. }
  assert (unicode_keyed (mark_pairs m) = mark_pairs m) as K.
  { unfold unicode_keyed. apply keyed_same; [exact N|]. eapply Forall_impl; [|exact F]. now intros p (_ & D & _). }
  unfold kw, mark_text. destruct (mk_contents m) as [t|].
  - split; [reflexivity|]. unfold del. cbn [app adel]. rewrite str_eqb_refl, (adel_same _ _ G). exact K.
  - cbn [app]. split; [unfold get_or, get; now rewrite G|]. unfold del. rewrite (adel_same _ _ G). exact K.
Qed.

(* ---------------- one tag ---------------- *)
Definition mark_mid (c : mv) : list event :=
  match c with MText s => [Text false s] | MHtml s => [Text true s] | _ => [] end.
Lemma rewrite_mark env m rc t ts b : proper_mark m -> mk_element m = b -> render_frames rc = t :: ts -> get "filters" t = Some (MFilters []) ->
  exists ex, (forall k, aget str_eqb k ex = if memb qname_eqb (QName None k) (keys (mark_attrs m)) then Some (QName None k) else None) /\ NoDup (keys ex)
  /\ rewrite env (mark_controls m) rc (mark_name m) (mark_attrs m) (match mk_contents m with Some t => [Text false t] | None => [] end ++ [End (mark_name m)]) b
  = match transform env (mk_tag m) (mark_pairs m) (mark_text m) t b with
    | (t', Err e) => (Some (t' :: ts), Err e)
    | (t', Ok (a, c)) => (Some (t' :: ts), Ok (Start (mark_name m) (write_attrs (sort_attrs a) (mark_attrs m) ex) :: mark_mid c ++ [End (mark_name m)]))
    end.
Proof.
  intros P B Fr Fi. pose proof P as (W & S & N & A). rewrite <- mark_keys in N.
  exists (map (fun p => (fst p, QName None (fst p))) (mk_attrs m)).
  assert (keys (map (fun p : str * str => (fst p, QName None (fst p))) (mk_attrs m)) = map fst (mk_attrs m)) as Kx.
  { unfold keys. rewrite map_map. reflexivity. }
  assert (NoDup (map fst (mk_attrs m))) as Na. { rewrite mark_keys in N. apply NoDup_right in N. exact N. }
  split; [|split; [now rewrite Kx|]].
  { intros k. unfold mark_attrs, keys. rewrite map_map. cbn [fst]. clear. induction (mk_attrs m) as [|[k' t] l IH]; [reflexivity|].
    cbn [map fst aget]. unfold memb. cbn [existsb]. rewrite local_eqb. destruct (str_eqb_spec k k') as [->|D]; [reflexivity|]. exact IH. }
  unfold rewrite. unfold mark_controls. rewrite inject_marks; [|exact S|rewrite mark_keys in N; apply NoDup_left in N; exact N].
  cbn [app bind]. fold (switch_pairs m).
  assert (read_attrs (mark_attrs m) (mark_attrs m) [] (switch_pairs m) = Ok (mark_attrs m, map (fun p => (fst p, QName None (fst p))) (mk_attrs m), mark_pairs m)) as R.
  { unfold mark_attrs at 1. rewrite read_marks; [reflexivity|exact Na|]. unfold switch_pairs, keys. rewrite map_map. cbn [fst]. rewrite mark_keys in N. exact N. }
  unfold mark_text. destruct (mk_contents m) as [x|] eqn:C.
  - change (removelast ([Text false x] ++ [End (mark_name m)])) with [Text false x].
    assert (simplify [Text false x] = Ok (inl x)) as Sx. { unfold simplify. cbn. now rewrite app_nil_r. }
    cbn [app]. rewrite Sx. cbn [rmap bind]. rewrite R. cbn [bind]. rewrite Fr. cbn [ModelGenshi.contents_of].
    change (q_local (mark_name m)) with (mk_tag m).
    destruct (transform env (mk_tag m) (mark_pairs m) (MText x) t b) as [t' [[a c]|e]] eqn:T; [|reflexivity].
    destruct (transform_texts _ _ _ _ _ _ _ _ _ Fi (mark_texts m P) T) as [_ [->|(el & s & -> & -> & _)]].
    + cbn [new_contents bind]. destruct b as [el|]; [destruct (str_eqb _ _)|]; reflexivity.
    + cbn [new_contents bind]. destruct (str_eqb _ _); reflexivity.
  - cbn [app bind]. rewrite R. cbn [bind]. rewrite Fr. cbn [ModelGenshi.contents_of].
    change (q_local (mark_name m)) with (mk_tag m).
    destruct (transform env (mk_tag m) (mark_pairs m) MNone t b) as [t' [[a c]|e]] eqn:T; [|reflexivity].
    destruct (transform_texts _ _ _ _ _ _ _ _ _ Fi (mark_texts m P) T) as [_ [->|(el & s & -> & -> & _)]].
    + reflexivity.
    + cbn [new_contents bind]. destruct (str_eqb _ _); reflexivity.
Qed.
Lemma texts_shows a : texts a -> exists l, Forall2 SpecMarkup.shows a l /\ Forall (fun p => wf_name (fst p) = true) a
  /\ keys l = keys a /\ (forall k v, aget str_eqb k a = Some v <-> exists t, v = MText t /\ aget str_eqb k l = Some t).
Proof.
  intros [_ F]. induction F as [|[k v] a [W (t & E)] F (l & S & Wf & K & G)].
  - exists []. split; [constructor|]. split; [constructor|]. split; [reflexivity|]. intros k v. split; [easy|]. intros (t & _ & H). discriminate.
  - cbn [fst snd] in *. subst v. exists ((k, t) :: l). split; [constructor; [now split|exact S]|]. split; [now constructor|].
    split; [cbn [keys map fst]; unfold keys in K; now rewrite K|].
    intros k' v'. cbn [aget]. destruct (str_eqb k' k); [|apply G]. split; [intros [= <-]; now exists t|]. intros (t' & -> & [= ->]). reflexivity.
Qed.
Lemma call_mark env m g gt gs : proper_mark m -> g_frames g = gt :: gs -> 
  (exists v o, get "ordered_attributes" (fst (transform env (mk_tag m) (mark_pairs m) (mark_text m) gt (mk_element m))) = Some v /\ truth v = Ok o) ->
  (forall g' a c, transform env (mk_tag m) (mark_pairs m) (mark_text m) gt (mk_element m) = (g', Ok (a, c)) ->
     texts a -> filled (mk_element m) (mark_text m) c ->
     exists out pairs, gen_step env g (mark_call m) = (Gen (g_xml g) (g' :: gs), Ok out)
       /\ parse_tag out = Some (mk_tag m, pairs, remainder (g_xml g) (mk_dangle m) (mk_paired m) (mk_tag m) (match c with MText s | MHtml s => s | _ => [] end))
       /\ NoDup (keys pairs) /\ (forall k v, aget str_eqb k a = Some v <-> exists t, v = MText t /\ aget str_eqb k pairs = Some t))
  /\ (forall g' e, transform env (mk_tag m) (mark_pairs m) (mark_text m) gt (mk_element m) = (g', Err e) ->
     gen_step env g (mark_call m) = (Gen (g_xml g) (g' :: gs), Err e)).
Proof.
  intros P G Or. destruct (mark_kw m P) as [K1 K2]. pose proof P as (W & _).
  assert (forall d p, mark_call m = OTag d p (mk_tag m) (match mk_contents m with Some t => [(lit "contents", MText t)] | None => [] end ++ mark_pairs m) (mk_element m)
     <-> d = mk_dangle m /\ p = mk_paired m) as Cm.
  { intros d p. unfold mark_call, mark_pairs, switch_pairs, attr_pairs. split; [now intros [= -> ->]|now intros [-> ->]]. }
  rewrite (proj2 (Cm _ _) (conj eq_refl eq_refl)). cbn zeta in K1, K2.
  set (kw := match mk_contents m with Some t => [(lit "contents", MText t)] | None => [] end ++ mark_pairs m) in *.
  split.
  - intros g' a c T Tx Fc. rewrite T in Or. cbn [fst] in Or. destruct Or as (v & o & Ov & To).
    destruct (texts_shows a Tx) as (l & S & Wf & K & Gl).
    assert (exists t, truth c = Ok t) as (t & Tc).
    { destruct Fc as [->|(el & s & _ & -> & _)]; [unfold mark_text; destruct (mk_contents m)|]; eexists; reflexivity. }
    assert (exists out, tag_call env (g_xml g) (mk_dangle m) (mk_paired m) (mk_tag m) kw gt (mk_element m) = (g', Ok out)) as (out & E).
    { unfold tag_call, tag_open_. rewrite K1, K2, T, Tc. cbn [bind]. unfold setting. rewrite Ov. cbn [bind]. rewrite To. cbn [bind].
      assert (exists e, escape_all (if o then sort_attrs a else a) = Ok e) as [e ->]; [|eexists; reflexivity].
      destruct o.
      - destruct (Forall2_perm_l _ _ _ _ (sort_perm a) S) as (l' & _ & S'). destruct (escape_all_shown _ _ S') as (e & Ee & _). eauto.
      - destruct (escape_all_shown _ _ S) as (e & Ee & _). eauto. }
    pose proof E as E'. apply tag_call_parses in E'; [|exact W]. destruct E' as (a' & c' & t' & T1 & T2 & T3). rewrite K1, K2, T in T1. injection T1 as <- <-.
    rewrite Tc in T2. injection T2 as <-. destruct (T3 l (proj1 Tx) S Wf) as (l' & Pt & Pm & _).
    assert (NoDup (keys l)) as Nl by (rewrite K; apply Tx).
    exists out, l'. split; [|split; [|split]].
    + unfold gen_step. rewrite G, E. reflexivity.
    + rewrite Pt. f_equal. f_equal. f_equal. destruct Fc as [->|(el & s & _ & -> & _)].
      * unfold mark_text in *. destruct (mk_contents m) as [[|x s]|]; injection Tc as <-; reflexivity.
      * destruct s; injection Tc as <-; reflexivity.
    + eapply Permutation_NoDup; [apply Permutation_map; symmetry; exact Pm|exact Nl].
    + intros k v'. rewrite Gl. rewrite (get_perm l l' k Nl (Permutation_sym Pm)). reflexivity.
  - intros g' e T. unfold gen_step, tag_call, tag_open_. rewrite G, K1, K2, T. reflexivity.
Qed.
