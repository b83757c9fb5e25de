(* The methods that copy classes, one by one. *)
From Verif Require Import PyBase PyBaseFacts PyList ModelUtil ModelSeq ModelProps SpecProps ProofMap ProofProps ProofProps2 ModelDsl SpecDsl ProofDsl.

Section P.
Context {V : Type}.
Notation kd := (classes V).
Notation val := (value V).
Implicit Types (k : kd) (a : str) (v : val).

(* collections of fields *)
Definition coll_ok k (c : list (name * val)) : Prop := NoDup (keys c) /\ forall n f, In (n, f) c -> name_of k f = Ok n.
Notation nget := (aget name_eqb).
Lemma nget_app (n : name) (c c' : list (name * val)) :
  nget n (c ++ c') = match nget n c with Some v => Some v | None => nget n c' end.
Proof. induction c as [|(n', f) c IH]; [easy|]. cbn [app aget]. now destruct (name_eqb n n'). Qed.
Lemma memb_keys (n : name) (c : list (name * val)) : memb name_eqb n (map fst c) = match nget n c with Some _ => true | None => false end.
Proof.
  destruct (memb name_eqb n (map fst c)) eqn:E.
  - apply (memb_In name_eqb name_eqb_eq), (aget_Some_keys name_eqb name_eqb_eq) in E. destruct E as (v & ->). easy.
  - destruct (nget n c) eqn:G; [|easy]. exfalso. assert (I : In n (keys c)) by (apply (aget_Some_keys name_eqb name_eqb_eq); eauto).
    apply (memb_In name_eqb name_eqb_eq) in I. unfold keys in I. congruence.
Qed.
Lemma coll_add k c (n : name) f : coll_ok k c -> name_of k f = Ok n -> nget n c = None -> coll_ok k (c ++ [(n, f)]).
Proof.
  intros (A & B) Hn G. split.
  - unfold keys. rewrite map_app. apply NoDup_app'; [exact A|repeat constructor; easy|]. intros x I [<-|[]].
    cbn in I. apply (aget_Some_keys name_eqb name_eqb_eq) in I. destruct I. congruence.
  - intros n' f' I. apply in_app_iff in I. destruct I as [I|[[= <- <-]|[]]]; [now apply B|easy].
Qed.
Lemma named_so_ok k (n n' : name) f : name_of k f = Ok n' -> named_so k n f = name_eqb n n'.
Proof. intros H. unfold named_so. rewrite H. destruct (name_eqb n' n) eqn:E, (name_eqb n n') eqn:E'; try easy.
  - apply name_eqb_eq in E. subst. now rewrite (proj2 (name_eqb_eq n n) eq_refl) in E'.
  - apply name_eqb_eq in E'. subst. now rewrite (proj2 (name_eqb_eq n' n') eq_refl) in E.
Qed.
Lemma add_unseen_spec k fs : forall c, coll_ok k c ->
  match add_unseen k fs c with
  | Ok c' => coll_ok k c' /\ (exists ns, names_of k fs = Ok ns)
             /\ forall n, nget n c' = match nget n c with Some f => Some f | None => first_named k n fs end
  | Err x => names_of k fs = Err x
  end.
Proof.
  induction fs as [|f fs IH]; intros c K; cbn [add_unseen names_of].
  - split; [easy|]. split; [now exists []|]. intros n. now destruct (nget n c).
  - destruct (name_of k f) as [n0|x] eqn:N; [|easy]. cbn [bind]. rewrite memb_keys.
    assert (K' : coll_ok k (match nget n0 c with Some _ => c | None => c ++ [(n0, f)] end)).
    { destruct (nget n0 c) eqn:G; [easy|]. now apply coll_add. }
    replace (if match nget n0 c with Some _ => true | None => false end then c else c ++ [(n0, f)])
      with (match nget n0 c with Some _ => c | None => c ++ [(n0, f)] end) by now destruct (nget n0 c).
    specialize (IH _ K'). destruct (add_unseen k fs _) as [c'|x].
    + destruct IH as (A & (ns & B) & C). split; [easy|]. split; [exists (n0 :: ns); now rewrite B|].
      intros n. rewrite C. unfold first_named. cbn [find]. rewrite (named_so_ok k n n0 f N).
      destruct (nget n0 c) eqn:G.
      * destruct (nget n c) eqn:G'; [easy|]. destruct (name_eqb n n0) eqn:E; [|easy]. apply name_eqb_eq in E. congruence.
      * rewrite nget_app. cbn [aget]. destruct (nget n c); [easy|]. now destruct (name_eqb n n0).
    + now rewrite IH.
Qed.
Lemma base_fields_spec k bases : forall c, coll_ok k c -> forall c', base_fields k bases c = Ok c' ->
  coll_ok k c' /\ (forall b, In b bases -> exists l ns, seq_items (getattr k b (lit "field_schema")) = Some l /\ names_of k l = Ok ns)
  /\ forall n, nget n c' = match nget n c with Some f => Some f | None => inherited_field k bases n end.
Proof.
  induction bases as [|b bases IH]; intros c K c'; cbn [base_fields].
  - intros [= <-]. split; [easy|]. split; [easy|]. intros n. cbn. now destruct (nget n c).
  - destruct (match getattr k b (lit "field_schema") with Some v => iterate v | None => Ok [] end) as [fs|x] eqn:G; [|easy].
    cbn [bind]. pose proof (add_unseen_spec k fs c K) as A. destruct (add_unseen k fs c) as [c1|x]; [|easy]. cbn [bind].
    destruct A as (K1 & (ns & N) & A). intros H. specialize (IH c1 K1 c' H). destruct IH as (K' & B & C).
    assert (S : seq_items (getattr k b (lit "field_schema")) = Some fs).
    { destruct (getattr k b (lit "field_schema")) as [v|]; [destruct v; cbn in *; try easy|cbn; congruence].
      cbn in G. congruence. }
    split; [easy|]. split.
    + intros b' [<-|I]; [exists fs, ns; easy|now apply B].
    + intros n. rewrite C, A. unfold inherited_field. cbn [first_some]. rewrite S.
      destruct (nget n c); [easy|]. now destruct (first_named k n fs).
Qed.
Lemma base_fields_ok k c : copyable k c -> k_form k c = true -> exists c', base_fields k [c] [] = Ok c'.
Proof.
  intros C F. destruct (C F) as (l & ns & S & N). cbn [base_fields].
  replace (match getattr k c (lit "field_schema") with Some v => iterate v | None => Ok [] end) with (Ok l : res (list val)).
  - cbn [bind]. pose proof (add_unseen_spec k l [] (conj (NoDup_nil _) (fun _ _ (F : In _ []) => match F with end))) as A.
    destruct (add_unseen k l []) as [c1|x]; [now exists c1|]. congruence.
  - destruct (getattr k c (lit "field_schema")) as [v|]; [|cbn in S; congruence]. destruct v; cbn in *; congruence.
Qed.
Lemma remove_first_get (n n' : name) (c : list (name * val)) : NoDup (keys c) ->
  nget n' (remove_first n c) = if name_eqb n' n then None else nget n' c.
Proof.
  induction c as [|(m, f) c IH]; intros N; cbn [remove_first aget]; [now destruct (name_eqb n' n)|].
  inversion N as [|? ? N1 N2]; subst. destruct (name_eqb m n) eqn:E.
  - apply name_eqb_eq in E. subst. destruct (name_eqb n' n) eqn:E'; [|easy]. apply name_eqb_eq in E'. subst.
    now apply (aget_None name_eqb name_eqb_eq).
  - cbn [aget]. rewrite (IH N2). destruct (name_eqb n' m) eqn:E'; [|easy]. apply name_eqb_eq in E'. subst. now rewrite E.
Qed.
Lemma remove_first_in (n : name) (c : list (name * val)) p : In p (remove_first n c) -> In p c.
Proof.
  induction c as [|(m, f) c IH]; cbn [remove_first]; [easy|]. destruct (name_eqb m n); [now right|]. intros [<-|I]; [now left|right; auto].
Qed.
Lemma remove_first_nodup (n : name) (c : list (name * val)) : NoDup (keys c) -> NoDup (keys (remove_first n c)).
Proof.
  induction c as [|(m, f) c IH]; cbn [remove_first]; [easy|]. intros N. inversion N as [|? ? N1 N2]; subst.
  destruct (name_eqb m n); [easy|]. cbn. constructor; [|now apply IH]. intros I. apply N1. apply in_map_iff in I.
  destruct I as ((m', f') & <- & I). apply remove_first_in in I. apply (in_map fst) in I. exact I.
Qed.
Lemma last_named_cons k (n : name) f fs : last_named k n (f :: fs)
  = match last_named k n fs with Some x => Some x | None => if named_so k n f then Some f else None end.
Proof.
  unfold last_named. cbn [rev]. induction (rev fs) as [|g l IH]; [easy|]. cbn [app find]. now destruct (named_so k n g).
Qed.
Lemma overwrite_spec k fs : forall c, coll_ok k c -> forall c', add_and_overwrite k fs c = Ok c' ->
  coll_ok k c' /\ (exists ns, names_of k fs = Ok ns)
  /\ forall n, nget n c' = match last_named k n fs with Some f => Some f | None => nget n c end.
Proof.
  induction fs as [|f fs IH]; intros c K c'; cbn [add_and_overwrite names_of].
  - intros [= <-]. split; [easy|]. split; [now exists []|]. easy.
  - destruct (name_of k f) as [n0|x] eqn:N; [|easy]. cbn [bind]. intros H.
    assert (K' : coll_ok k (remove_first n0 c ++ [(n0, f)])).
    { apply coll_add; [|easy|].
      - split; [now apply remove_first_nodup, K|]. intros n g I. apply remove_first_in in I. now apply K.
      - rewrite remove_first_get by apply K. now rewrite (proj2 (name_eqb_eq n0 n0) eq_refl). }
    destruct (IH _ K' c' H) as (A & (ns & B) & C). split; [easy|]. split; [exists (n0 :: ns); now rewrite B|].
    intros n. rewrite C, last_named_cons, (named_so_ok k n n0 f N). destruct (last_named k n fs); [easy|].
    rewrite nget_app, remove_first_get by apply K. cbn [aget]. now destruct (name_eqb n n0); [|destruct (nget n c)].
Qed.
Lemma coll_names k c : coll_ok k c -> names_of k (map snd c) = Ok (keys c).
Proof.
  intros (_ & H). induction c as [|(n, f) c IH]; [easy|]. cbn [map snd names_of]. rewrite (H n f) by now left. cbn [bind].
  rewrite IH; [easy|]. intros. apply H. now right.
Qed.
Lemma coll_one_each k c : coll_ok k c -> one_each k (map snd c) (fun n => nget n c).
Proof.
  intros K. split; [exists (keys c); split; [now apply coll_names|apply K]|].
  intros n f. split.
  - intros (I & N). apply in_map_iff in I. destruct I as ((n', f') & E & I). cbn in E. subst f'.
    pose proof (proj2 K _ _ I) as N'. assert (n' = n) by congruence. subst. now apply (In_aget name_eqb name_eqb_eq); [apply K|].
  - intros G. apply (aget_In name_eqb name_eqb_eq) in G. split; [|now apply K].
    apply in_map_iff. now exists (n, f).
Qed.
Lemma one_each_ext k fs f g : (forall n, f n = g n) -> one_each k fs f -> one_each k fs g.
Proof. intros E (A & B). split; [easy|]. intros n x. now rewrite <- E. Qed.

(* copying *)
Definition doc_of k c : val := match getattr k c (lit "__doc__") with Some d => d | None => VText [] end.
Definition base_attrs k c (fields : list (name * val)) : list (str * val) :=
  [(lit "__doc__", doc_of k c); (lit "__module__", VObj 0)]
  ++ (if k_form k c then [(lit "field_schema", VSeq false (map snd fields))] else []).
Record cloned k c k' n own : Prop := Cloned {
  cl_over : overlay k c k' n own;
  cl_n : n = k_next k;
  cl_next : k_next k' = S n;
  cl_form : k_form k' n = k_form k c;
  cl_none : w_own (k_props k') n = None;
  cl_says : forall d key, mention (k_props k') d n key = None;
  cl_map : forall d, w_map (k_props k') d n = None;
  cl_desc : k_desc k' = k_desc k }.
Lemma clone_spec k c : kwf k ->
  match clone k c with
  | Ok (k', n) => exists fields, cloned k c k' n (base_attrs k c fields)
                  /\ (k_form k c = true -> base_fields k [c] [] = Ok fields)
  | Err x => k_form k c = true /\ base_fields k [c] [] = Err x
  end.
Proof.
  intros W. unfold clone.
  assert (N : NoDup (mro k c) /\ forall b, In b (mro k c) -> b < k_next k).
  { split; [|intros b I; now apply mro_below in I]. destruct (Nat.lt_ge_cases c (k_next k)) as [L|L].
    - destruct (kw_mro _ W c L) as (r & -> & N & _). easy.
    - destruct (kw_unborn _ W c L) as (-> & _). constructor. }
  assert (G : forall members, cloned k c (fst (new_class k (mro k c) (k_form k c) members)) (k_next k) members).
  { intros members. pose proof (new_class_spec k (mro k c) (k_form k c) members W (proj1 N) (proj2 N)) as S.
    change (new_class k (mro k c) (k_form k c) members) with (fst (new_class k (mro k c) (k_form k c) members), k_next k) in S.
    destruct S as (S1 & S2 & _ & S3 & S4 & S5 & S6 & S7 & S8). split; try easy.
    - split; [easy|easy| |easy|easy]. rewrite S3. lia.
    - intros d. cbn. now apply (kw_unborn _ W). }
  destruct (k_form k c) eqn:F.
  - destruct (base_fields k [c] []) as [fields|x]; [|easy]. cbn [bind].
    exists fields. split; [|easy]. unfold base_attrs. rewrite F. apply G.
  - exists []. split; [|easy]. unfold base_attrs. rewrite F. apply G.
Qed.
Lemma clone_sees k c k' n own key : kwf k -> cloned k c k' n own -> class_sees (k_props k') n key = class_sees (k_props k) c key.
Proof.
  intros W C. assert (O := cl_over _ _ _ _ _ C). assert (E := ov_ext _ _ _ _ _ O).
  assert (D : desc (k_props k') n = desc (k_props k) c).
  { rewrite !desc_list, (ov_mro _ _ _ _ _ O). cbn [find_desc]. rewrite (cl_none _ _ _ _ _ C). apply find_desc_ext.
    intros b I. apply (ex_own _ _ E). now apply mro_below in I. }
  unfold class_sees. rewrite D. destruct (desc (k_props k) c) as [d|]; [|easy]. f_equal.
  rewrite !says_eq, (ov_mro _ _ _ _ _ O), upto_cons, (cl_none _ _ _ _ _ C). cbn [first_some]. rewrite (cl_says _ _ _ _ _ C).
  rewrite (upto_ext _ (w_own (k_props k))); [|intros b I; apply (ex_own _ _ E); now apply mro_below in I].
  apply first_some_ext. intros b I. apply (ex_says _ _ E). apply upto_incl in I. now apply mro_below in I.
Qed.
Lemma clone_desc k c k' n own : kwf k -> cloned k c k' n own -> desc (k_props k') n = desc (k_props k) c.
Proof.
  intros W C. assert (O := cl_over _ _ _ _ _ C). assert (E := ov_ext _ _ _ _ _ O).
  rewrite !desc_list, (ov_mro _ _ _ _ _ O). cbn [find_desc]. rewrite (cl_none _ _ _ _ _ C). apply find_desc_ext.
  intros b I. apply (ex_own _ _ E). now apply mro_below in I.
Qed.

(* an overlay whose own attributes are changes over those of a fresh copy *)
Lemma ahas_get a (l : list (str * val)) : ahas str_eqb a l = match aget str_eqb a l with Some _ => true | None => false end.
Proof. easy. Qed.
Lemma derived_overlay k c k' n own fields changes : kwf k -> overlay k c k' n own -> k_form k' n = k_form k c ->
  (k_form k c = true -> base_fields k [c] [] = Ok fields) ->
  (forall a, option_map unwrap (aget str_eqb a own)
             = option_map unwrap (match aget str_eqb a changes with Some v => Some v | None => aget str_eqb a (base_attrs k c fields) end)) ->
  derived k c k' n changes.
Proof.
  intros W O F Bf H.
  assert (G : forall a, getattr k' n a
     = match aget str_eqb a changes with
       | Some v => Some (unwrap v)
       | None => match aget str_eqb a (base_attrs k c fields) with Some v => Some (unwrap v) | None => getattr k c a end
       end).
  { intros a. rewrite (overlay_get k c k' n own W O). specialize (H a).
    destruct (aget str_eqb a own), (aget str_eqb a changes), (aget str_eqb a (base_attrs k c fields)); cbn in H; try easy; congruence. }
  split.
  - apply O.
  - apply O.
  - exact F.
  - intros a v E. now rewrite G, E.
  - intros a E N1 N2. rewrite ahas_get in E. rewrite G. destruct (aget str_eqb a changes); [easy|].
    unfold base_attrs. cbn [app aget].
    destruct (str_eqb_spec a (lit "__doc__")) as [->|]; [easy|]. destruct (str_eqb_spec a (lit "__module__")) as [->|]; [easy|].
    destruct (k_form k c); [|now right]. cbn [app aget]. destruct (str_eqb_spec a (lit "field_schema")) as [->|]; [now left|now right].
  - intros E. rewrite ahas_get in E. specialize (G (lit "__doc__")). destruct (aget str_eqb (lit "__doc__") changes); [easy|].
    unfold base_attrs in G. cbn [app aget] in G. rewrite str_eqb_refl in G. unfold doc_of in G.
    destruct (getattr k c (lit "__doc__")) as [d|]; [|now rewrite G]. now destruct d.
  - intros Fm E. rewrite ahas_get in E. specialize (G (lit "field_schema")). destruct (aget str_eqb (lit "field_schema") changes); [easy|].
    unfold base_attrs in G. rewrite Fm in G. cbn [app] in G.
    replace (aget str_eqb (lit "field_schema") [(lit "__doc__", doc_of k c); (lit "__module__", VObj 0);
        (lit "field_schema", VSeq false (map snd fields))]) with (Some (VSeq false (map snd fields)) : option val) in G by easy.
    specialize (Bf Fm).
    destruct (base_fields_spec k [c] [] (conj (NoDup_nil _) (fun _ _ (F : In _ []) => match F with end)) fields Bf) as (K & B & C).
    destruct (B c (or_introl eq_refl)) as (l & ns & S & N). exists l, (map snd fields). split; [easy|]. split; [exact G|].
    eapply one_each_ext; [|apply coll_one_each, K]. intros x. cbv beta. rewrite C. cbn [aget]. unfold inherited_field. cbn [first_some].
    rewrite S. now destruct (first_named k x l).
Qed.
Lemma derived_one k c k' n fields a v : kwf k -> overlay k c k' n (aset str_eqb a v (base_attrs k c fields)) ->
  k_form k' n = k_form k c -> (k_form k c = true -> base_fields k [c] [] = Ok fields) ->
  derived k c k' n [(a, v)].
Proof.
  intros W O F B. apply (derived_overlay k c k' n _ fields _ W O F B). intros a'. rewrite (aget_aset str_eqb str_eqb_eq). cbn [aget].
  now destruct (str_eqb a' a).
Qed.
End P.
