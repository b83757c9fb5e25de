(* Proofs about validation messages. *)
From Verif Require Import PyBase PyBaseFacts ModelScalar ModelMessage SpecMessage.

(* ---- templates ---- *)
Lemma read_key_app k : balanced k -> forall d s,
  read_key d (k ++ s) = match read_key d s with Some (k', r) => Some (k ++ k', r) | None => None end.
Proof.
  induction 1 as [|c k H1 H2 B IH|k t B1 IH1 B2 IH2]; intros d s.
  - cbn [app]. destruct (read_key d s) as [[k r]|]; easy.
  - cbn [app read_key]. apply N.eqb_neq in H1, H2. rewrite H1, H2, IH. destruct (read_key d s) as [[k' r]|]; easy.
  - change ((ch "(" :: k ++ ch ")" :: t) ++ s) with (ch "(" :: (k ++ ch ")" :: t) ++ s).
    cbn [read_key]. rewrite N.eqb_refl. rewrite <- app_assoc. rewrite IH1. cbn [app read_key].
    change (ch ")" =? ch "(")%N with false. change (ch ")" =? ch ")")%N with true. cbn iota.
    rewrite IH2. destruct (read_key d s) as [[k' r]|]; [|easy]. cbn [app]. now rewrite <- app_assoc.
Qed.
(* d groups still open, then the key *)
Fixpoint tails (d : nat) (s : str) (k : str) (r : str) : Prop :=
  match d with
  | O => exists a, balanced a /\ k = a /\ s = a ++ ch ")" :: r
  | S d' => exists a k' s', balanced a /\ k = a ++ ch ")" :: k' /\ s = a ++ ch ")" :: s' /\ tails d' s' k' r
  end.
Lemma read_key_tails s : forall d k r, read_key d s = Some (k, r) -> tails d s k r.
Proof.
  induction s as [|c s IH]; intros d k r; [discriminate|]. cbn [read_key].
  destruct (c =? ch "(")%N eqn:E1.
  - destruct (read_key (S d) s) as [[k' r']|] eqn:E; [|discriminate]. intros H. injection H as <- <-.
    apply N.eqb_eq in E1. subst c. apply IH in E as (a & k2 & s2 & B & -> & -> & T).
    destruct d as [|d]; cbn in T |- *.
    + destruct T as (b & Bb & -> & ->). exists (ch "(" :: a ++ ch ")" :: b). split; [now constructor|]. split; [easy|].
      cbn [app]. now rewrite <- app_assoc.
    + destruct T as (b & k3 & s3 & Bb & -> & -> & T). exists (ch "(" :: a ++ ch ")" :: b), k3, s3.
      split; [now constructor|]. split; [cbn [app]; now rewrite <- app_assoc|]. split; [|easy].
      cbn [app]. now rewrite <- app_assoc.
  - destruct (c =? ch ")")%N eqn:E2.
    + apply N.eqb_eq in E2. subst c. destruct d as [|d].
      * intros H. injection H as <- <-. exists []. split; [constructor|easy].
      * destruct (read_key d s) as [[k' r']|] eqn:E; [|discriminate]. intros H. injection H as <- <-.
        exists [], k', s. split; [constructor|]. split; [easy|]. split; [easy|]. now apply IH.
    + destruct (read_key d s) as [[k' r']|] eqn:E; [|discriminate]. intros H. injection H as <- <-.
      apply N.eqb_neq in E1, E2. apply IH in E. destruct d as [|d]; cbn in E |- *.
      * destruct E as (a & B & -> & ->). exists (c :: a). split; [now constructor|easy].
      * destruct E as (a & k2 & s2 & B & -> & -> & T). exists (c :: a), k2, s2. split; [now constructor|easy].
Qed.
Lemma read_key_iff s k r : read_key 0 s = Some (k, r) <-> balanced k /\ s = k ++ ch ")" :: r.
Proof.
  split.
  - intros H. apply read_key_tails in H as (a & B & -> & ->). easy.
  - intros (B & ->). rewrite (read_key_app k B). cbn [read_key]. change (ch ")" =? ch "(")%N with false. change (ch ")" =? ch ")")%N with true. cbn iota. now rewrite app_nil_r.
Qed.

Lemma fmt_more get : forall f s t, fmt f s get = Ok t -> forall g, (f <= g)%nat -> fmt g s get = Ok t.
Proof.
  induction f as [|f IH]; intros s t; [discriminate|]. intros H [|g] L; [lia|]. cbn [fmt] in H |- *.
  destruct s as [|c s']; [easy|]. destruct (negb (c =? ch "%")%N).
  - destruct (fmt f s' get) as [t'|] eqn:E; [|discriminate]. rewrite (IH _ _ E) by lia. easy.
  - destruct s' as [|d r]; [easy|]. destruct (d =? ch "%")%N.
    + destruct (fmt f r get) as [t'|] eqn:E; [|discriminate]. rewrite (IH _ _ E) by lia. easy.
    + destruct (d =? ch "(")%N; [|easy]. destruct (read_key 0 r) as [[k r']|]; [|easy].
      destruct (get k) as [v|]; [|easy]. cbn [bind] in H |- *. destruct r' as [|x r'']; [easy|].
      destruct (x =? ch "s")%N; [|easy]. destruct (fmt f r'' get) as [t'|] eqn:E; [|discriminate].
      rewrite (IH _ _ E) by lia. easy.
Qed.
Lemma fmt_field f k s get : balanced k ->
  fmt (S f) (lit "%(" ++ k ++ lit ")s" ++ s) get =
  bind (get k) (fun v => rmap (fun t => vtext v ++ t) (fmt f s get)).
Proof.
  intros B. change (lit "%(" ++ k ++ lit ")s" ++ s) with (ch "%" :: ch "(" :: k ++ ch ")" :: ch "s" :: s).
  cbn [fmt]. rewrite N.eqb_refl. cbn [negb]. change (ch "(" =? ch "%")%N with false. change (ch "(" =? ch "(")%N with true.
  cbn iota. assert (read_key 0 (k ++ ch ")" :: ch "s" :: s) = Some (k, ch "s" :: s)) as -> by now apply read_key_iff.
  destruct (get k); [|easy]. cbn [bind]. now rewrite N.eqb_refl.
Qed.
Lemma fmt_char f c s get : c <> ch "%" -> fmt (S f) (c :: s) get = rmap (cons c) (fmt f s get).
Proof. intros H. apply N.eqb_neq in H. cbn [fmt]. now rewrite H. Qed.
Lemma fmt_percent f s get : fmt (S f) (ch "%" :: ch "%" :: s) get = rmap (cons (ch "%")) (fmt f s get).
Proof. reflexivity. Qed.
Lemma percent_renders get s t : renders (fun k v => get k = Ok v) s t -> percent s get = Ok t.
Proof.
  intros H. unfold percent. induction H as [|c s t N H IH|s t H IH|k v s t B G H IH].
  - reflexivity.
  - rewrite fmt_char by easy. change (List.length (c :: s)) with (S (List.length s)). now rewrite IH.
  - rewrite fmt_percent. cbn [List.length]. rewrite (fmt_more get _ _ _ IH) by lia. easy.
  - rewrite fmt_field by easy. rewrite G. cbn [bind].
    rewrite (fmt_more get _ _ _ IH); [easy|]. rewrite !app_length. cbn. lia.
Qed.
Lemma fmt_sound get : forall f s t, fmt f s get = Ok t -> renders (fun k v => get k = Ok v) s t.
Proof.
  induction f as [|f IH]; intros s t; [discriminate|]. cbn [fmt].
  destruct s as [|c s']; [intros H; injection H as <-; constructor|].
  destruct (c =? ch "%")%N eqn:E; cbn [negb].
  - apply N.eqb_eq in E. subst c. destruct s' as [|d r]; [discriminate|]. destruct (d =? ch "%")%N eqn:E.
    + apply N.eqb_eq in E. subst d. destruct (fmt f r get) as [t'|] eqn:F; [|discriminate]. intros H. injection H as <-.
      apply rn_percent. now apply IH.
    + destruct (d =? ch "(")%N eqn:E2; [|discriminate]. apply N.eqb_eq in E2. subst d.
      destruct (read_key 0 r) as [[k r']|] eqn:K; [|discriminate]. apply read_key_iff in K as (B & ->).
      destruct (get k) as [v|] eqn:G; [|discriminate]. cbn [bind]. destruct r' as [|x r'']; [discriminate|].
      destruct (x =? ch "s")%N eqn:E2; [|discriminate]. apply N.eqb_eq in E2. subst x.
      destruct (fmt f r'' get) as [t'|] eqn:F; [|discriminate]. intros H. injection H as <-.
      change (ch "%" :: ch "(" :: k ++ ch ")" :: ch "s" :: r'') with (lit "%(" ++ k ++ lit ")s" ++ r'').
      apply rn_field; [easy|easy|now apply IH].
  - apply N.eqb_neq in E. destruct (fmt f s' get) as [t'|] eqn:F; [|discriminate]. intros H. injection H as <-.
    apply rn_char; [easy|now apply IH].
Qed.
Lemma percent_iff get s t : percent s get = Ok t <-> renders (fun k v => get k = Ok v) s t.
Proof. split; [apply fmt_sound|apply percent_renders]. Qed.
Lemma fmt_lacks get (e : exn) : forall s, lacks_field (fun k v => get k = Ok v) (fun k => get k = Err e) s ->
  forall f, (List.length s < f)%nat -> fmt f s get = Err e.
Proof.
  induction 1 as [k s B M|c s N H IH|s H IH|k v s B G H IH]; intros [|f] L; try lia.
  - rewrite fmt_field by easy. now rewrite M.
  - rewrite fmt_char by easy. cbn in L. rewrite IH by lia. easy.
  - rewrite fmt_percent. cbn in L. rewrite IH by lia. easy.
  - rewrite fmt_field by easy. rewrite G. cbn [bind]. rewrite !app_length in L. cbn in L. rewrite IH by lia. easy.
Qed.
Lemma percent_lacks get e s : lacks_field (fun k v => get k = Ok v) (fun k => get k = Err e) s -> percent s get = Err e.
Proof. intros H. apply fmt_lacks; [easy|lia]. Qed.
Lemma renders_mono (P Q : str -> pyval -> Prop) s t : (forall k v, P k v -> Q k v) -> renders P s t -> renders Q s t.
Proof. intros H. induction 1; [apply rn_nil|now apply rn_char|now apply rn_percent|]. apply rn_field; auto. Qed.
Lemma lacks_mono (P P' : str -> pyval -> Prop) (M M' : str -> Prop) s : (forall k v, P k v -> P' k v) -> (forall k, M k -> M' k) ->
  lacks_field P M s -> lacks_field P' M' s.
Proof.
  intros H1 H2. induction 1 as [k s B X|c s N X IH|s X IH|k v s B G X IH].
  - apply lf_here; auto. - apply lf_char; auto. - apply lf_percent; auto. - apply (lf_field _ _ k v); auto.
Qed.

(* ---- looking fields up ---- *)
Lemma lookup_failed_iff e : lookup_failed e = true <-> In e [KeyErr; IndexErr; LookupErr; TypeErr].
Proof. destruct e; cbn; split; try easy; intros H; repeat (destruct H as [H|H]; try discriminate H; try easy); tauto. Qed.
Lemma offers_find t k v rest : offers t k v -> find_field (t :: rest) k = Ok v.
Proof.
  intros [(f & E & F)|(N & A)]; cbn [find_field].
  - now rewrite E, F.
  - rewrite A. destruct (t_item t) as [f|] eqn:E; [|easy]. destruct (N f E) as (e & F & I). rewrite F.
    apply lookup_failed_iff in I. now rewrite I.
Qed.
Lemma nothing_find t k rest : offers_nothing t k -> find_field (t :: rest) k = find_field rest k.
Proof.
  intros (N & A). cbn [find_field]. rewrite A. destruct (t_item t) as [f|] eqn:E; [|easy].
  destruct (N f E) as (e & F & I). rewrite F. apply lookup_failed_iff in I. now rewrite I.
Qed.
Lemma shows_find l k v : shows l k v -> find_field l k = Ok v.
Proof.
  intros (a & t & b & -> & H & O). induction H as [|x a Hx Ha IH]; cbn [app]; [now apply offers_find|].
  rewrite nothing_find by easy. exact IH.
Qed.
Lemma find_shows l : forall k v, find_field l k = Ok v -> shows l k v.
Proof.
  induction l as [|t l IH]; intros k v; [discriminate|]. cbn [find_field].
  assert (B : forall (N : no_item t k), match t_attr t k with Ok v => Ok v | Err AttributeErr => find_field l k | Err e => Err e end = Ok v ->
              shows (t :: l) k v).
  { intros N. destruct (t_attr t k) as [w|e] eqn:A.
    - intros H. injection H as ->. exists [], t, l. repeat split; [constructor|]. now right.
    - destruct e; try discriminate. intros H. apply IH in H as (a & t' & b & -> & F & O). exists (t :: a), t', b.
      repeat split; [|easy]. now constructor. }
  destruct (t_item t) as [f|] eqn:E.
  - destruct (f k) as [w|e] eqn:F.
    + intros H. injection H as ->. exists [], t, l. repeat split; [constructor|]. left. now exists f.
    + destruct (lookup_failed e) eqn:L; [|discriminate]. apply B. intros g G. rewrite E in G. injection G as <-.
      exists e. split; [easy|]. now apply lookup_failed_iff.
  - apply B. intros g G. congruence.
Qed.
Lemma find_field_iff l k v : find_field l k = Ok v <-> shows l k v.
Proof. split; [apply find_shows|apply shows_find]. Qed.
Lemma shows_nothing_find l k : shows_nothing l k -> find_field l k = Err KeyErr.
Proof. induction 1 as [|t l H F IH]; [easy|]. now rewrite nothing_find. Qed.
Lemma shows_fun l k v w : shows l k v -> shows l k w -> v = w.
Proof. intros A B. apply find_field_iff in A, B. congruence. Qed.
Lemma mapping_get_iff ug l k v : mapping_get ug l k = Ok v <-> field_of ug l k v.
Proof.
  unfold mapping_get, field_of. split.
  - destruct (find_field l k) as [w|] eqn:E; [|discriminate]. cbn [bind]. apply find_field_iff in E. intros H. exists w.
    split; [easy|]. destruct ug; [easy|]. congruence.
  - intros (w & S & H). apply find_field_iff in S. rewrite S. cbn [bind]. destruct ug; [easy|]. now rewrite H.
Qed.
Lemma mapping_missing ug l k : shows_nothing l k -> mapping_get ug l k = Err KeyErr /\ mapping_contains ug l k = Ok false.
Proof.
  intros H. apply shows_nothing_find in H. unfold mapping_contains, mapping_get. rewrite H. easy.
Qed.
Lemma mapping_has ug l k v : field_of ug l k v -> mapping_contains ug l k = Ok true.
Proof. intros H. apply mapping_get_iff in H. unfold mapping_contains. now rewrite H. Qed.
(* an exception in a lookup gets out *)
Lemma offers_raises t k e rest a : Forall (fun t => offers_nothing t k) a ->
  ((exists f, t_item t = Some f /\ f k = Err e /\ ~ In e [KeyErr; IndexErr; LookupErr; TypeErr])
   \/ (no_item t k /\ t_attr t k = Err e /\ e <> AttributeErr)) ->
  forall ug, mapping_get ug (a ++ t :: rest) k = Err e /\ (e <> KeyErr -> mapping_contains ug (a ++ t :: rest) k = Err e).
Proof.
  intros F H ug. unfold mapping_contains, mapping_get. assert (E : find_field (a ++ t :: rest) k = Err e).
  { induction F as [|x a Hx Ha IH]; cbn [app]; [|now rewrite nothing_find].
    cbn [find_field]. destruct H as [(f & E & Fk & N)|(N & A & NE)].
    - rewrite E, Fk. destruct (lookup_failed e) eqn:L; [|easy]. apply lookup_failed_iff in L. contradiction.
    - rewrite A. assert (match e with AttributeErr => find_field rest k | _ => Err e end = Err e) as -> by (now destruct e).
      destruct (t_item t) as [f|] eqn:E; [|easy]. destruct (N f E) as (e' & Fk & I). rewrite Fk.
      apply lookup_failed_iff in I. now rewrite I. }
  rewrite E. cbn [bind]. split; [reflexivity|]. now destruct e.
Qed.
Lemma translation_raises f l k v e : shows l k v -> f v = Err e ->
  mapping_get (Some f) l k = Err e /\ (e <> KeyErr -> mapping_contains (Some f) l k = Err e).
Proof.
  intros S E. apply find_field_iff in S. unfold mapping_contains, mapping_get. rewrite S. cbn [bind]. rewrite E.
  split; [reflexivity|]. now destruct e.
Qed.
Lemma live_asked self x info :
  live_targets [Some (dict_target info); x_state x; Some (self_target self); Some (x_element x)] = asked self x info.
Proof. unfold asked. destruct (x_state x); reflexivity. Qed.

(* ---- translation functions ---- *)
Lemma search_skip {F} (a b : list (res (option F))) : Forall (fun r => r = Err AttributeErr \/ r = Ok None) a ->
  search_ancestry (a ++ b) = search_ancestry b.
Proof. induction 1 as [|r a [-> | ->] H IH]; easy. Qed.
Lemma translator_iff {F} (l : lookups F) f : find_transformer l = Ok f <-> translator l f.
Proof.
  unfold find_transformer, find_i18n. split.
  - destruct (l_attr l) as [g|e] eqn:A; [intros H; injection H as ->; now apply tr_attr|].
    destruct e; try discriminate.
    assert (B : (l_item l = None \/ l_item l = Some (Err KeyErr)) ->
      bind (search_ancestry (l_ancestry l)) (fun r => match r with Some f => Ok (Some f) | None => Ok (l_builtin l) end) = Ok f ->
      translator l f).
    { intros I. destruct (search_ancestry (l_ancestry l)) as [r|] eqn:Sa; [|discriminate]. cbn [bind]. intros H.
      assert (C : match r with
                  | Some g => exists a b, l_ancestry l = a ++ Ok (Some g) :: b /\ Forall (fun r => r = Err AttributeErr \/ r = Ok None) a
                  | None => Forall (fun r => r = Err AttributeErr \/ r = Ok None) (l_ancestry l) end).
      { revert Sa. generalize (l_ancestry l). clear. intros la. revert r. induction la as [|q la IH]; intros r.
        - intros H. injection H as <-. constructor.
        - cbn [search_ancestry]. destruct q as [[g|]|e].
          + intros H. injection H as <-. now exists [], la.
          + intros H. apply IH in H. destruct r as [g|].
            * destruct H as (a & b & -> & Fa). exists (Ok None :: a), b. split; [easy|]. constructor; [now right|easy].
            * constructor; [now right|easy].
          + destruct e; try discriminate. intros H. apply IH in H. destruct r as [g|].
            * destruct H as (a & b & -> & Fa). exists (Err AttributeErr :: a), b. split; [easy|]. constructor; [now left|easy].
            * constructor; [now left|easy]. }
      destruct r as [g|]; injection H as <-.
      - destruct C as (a & b & E & Fa). now apply (tr_ancestor l a g b).
      - now apply tr_builtin. }
    destruct (l_item l) as [[g|e]|] eqn:I.
    + intros H. injection H as ->. now apply tr_item.
    + destruct e; try discriminate. apply B. now right.
    + apply B. now left.
  - intros H. destruct H as [f A|f A I|a f b A I L Fa|A I L].
    + now rewrite A.
    + now rewrite A, I.
    + rewrite A, L, search_skip by easy. destruct I as [-> | ->]; easy.
    + rewrite A. rewrite <- (app_nil_r (l_ancestry l)), search_skip by easy. destruct I as [-> | ->]; easy.
Qed.
Lemma untranslated_none {F} (l : lookups F) : untranslated l -> find_transformer l = Ok None.
Proof. intros (A & I & L & B). apply translator_iff. rewrite <- B. now apply tr_builtin. Qed.
Lemma transformer_raises {F} (l : lookups F) e : e <> AttributeErr ->
  (l_attr l = Err e
   \/ (l_attr l = Err AttributeErr /\ l_item l = Some (Err e) /\ e <> KeyErr)
   \/ (l_attr l = Err AttributeErr /\ (l_item l = None \/ l_item l = Some (Err KeyErr)) /\
       exists a b, l_ancestry l = a ++ Err e :: b /\ Forall (fun r => r = Err AttributeErr \/ r = Ok None) a)) ->
  find_transformer l = Err e.
Proof.
  intros N H. unfold find_transformer, find_i18n. destruct H as [A|[(A & I & K)|(A & I & a & b & L & Fa)]].
  - rewrite A. now destruct e.
  - rewrite A, I. now destruct e.
  - rewrite A, L, search_skip by easy. cbn [search_ancestry].
    assert (match e with AttributeErr => search_ancestry b | _ => Err e end = Err e) as -> by (now destruct e).
    destruct I as [-> | ->]; easy.
Qed.

(* ---- expansion ---- *)
Lemma expand_get ug l s t : renders (field_of ug l) s t -> expand (VText s) (mapping_get ug l) = Ok t.
Proof. intros H. cbn. apply percent_renders. eapply renders_mono; [|exact H]. intros k v F. now apply mapping_get_iff. Qed.
Lemma expand_lacks ug l s : lacks_field (field_of ug l) (shows_nothing l) s -> expand (VText s) (mapping_get ug l) = Err KeyErr.
Proof.
  intros H. cbn. apply percent_lacks. eapply lacks_mono; [| |exact H].
  - intros k v F. now apply mapping_get_iff. - intros k F. now apply mapping_missing.
Qed.
Lemma expand_sound ug l v t : expand v (mapping_get ug l) = Ok t -> exists s, v = VText s /\ renders (field_of ug l) s t.
Proof.
  destruct v; try discriminate. cbn. intros H. exists s. split; [easy|]. apply percent_iff in H.
  eapply renders_mono; [|exact H]. intros k v F. now apply mapping_get_iff.
Qed.
(* a plain message *)
Lemma expand_plain self x info v ug t :
  translator (x_ugettext x) ug ->
  (expand_message self x (Plain v) info = Ok t <->
   exists s, match ug with Some f => f v = Ok (VText s) | None => v = VText s end
             /\ renders (field_of ug (asked self x info)) s t).
Proof.
  intros T. apply translator_iff in T. unfold expand_message. cbn [bind]. rewrite T. cbn [bind]. rewrite live_asked.
  split.
  - destruct (translated ug v) as [m|] eqn:E; [|discriminate]. cbn [bind]. intros H. apply expand_sound in H as (s & -> & R).
    exists s. split; [|easy]. destruct ug; cbn in E; congruence.
  - intros (s & E & R). assert (translated ug v = Ok (VText s)) as -> by (destruct ug; cbn; congruence).
    cbn [bind]. now apply expand_get.
Qed.
Definition count_of (ug : option (pyval -> res pyval)) (l : list target) (k : str) : res pyval :=
  match bind (mapping_get ug l k) (fun n => match to_int n with Err TypeErr => Ok n | r => r end) with
  | Err KeyErr => Ok (VText k) | r => r end.
Lemma counts_ok ug l k n : counts ug l k n -> count_of ug l k = Ok n.
Proof.
  unfold count_of. intros [v z F I|v F I|M].
  - apply mapping_get_iff in F. rewrite F. cbn [bind]. now rewrite I.
  - apply mapping_get_iff in F. rewrite F. cbn [bind]. now rewrite I.
  - destruct (mapping_missing ug _ _ M) as (-> & _). easy.
Qed.
Lemma expand_plural self x info a b k ug ung n t :
  translator (x_ugettext x) ug -> translator (x_ungettext x) ung -> counts ug (asked self x info) k n ->
  (expand_message self x (Plural a b k) info = Ok t <->
   exists s, match ung with
             | Some f => f a b n = Ok (VText s)
             | None => exists sa sb, match ug with Some f => f (VText a) = Ok sa /\ f (VText b) = Ok sb
                                                | None => sa = VText a /\ sb = VText b end
                       /\ VText s = if py_eq n (VInt 1) then sa else sb
             end /\ renders (field_of ug (asked self x info)) s t).
Proof.
  intros T1 T2 C. apply translator_iff in T1, T2. apply counts_ok in C. unfold expand_message. cbn [bind]. rewrite T1, live_asked.
  cbn [bind]. rewrite T2. cbn [bind]. fold (count_of ug (asked self x info) k). rewrite C. cbn [bind].
  set (m := match ung with Some f => f a b n | None => _ end). split.
  - destruct m as [v|] eqn:E; [|discriminate]. cbn [bind]. intros H. apply expand_sound in H as (s & -> & R).
    exists s. split; [|easy]. unfold m in E. destruct ung as [f|]; [easy|].
    destruct (translated ug (VText a)) as [sa|] eqn:Ea; [|discriminate].
    destruct (translated ug (VText b)) as [sb|] eqn:Eb; [|discriminate].
    cbn [bind] in E. exists sa, sb. split; [|congruence]. destruct ug; cbn in Ea, Eb; [easy|]. split; congruence.
  - intros (s & E & R). assert (m = Ok (VText s)) as ->; [|now apply expand_get]. unfold m. destruct ung as [f|]; [easy|].
    destruct E as (sa & sb & H & E). destruct ug as [f|]; cbn [translated].
    + destruct H as (-> & ->). cbn [bind]. now rewrite E.
    + destruct H as (-> & ->). cbn [bind]. now rewrite E.
Qed.
Lemma expand_call self x info r : expand_message self x (Call r) info =
  match r with Ok (Call _ as m) => bind (find_transformer (x_ugettext x)) (fun ug => match ug with None => Err TypeErr | Some _ => Err NotImplErr end)
             | Ok m => expand_message self x m info | Err e => Err e end.
Proof. destruct r as [[v|a b k|r]|e]; reflexivity. Qed.
Lemma expand_missing self x info s ug v : translator (x_ugettext x) ug ->
  match ug with Some f => f v = Ok (VText s) | None => v = VText s end ->
  lacks_field (field_of ug (asked self x info)) (shows_nothing (asked self x info)) s ->
  expand_message self x (Plain v) info = Err KeyErr.
Proof.
  intros T E L. apply translator_iff in T. unfold expand_message. cbn [bind]. rewrite T. cbn [bind]. rewrite live_asked.
  assert (translated ug v = Ok (VText s)) as -> by (destruct ug; cbn; congruence). cbn [bind]. now apply expand_lacks.
Qed.

Lemma expand_not_text self x info ug v w : translator (x_ugettext x) ug ->
  match ug with Some f => f v = Ok w | None => v = w end -> (forall s, w <> VText s) ->
  expand_message self x (Plain v) info = Err TypeErr.
Proof.
  intros T E L. apply translator_iff in T. unfold expand_message. cbn [bind]. rewrite T. cbn [bind].
  assert (translated ug v = Ok w) as -> by (destruct ug; cbn; congruence). cbn [bind]. destruct w; cbn [expand]; try easy. now elim (L s).
Qed.

(* ---- recording ---- *)
Lemma memb_str_in m l : memb str_eqb m l = true <-> In m l.
Proof.
  unfold memb. rewrite existsb_exists. split.
  - intros (y & I & E). apply str_eqb_eq in E. now subst. - intros I. exists m. split; [easy|]. now apply str_eqb_eq.
Qed.
Lemma add_message_records l m : records l m (add_message l m).
Proof.
  unfold records, add_message. destruct (memb str_eqb m l) eqn:E.
  - left. split; [now apply memb_str_in|easy].
  - right. split; [|easy]. intros I. apply memb_str_in in I. congruence.
Qed.
Lemma records_fun l m l1 l2 : records l m l1 -> records l m l2 -> l1 = l2.
Proof. intros [(A & ->)|(A & ->)] [(B & ->)|(B & ->)]; easy. Qed.
Lemma chosen_eq self key message m : chosen self message key m ->
  (match message with
   | Some m => if attr_truth m then Ok m else match key with Some k => getattr self k | None => Err TypeErr end
   | None => match key with Some k => getattr self k | None => Err TypeErr end
   end) = Ok m.
Proof.
  intros [m' k T|g k m' N E]; [now rewrite T|]. destruct g as [g|]; [|easy]. now rewrite (N g eq_refl).
Qed.
Lemma note_records self x l key message info m s : chosen self message key m -> attr_truth m = true ->
  expand_message self x m info = Ok s ->
  exists l', note self x l key message info = (l', Ok false) /\ records l s l'.
Proof.
  intros C T E. unfold note. rewrite (chosen_eq _ _ _ _ C), T, E. exists (add_message l s). split; [easy|]. apply add_message_records.
Qed.
Lemma note_silent self x l key message info m : chosen self message key m -> attr_truth m = false ->
  note self x l key message info = (l, Ok false).
Proof. intros C T. unfold note. now rewrite (chosen_eq _ _ _ _ C), T. Qed.
Lemma note_raises self x l key message info m e : chosen self message key m -> attr_truth m = true ->
  expand_message self x m info = Err e -> note self x l key message info = (l, Err e).
Proof. intros C T E. unfold note. now rewrite (chosen_eq _ _ _ _ C), T, E. Qed.
Lemma note_unknown self x l key info : getattr self key = Err AttributeErr ->
  note self x l (Some key) None info = (l, Err AttributeErr).
Proof. intros E. unfold note. now rewrite E. Qed.

(* ---- construction ---- *)
Lemma getattr_in self k a : getattr self k = Ok a -> In (k, a) self.
Proof.
  induction self as [|[k' b] self IH]; [discriminate|]. cbn [getattr]. destruct (str_eqb k k') eqn:E.
  - intros H. injection H as ->. apply str_eqb_eq in E. subst. now left. - intros H. right. now apply IH.
Qed.
Lemma getattr_err self k e : getattr self k = Err e -> e = AttributeErr.
Proof. induction self as [|[k' b] self IH]; [cbn; congruence|]. cbn [getattr]. destruct (str_eqb k k'); [discriminate|easy]. Qed.
Lemma init_ok cls kw : forall self, Forall (fun p => exists a, getattr cls (fst p) = Ok a) kw -> NoDup (map fst kw) ->
  exists self', validator_init cls self kw = Ok self'
  /\ (forall k a, In (k, a) kw -> getattr self' k = Ok a)
  /\ (forall k, ~ In k (map fst kw) -> getattr self' k = getattr self k).
Proof.
  induction kw as [|[k a] kw IH]; intros self F D.
  - exists self. repeat split; easy.
  - inversion F as [|? ? (b & E) F']; subst. cbn in E. inversion D as [|? ? D1 D2]; subst.
    destruct (IH ((k, a) :: self) F' D2) as (s' & Ei & H1 & H2). exists s'. cbn [validator_init]. unfold hasattr. rewrite E.
    split; [easy|]. split.
    + intros k' a' [X|X]; [|now apply H1]. injection X as <- <-. rewrite H2 by easy. cbn [getattr].
      assert (str_eqb k k = true) as -> by now apply str_eqb_eq. easy.
    + intros k' N. cbn in N. rewrite H2 by tauto. cbn [getattr]. destruct (str_eqb k' k) eqn:X; [|easy].
      apply str_eqb_eq in X. exfalso. apply N. now left.
Qed.
Lemma new_ok cls kw : Forall (fun p => exists a, getattr cls (fst p) = Ok a) kw -> NoDup (map fst kw) ->
  exists self, new_validator cls kw = Ok self
  /\ (forall k a, In (k, a) kw -> getattr self k = Ok a)
  /\ (forall k, ~ In k (map fst kw) -> getattr self k = getattr cls k).
Proof. intros F D. now apply init_ok. Qed.
Lemma init_refused cls kw : forall self, (exists k a, In (k, a) kw /\ forall b, getattr cls k <> Ok b) ->
  validator_init cls self kw = Err TypeErr.
Proof.
  induction kw as [|[k a] kw IH]; intros self (k' & a' & I & N); [easy|]. cbn [validator_init]. unfold hasattr.
  destruct (getattr cls k) as [b|] eqn:E; [|easy]. apply IH. exists k', a'. split; [|easy].
  destruct I as [I|I]; [|easy]. injection I as -> ->. now elim (N b).
Qed.
Lemma new_refused cls kw : (exists k a, In (k, a) kw /\ forall b, getattr cls k <> Ok b) -> new_validator cls kw = Err TypeErr.
Proof. intros H. now apply init_refused. Qed.

(* ---- a failure with a default message, in a plain context ---- *)
Lemma plain_untranslated x label : plain x label ->
  translator (x_ugettext x) None /\ translator (x_ungettext x) None.
Proof. intros (_ & U & V & _). split; apply translator_iff; now apply untranslated_none. Qed.
(* fields in a plain context: information, then validator, then element *)
Lemma dict_offers info k v : find (fun p => str_eqb k (fst p)) info = Some (k, v) -> offers (dict_target info) k v.
Proof. intros E. left. eexists. split; [reflexivity|]. cbn beta. now rewrite E. Qed.
Lemma dict_nothing info k : find (fun p => str_eqb k (fst p)) info = None -> offers_nothing (dict_target info) k.
Proof. intros E. split; [|easy]. intros f H. injection H as <-. exists KeyErr. cbn beta. rewrite E. split; [easy|now left]. Qed.
Lemma self_offers self k v : getattr self k = Ok (Plain v) -> offers (self_target self) k v.
Proof. intros E. right. split; [intros f; discriminate|]. cbn [t_attr self_target]. now rewrite E. Qed.
Lemma self_nothing self k : getattr self k = Err AttributeErr -> offers_nothing (self_target self) k.
Proof. intros E. split; [intros f; discriminate|]. cbn [t_attr self_target]. now rewrite E. Qed.
Lemma plain_info x label self info k v : plain x label -> find (fun p => str_eqb k (fst p)) info = Some (k, v) ->
  field_of None (asked self x info) k v.
Proof.
  intros _ E. exists v. split; [|easy]. exists [], (dict_target info). eexists. split; [reflexivity|]. split; [constructor|].
  now apply dict_offers.
Qed.
Lemma plain_self x label self info k v : plain x label -> find (fun p => str_eqb k (fst p)) info = None ->
  getattr self k = Ok (Plain v) -> field_of None (asked self x info) k v.
Proof.
  intros (St & _) E G. exists v. split; [|easy]. exists [dict_target info], (self_target self), [x_element x].
  unfold asked. rewrite St. split; [reflexivity|]. split; [|now apply self_offers].
  constructor; [|constructor]. now apply dict_nothing.
Qed.
Lemma plain_element x label self info k v : plain x label -> find (fun p => str_eqb k (fst p)) info = None ->
  getattr self k = Err AttributeErr -> offers (x_element x) k v -> field_of None (asked self x info) k v.
Proof.
  intros (St & _) E G O. exists v. split; [|easy]. exists [dict_target info; self_target self], (x_element x), [].
  unfold asked. rewrite St. split; [reflexivity|]. split; [|easy].
  constructor; [now apply dict_nothing|]. constructor; [now apply self_nothing|constructor].
Qed.
Lemma plain_label x label self info : plain x label -> find (fun p => str_eqb (lit "label") (fst p)) info = None ->
  getattr self (lit "label") = Err AttributeErr -> field_of None (asked self x info) (lit "label") (VText label).
Proof. intros P E G. apply (plain_element x label); try easy. now destruct P as (_ & _ & _ & O). Qed.
Lemma note_plain x label self l key info s t : plain x label -> getattr self key = Ok (Plain (VText s)) -> s <> [] ->
  renders (field_of None (asked self x info)) s t ->
  exists l', note self x l (Some key) None info = (l', Ok false) /\ records l t l'.
Proof.
  intros P G N R. eapply note_records.
  - apply co_key; [easy|exact G].
  - cbn. now destruct s.
  - destruct (plain_untranslated x label P) as (T & _). apply (expand_plain self x info _ None t T). now exists s.
Qed.
Lemma note_plural x label self l key info a b k n s t : plain x label -> getattr self key = Ok (Plural a b k) ->
  counts None (asked self x info) k n -> s = (if py_eq n (VInt 1) then a else b) ->
  renders (field_of None (asked self x info)) s t ->
  exists l', note self x l (Some key) None info = (l', Ok false) /\ records l t l'.
Proof.
  intros P G C -> R. eapply note_records.
  - apply co_key; [easy|exact G].
  - easy.
  - destruct (plain_untranslated x label P) as (T & U). apply (expand_plural self x info a b k None None n t T U C).
    eexists. split; [|exact R]. exists (VText a), (VText b). split; [easy|]. now destruct (py_eq n (VInt 1)).
Qed.
(* rendering literal templates by computation: fields as an association list *)
Lemma renders_compute (field : str -> pyval -> Prop) (known : list (str * pyval)) s t :
  (forall k v, In (k, v) known -> field k v) ->
  percent s (fun k => match find (fun p => str_eqb k (fst p)) known with Some (_, v) => Ok v | None => Err KeyErr end) = Ok t ->
  renders field s t.
Proof.
  intros H E. apply percent_iff in E. eapply renders_mono; [|exact E]. intros k v F. cbn beta in F. apply H.
  destruct (find (fun p => str_eqb k (fst p)) known) as [[k' w]|] eqn:X; [|discriminate]. injection F as ->.
  apply find_some in X as (I & X). apply str_eqb_eq in X. cbn in X. now subst.
Qed.
