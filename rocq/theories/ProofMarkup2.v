From Verif Require Import PyBase PyBaseFacts ModelMarkup SpecMarkup ProofMarkup.
From Coq Require Import Permutation Sorted.

(* ---------------- rendering parses back ---------------- *)
Lemma attribute_escape_shown v s : shown v = Some s ->
  exists e, attribute_escape v = Ok e /\ ~ In 34%N e /\ decode attr_table attr_bad e = Some s.
Proof.
  intros H. unfold attribute_escape.
  destruct v as [|[]| |t|t|[]|[]|t []]; simpl in H; try discriminate; injection H as <-;
    try (exists []; repeat split; easy).
  destruct t as [|c t]; cbn [truth bind negb]; [exists []; repeat split; easy|].
  destruct (attribute_escape_safe (c :: t)) as [[H1 _] H2].
  eexists; repeat split; [|exact H2]. intros H. apply H1 in H. apply H. now left.
Qed.
Lemma escape_all_shown a l : Forall2 shows a l ->
  exists e, escape_all a = Ok e /\ Forall2 encodes e l /\ map fst e = map fst a.
Proof.
  induction 1 as [|[k v] [k' t] a l [E1 E2] H (e & IH1 & IH2 & IH3)]; [now exists []|].
  simpl in E1, E2. subst k'. destruct (attribute_escape_shown v t E2) as (x & X1 & X2 & X3).
  exists ((k, x) :: e). cbn [escape_all]. rewrite X1. cbn [bind]. rewrite IH1.
  repeat split; simpl; [|now rewrite IH3]. now constructor.
Qed.
Lemma Forall2_perm_l {A B} (R : A -> B -> Prop) l l1 l2 :
  Permutation l1 l -> Forall2 R l l2 -> exists l2', Permutation l2' l2 /\ Forall2 R l1 l2'.
Proof.
  intros Hp; revert l2; induction Hp as [|x l1 l Hp IH|x y l|a b c Hp1 IH1 Hp2 IH2]; intros l2 H.
  - inversion H; subst. exists []. now split.
  - inversion H as [|? y ? l2' Hx Hl]; subst. destruct (IH _ Hl) as (m & M1 & M2).
    exists (y :: m). split; now constructor.
  - inversion H as [|? y' ? l2' Hx Hl]; subst. inversion Hl as [|? x' ? l3 Hx' Hl']; subst.
    exists (x' :: y' :: l3). split; [apply perm_swap|]. now repeat constructor.
  - destruct (IH2 _ H) as (m & M1 & M2). destruct (IH1 _ M2) as (m' & M3 & M4).
    exists m'. split; [now rewrite M3|easy].
Qed.
Lemma sorted_transfer {V W} (l : list (str * V)) (l' : list (str * W)) :
  map fst l = map fst l' -> StronglySorted ordered_before l -> StronglySorted ordered_before l'.
Proof.
  revert l'; induction l as [|x l IH]; intros [|y l'] E H; try easy; [constructor|].
  simpl in E. injection E as E1 E2. inversion H as [|? ? Hs Hf]; subst. constructor; [now apply IH|].
  rewrite Forall_forall in *. intros z Hz. apply (in_map fst) in Hz. rewrite <- E2 in Hz.
  apply in_map_iff in Hz as (z' & Ez & Hz'). specialize (Hf _ Hz').
  unfold ordered_before in *. now rewrite <- E1, <- Ez.
Qed.

Lemma tag_call_parses env xml dangle paired tag kw ctx b ctx' out :
  tag_call env xml dangle paired tag kw ctx b = (ctx', Ok out) ->
  wf_name tag = true ->
  exists a c t,
    transform env tag (unicode_keyed (del "contents" kw)) (get_or "contents" kw MNone) ctx b
      = (ctx', Ok (a, c))
    /\ truth c = Ok t
    /\ (forall l, NoDup (keys a) -> Forall2 shows a l ->
          Forall (fun p => wf_name (fst p) = true) a ->
          exists l', parse_tag out
              = Some (tag, l', remainder xml dangle paired tag (if t then text_of c else []))
            /\ Permutation l' l
            /\ (forall v, get "ordered_attributes" ctx' = Some v -> truth v = Ok true ->
                StronglySorted ordered_before l')
            /\ (forall v, get "ordered_attributes" ctx' = Some v -> truth v = Ok false -> l' = l)).
Proof.
  unfold tag_call, tag_open_. intros H Ht.
  destruct (transform env tag _ _ ctx b) as [ctx1 [[a c]|e]] eqn:Et; [|easy].
  destruct (truth c) as [t|e] eqn:Etc; [|easy].
  cbn [bind] in H. unfold setting in H.
  destruct (get "ordered_attributes" ctx1) as [ov|] eqn:Eo; [|easy]. cbn [bind] in H.
  destruct (truth ov) as [o|e] eqn:Eto; [|easy]. cbn [bind] in H.
  exists a, c, t.
  destruct (escape_all (if o then sort_attrs a else a)) as [e|] eqn:Ee; [|easy]. cbn [bind] in H.
  injection H as <- Hout. split; [easy|]. split; [easy|]. intros l Hn Hl Hw.
  assert (exists l', Permutation l' l /\ Forall2 shows (if o then sort_attrs a else a) l'
            /\ (o = true -> StronglySorted ordered_before l') /\ (o = false -> l' = l))
    as (l' & P1 & P2 & P3 & P4).
  { destruct o.
    - destruct (Forall2_perm_l shows a (sort_attrs a) l (sort_perm a) Hl) as (l' & Q1 & Q2).
      exists l'. repeat split; try easy. intros _.
      eapply sorted_transfer; [|apply sort_sorted; exact Hn].
      clear -Q2. induction Q2 as [|x y l m [E _] Q IH]; [easy|]. simpl. congruence.
    - exists l. repeat split; easy. }
  destruct (escape_all_shown _ _ P2) as (e' & E1 & E2 & E3).
  assert (Ok e = Ok e') as E1' by exact (eq_trans (eq_sym Ee) E1). injection E1' as <-. exists l'.
  assert (Forall (fun p => wf_name (fst p) = true) e) as Hwe.
  { rewrite Forall_forall in *. intros x Hx. apply (in_map fst) in Hx. rewrite E3 in Hx.
    apply in_map_iff in Hx as (y & Ey & Hy). rewrite <- Ey. apply Hw.
    destruct o; [|exact Hy]. eapply Permutation_in; [apply sort_perm|exact Hy]. }
  split; [|split; [easy|split]].
  - assert (ends_ok (remainder xml dangle paired tag (if t then text_of c else []))) as He.
    { unfold remainder. destruct (if t then text_of c else []) as [|x y].
      - destruct paired, xml, dangle; (left; eexists; reflexivity) || (right; reflexivity).
      - left. eexists. reflexivity. }
    rewrite <- (parse_header tag e l' _ Ht E2 Hwe He). f_equal. rewrite <- Hout.
    unfold remainder, tag_close_. destruct (if t then text_of c else []) as [|x y].
    + destruct paired, xml, dangle; reflexivity.
    + reflexivity.
  - intros v Hv Hv'. rewrite Eo in Hv. injection Hv as ->. rewrite Eto in Hv'.
    injection Hv' as ->. now apply P3.
  - intros v Hv Hv'. rewrite Eo in Hv. injection Hv as ->. rewrite Eto in Hv'.
    injection Hv' as ->. now apply P4.
Qed.

(* ---------------- lookups ---------------- *)
Lemma get_set k k' v a :
  get k (set k' v a) = if str_eqb (lit k) (lit k') then Some v else get k a.
Proof. apply aget_aset, str_eqb_eq. Qed.
Lemma get_del k k' a :
  get k (del k' a) = if str_eqb (lit k) (lit k') then None else get k a.
Proof. apply aget_adel, str_eqb_eq. Qed.
Ltac lits := repeat match goal with
  | |- context [str_eqb (lit ?a) (lit ?b)] =>
      let v := eval vm_compute in (str_eqb (lit a) (lit b)) in
      change (str_eqb (lit a) (lit b)) with v
  | H : context [str_eqb (lit ?a) (lit ?b)] |- _ =>
      let v := eval vm_compute in (str_eqb (lit a) (lit b)) in
      change (str_eqb (lit a) (lit b)) with v in H
  end; cbv iota in *.
Ltac gs := unfold get_or, none_or_missing in *; rewrite ?get_set, ?get_del in *; lits.
Lemma same_refl ks a : same_except ks a a.
Proof. intros k _. easy. Qed.
Lemma same_del ks k a a' : In k ks -> same_except ks a a' -> same_except ks a (del k a').
Proof.
  intros Hin H x Hx. unfold del. rewrite (aget_adel _ str_eqb_eq).
  destruct (str_eqb_spec x (lit k)) as [->|_]; [|now apply H].
  exfalso. apply Hx. now apply in_map.
Qed.
Lemma same_set ks k v a a' : In k ks -> same_except ks a a' -> same_except ks a (set k v a').
Proof.
  intros Hin H x Hx. unfold set. rewrite (aget_aset _ str_eqb_eq).
  destruct (str_eqb_spec x (lit k)) as [->|_]; [|now apply H].
  exfalso. apply Hx. now apply in_map.
Qed.
Ltac same := repeat first [apply same_refl | apply same_set; [simpl; tauto|] | apply same_del; [simpl; tauto|]].

(* ---------------- toggles ---------------- *)
Lemma ci_eq_lower s w : ci_eq s w <-> lower s = w.
Proof.
  unfold ci_eq, lower. revert w; induction s as [|c s IH]; intros w; simpl.
  - split; [now inversion 1|]. intros <-. constructor.
  - split.
    + inversion 1 as [|? d ? w' Hd Hw]; subst. apply IH in Hw. rewrite Hw. f_equal.
      unfold lower_chr. destruct ((65 <=? c) && (c <=? 90))%N eqn:E; lia.
    + intros <-. constructor; [|now apply IH]. unfold lower_chr.
      destruct ((65 <=? c) && (c <=? 90))%N eqn:E; lia.
Qed.
Lemma lower_not_upper s c : In c (lower s) -> ~ (65 <= c <= 90)%N.
Proof.
  unfold lower. rewrite in_map_iff. intros (x & <- & _). unfold lower_chr.
  destruct ((65 <=? x) && (x <=? 90))%N eqn:E; lia.
Qed.
Lemma memb_str x l : memb str_eqb x l = true <-> In x l.
Proof. apply memb_In, str_eqb_eq. Qed.
Lemma yes_memb s : memb str_eqb (lower s) trool_yes = true <-> exists w, In w yes_words /\ ci_eq s w.
Proof.
  rewrite memb_str. split.
  - intros H. exists (lower s). rewrite ci_eq_lower. split; [|easy].
    unfold trool_yes in H. simpl in H. unfold yes_words. simpl.
    destruct H as [H|[H|[H|H]]]; try tauto.
    exfalso. assert (In (ch "T") (lower s)) as H' by (rewrite <- H; now left).
    apply lower_not_upper in H'. apply H'. vm_compute. split; discriminate.
  - intros (w & Hw & H). apply ci_eq_lower in H. subst. unfold yes_words in Hw. simpl in Hw.
    unfold trool_yes. simpl. tauto.
Qed.
Lemma no_memb s : memb str_eqb (lower s) trool_no = true <-> exists w, In w no_words /\ ci_eq s w.
Proof.
  rewrite memb_str. split.
  - intros H. exists (lower s). rewrite ci_eq_lower. split; [|easy].
    unfold trool_no in H. simpl in H. unfold no_words. simpl.
    destruct H as [H|[H|[H|H]]]; try tauto.
    exfalso. assert (In (ch "F") (lower s)) as H' by (rewrite <- H; now left).
    apply lower_not_upper in H'. apply H'. vm_compute. split; discriminate.
  - intros (w & Hw & H). apply ci_eq_lower in H. subst. unfold no_words in Hw. simpl in Hw.
    unfold trool_no. simpl. tauto.
Qed.
Lemma yes_not_no s : memb str_eqb (lower s) trool_yes = true -> memb str_eqb (lower s) trool_no = false.
Proof.
  rewrite memb_str. intros H. unfold trool_yes in H. simpl in H.
  repeat (destruct H as [H|H]; [rewrite <- H; reflexivity|]). easy.
Qed.
Lemma not_trool v : match v with MBool _ | MMaybe => False | _ => True end -> ~ is_trool v.
Proof. intros H (b & [->| ->]); easy. Qed.
Lemma parse_trool_spec v :
  (parse_trool v = TTrue <-> says_yes v) /\ (parse_trool v = TFalse <-> says_no v).
Proof.
  unfold says_yes, says_no.
  assert (match v with MBool _ | MMaybe => False | _ => True end ->
    (parse_trool v = TTrue <-> exists w, In w yes_words /\ ci_eq (text_of v) w)
    /\ (parse_trool v = TFalse <-> exists w, In w no_words /\ ci_eq (text_of v) w)) as G.
  { intros H. rewrite <- yes_memb, <- no_memb. pose proof (yes_not_no (text_of v)) as Hn.
    destruct v; try easy; simpl in *;
      destruct (memb str_eqb _ trool_yes); rewrite ?Hn by easy;
      try (destruct (memb str_eqb _ trool_no)); repeat split; easy. }
  destruct v as [|[]| |s|s|z|l|t b];
  match goal with
  | |- context [MMaybe] =>
      split; split; try easy; intros [H|(H & _)]; try easy; exfalso; apply H; exists true; now right
  | |- context [MBool ?x = MBool _] =>
      split; split; try easy; try (now left); intros [H|(H & _)]; try easy; exfalso; apply H;
        exists x; now left
  | _ => destruct (G I) as [G1 G2]; split; [rewrite G1|rewrite G2]; split;
      try (intros H; right; split; [now apply not_trool|exact H]); intros [H|[_ H]]; easy
  end.
Qed.
Lemma parse_trool_cases v :
  (parse_trool v = TTrue /\ says_yes v) \/ (parse_trool v = TFalse /\ says_no v)
  \/ (parse_trool v = TMaybe /\ says_nothing v).
Proof.
  destruct (parse_trool_spec v) as [H1 H2]. unfold says_nothing. rewrite <- H1, <- H2.
  destruct (parse_trool v); [left|right; left|right; right]; easy.
Qed.
Lemma default_toggle_spec key : In key control_keys -> default_toggle key = on_by_default key.
Proof. intros H. simpl in H. repeat (destruct H as [<-|H]; [reflexivity|]). easy. Qed.
Lemma pop_toggle_spec key a ctx cv : In key control_keys -> get key ctx = Some cv ->
  exists on forced, pop_toggle key a ctx = Ok (on, forced, del key a)
                    /\ effective key a ctx on forced.
Proof.
  intros Hk Hc. unfold pop_toggle, setting. rewrite Hc. cbn [bind].
  unfold get_or. destruct (get key a) as [v|] eqn:Ea.
  - destruct (parse_trool_cases v) as [[-> H]|[[-> H]|[-> H]]].
    + exists true, true. split; [easy|]. eapply ef_forced; eauto.
    + exists false, false. split; [easy|]. eapply ef_off; eauto.
    + destruct (parse_trool_cases cv) as [[-> H']|[[-> H']|[-> H']]].
      * exists true, false. split; [easy|]. eapply ef_ctx_on; eauto. congruence.
      * exists false, false. split; [easy|]. eapply ef_ctx_off; eauto. congruence.
      * rewrite default_toggle_spec by easy. eexists _, false. split; [easy|].
        eapply ef_default; eauto. congruence.
  - cbn [parse_trool]. destruct (parse_trool_cases cv) as [[-> H']|[[-> H']|[-> H']]].
    + exists true, false. split; [easy|]. eapply ef_ctx_on; eauto. congruence.
    + exists false, false. split; [easy|]. eapply ef_ctx_off; eauto. congruence.
    + rewrite default_toggle_spec by easy. eexists _, false. split; [easy|].
      eapply ef_default; eauto. congruence.
Qed.
Lemma effective_unique key a ctx o1 f1 o2 f2 :
  effective key a ctx o1 f1 -> effective key a ctx o2 f2 -> o1 = o2 /\ f1 = f2.
Proof.
  assert (forall v, says_yes v -> says_no v -> False) as Hyn.
  { intros v H1 H2. apply parse_trool_spec in H1, H2. congruence. }
  unfold says_nothing in *.
  intros H1 H2; destruct H1, H2; split; try easy; exfalso;
    repeat match goal with
    | H : get key a = Some ?v, H' : get key a = Some ?w |- _ =>
        tryif constr_eq v w then fail else (rewrite H in H'; injection H' as ->)
    | H : get key ctx = Some ?v, H' : get key ctx = Some ?w |- _ =>
        tryif constr_eq v w then fail else (rewrite H in H'; injection H' as ->)
    | H : (forall v, get key a = Some v -> says_nothing v), H' : get key a = Some ?v |- _ =>
        destruct (H v H'); clear H
    end; unfold says_nothing in *; try tauto; eauto.
Qed.
Lemma effective_forced key a ctx o f :
  effective key a ctx o f -> (f = true <-> exists v, get key a = Some v /\ says_yes v).
Proof.
  intros H; destruct H; split; try easy; try solve [intros _; eauto]; intros (v' & E & Hy); exfalso.
  - rewrite H in E. injection E as ->. apply parse_trool_spec in H0, Hy. congruence.
  - destruct (H _ E). easy.
  - destruct (H _ E). easy.
  - destruct (H _ E). easy.
Qed.
Lemma effective_ext key a a1 ctx o f :
  get key a1 = get key a -> effective key a1 ctx o f -> effective key a ctx o f.
Proof.
  intros E H; destruct H; rewrite E in *;
    [eapply ef_forced|eapply ef_off|eapply ef_ctx_on|eapply ef_ctx_off|eapply ef_default]; eauto.
Qed.

(* ---------------- transforms ---------------- *)
Lemma in_tags_among tag (l : list string) : in_tags tag (map lit l) = true <-> tag_among tag l.
Proof.
  unfold in_tags, tag_among. rewrite memb_str, in_map_iff. split; intros (n & H1 & H2); eauto.
Qed.
Lemma given_dec k a : none_or_missing k a = false <-> given k a.
Proof.
  unfold none_or_missing, given. destruct (get k a) as [[]|]; split; intros H; try easy;
    try (eexists; split; [reflexivity|easy]); destruct H as (v & [= <-] & H); easy.
Qed.
Lemma given_dec' k a : none_or_missing k a = true <-> ~ given k a.
Proof. rewrite <- given_dec. destruct (none_or_missing k a); split; congruence. Qed.
Lemma missing_del k k' a : str_eqb (lit k) (lit k') = false ->
  none_or_missing k (del k' a) = none_or_missing k a.
Proof. intros E. unfold none_or_missing. rewrite get_del, E. easy. Qed.

Lemma transform_name_spec tag a c ctx b cv :
  get "auto_name" ctx = Some cv ->
  exists on forced a',
    effective "auto_name" a ctx on forced
    /\ transform_name tag a c ctx b = Ok (a', c)
    /\ get "auto_name" a' = None
    /\ same_except ["auto_name"; "name"]%string a a'
    /\ let applies := on = true /\ (exists el, b = Some el /\ b_name el <> [])
         /\ (forced = true \/ (~ given "name" a
              /\ tag_among tag ["input"; "button"; "select"; "textarea"; "form"]%string)) in
       (applies -> forall el, b = Some el -> get "name" a' = Some (MText (b_name el)))
       /\ (~ applies -> get "name" a' = get "name" a).
Proof.
  intros Hc. destruct (pop_toggle_spec "auto_name" a ctx cv (or_introl eq_refl) Hc)
    as (on & forced & E & He).
  unfold transform_name. rewrite E. cbn [bind]. exists on, forced.
  destruct on; [destruct b as [el|]|]; cbn [andb orb].
  - destruct (b_name el) as [|x nm] eqn:En.
    + eexists. split; [easy|]. split; [reflexivity|]. split; [now gs|]. split; [same|].
      split; [|intros _; now gs]. intros (_ & (el' & [= <-] & H) & _). congruence.
    + destruct (forced || none_or_missing "name" (del "auto_name" a) && in_tags tag name_tags) eqn:Ec.
      * eexists. split; [easy|]. split; [reflexivity|]. split; [now gs|]. split; [same|].
        rewrite missing_del in Ec by reflexivity.
        split; [intros _ el' [= <-]; gs; now rewrite En|]. intros H. exfalso. apply H.
        split; [easy|]. split; [exists el; split; congruence|].
        apply orb_true_iff in Ec as [->|Ec]; [now left|right].
        apply andb_true_iff in Ec as [E1 E2]. apply given_dec' in E1. now apply in_tags_among in E2.
      * eexists. split; [easy|]. split; [reflexivity|]. split; [now gs|]. split; [same|].
        split; [|intros _; now gs]. intros (_ & _ & H). rewrite missing_del in Ec by reflexivity.
        apply orb_false_iff in Ec as [-> Ec]. destruct H as [H|[H1 H2]]; [easy|].
        apply given_dec' in H1. apply in_tags_among in H2.
        rewrite H1 in Ec. cbn [andb] in Ec. exfalso. exact (eq_true_false_abs _ H2 Ec).
  - eexists. split; [easy|]. split; [reflexivity|]. split; [now gs|]. split; [same|].
    split; [|intros _; now gs]. intros (_ & (el & H & _) & _). easy.
  - eexists. split; [easy|]. split; [destruct b; reflexivity|]. split; [now gs|]. split; [same|].
    split; [|intros _; now gs]. intros (H & _). easy.
Qed.

Lemma mv_is_spec v t : mv_is v t = true <-> value_is v t.
Proof.
  unfold value_is. destruct v; simpl; rewrite ?str_eqb_eq; split; intros H; try easy;
    try (destruct H; congruence); subst; tauto.
Qed.
Lemma mv_is_false v t : mv_is v t = false <-> ~ value_is v t.
Proof. rewrite <- mv_is_spec. destruct (mv_is v t); split; congruence. Qed.
Lemma type_is_mv a d n : mv_is d (lit n) = false ->
  (mv_is (get_or "type" a d) (lit n) = true <-> type_is a [n]).
Proof.
  intros Hd. unfold type_is, get_or. destruct (get "type" a) as [v|] eqn:E.
  - rewrite mv_is_spec. split.
    + intros H. exists n, v. split; [now left|]. easy.
    + intros (n' & v' & [<-|[]] & [= <-] & H). exact H.
  - rewrite Hd. split; [easy|]. intros (n' & v' & _ & H & _). easy.
Qed.
Lemma type_is_app a l1 l2 : type_is a (l1 ++ l2) <-> type_is a l1 \/ type_is a l2.
Proof.
  unfold type_is. split.
  - intros (n & v & Hn & H). apply in_app_iff in Hn as [Hn|Hn]; [left|right]; eauto.
  - intros [(n & v & Hn & H)|(n & v & Hn & H)]; exists n, v; rewrite in_app_iff; tauto.
Qed.
Lemma type_is_unique a n m : type_is a [n] -> type_is a [m] -> lit n = lit m.
Proof.
  intros (n' & v & [<-|[]] & E & H) (m' & v' & [<-|[]] & E' & H').
  rewrite E in E'. injection E' as <-. unfold value_is in *.
  destruct H as [H|H], H' as [H'|H']; congruence.
Qed.
Lemma matches_chosen el v : matches el v = true <-> chosen el v.
Proof. unfold matches, chosen. destruct (b_kind el); [easy|apply mv_is_spec..]. Qed.
Lemma toggle_choice k el v a : choice_attr k el v (toggle_attr k (matches el v) a).
Proof.
  unfold choice_attr, toggle_attr. pose proof (matches_chosen el v) as Hm.
  destruct (matches el v); split; intros H; try (exfalso; apply Hm in H; easy);
    try (exfalso; apply H, Hm; easy); rewrite ?get_set, ?get_del, str_eqb_refl; easy.
Qed.
Lemma tag_is_eq tag n : tag_is tag n = true <-> tag = lit n.
Proof. apply str_eqb_eq. Qed.
Lemma same_toggle ks k b a a' : In k ks -> same_except ks a a' -> same_except ks a (toggle_attr k b a').
Proof. intros Hin H. unfold toggle_attr. destruct b; [now apply same_set|now apply same_del]. Qed.
Ltac same ::= repeat first [apply same_refl | apply same_set; [simpl; tauto|]
  | apply same_del; [simpl; tauto|] | apply same_toggle; [simpl; tauto|]].
Lemma get_toggle k k' b a : str_eqb (lit k) (lit k') = false -> get k (toggle_attr k' b a) = get k a.
Proof. intros E. unfold toggle_attr. destruct b; rewrite ?get_set, ?get_del, E; easy. Qed.

Lemma transform_value_spec tag a c ctx b cv :
  get "auto_value" ctx = Some cv ->
  exists on forced a' c',
    effective "auto_value" a ctx on forced
    /\ transform_value tag a c ctx b = Ok (a', c')
    /\ get "auto_value" a' = None
    /\ (on = false \/ b = None -> c' = c /\ same_except ["auto_value"]%string a a')
    /\ (on = true -> forall el, b = Some el -> value_rule tag forced el a c a' c').
Proof.
  intros Hc. destruct (pop_toggle_spec "auto_value" a ctx cv (or_intror (or_introl eq_refl)) Hc)
    as (on & forced & E & He).
  unfold transform_value. rewrite E. cbn [bind]. exists on, forced. clear E.
  destruct on; [destruct b as [el|]|];
    [|eexists _, c; split; [easy|]; split; [reflexivity|]; split; [now gs|]; split; [|easy];
      intros _; split; [easy|same]
     |eexists _, c; split; [easy|]; split; [destruct b; reflexivity|]; split; [now gs|]; split; [|easy];
      intros _; split; [easy|same]].
  assert (forall r, (forall a' c', r = Ok (a', c') -> get "auto_value" a' = None
            /\ value_rule tag forced el a c a' c') -> (exists a' c', r = Ok (a', c')) ->
     exists a' c', effective "auto_value" a ctx true forced /\ r = Ok (a', c')
       /\ get "auto_value" a' = None
       /\ (true = false \/ Some el = None -> c' = c /\ same_except ["auto_value"]%string a a')
       /\ (true = true -> forall el0, Some el = Some el0 -> value_rule tag forced el0 a c a' c')) as G.
  { intros r H (a' & c' & Er). exists a', c'. destruct (H _ _ Er) as [H1 H2].
    split; [easy|]. split; [easy|]. split; [easy|]. split; [intros [?|?]; easy|].
    intros _ el0 [= <-]. easy. }
  apply G; clear G He Hc.
  2:{ (* totality *)
    repeat match goal with
    | |- context [if ?x then _ else _] => destruct x
    | |- context [match ?x with _ => _ end] => destruct x
    end; cbn; try (eexists _, _; reflexivity).
    destruct (b_u el); eexists _, _; reflexivity. }
  intros a' c' H.
  destruct (negb forced && negb (in_tags tag value_tags)) eqn:Eu.
  { injection H as <- <-. split; [now gs|]. apply andb_true_iff in Eu as [E1 E2].
    apply negb_true_iff in E1, E2. apply vr_unsupported; [easy| |same].
    rewrite <- in_tags_among. unfold value_tags in E2. congruence. }
  destruct (tag_is tag "input") eqn:Ei.
  { apply tag_is_eq in Ei.
    set (ty := get_or "type" (del "auto_value" a) (MText [])) in *.
    assert (forall n, lit n <> [] -> (mv_is ty (lit n) = true <-> type_is a [n])) as Hty.
    { intros n Hn. unfold ty. rewrite <- (type_is_mv a (MText []) n).
      - unfold get_or. rewrite get_del. lits. easy.
      - simpl. now destruct (lit n). }
    assert (forall n, lit n <> [] -> (mv_is ty (lit n) = false <-> ~ type_is a [n])) as Htn.
    { intros n Hn. rewrite <- Hty by easy. destruct (mv_is ty (lit n)); split; congruence. }
    clearbody ty.
    destruct (mv_is ty (lit "radio") || mv_is ty (lit "checkbox")) eqn:Erc.
    { destruct (mv_is ty (lit "checkbox")) eqn:Ech.
      - apply Hty in Ech; [|easy].
        destruct (get_or "value" (del "auto_value" a) MNone) as [|bb| |s|s|z|l|t bb] eqn:Ev;
          [destruct (b_kind el) as [has|t|] eqn:Ek|..];
          cbv beta iota zeta in H; injection H as <- <-.
        + split; [rewrite get_toggle by reflexivity; now gs|].
          apply (vr_checkbox _ _ _ _ _ MNone); auto using toggle_choice; [| |same].
          * right. rewrite Ek. easy.
          * gs. destruct (get "value" a); [left; congruence|now right].
        + split; [rewrite get_toggle by reflexivity; now gs|].
          apply (vr_checkbox_true _ _ _ _ _ t); auto using toggle_choice; [| |same].
          * gs. intros (v & H1 & H2). rewrite H1 in Ev. easy.
          * rewrite get_toggle by reflexivity. now gs.
        + split; [rewrite get_toggle by reflexivity; now gs|].
          apply (vr_checkbox _ _ _ _ _ MNone); auto using toggle_choice; [| |same].
          * right. rewrite Ek. easy.
          * gs. destruct (get "value" a); [left; congruence|now right].
        + split; [rewrite get_toggle by reflexivity; now gs|]. gs.
          destruct (get "value" a) as [v|] eqn:Eg; [|easy]. subst v.
          eapply vr_checkbox; eauto using toggle_choice; [|same]. left. eexists; split; [exact Eg|easy].
        + split; [rewrite get_toggle by reflexivity; now gs|]. gs.
          destruct (get "value" a) as [v|] eqn:Eg; [|easy]. subst v.
          eapply vr_checkbox; eauto using toggle_choice; [|same]. left. eexists; split; [exact Eg|easy].
        + split; [rewrite get_toggle by reflexivity; now gs|]. gs.
          destruct (get "value" a) as [v|] eqn:Eg; [|easy]. subst v.
          eapply vr_checkbox; eauto using toggle_choice; [|same]. left. eexists; split; [exact Eg|easy].
        + split; [rewrite get_toggle by reflexivity; now gs|]. gs.
          destruct (get "value" a) as [v|] eqn:Eg; [|easy]. subst v.
          eapply vr_checkbox; eauto using toggle_choice; [|same]. left. eexists; split; [exact Eg|easy].
        + split; [rewrite get_toggle by reflexivity; now gs|]. gs.
          destruct (get "value" a) as [v|] eqn:Eg; [|easy]. subst v.
          eapply vr_checkbox; eauto using toggle_choice; [|same]. left. eexists; split; [exact Eg|easy].
        + split; [rewrite get_toggle by reflexivity; now gs|]. gs.
          destruct (get "value" a) as [v|] eqn:Eg; [|easy]. subst v.
          eapply vr_checkbox; eauto using toggle_choice; [|same]. left. eexists; split; [exact Eg|easy].
        + split; [rewrite get_toggle by reflexivity; now gs|]. gs.
          destruct (get "value" a) as [v|] eqn:Eg; [|easy]. subst v.
          eapply vr_checkbox; eauto using toggle_choice; [|same]. left. eexists; split; [exact Eg|easy].
      - rewrite orb_false_r in Erc. apply Hty in Erc; [|easy]. injection H as <- <-.
        split; [rewrite get_toggle by reflexivity; now gs|].
        eapply vr_radio; eauto using toggle_choice; [|same].
        gs. destruct (get "value" a); [now left|now right]. }
    apply orb_false_iff in Erc as [Er1 Er2].
    apply Htn in Er1, Er2; try easy.
    destruct (mv_is ty (lit "password") || mv_is ty (lit "file") || mv_is ty (lit "image")) eqn:Es.
    { assert (type_is a ["password"; "file"; "image"]%string) as Ht.
      { rewrite !orb_true_iff in Es. rewrite !Hty in Es by easy.
        change ["password"; "file"; "image"]%string
          with (["password"%string] ++ ["file"%string] ++ ["image"%string]). rewrite !type_is_app. tauto. }
      destruct forced; injection H as <- <-; (split; [now gs|]);
        apply vr_secret; auto; try easy; try same; intros _; now gs. }
    assert (~ type_is a ["radio"; "checkbox"; "password"; "file"; "image"]%string) as Ht.
    { rewrite !orb_false_iff in Es. rewrite !Htn in Es by easy.
      change ["radio"; "checkbox"; "password"; "file"; "image"]%string
        with (["radio"%string] ++ ["checkbox"%string] ++ ["password"%string] ++ ["file"%string] ++ ["image"%string]).
      rewrite !type_is_app. tauto. }
    rewrite missing_del in H by reflexivity.
    destruct (none_or_missing "value" a || forced) eqn:En; injection H as <- <-; (split; [now gs|]);
      apply vr_plain; auto; try same.
    - intros _; now gs.
    - intros H1 H2. subst forced. rewrite orb_false_r in En. apply given_dec' in En. easy.
    - apply orb_false_iff in En as [En ->]. apply given_dec in En. intros [?|?]; easy.
    - intros _ _. now gs. }
  destruct (tag_is tag "option") eqn:Eo.
  { apply tag_is_eq in Eo. injection H as <- <-.
    split; [rewrite get_toggle by reflexivity; now gs|]. rewrite missing_del by reflexivity.
    eapply vr_option; [exact Eo| | |apply toggle_choice|same].
    - intros Hg. apply given_dec in Hg as Hg'. rewrite Hg'. cbn [negb].
      destruct Hg as (v & Hv & _). gs. now rewrite Hv.
    - intros Hg. apply given_dec' in Hg. rewrite Hg. cbn [negb]. destruct c; easy. }
  destruct (tag_is tag "textarea") eqn:Et.
  { apply tag_is_eq in Et.
    destruct ((match c with MNone => true | _ => false end) || forced) eqn:En.
    - unfold markup_escape in H. cbn [truth bind] in H.
      assert (exists s, c' = MHtml s /\ a' = del "auto_value" a
                /\ decode content_table content_bad s = Some (b_u el)) as (s & -> & -> & Hs).
      { destruct (b_u el) as [|x u] eqn:Eb; cbn [negb rmap] in H.
        - injection H as <- <-. exists []. easy.
        - injection H as <- <-. eexists. split; [reflexivity|]. split; [easy|].
          apply markup_escape_safe. }
      split; [now gs|]. apply vr_textarea; auto; [|same].
      apply orb_true_iff in En as [En|En]; [left|now right]. destruct c; easy.
    - injection H as <- <-. split; [now gs|]. apply orb_false_iff in En as [En ->].
      apply vr_textarea_given; auto; [|same]. intros ->. easy. }
  assert (tag <> lit "input" /\ tag <> lit "option" /\ tag <> lit "textarea") as (Hi & Ho & Htx).
  { rewrite <- !tag_is_eq. repeat split; congruence. }
  assert (tag = lit "button" \/ forced = true) as Hb.
  { destruct forced; [now right|left]. cbn [negb andb] in Eu. apply negb_false_iff in Eu.
    apply in_tags_among in Eu as (n & Hn & En). simpl in Hn.
    destruct Hn as [<-|[<-|[<-|[<-|[]]]]]; easy. }
  rewrite missing_del in H by reflexivity.
  destruct (none_or_missing "value" a || forced) eqn:En; injection H as <- <-; (split; [now gs|]);
    apply vr_plain; auto; try same.
  - intros _; now gs.
  - intros H1 H2. subst forced. rewrite orb_false_r in En. apply given_dec' in En. easy.
  - apply orb_false_iff in En as [En ->]. apply given_dec in En. intros [?|?]; easy.
  - intros _ _. now gs.
Qed.
