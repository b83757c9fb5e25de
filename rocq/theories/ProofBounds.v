(* Validators of lengths, bounds and sizes in a tree. *)
From Verif Require Import PyBase PyBaseFacts ModelUtil SpecUtil ProofUtil ModelMap ModelScalar SpecScalar ProofScalar3 ModelValidate ModelMessage SpecMessage ModelValidators SpecValidators ProofValidators ProofValidators2 ModelNetwork SpecNetwork ProofNetwork ProofNetwork2 ModelReport SpecReport ModelCompound ModelFlat SpecFlat SpecSteps ProofFlat ProofFlat2 ProofFlat9 ProofSteps ModelCheck SpecCheck ProofCheck ProofCheck2 SpecTwin ProofTwin ModelBounds SpecBounds.
From Verif Require ProofAgain.
From Coq Require Import Lia.

Lemma text_judged self f root p nd x v u ok m (P : Prop) : node_at root p = Some nd -> bears (nd_element nd) v u -> (ok = true <-> P) ->
  (forall errors, judged (report self x errors (f u)) errors P m) -> grades (on_text self f) x root p ok m.
Proof.
  intros A R O J errors. unfold on_text, own. cbn [ck_self ck_says]. rewrite A. apply (judged_bool _ _ P); [now symmetry|]. destruct R as [n st -> -> ->|n j l -> -> ->]; apply J.
Qed.
Lemma value_judged self f root p nd x v u ok m (P : Prop) : node_at root p = Some nd -> bears (nd_element nd) v u -> (ok = true <-> P) ->
  (forall errors, judged (report self x errors (f v)) errors P m) -> grades (on_value self f) x root p ok m.
Proof.
  intros A R O J errors. unfold on_value, own. cbn [ck_self ck_says]. rewrite A. apply (judged_bool _ _ P); [now symmetry|]. destruct R as [n st -> -> ->|n j l -> -> ->]; apply J.
Qed.
Theorem made_all : forall n lo hi b a, (exists c, shorter_than_check n = Ok c) /\ (exists c, longer_than_check n = Ok c) /\ (exists c, length_between_check lo hi = Ok c)
  /\ (exists c, less_than_check b = Ok c) /\ (exists c, at_most_check b = Ok c) /\ (exists c, greater_than_check b = Ok c) /\ (exists c, at_least_check b = Ok c) /\ (exists c, between_check a b = Ok c).
Proof. intros. repeat split; eexists; reflexivity. Qed.
Lemma good_dec schemes r : good_scheme schemes r \/ ~ good_scheme schemes r.
Proof.
  unfold good_scheme. destruct (list_eq_dec N.eq_dec (r_scheme r) []) as [E|E]; [right; tauto|]. destruct schemes as [l|]; [|left; split; [exact E|discriminate]].
  destruct (in_dec (list_eq_dec N.eq_dec) (r_scheme r) l) as [I|I]; [left; split; [exact E|now intros l' [= <-]]|right; intros (_ & H); now apply I, H].
Qed.
Lemma allowed_dec parts r : allowed_parts parts r \/ ~ allowed_parts parts r.
Proof.
  unfold allowed_parts. induction (parts_of r) as [|(k & v) l IH]; [now left|]. destruct IH as [IH|IH]; [|right; intros H; apply IH; intros k' v' I; apply H; now right].
  destruct (in_dec (list_eq_dec N.eq_dec) k parts) as [I|I]; [left; intros k' v' [[= <- <-]|J]; [now left|now apply IH]|].
  destruct (list_eq_dec N.eq_dec v []) as [E|E]; [left; intros k' v' [[= <- <-]|J]; [now right|now apply IH]|].
  right. intros H. destruct (H k v (or_introl eq_refl)) as [X|X]; tauto.
Qed.
Lemma url_judged x label errors parse schemes parts v : plain x label ->
  judged (report url_cls x errors (url_valid parse schemes parts v)) errors (exists s r, v = VText s /\ parse (strip s) = Ok r /\ good_scheme schemes r /\ allowed_parts parts r) (label ++ lit " is not a valid URL.").
Proof.
  intros P. assert (F : forall key, In key [lit "bad_format"; lit "blocked_scheme"; lit "blocked_part"] -> url_valid parse schemes parts v = Ok (Fail key []) ->
    exists errors', report url_cls x errors (url_valid parse schemes parts v) = (errors', Ok false) /\ records errors (label ++ lit " is not a valid URL.") errors').
  { intros key I E. now apply (url_message x label errors key). }
  split.
  - intros (s & r & -> & E & G & A). destruct (url_accepts parse schemes parts s r E) as (H & _). now rewrite (H G A).
  - intros N. destruct (url_bad parse schemes parts) as (B1 & B2). destruct v as [|b|z|s|d|d t|t|o]; try (apply (F (lit "bad_format")); [now left|apply B2; discriminate]).
    destruct (parse (strip s)) as [r|e] eqn:E; [|apply (F (lit "bad_format")); [now left|now apply (B1 s e)]].
    destruct (url_accepts parse schemes parts s r E) as (_ & H1 & H2). destruct (good_dec schemes r) as [G|G]; [|apply (F (lit "blocked_scheme")); [now right; left|now apply H1]].
    destruct (allowed_dec parts r) as [A|A]; [exfalso; apply N; now exists s, r|]. apply (F (lit "blocked_part")); [now right; right; left|now apply H2].
Qed.
Lemma http_verdict get part : (forall p, get p = Ok (part p)) -> http_loop http_required http_forbidden get http_parts
  = if name_truth (part (lit "username")) then fails "forbidden_part" else if name_truth (part (lit "password")) then fails "forbidden_part"
    else match part (lit "hostname") with None => fails "required_part" | Some _ => Ok Pass end.
Proof.
  intros G. unfold http_parts. cbn [map http_loop]. rewrite !G. cbv -[fails]. destruct (part _) as [[|? ?]|]; try reflexivity; destruct (part _) as [[|? ?]|]; try reflexivity; destruct (part _); reflexivity.
Qed.
Lemma http_judged x label errors parse v get (part : str -> name) : plain x label -> v <> VNone -> parse v = Ok get -> (forall p, get p = Ok (part p)) ->
  judged (report http_cls x errors (http_valid parse http_parts http_required http_forbidden v)) errors
    ((part (lit "username") = None \/ part (lit "username") = Some []) /\ (part (lit "password") = None \/ part (lit "password") = Some []) /\ part (lit "hostname") <> None) (label ++ lit " is not a valid URL.").
Proof.
  intros P N E G. destruct (http_entry parse http_parts http_required http_forbidden) as (_ & H & _). rewrite (H v _ N E), (http_verdict get part G).
  assert (F : forall key, In key [lit "bad_format"; lit "required_part"; lit "forbidden_part"] ->
    exists errors', report http_cls x errors (Ok (Fail key [])) = (errors', Ok false) /\ records errors (label ++ lit " is not a valid URL.") errors') by (intros key I; now apply (http_message x label errors key)).
  assert (T : forall o, name_truth o = false <-> o = None \/ o = Some []) by (intros [[|c s]|]; cbn; intuition congruence).
  unfold judged. rewrite <- !T. destruct (name_truth (part (lit "username"))); [split; [easy|intros _; apply F; now right; right; left]|].
  destruct (name_truth (part (lit "password"))); [split; [easy|intros _; apply F; now right; right; left]|].
  destruct (part (lit "hostname")) as [h|]; [split; [reflexivity|intros K; exfalso; now apply K]|split; [easy|intros _; apply F; now right; left]].
Qed.
Lemma http_unread required forbidden get parts : (forall p, get p = Err ValueErr \/ exists o, get p = Ok o) -> (exists p, In p parts /\ get p = Err ValueErr) ->
  exists key, In key [lit "bad_format"; lit "required_part"; lit "forbidden_part"] /\ http_loop required forbidden get parts = Ok (Fail key []).
Proof.
  intros G. induction parts as [|q parts IH]; intros (p & I & E); [easy|]. cbn [http_loop]. destruct (G q) as [X|(o & X)]; rewrite X; [exists (lit "bad_format"); split; [now left|reflexivity]|].
  destruct I as [-> |I]; [congruence|]. match goal with |- context [if ?b then fails "required_part" else _] => destruct b end; [exists (lit "required_part"); split; [now right; left|reflexivity]|].
  match goal with |- context [if ?b then fails "forbidden_part" else _] => destruct b end; [exists (lit "forbidden_part"); split; [now right; right; left|reflexivity]|]. apply IH. now exists p.
Qed.
Theorem wants_lemma x label root p nd v u c ok m : plain x label -> node_at root p = Some nd -> bears (nd_element nd) v u -> wants label v u c ok m -> grades c x root p ok m.
Proof.
  intros P A R W. destruct W as [ok O|ok O|ok O|ok O|n c ok E O|n c ok E O|lo hi c ok E O|b c ok E C O|b c ok E C O|b c ok E C O|b c ok E C O|lo hi c ok E C C' O|to_ascii ok T O|parse schemes parts ok O|parse E|parse get part ok N E G O|parse get N E G X|ds fuel ok D M L O|fuel E].
  - intros errors. unfold converted_check, own. cbn [ck_self ck_says]. rewrite A. apply (judged_bool _ _ (v <> VNone)); [now symmetry|]. destruct R as [n st -> -> ->|n j l -> -> ->]; now apply converted_judged.
  - intros errors. unfold present_check, own. cbn [ck_self ck_says]. rewrite A. apply (judged_bool _ _ (u <> [])); [now symmetry|]. destruct R as [n st -> -> ->|n j l -> -> ->]; now apply present_judged.
  - eapply value_judged; [exact A|exact R|exact O|]. intros errors. now apply is_true_judged.
  - eapply value_judged; [exact A|exact R|exact O|]. intros errors. now apply is_false_judged.
  - unfold shorter_than_check in E. destruct (new_shorter_than (Some (VInt n)) []) as [self|] eqn:S; [|discriminate]. injection E as <-. eapply text_judged; [exact A|exact R|exact O|].
    intros errors. destruct (shorter_default x label n u errors P) as (s' & S' & J). rewrite S in S'. injection S' as <-. exact J.
  - unfold longer_than_check in E. destruct (new_longer_than (Some (VInt n)) []) as [self|] eqn:S; [|discriminate]. injection E as <-. eapply text_judged; [exact A|exact R|exact O|].
    intros errors. destruct (longer_default x label n u errors P) as (s' & S' & J). rewrite S in S'. injection S' as <-. exact J.
  - unfold length_between_check in E. destruct (new_length_between (Some (VInt lo)) (Some (VInt hi)) []) as [self|] eqn:S; [|discriminate]. injection E as <-. eapply text_judged; [exact A|exact R|exact O|].
    intros errors. destruct (length_between_default x label lo hi u errors P) as (s' & S' & J). rewrite S in S'. injection S' as <-. exact J.
  - unfold less_than_check in E. destruct (new_less_than b []) as [self|] eqn:S; [|discriminate]. injection E as <-. eapply value_judged; [exact A|exact R|exact O|].
    intros errors. destruct (less_default x label v b errors P C) as (s' & S' & J). rewrite S in S'. injection S' as <-. exact J.
  - unfold at_most_check in E. destruct (new_at_most b []) as [self|] eqn:S; [|discriminate]. injection E as <-. eapply value_judged; [exact A|exact R|exact O|].
    intros errors. destruct (at_most_default x label v b errors P C) as (s' & S' & J). rewrite S in S'. injection S' as <-. exact J.
  - unfold greater_than_check in E. destruct (new_greater_than b []) as [self|] eqn:S; [|discriminate]. injection E as <-. eapply value_judged; [exact A|exact R|exact O|].
    intros errors. destruct (greater_than_default x label v b errors P C) as (s' & S' & J). rewrite S in S'. injection S' as <-. exact J.
  - unfold at_least_check in E. destruct (new_at_least b []) as [self|] eqn:S; [|discriminate]. injection E as <-. eapply value_judged; [exact A|exact R|exact O|].
    intros errors. destruct (at_least_default x label v b errors P C) as (s' & S' & J). rewrite S in S'. injection S' as <-. exact J.
  - unfold between_check in E. destruct (new_between lo hi []) as [self|] eqn:S; [|discriminate]. injection E as <-. eapply value_judged; [exact A|exact R|exact O|].
    intros errors. destruct (between_default x label v lo hi errors P C C') as ((s' & S' & J) & _). rewrite S in S'. injection S' as <-. exact J.
  - eapply text_judged; [exact A|exact R|exact O|]. intros errors. destruct (email_default to_ascii x label errors u T P) as (self & S & J). injection S as <-. exact J.
  - eapply value_judged; [exact A|exact R|exact O|]. intros errors. now apply url_judged.
  - apply (value_judged http_cls (http_valid parse http_parts http_required http_forbidden) root p nd x v u true _ True); [exact A|exact R|easy|]. intros errors. rewrite E. now split.
  - eapply value_judged; [exact A|exact R|exact O|]. intros errors. now apply (http_judged x label errors parse v get part).
  - apply (value_judged http_cls (http_valid parse http_parts http_required http_forbidden) root p nd x v u false _ False); [exact A|exact R|easy|]. intros errors. split; [easy|intros _].
    destruct (http_entry parse http_parts http_required http_forbidden) as (_ & H & _). rewrite (H v _ N E). destruct (http_unread http_required http_forbidden get http_parts G X) as (key & I & ->). now apply (http_message x label errors key).
  - eapply value_judged; [exact A|exact R|exact O|]. intros errors.
    assert (K : exists b : bool, luhn fuel v = Ok (if b then Pass else Fail (lit "invalid") []) /\ (b = true <-> luhn_valid ds)).
    { exists (luhn_weights (rev ds) mod 10 =? 0)%Z. split; [|unfold luhn_valid; apply Z.eqb_eq].
      assert (H : luhn10 fuel (decimal_value ds) = Ok (luhn_weights (rev ds) mod 10 =? 0)%Z).
      { unfold luhn10. rewrite decimal_value_lsv in *. rewrite luhn_loop_spec by (easy || now apply digit_list_rev). reflexivity. }
      destruct M; cbn [luhn vnum]; rewrite H; cbn [bind]; now destruct (luhn_weights (rev ds) mod 10 =? 0)%Z. }
    destruct K as (b & K & I). destruct (luhn_message x label errors fuel v P b K) as (X & Y). split; rewrite <- I; easy.
  - apply (value_judged luhn_cls (luhn fuel) root p nd x v u false _ False); [exact A|exact R|easy|]. intros errors. rewrite E.
    destruct (luhn_message x label errors fuel VNone P false eq_refl) as (_ & Y). split; [easy|]. intros _. now apply Y.
Qed.
Theorem value_in_lemma x label root p nd v u options ok : plain x label -> offers (x_element x) (lit "value") v -> node_at root p = Some nd -> bears (nd_element nd) v u ->
  (ok = true <-> exists o, In o options /\ equal_values v o) -> grades (value_in_check options) x root p ok (vtext v ++ lit " is not a valid value for " ++ label ++ lit ".").
Proof. intros P OF A R O. eapply value_judged; [exact A|exact R|exact O|]. intros errors. now apply value_in_judged. Qed.
Theorem at_most_lemma x label root p nd m child n l ok : plain x label -> node_at root p = Some nd -> nd_element nd = EList n l \/ nd_element nd = EArray n l -> (ok = true <-> (l = [] \/ Z.of_nat (List.length l) <= m)%Z) ->
  exists c, has_at_most_check m child = Ok c /\ grades c x root p ok (label ++ lit " must contain at most "
        ++ if (m =? 1)%Z then lit "one " ++ vtext child else dec_z m ++ lit " " ++ vtext child ++ lit "s").
Proof.
  intros P A E O. destruct (has_at_most_default x label child m (List.length l) [] P) as (self & S & _). unfold has_at_most_check. rewrite S. cbn [rmap]. eexists. split; [reflexivity|]. intros errors.
  destruct (has_at_most_default x label child m (List.length l) errors P) as (s' & S' & J). rewrite S in S'. injection S' as <-. unfold on_members, own. cbn [ck_self ck_says]. rewrite A.
  apply (judged_bool _ _ (List.length l = 0%nat \/ Z.of_nat (List.length l) <= m)%Z); [rewrite O; split; (intros [X|X]; [left|now right]); [now apply length_zero_iff_nil|now rewrite X]|]. destruct E as [-> | ->]; exact J.
Qed.
Theorem between_lemma x label root p nd lo hi child n l ok : plain x label -> node_at root p = Some nd -> nd_element nd = EList n l \/ nd_element nd = EArray n l -> (0 <= lo <= hi)%Z -> (ok = true <-> (lo <= Z.of_nat (List.length l) <= hi)%Z) ->
  exists c, has_between_check lo hi child = Ok c /\ grades c x root p ok (label ++ lit " must contain " ++
        if (lo =? hi)%Z
        then lit "exactly " ++ (if (lo =? 1)%Z then lit "one " ++ vtext child else dec_z lo ++ lit " " ++ vtext child ++ lit "s")
        else lit "at least " ++ dec_z lo ++ lit " and at most " ++ dec_z hi ++ lit " " ++ vtext child
             ++ (if (hi =? 1)%Z then [] else lit "s")).
Proof.
  intros P A E LH O. destruct (has_between_default x label child lo hi (List.length l) [] P LH) as (self & S & _). unfold has_between_check. unfold between_kw in S. rewrite S. cbn [rmap]. eexists. split; [reflexivity|]. intros errors.
  destruct (has_between_default x label child lo hi (List.length l) errors P LH) as (s' & S' & J). unfold between_kw in S'. rewrite S in S'. injection S' as <-. unfold on_members, own. cbn [ck_self ck_says]. rewrite A.
  apply (judged_bool _ _ (lo <= Z.of_nat (List.length l) <= hi)%Z); [now symmetry|]. destruct E as [-> | ->]; exact J.
Qed.
Theorem sizes_others root p nd c : node_at root p = Some nd -> (exists n st, nd_element nd = EScalar n st) \/ (exists n cp items, nd_element nd = EDict n cp items) ->
  (exists m child, has_at_most_check m child = Ok c) \/ (exists lo hi child, has_between_check lo hi child = Ok c) -> ck_says c root p = Err AssertErr.
Proof.
  intros A E [(m & child & C)|(lo & hi & child & C)].
  - unfold has_at_most_check in C. destruct (new_validator has_at_most_cls _) as [self|]; [|discriminate]. injection C as <-. cbn. unfold own. rewrite A. destruct E as [(n & st & ->)|(n & cp & items & ->)]; reflexivity.
  - unfold has_between_check in C. destruct (new_has_between _) as [self|]; [|discriminate]. injection C as <-. cbn. unfold own. rewrite A. destruct E as [(n & st & ->)|(n & cp & items & ->)]; reflexivity.
Qed.
Theorem turn_lemma x label root p nd v u cs o : plain x label -> node_at root p = Some nd -> bears (nd_element nd) v u -> in_turn label v u cs o -> objection x root p cs o.
Proof.
  intros P A R. induction 1 as [|c cs m W|c cs m o W I IH]; [constructor|apply ob_this|apply (ob_next _ _ _ _ _ m); [|exact IH]]; now apply (wants_lemma x label root p nd v u).
Qed.
Lemma unfilled_iff n k st : vacant (SScalar n k) (EScalar n st) <-> unfilled k (s_value st) (s_u st).
Proof.
  unfold unfilled. split.
  - inversion 1; subst; [now split|]. split; [easy|]. destruct k; try easy. match goal with H : s_value st = VNone |- _ => rewrite H end. inversion 1.
  - intros [U V]. destruct k; try (now apply va_scalar). now apply va_string.
Qed.

Section Sent.
Variables (n : name) (fields : list (str * kind)) (sep : str) (ps : flat_pairs) (e : element).
Hypothesis ND : NoDup (map fst fields).
Hypothesis TK : text_keys ps.
Hypothesis TV : text_values ps.
Let s := plain_form n fields.
Hypothesis SF : set_flat s sep (fresh s) ps = (e, Ok tt).
Let root := Node [] s e.
Lemma held_items : exists items, e = EDict n None items /\ holds (map (fun f => (true, SScalar (Some (fst f)) (snd f))) fields) items
  /\ forall f k o, In (f, k) fields -> first_sent (sent_key n sep f) ps o -> exists st, In (Some f, EScalar (Some f) st) items /\ now_holds k o (s_value st) (s_u st).
Proof.
  pose proof (form_is_of n fields sep ps e ND SF) as O. pose proof (form_named n fields ND) as N. unfold s, plain_form in O, N, SF.
  destruct (dict_lemma n (map (fun f => (true, SScalar (Some (fst f)) (snd f))) fields) sep (match fresh s with EDict _ _ l => l | _ => [] end) ps N TK (cq := None)) as (items & r & E & _ & R).
  assert (F : fresh (SDict n None (map (fun f : str * kind => (true, SScalar (Some (fst f)) (snd f))) fields)) = EDict n None (match fresh s with EDict _ _ l => l | _ => [] end)) by reflexivity.
  rewrite F, E in SF. injection SF as <- ->. clear E. exists items. split; [reflexivity|]. apply of_dict in O as (_ & _ & O). split; [exact O|].
  intros f k o I FS. specialize (R true (SScalar (Some f) k)). destruct R as (x & l & X & RO & L); [apply in_map_iff; now exists (f, k)|]. injection X as <-.
  assert (OLD : aget name_eqb (Some f) (match fresh s with EDict _ _ l => l | _ => [] end) = Some (EScalar (Some f) blank)).
  { apply (In_aget name_eqb name_eqb_eq').
    - pose proof (of_fresh s N) as H. unfold s, plain_form in H. rewrite F in H. apply of_dict in H as (_ & _ & (H & _)). exact H.
    - cbn. apply in_flat_map. exists (true, SScalar (Some f) k). split; [apply in_map_iff; now exists (f, k)|now left]. }
  rewrite OLD in L. pose proof (sent_routes _ _ _ _ _ RO o FS) as FF. destruct l as [|q l].
  - cbn in FF. subst o. exists blank. split; [now apply (aget_In name_eqb name_eqb_eq')|]. now split.
  - destruct L as (u & L & A). apply (aget_In name_eqb name_eqb_eq') in A. cbn [set_flat] in L. rewrite FF in L. destruct o as [v|].
    + unfold now_holds. assert (T : exists t, v = VText t). { unfold text_values in TV. rewrite Forall_forall in TV. destruct (TV _ (first_sent_In _ _ _ FS)) as [t T]. now exists t. } destruct T as [t ->].
      unfold scalar_set in L |- *. destruct (adapt k (VText t)) as [y|[]]; cbn in L; try discriminate; injection L as <-; (eexists; split; [exact A|]); now split.
    + injection L as <-. eexists. split; [exact A|]. now split.
Qed.
Lemma sent_places :
  (forall f k o, In (f, k) fields -> first_sent (sent_key n sep f) ps o ->
     exists j st, node_at root [j] = Some (Node [Some f] (SScalar (Some f) k) (EScalar (Some f) st)) /\ now_holds k o (s_value st) (s_u st))
  /\ (forall p nd, node_at root p = Some nd -> p = [] /\ nd = root \/ exists f k st, In (f, k) fields /\ nd = Node [Some f] (SScalar (Some f) k) (EScalar (Some f) st)
     /\ forall o, first_sent (sent_key n sep f) ps o -> now_holds k o (s_value st) (s_u st))
  /\ ~ vacant (nd_schema root) (nd_element root).
Proof.
  pose proof (form_named n fields ND) as N. destruct held_items as (items & EE & HO & FI). unfold root, s in *. clear SF root. subst e. set (root := Node [] (plain_form n fields) (EDict n None items)).
  set (fs := map (fun f : str * kind => (true, SScalar (Some (fst f)) (snd f))) fields) in *.
  assert (FSN : NoDup (map fname fs)) by (now apply named_dict in N).
  assert (FSC : forall f k, In (f, k) fields -> field_schema fs (Some f) = Some (SScalar (Some f) k)).
  { intros f k I. apply field_In; [exact FSN|]. split; [reflexivity|]. exists true. apply in_map_iff. now exists (f, k). }
  assert (KD : child_nodes root = map (fun it => match field_schema fs (fst it) with Some g => Node [fst it] g (snd it) | None => Node [] (plain_form n fields) (snd it) end) items).
  { unfold root, child_nodes. cbn [nd_schema nd_element nd_way plain_form app]. fold fs. destruct HO as (_ & KN & _). clear FI. revert KN. induction items as [|[k u] l IH]; intros KN; [reflexivity|].
    cbn [flat_map map fst snd]. rewrite <- (IH (fun j J => KN j (or_intror J))). specialize (KN k (or_introl eq_refl)). apply in_map_iff in KN as ([b g] & E & I). cbn in E.
    assert (FE : field_schema fs k = Some g) by (apply field_In; [exact FSN|]; split; [exact E|now exists b]). now rewrite FE. }
  split; [|split].
  - intros f k o I FS. destruct (FI f k o I FS) as (st & J & S). destruct (In_nth_error _ _ J) as [j E]. exists j, st. split; [|exact S]. cbn [node_at]. rewrite KD. erewrite map_nth_error by exact E. cbn [fst snd]. now rewrite (FSC f k I).
  - intros [|j p] nd E; [left; split; [reflexivity|now injection E]|]. right. cbn [node_at] in E. destruct (nth_error (child_nodes root) j) as [c|] eqn:F; [|discriminate].
    rewrite KD, nth_error_map in F. destruct (nth_error items j) as [[k u]|] eqn:G; [|discriminate]. apply nth_error_In in G. cbn [option_map fst snd] in F.
    destruct HO as (NDI & KN & _). pose proof (KN k (in_map fst _ _ G)) as KI. apply in_map_iff in KI as ([b g] & EK & I). cbn in EK. apply in_map_iff in I as ([f kd] & [= <- <-] & I). cbn in EK. subst k.
    destruct (first_sent_some (sent_key n sep f) ps) as [o FS]. destruct (FI f kd o I FS) as (st & J & S). 
    assert (u = EScalar (Some f) st) as ->. { apply (In_aget name_eqb name_eqb_eq' _ _ _ NDI) in G, J. congruence. }
    cbn [fst] in F. rewrite (FSC f kd I) in F. injection F as <-. destruct p; [|now destruct n0]. injection E as <-. exists f, kd, st. split; [exact I|]. split; [reflexivity|].
    intros o' FS'. now rewrite (first_sent_one _ _ _ FS' _ FS).
  - cbn. inversion 1 as [| | |? ? ? ? g I| | |]; subst. unfold fs in *. apply in_map_iff in I as (? & [=] & _).
Qed.
End Sent.
Lemma holds_one k o v u v' u' : now_holds k o v u -> now_holds k o v' u' -> v = v' /\ u = u'.
Proof. destruct o; cbn; intros [-> ->] [-> ->]; now split. Qed.

Theorem bounds_form id_of place_of (ask : settings) label n fields sep ps e : NoDup (map fst fields) -> text_keys ps -> text_values ps ->
  set_flat (plain_form n fields) sep (fresh (plain_form n fields)) ps = (e, Ok tt) ->
  let root := Node [] (plain_form n fields) e in
  let good f k o := welcome (st_optional (ask [Some f])) (label f) (st_checks (ask [Some f])) k o in
  let bad f k o m := unwelcome (st_optional (ask [Some f])) (label f) (st_checks (ask [Some f])) k o m in
  identified id_of place_of root -> st_down (ask []) = [] -> st_checks (ask []) = [] ->
  (forall f k, In (f, k) fields -> st_checks (ask [Some f]) <> [] /\ forall u, plain (st_context (ask [Some f]) u) (label f)) ->
  (forall f k o, In (f, k) fields -> first_sent (sent_key n sep f) ps o -> good f k o \/ exists m, bad f k o m) ->
  exists F errors V b, (forall fuel, F <= fuel -> validate_form (form_of id_of place_of ask root) fuel (fun _ => []) (fun _ => Uneval) (id_of []) = (errors, V, Ok b))
    /\ (b = true <-> forall f k o, In (f, k) fields -> first_sent (sent_key n sep f) ps o -> good f k o)
    /\ forall f k o, In (f, k) fields -> first_sent (sent_key n sep f) ps o -> exists p st, node_at root p = Some (Node [Some f] (SScalar (Some f) k) (EScalar (Some f) st))
         /\ (good f k o -> errors (id_of p) = [] /\ V (id_of p) = Valid)
         /\ (forall m, bad f k o m -> errors (id_of p) = [m] /\ V (id_of p) = Invalid).
Proof.
  intros ND TK TV SF root good bad ID D0 C0 CK GB. pose proof (form_named n fields ND) as N. destruct (sent_places n fields sep ps e ND TK TV SF) as (AT & BACK & NV). fold root in AT, BACK, NV.
  assert (GA : forall p f k o st, In (f, k) fields -> node_at root p = Some (Node [Some f] (SScalar (Some f) k) (EScalar (Some f) st)) -> now_holds k o (s_value st) (s_u st) ->
    (good f k o -> assessed ask root p (Node [Some f] (SScalar (Some f) k) (EScalar (Some f) st)) true [])
    /\ (forall m, bad f k o m -> assessed ask root p (Node [Some f] (SScalar (Some f) k) (EScalar (Some f) st)) false [m])).
  { intros p f k o st I E H. destruct (CK f k I) as [CN PL]. assert (SC : is_scalar (Node [Some f] (SScalar (Some f) k) (EScalar (Some f) st))) by (now exists (Some f), st). split.
    - intros (v & u & HH & Q). destruct (holds_one _ _ _ _ _ _ HH H) as [-> ->]. apply (as_once _ _ _ _ true None); [now left|]. cbn [nd_way].
      destruct (st_optional (ask [Some f])) eqn:OP.
      + destruct Q as [[_ U]|T]; [apply re_optional; [now apply unfilled_iff|exact OP]|].
        destruct (element_is_empty (SScalar (Some f) k) (EScalar (Some f) st)) eqn:EM.
        * apply re_optional; [|exact OP]. cbn [nd_schema nd_element]. apply vacant_iff; [exact Logic.I|exact EM].
        * apply (re_asked _ _ _ _ _ None); [exact CN|intros V; apply vacant_iff in V; [cbn [nd_schema nd_element] in V; congruence|exact Logic.I]|]. eapply turn_lemma; [apply PL|exact E|eapply rd_scalar; reflexivity|exact T].
      + destruct Q as [[X _]|T]; [discriminate|]. apply (re_asked _ _ _ _ _ None); [exact CN|intros _; exact OP|]. eapply turn_lemma; [apply PL|exact E|eapply rd_scalar; reflexivity|exact T].
    - intros m (v & u & HH & NU & T). destruct (holds_one _ _ _ _ _ _ HH H) as [-> ->]. apply (as_once _ _ _ _ false (Some m)); [now left|]. cbn [nd_way]. apply (re_asked _ _ _ _ _ (Some m)); [exact CN| |].
      + cbn [nd_way nd_schema nd_element]. intros V. apply unfilled_iff in V. destruct (st_optional (ask [Some f])); [|reflexivity]. destruct NU. now split.
      + eapply turn_lemma; [apply PL|exact E|eapply rd_scalar; reflexivity|exact T]. }
  assert (ROOT : assessed ask root [] root true []).
  { apply (as_once ask root [] root true None); [right; exact D0|]. change (nd_way root) with (@nil name). rewrite C0. now apply re_there. }
  assert (AN : answered ask root).
  { intros p nd E. destruct (BACK p nd E) as [[-> ->]|(f & k & st & I & -> & S)]; [now exists true, []|]. destruct (first_sent_some (sent_key n sep f) ps) as [o FS].
    destruct (GA p f k o st I E (S o FS)) as [G1 G2]. destruct (GB f k o I FS) as [G|[m B]]; [exists true, []; now apply G1|exists false, [m]; now apply G2]. }
  destruct (places_lemma id_of place_of ask root (fun _ => []) (fun _ => Uneval) ID N AN) as (F & errors & V & b & H1 & H2 & _ & H4).
  exists F, errors, V, b. split; [exact H1|]. split.
  - rewrite H4. split.
    + intros Z f k o I FS. destruct (AT f k o I FS) as (j & st & E & S). destruct (GA [j] f k o st I E S) as [_ G2]. destruct (GB f k o I FS) as [G|[m B]]; [exact G|].
      destruct (assessed_one _ _ _ _ _ _ _ _ (G2 m B) (Z [j] _ E)). discriminate.
    + intros Z p nd E. destruct (BACK p nd E) as [[-> ->]|(f & k & st & I & -> & S)]; [exact ROOT|]. destruct (first_sent_some (sent_key n sep f) ps) as [o FS].
      destruct (GA p f k o st I E (S o FS)) as [G1 _]. apply G1. now apply (Z f k o).
  - intros f k o I FS. destruct (AT f k o I FS) as (j & st & E & S). exists [j], st. split; [exact E|]. destruct (GA [j] f k o st I E S) as [G1 G2]. destruct (H2 [j] _ E) as (ok & ms & A & VV & EE). split.
    + intros G. destruct (assessed_one _ _ _ _ _ _ _ _ (G1 G) A) as [<- <-]. split; [now inversion EE|exact VV].
    + intros m B. destruct (assessed_one _ _ _ _ _ _ _ _ (G2 m B) A) as [<- <-]. split; [|exact VV]. inversion EE as [|? ? ? ? I' K|? ? ? ? I' K]; subst; [destruct I'|]. now inversion K.
Qed.

(* validators of one element that say the same of elements that hold the same *)
Theorem own_lemma ask : (forall way e e', same e e' -> st_context (ask way) e = st_context (ask way) e') ->
  (forall way c, In c (st_checks (ask way)) \/ In c (st_down (ask way)) -> exists f, ck_says c = own f /\ forall e e', same e e' -> f e = f e') -> impartial ask.
Proof.
  intros X H root root' p q a b c ok m _ _ NA NB (W & S & T) I G errors. destruct (H (nd_way a) c ltac:(tauto)) as (f & CF & FS). specialize (G errors). rewrite CF in *. unfold own in *. rewrite NA in G. rewrite NB.
  now rewrite <- (FS _ _ T), <- (X _ _ _ T).
Qed.
Lemma same_text e e' : same e e' -> match e, e' with EScalar _ a, EScalar _ b => s_u a = s_u b /\ s_value a = s_value b | EJoined _ j l, EJoined _ j' l' => joined_value (j_glue j) l = joined_value (j_glue j') l'
  | EList _ l, EList _ l' | EArray _ l, EArray _ l' => List.length l = List.length l' | EDict _ _ _, EDict _ _ _ => True | _, _ => False end.
Proof. inversion 1; subst; cbn; [now split|exact I| | |]; [eapply ProofAgain.F2_len; eassumption..|now apply joined_alike]. Qed.
Theorem made_lemma c : (exists self f, c = on_text self f) \/ (exists self f, c = on_value self f) \/ (exists self f l, c = on_members self f l) ->
  exists f, ck_says c = own f /\ forall e e', same e e' -> f e = f e'.
Proof.
  intros [(self & f & ->)|[(self & f & ->)|(self & f & l & ->)]]; eexists; (split; [reflexivity|]); intros e e' S; apply same_text in S; destruct e, e'; try easy.
  - now destruct S as [-> _].
  - now rewrite S.
  - now destruct S as [_ ->].
  - now rewrite S.
  - now rewrite S.
  - now rewrite S.
  - now rewrite S.
Qed.
