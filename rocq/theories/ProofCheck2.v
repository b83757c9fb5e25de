(* Forms of scalars that are sent as texts and validated. *)
From Verif Require Import PyBase PyBaseFacts ModelMap ModelScalar SpecScalar ProofScalar3 ModelValidate ModelMessage SpecMessage ModelValidators SpecValidators ProofValidators ProofValidators2 ModelReport SpecReport ModelCompound ModelFlat SpecFlat ProofFlat ProofFlat2 ProofFlat9 ProofSteps ModelCheck SpecCheck ProofCheck.
From Coq Require Import Lia.

Lemma judged_bool (r : list str * res bool) errors (P : Prop) (b : bool) m : (P <-> b = true) -> judged r errors P m -> judged r errors (b = true) m.
Proof. intros E [H1 H2]. split; [intros X; apply H1; now apply E|]. intros X. apply H2. intros Y. apply X. now apply E. Qed.
Lemma converted_grades x label root p nd n st : plain x label -> node_at root p = Some nd -> nd_element nd = EScalar n st ->
  grades converted_check x root p (negb (is_none (s_value st))) (label ++ lit " is not correct.").
Proof.
  intros P A E errors. unfold converted_check, own. cbn [ck_says ck_self]. rewrite A, E. apply (judged_bool _ _ (s_value st <> VNone)); [destruct (s_value st); split; easy|]. now apply converted_judged.
Qed.
Lemma present_grades x label root p nd n st : plain x label -> node_at root p = Some nd -> nd_element nd = EScalar n st ->
  grades present_check x root p (negb (str_eqb (s_u st) [])) (label ++ lit " may not be blank.").
Proof.
  intros P A E errors. unfold present_check, own. cbn [ck_says ck_self]. rewrite A, E. apply (judged_bool _ _ (s_u st <> [])); [destruct (s_u st); split; easy|]. now apply present_judged.
Qed.
Lemma at_least_grades x label root p nd m child n l : plain x label -> node_at root p = Some nd -> nd_element nd = EList n l \/ nd_element nd = EArray n l ->
  grades (has_at_least_check m child) x root p (m <=? Z.of_nat (List.length l))%Z
    (label ++ lit " must contain at least " ++ if (m =? 1)%Z then lit "one " ++ vtext child else dec_z m ++ lit " " ++ vtext child ++ lit "s").
Proof.
  intros P A E errors. destruct (has_at_least_default x label child m (List.length l) errors P) as (self & S & J). injection S as <-. unfold has_at_least_check, own. cbn [ck_self ck_says]. rewrite A.
  apply (judged_bool _ _ (m <= Z.of_nat (List.length l))%Z); [symmetry; apply Z.leb_le|]. destruct E as [-> | ->]; exact J.
Qed.
Lemma present_joined x label root p nd n j l : plain x label -> node_at root p = Some nd -> nd_element nd = EJoined n j l ->
  grades present_check x root p (negb (str_eqb (joined_value (j_glue j) l) [])) (label ++ lit " may not be blank.").
Proof.
  intros P A E errors. unfold present_check, own. cbn [ck_says ck_self]. rewrite A, E. apply (judged_bool _ _ (joined_value (j_glue j) l <> [])); [destruct (joined_value (j_glue j) l); split; easy|]. now apply present_judged.
Qed.
Lemma plain_passes root p nd c : node_at root p = Some nd -> plain_container (nd_element nd) -> c = present_check \/ c = converted_check -> ck_says c root p = Ok Pass.
Proof. intros A E [-> | ->]; cbn; unfold own; rewrite A; destruct E; reflexivity. Qed.
Lemma passes_grades c x root p m : ck_says c root p = Ok Pass -> grades c x root p true m.
Proof. intros E errors. rewrite E. split; [reflexivity|]. intros X. now destruct X. Qed.
Lemma plain_grades x root p nd c m : node_at root p = Some nd -> plain_container (nd_element nd) -> c = present_check \/ c = converted_check -> grades c x root p true m.
Proof. intros A E C. apply passes_grades. now apply (plain_passes root p nd). Qed.
Lemma converted_joined x root p nd n j l m : node_at root p = Some nd -> nd_element nd = EJoined n j l -> grades converted_check x root p true m.
Proof. intros A E. apply passes_grades. cbn. unfold own. now rewrite A, E. Qed.
Lemma at_least_joined x label root p nd m child n j l : plain x label -> node_at root p = Some nd -> nd_element nd = EJoined n j l ->
  grades (has_at_least_check m child) x root p (m <=? Z.of_nat (List.length (joined_value (j_glue j) l)))%Z
    (label ++ lit " must contain at least " ++ if (m =? 1)%Z then lit "one " ++ vtext child else dec_z m ++ lit " " ++ vtext child ++ lit "s").
Proof.
  intros P A E errors. destruct (has_at_least_default x label child m (List.length (joined_value (j_glue j) l)) errors P) as (self & S & J). injection S as <-. unfold has_at_least_check, own. cbn [ck_self ck_says]. rewrite A, E.
  apply (judged_bool _ _ (m <= Z.of_nat (List.length (joined_value (j_glue j) l)))%Z); [symmetry; apply Z.leb_le|]. exact J.
Qed.
Lemma at_least_others root p nd m child : node_at root p = Some nd -> (exists n st, nd_element nd = EScalar n st) \/ (exists n cp items, nd_element nd = EDict n cp items) ->
  ck_says (has_at_least_check m child) root p = Err AssertErr.
Proof. intros A [(n & st & E)|(n & cp & items & E)]; cbn; unfold own; now rewrite A, E. Qed.
Lemma before_seq i n : i < n -> exists rest, seq 0 n = seq 0 i ++ i :: rest.
Proof. intros L. exists (seq (S i) (n - S i)). replace n with (i + S (n - S i)) at 1 by lia. rewrite seq_app. cbn. reflexivity. Qed.
Lemma not_duplicated_grades x label root q container i op title alike ok : plain x label -> node_at root q = Some container -> i < List.length (child_nodes container) ->
  (forall j a b, j < i -> nth_error (child_nodes container) i = Some a -> nth_error (child_nodes container) j = Some b -> exists r, op a b = Ok r /\ (r = true <-> alike a b)) ->
  (ok = true <-> forall j a b, j < i -> nth_error (child_nodes container) i = Some a -> nth_error (child_nodes container) j = Some b -> ~ alike a b) ->
  grades (not_duplicated_check op title) x root (q ++ [i]) ok (label ++ lit " may not be repeated within " ++ vtext (title container) ++ lit ".").
Proof.
  intros P A L D OK errors. set (kids := child_nodes container) in *. set (op' := fun a b => match nth_error kids a, nth_error kids b with Some u, Some v => op u v | _, _ => Err AttributeErr end).
  destruct (nth_error kids i) as [a|] eqn:EI; [|apply nth_error_None in EI; lia]. destruct (before_seq i _ L) as [rest SQ].
  set (same := fun j => exists b, nth_error kids j = Some b /\ alike a b).
  assert (NI : ~ In i (seq 0 i)) by (rewrite in_seq; lia).
  assert (DE : decides op' i (seq 0 i) same).
  { unfold decides, op'. apply Forall_forall. intros j J. apply in_seq in J. rewrite EI. destruct (nth_error kids j) as [b|] eqn:EJ; [|apply nth_error_None in EJ; lia]. destruct (D j a b ltac:(lia) eq_refl EJ) as (r & R & RR).
    exists r. split; [exact R|]. rewrite RR. split; [intros X; now exists b|]. unfold same. intros (b' & Q & X). congruence. }
  destruct (not_duplicated_default op' x label (title container) i (seq 0 i) rest same errors P NI DE) as (self & S & J). injection S as <-.
  apply (judged_bool _ _ (Forall (fun s => ~ same s) (seq 0 i))).
  - rewrite OK, Forall_forall. split.
    + intros H j a' b LJ E EJ X. injection E as <-. apply (H j); [apply in_seq; lia|]. now exists b.
    + intros H j I (b & EJ & X). apply in_seq in I. now apply (H j a b ltac:(lia) eq_refl EJ).
  - assert (N0 : q ++ [i] <> []) by (now destruct q). unfold not_duplicated_check. cbn [ck_self ck_says].
    assert (V : match q ++ [i] with [] => not_duplicated (fun _ _ => Ok false) None 0 | _ :: _ => match node_at root (removelast (q ++ [i])) with None => Err AttributeErr | Some c => not_duplicated (fun a b => match nth_error (child_nodes c) a, nth_error (child_nodes c) b with Some u, Some v => op u v | _, _ => Err AttributeErr end) (Some (seq 0 (List.length (child_nodes c)), title c)) (last (q ++ [i]) 0) end end
      = not_duplicated op' (Some (seq 0 i ++ i :: rest, title container)) i).
    { destruct (q ++ [i]) eqn:Q; [easy|]. rewrite <- Q. rewrite removelast_last, last_last, A. fold kids. rewrite SQ. reflexivity. }
    rewrite V. exact J.
Qed.

(* ---------------- what a field holds ---------------- *)
Inductive field_state (k : kind) : option pyval -> scalar -> Prop :=
| fst_none st : s_value st = VNone -> s_u st = [] -> field_state k None st
| fst_read v x st : adapt k v = Ok x -> s_value st = x -> (x = VNone -> s_u st = []) -> field_state k (Some v) st
| fst_text t st : adapt k (VText t) = Err AdaptErr -> s_value st = VNone -> s_u st = t -> field_state k (Some (VText t)) st.
Lemma sent_routes n sep x ps l : routes n sep x ps l -> forall o, first_sent (sent_key n sep x) ps o -> flat_first (Some x) l = o.
Proof.
  assert (B : forall r, below n sep (x ++ r) = sent_key n sep x ++ r) by (intros r; destruct n as [o|]; cbn; [now rewrite <- !app_assoc|reflexivity]).
  induction 1 as [|r v ps l R IH|k v ps l K R IH]; intros o F.
  - now inversion F.
  - rewrite B in F. cbn [flat_first]. inversion F as [|v' ps' E|k' v' ps' o' NE F']; subst.
    + assert (r = []) as -> by (apply (app_inv_head (sent_key n sep x)); rewrite app_nil_r; congruence). rewrite app_nil_r. match goal with |- (if ?b then _ else _) = _ => assert (Q : b = true) by (now apply name_eqb_eq'); rewrite Q end. reflexivity.
    + match goal with |- (if ?b then _ else _) = _ => destruct b eqn:E end; [|now apply IH]. exfalso. apply name_eqb_eq' in E. injection E as E. assert (r = []) as -> by (apply (app_inv_head x); now rewrite app_nil_r). now rewrite app_nil_r in NE.
  - inversion F as [|v' ps' E|k' v' ps' o' NE F']; subst; [|now apply IH]. exfalso. apply (K []). rewrite B. now rewrite app_nil_r.
Qed.
Lemma first_sent_one key ps o : first_sent key ps o -> forall o', first_sent key ps o' -> o = o'.
Proof. induction 1; inversion 1; subst; try easy. now apply IHfirst_sent. Qed.
Lemma first_sent_some key ps : exists o, first_sent key ps o.
Proof.
  induction ps as [|[k v] ps [o IH]]; [exists None; constructor|]. destruct (name_eqb_spec k (Some key)) as [->|E]; [exists (Some v); constructor|]. exists o. now constructor.
Qed.
Lemma first_sent_In key ps v : first_sent key ps (Some v) -> In (Some key, v) ps.
Proof. remember (Some v) as o. induction 1; [easy|injection Heqo as ->; now left|right; now apply IHfirst_sent]. Qed.
Section Sent.
Variables (n : name) (fields : list (str * kind)) (sep : str) (ps : flat_pairs) (e : element).
Hypothesis ND : NoDup (map fst fields).
Hypothesis TK : text_keys ps.
Hypothesis TV : text_values ps.
Let s := plain_form n fields.
Hypothesis SF : set_flat s sep (fresh s) ps = (e, Ok tt).
Lemma form_names : map fname (map (fun f : str * kind => (true, SScalar (Some (fst f)) (snd f))) fields) = map (fun f => Some (fst f)) fields.
Proof. rewrite map_map. reflexivity. Qed.
Lemma form_named : named_fields s.
Proof.
  unfold s, plain_form. apply named_dict. rewrite form_names. split.
  - clear -ND. induction fields as [|f l IH]; cbn in *; [constructor|]. apply NoDup_cons_iff in ND as [A B]. constructor; [|now apply IH]. intros I. apply A.
    apply in_map_iff in I as (g & [= E] & J). rewrite <- E. now apply in_map.
  - intros b f I. apply in_map_iff in I as ([x k] & [= <- <-] & J). now split.
Qed.
Lemma form_is_of : is_of s e.
Proof. pose proof (of_set s form_named sep (fresh s) ps (of_fresh s form_named)) as H. now rewrite SF in H. Qed.
Lemma form_items : exists items, e = EDict n None items /\ holds (map (fun f => (true, SScalar (Some (fst f)) (snd f))) fields) items
  /\ forall f k o, In (f, k) fields -> first_sent (sent_key n sep f) ps o -> exists st, In (Some f, EScalar (Some f) st) items /\ field_state k o st.
Proof.
  pose proof form_is_of as O. pose proof form_named as N. unfold s, plain_form in O, N, SF.
  destruct (dict_lemma n (map (fun f => (true, SScalar (Some (fst f)) (snd f))) fields) sep (match fresh s with EDict _ _ l => l | _ => [] end) ps N TK (cq := None)) as (items & r & E & _ & R).
  assert (F : fresh (SDict n None (map (fun f : str * kind => (true, SScalar (Some (fst f)) (snd f))) fields)) = EDict n None (match fresh s with EDict _ _ l => l | _ => [] end)) by reflexivity.
  rewrite F, E in SF. injection SF as <- ->. clear E. exists items. split; [reflexivity|]. apply of_dict in O as (_ & _ & O). split; [exact O|].
  intros f k o I FS. specialize (R true (SScalar (Some f) k)). destruct R as (x & l & X & RO & L); [apply in_map_iff; now exists (f, k)|]. injection X as <-.
  assert (OLD : aget name_eqb (Some f) (match fresh s with EDict _ _ l => l | _ => [] end) = Some (EScalar (Some f) blank)).
  { apply (In_aget name_eqb name_eqb_eq').
    - pose proof (of_fresh s N) as H. unfold s, plain_form in H. rewrite F in H. apply of_dict in H as (_ & _ & (H & _)). exact H.
    - cbn. apply in_flat_map. exists (true, SScalar (Some f) k). split; [apply in_map_iff; now exists (f, k)|now left]. }
  rewrite OLD in L. pose proof (sent_routes _ _ _ _ _ RO o FS) as FF. destruct l as [|q l].
  - cbn in FF. subst o. exists blank. split; [now apply (aget_In name_eqb name_eqb_eq')|]. now constructor.
  - destruct L as (u & L & A). apply (aget_In name_eqb name_eqb_eq') in A. cbn [set_flat] in L. rewrite FF in L. destruct o as [v|].
    + assert (T : exists t, v = VText t). { unfold text_values in TV. rewrite Forall_forall in TV. destruct (TV _ (first_sent_In _ _ _ FS)) as [t T]. now exists t. } destruct T as [t ->].
      unfold scalar_set in L. destruct (adapt k (VText t)) as [y|[]] eqn:AD; cbn in L; try discriminate; injection L as <-; (eexists; split; [exact A|]).
      * apply (fst_read k _ y); cbn; [exact AD|reflexivity|now intros ->].
      * apply fst_text; cbn; [exact AD|reflexivity|reflexivity].
    + injection L as <-. eexists. split; [exact A|]. now apply fst_none.
Qed.
End Sent.

(* ---------------- Converted ---------------- *)
Lemma field_verdict ask root p way n k o st label ok ms :
  field_state k o st -> st_checks (ask way) = [converted_check] -> plain (st_context (ask way) (EScalar n st)) label ->
  node_at root p = Some (Node way (SScalar n k) (EScalar n st)) -> assessed ask root p (Node way (SScalar n k) (EScalar n st)) ok ms ->
  (ok = true <-> accepted (st_optional (ask way)) k o) /\ ms = if ok then [] else [label ++ lit " is not correct."].
Proof.
  intros FS C P AT A. pose proof (converted_grades _ label root p (Node way (SScalar n k) (EScalar n st)) n st P AT eq_refl) as G.
  assert (VN : s_value st = VNone -> (vacant (SScalar n k) (EScalar n st) <-> s_u st = [])).
  { intros E. split; [now inversion 1|]. intros U. now apply va_scalar. }
  assert (AN : s_value st = VNone -> (accepted (st_optional (ask way)) k o <-> s_u st = [] /\ st_optional (ask way) = true)).
  { intros E. destruct FS as [st A1 A2|v x st A1 A2 A3|t st A1 A2 A3].
    - split; [inversion 1; now split|intros [_ O]; now apply ac_absent].
    - assert (x = VNone) as -> by congruence. split.
      + intros Q. split; [now apply A3|]. inversion Q; try easy; congruence.
      + intros [_ O]. now apply ac_nothing.
    - split.
      + inversion 1; subst; try congruence. now split.
      + intros [U O]. rewrite A3 in U. rewrite U. now apply ac_blank. }
  assert (AS : s_value st <> VNone -> accepted (st_optional (ask way)) k o).
  { intros E. destruct FS as [st A1 A2|v x st A1 A2 A3|t st A1 A2 A3]; try easy. apply (ac_read _ _ v x); congruence. }
  assert (R : exists w, ms = said w /\ reviewed ask root p (Node way (SScalar n k) (EScalar n st)) [converted_check] ok w).
  { destruct A as [ok w _ R|a w b w' S _ _ _]; [exists w; split; [reflexivity|]; cbn in R; now rewrite C in R|]. destruct S. now exists n, st. }
  destruct R as (w & -> & R). destruct (is_none (s_value st)) eqn:E.
  - assert (EN : s_value st = VNone) by now destruct (s_value st). specialize (VN EN). specialize (AN EN). cbn [negb] in G. rewrite AN, <- VN.
    destruct R as [VA O|U VA O|U VA|w U VA O]; cbn [nd_schema nd_element nd_way] in *; try easy.
    pose proof (objection_one _ _ _ _ _ O _ (ob_this _ _ _ _ [] _ G)) as ->. split; [|reflexivity]. split; [discriminate|]. intros [X Y]. rewrite (VA X) in Y. discriminate.
  - assert (EN : s_value st <> VNone) by (intros X; now rewrite X in E). specialize (AS EN). cbn [negb] in G.
    destruct R as [VA O|U VA O|U VA|w U VA O]; cbn [nd_schema nd_element nd_way] in *; try easy.
    pose proof (objection_one _ _ _ _ _ O _ (ob_next _ _ _ _ [] _ None G (ob_none _ _ _))) as ->. now split.
Qed.
Theorem converted_form id_of place_of (ask : settings) label n fields sep ps e : NoDup (map fst fields) -> text_keys ps -> text_values ps ->
  set_flat (plain_form n fields) sep (fresh (plain_form n fields)) ps = (e, Ok tt) ->
  let root := Node [] (plain_form n fields) e in
  identified id_of place_of root -> st_down (ask []) = [] -> st_checks (ask []) = [] ->
  (forall f k, In (f, k) fields -> st_checks (ask [Some f]) = [converted_check] /\ forall u, plain (st_context (ask [Some f]) u) (label f)) ->
  exists F errors V b, (forall fuel, F <= fuel -> validate_form (form_of id_of place_of ask root) fuel (fun _ => []) (fun _ => Uneval) (id_of []) = (errors, V, Ok b))
    /\ (b = true <-> forall f k o, In (f, k) fields -> first_sent (sent_key n sep f) ps o -> accepted (st_optional (ask [Some f])) k o)
    /\ forall f k o, In (f, k) fields -> first_sent (sent_key n sep f) ps o -> exists p st, node_at root p = Some (Node [Some f] (SScalar (Some f) k) (EScalar (Some f) st))
         /\ (accepted (st_optional (ask [Some f])) k o -> errors (id_of p) = [] /\ V (id_of p) = Valid)
         /\ (~ accepted (st_optional (ask [Some f])) k o -> errors (id_of p) = [label f ++ lit " is not correct."] /\ V (id_of p) = Invalid).
Proof.
  intros ND TK TV SF root ID D0 C0 CK. pose proof (form_named n fields ND) as N. destruct (form_items n fields sep ps e ND TK TV SF) as (items & -> & HO & FI).
  set (fs := map (fun f : str * kind => (true, SScalar (Some (fst f)) (snd f))) fields) in *.
  assert (FSN : NoDup (map fname fs)) by (now apply named_dict in N).
  assert (FSC : forall f k, In (f, k) fields -> field_schema fs (Some f) = Some (SScalar (Some f) k)).
  { intros f k I. apply field_In; [exact FSN|]. split; [reflexivity|]. exists true. apply in_map_iff. now exists (f, k). }
  assert (KD : child_nodes root = map (fun it => match field_schema fs (fst it) with Some g => Node [fst it] g (snd it) | None => Node [] (plain_form n fields) (snd it) end) items).
  { unfold root, child_nodes. cbn [nd_schema nd_element nd_way plain_form app]. fold fs. destruct HO as (_ & KN & _). clear FI ID SF. revert KN. induction items as [|[k u] l IH]; intros KN; [reflexivity|].
    cbn [flat_map map fst snd]. rewrite <- (IH (fun j J => KN j (or_intror J))). specialize (KN k (or_introl eq_refl)). apply in_map_iff in KN as ([b g] & E & I). cbn in E.
    assert (FE : field_schema fs k = Some g) by (apply field_In; [exact FSN|]; split; [exact E|now exists b]). now rewrite FE. }
  assert (AT : forall f k o, In (f, k) fields -> first_sent (sent_key n sep f) ps o ->
            exists j st, nth_error (child_nodes root) j = Some (Node [Some f] (SScalar (Some f) k) (EScalar (Some f) st)) /\ field_state k o st).
  { intros f k o I FS. destruct (FI f k o I FS) as (st & J & S). destruct (In_nth_error _ _ J) as [j E]. exists j, st. split; [|exact S]. rewrite KD. erewrite map_nth_error by exact E. cbn [fst snd]. now rewrite (FSC f k I). }
  assert (BACK : forall p nd, node_at root p = Some nd -> nd = root \/ exists f k st, In (f, k) fields /\ nd = Node [Some f] (SScalar (Some f) k) (EScalar (Some f) st)
            /\ forall o, first_sent (sent_key n sep f) ps o -> field_state k o st).
  { intros [|j p] nd E; [left; now injection E|]. right. cbn [node_at] in E. destruct (nth_error (child_nodes root) j) as [c|] eqn:F; [|discriminate].
    rewrite KD, nth_error_map in F. destruct (nth_error items j) as [[k u]|] eqn:G; [|discriminate]. apply nth_error_In in G. cbn [option_map fst snd] in F.
    destruct HO as (NDI & KN & _). pose proof (KN k (in_map fst _ _ G)) as KI. apply in_map_iff in KI as ([b g] & EK & I). cbn in EK. apply in_map_iff in I as ([f kd] & [= <- <-] & I). cbn in EK. subst k.
    destruct (first_sent_some (sent_key n sep f) ps) as [o FS]. destruct (FI f kd o I FS) as (st & J & S). 
    assert (u = EScalar (Some f) st) as ->. { apply (In_aget name_eqb name_eqb_eq' _ _ _ NDI) in G, J. congruence. }
    cbn [fst] in F. rewrite (FSC f kd I) in F. injection F as <-. destruct p; [|now destruct n0]. injection E as <-. exists f, kd, st. split; [exact I|]. split; [reflexivity|].
    intros o' FS'. now rewrite (first_sent_one _ _ _ FS' _ FS). }
  assert (GR : graded ask root).
  { intros p nd c E I. destruct (BACK _ _ E) as [->|(f & k & st' & J & -> & _)].
    - assert (W : nd_way root = []) by reflexivity. rewrite W in I. destruct I as [I|[_ I]]; [rewrite C0 in I|rewrite D0 in I]; destruct I.
    - destruct (CK f k J) as [CL PL]. cbn [nd_way nd_element] in *. rewrite CL in I. destruct I as [[<-|[]]|[X _]]; [|destruct X; now exists (Some f), st'].
      do 2 eexists. eapply converted_grades; [apply PL|exact E|reflexivity]. }
  destruct (places_lemma id_of place_of ask root (fun _ => []) (fun _ => Uneval) ID N (graded_answered ask root N GR)) as (F & errors & V & b & H1 & H2 & _ & H4).
  assert (ROOT : forall p, assessed ask root p root true []).
  { intros p. apply (as_once ask root p root true None); [right; exact D0|]. change (nd_way root) with (@nil name). rewrite C0. apply re_there; [reflexivity|]. cbn. inversion 1 as [| | |? ? ? ? g I| | |]; subst. unfold fs in *. apply in_map_iff in I as (? & [=] & _). }
  exists F, errors, V, b. split; [exact H1|]. split.
  - rewrite H4. split.
    + intros Z f k o I FS. destruct (AT f k o I FS) as (j & st & E & S). destruct (CK f k I) as [CL PL].
      destruct (field_verdict ask root [j] [Some f] (Some f) k o st (label f) true [] S CL (PL _)) as [X _]; [cbn [node_at]; now rewrite E| |now apply X].
      apply (Z [j]). cbn [node_at]. now rewrite E.
    + intros Z p nd E. destruct (BACK p nd E) as [->|(f & k & st & I & -> & S)]; [exact (ROOT p)|]. destruct (H2 p _ E) as (ok & ms & A & _).
      destruct (first_sent_some (sent_key n sep f) ps) as [o FS]. destruct (CK f k I) as [CL PL].
      destruct (field_verdict ask root p [Some f] (Some f) k o st (label f) ok ms (S o FS) CL (PL _) E A) as [X ->].
      assert (ok = true) as -> by (apply X; now apply (Z f k o)). exact A.
  - intros f k o I FS. destruct (AT f k o I FS) as (j & st & E & S). exists [j], st. assert (NA : node_at root [j] = Some (Node [Some f] (SScalar (Some f) k) (EScalar (Some f) st))) by (cbn [node_at]; now rewrite E).
    split; [exact NA|]. destruct (H2 [j] _ NA) as (ok & ms & A & VV & EE). destruct (CK f k I) as [CL PL].
    destruct (field_verdict ask root [j] [Some f] (Some f) k o st (label f) ok ms S CL (PL _) NA A) as [X Y]. split.
    + intros Q. apply X in Q. subst ok. subst ms. split; [now inversion EE|exact VV].
    + intros Q. destruct ok; [destruct Q; now apply X|]. subst ms. split; [|exact VV]. inversion EE as [|? ? ? ? I' K|? ? ? ? I' K]; subst; [destruct I'|]. now inversion K.
Qed.

(* ---------------- everything required ---------------- *)
Theorem complete_lemma id_of place_of ask label root errors V : identified id_of place_of root -> named_fields (nd_schema root) ->
  (forall p nd, node_at root p = Some nd -> st_optional (ask (nd_way nd)) = false /\ plain (st_context (ask (nd_way nd)) (nd_element nd)) (label p)
     /\ (is_scalar nd -> st_checks (ask (nd_way nd)) = [converted_check]) /\ (~ is_scalar nd -> st_down (ask (nd_way nd)) = [] /\ st_checks (ask (nd_way nd)) = [])) ->
  exists F errors' V' b, (forall fuel, F <= fuel -> validate_form (form_of id_of place_of ask root) fuel errors V (id_of []) = (errors', V', Ok b))
    /\ (b = true <-> forall p nd, node_at root p = Some nd -> match nd_element nd with EScalar _ st => s_value st <> VNone | _ => ~ vacant (nd_schema nd) (nd_element nd) end).
Proof.
  intros ID N H.
  assert (G : graded ask root).
  { intros p nd c E I. destruct (H p nd E) as (_ & P & C & NC). destruct I as [I|[S I]]; [|destruct (NC S) as [X _]; now rewrite X in I].
    destruct (node_container nd) eqn:K; [destruct NC as [_ NC]; [rewrite scalar_container; congruence|now rewrite NC in I]|]. apply scalar_container in K. rewrite (C K) in I. destruct K as (n & st & K). destruct I as [<-|[]].
    do 2 eexists. eapply converted_grades; [exact P|exact E|exact K]. }
  destruct (places_lemma id_of place_of ask root errors V ID N (graded_answered ask root N G)) as (F & errors' & V' & b & H1 & _ & _ & H4). exists F, errors', V', b. split; [exact H1|]. rewrite H4.
  assert (W : forall p nd, node_at root p = Some nd -> assessed ask root p nd true [] <-> match nd_element nd with EScalar _ st => s_value st <> VNone | _ => ~ vacant (nd_schema nd) (nd_element nd) end).
  { intros p nd E. destruct (H p nd E) as (O & P & C & NC). destruct (node_container nd) eqn:K.
    - assert (S : ~ is_scalar nd) by (rewrite scalar_container; congruence). destruct (NC S) as [D CK].
      assert (Q : assessed ask root p nd true [] <-> ~ vacant (nd_schema nd) (nd_element nd)).
      { split.
        - intros A. inversion A as [ok w _ R Q1 Q2|]; [|easy]. rewrite CK in R. subst ok. inversion R; subst; try easy; congruence.
        - intros A. apply (as_once ask root p nd true None); [now right|]. rewrite CK. now apply re_there. }
      rewrite Q. unfold node_container in K. now destruct (nd_element nd).
    - apply scalar_container in K. specialize (C K). pose proof K as (n & st & EL). pose proof (converted_grades _ _ root p nd n st P E EL) as GR. rewrite EL. split.
      + intros A EV. rewrite EV in GR. inversion A as [ok w _ R Q1 Q2|]; [|easy]. rewrite C in R. subst ok. inversion R as [VA OA|U VA OA|U VA|w' U VA OA]; subst; try congruence; try easy.
        pose proof (objection_one _ _ _ _ _ OA _ (ob_this _ _ _ _ [] _ GR)) as ->. discriminate.
      + intros EV. apply (as_once ask root p nd true None); [now left|]. rewrite C. apply (re_asked ask root p nd _ None); [discriminate|easy|].
        destruct (is_none (s_value st)) eqn:Q; [destruct EV; now destruct (s_value st)|]. exact (ob_next _ _ _ _ [] _ None GR (ob_none _ _ _)). }
  split; intros Z p nd E; apply (W p nd E); now apply (Z p).
Qed.

(* ---------------- where the elements are ---------------- *)
Lemma child_iff nd i c : named_fields (nd_schema nd) -> is_of (nd_schema nd) (nd_element nd) -> (nth_error (child_nodes nd) i = Some c <-> child_of nd i c).
Proof.
  destruct nd as [way s e]. cbn [nd_schema nd_element]. intros N O. destruct s as [m k|n cp fs|n pr z t|n pr t|n j], e as [m' st|m' cq items|m' l|m' l|m' j' l]; try easy; cbn [child_nodes nd_schema nd_element nd_way].
  - split; [now destruct i|now inversion 1].
  - apply of_dict in O as (_ & _ & _ & KN & _). apply named_dict in N as [ND _].
    assert (KD : flat_map (fun it => match field_schema fs (fst it) with Some f => [Node (way ++ [fst it]) f (snd it)] | None => [] end) items
      = map (fun it => Node (way ++ [fst it]) (match field_schema fs (fst it) with Some f => f | None => SScalar None (KString true) end) (snd it)) items).
    { revert KN. induction items as [|[k u] l IH]; intros KN; [reflexivity|]. cbn [flat_map map fst snd]. rewrite (IH (fun x X => KN x (or_intror X))).
      specialize (KN k (or_introl eq_refl)). apply in_map_iff in KN as ([b g] & E & I). cbn in E. assert (FE : field_schema fs k = Some g) by (apply field_In; [exact ND|]; split; [exact E|now exists b]). now rewrite FE. }
    rewrite KD, nth_error_map. split.
    + destruct (nth_error items i) as [[k u]|] eqn:E; [|discriminate]. intros [= <-]. cbn [fst snd]. pose proof (KN k (in_map fst _ _ (nth_error_In _ _ E))) as J.
      apply in_map_iff in J as ([b g] & EK & I). cbn in EK. assert (FE : field_schema fs k = Some g) by (apply field_In; [exact ND|]; split; [exact EK|now exists b]). rewrite FE. rewrite <- EK in *. now apply (co_field way n cp fs m' cq items i b).
    + inversion 1 as [? ? ? ? ? ? ? ? b f u E I| | |]; subst. rewrite E. cbn [option_map fst snd]. assert (FE : field_schema fs (schema_name f) = Some f) by (apply field_In; [exact ND|]; split; [reflexivity|now exists b]). now rewrite FE.
  - rewrite nth_error_map. split; [destruct (nth_error l i) as [u|] eqn:E; [|discriminate]; intros [= <-]; now constructor|]. inversion 1 as [|? ? ? ? ? ? ? ? u E| |]; subst. now rewrite E.
  - rewrite nth_error_map. split; [destruct (nth_error l i) as [u|] eqn:E; [|discriminate]; intros [= <-]; now constructor|]. inversion 1 as [| |? ? ? ? ? ? ? u E|]; subst. now rewrite E.
  - rewrite nth_error_map. split; [destruct (nth_error l i) as [u|] eqn:E; [|discriminate]; intros [= <-]; now constructor|]. inversion 1 as [| | |? ? ? ? ? ? ? u E]; subst. now rewrite E.
Qed.
Lemma child_is_of nd i c : named_fields (nd_schema nd) -> is_of (nd_schema nd) (nd_element nd) -> child_of nd i c -> named_fields (nd_schema c) /\ is_of (nd_schema c) (nd_element c).
Proof.
  intros N O C. split; [apply (child_named nd); [exact N|]; apply (child_iff nd i c N O) in C; now apply nth_error_In in C|].
  destruct C as [way n cp fs m cq items i b f u E I|way n pr z s m l i u E|way n pr s m l i u E|way n j m j' l i st E]; cbn [nd_schema nd_element] in *.
  - apply of_dict in O as (_ & _ & _ & _ & O). apply (O b f I). now apply nth_error_In in E.
  - destruct O as [_ O]. rewrite Forall_forall in O. apply O. now apply nth_error_In in E.
  - destruct O as [_ O]. rewrite Forall_forall in O. apply O. now apply nth_error_In in E.
  - reflexivity.
Qed.
Theorem stands_iff root : named_fields (nd_schema root) -> is_of (nd_schema root) (nd_element root) -> forall p nd, node_at root p = Some nd <-> stands_at root p nd.
Proof.
  intros N O. assert (G : forall p nd, stands_at root p nd -> node_at root p = Some nd /\ named_fields (nd_schema nd) /\ is_of (nd_schema nd) (nd_element nd)).
  { induction 1 as [|p nd i c S (E & N' & O') C]; [now split|]. split; [|now apply (child_is_of nd i c)]. rewrite node_at_snoc, E. now apply child_iff. }
  intros p nd. split; [|apply G]. revert nd. induction p as [|i p IH] using rev_ind; intros nd E; [injection E as <-; constructor|].
  rewrite node_at_snoc in E. destruct (node_at root p) as [d|] eqn:F; [|discriminate]. specialize (IH d eq_refl). apply (sa_below root p d); [exact IH|]. destruct (G _ _ IH) as (_ & N' & O'). now apply child_iff.
Qed.
