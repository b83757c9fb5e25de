(* A List whose members may not be repeated. *)
From Verif Require Import PyBase PyBaseFacts ModelScalar ModelValidate ModelMessage SpecMessage ModelValidators SpecValidators ModelReport SpecReport ModelFlat SpecFlat ModelCheck SpecCheck ProofCheck ProofCheck2.
From Coq Require Import Lia.

Lemma first_none {A} (P : A -> Prop) (l : list A) : (forall a, exists r : bool, r = true <-> P a) -> forall k, exists ok : bool, ok = true <-> forall j b, j < k -> nth_error l j = Some b -> ~ P b.
Proof.
  intros D. induction k as [|k [ok IH]]; [exists true; split; [intros _ j b L; lia|easy]|]. destruct (nth_error l k) as [a|] eqn:E.
  - destruct (D a) as [r R]. exists (ok && negb r). rewrite andb_true_iff, IH, negb_true_iff. split.
    + intros [X Y] j b L F. destruct (Nat.eq_dec j k) as [->|N]; [|apply (X j); [lia|exact F]]. rewrite E in F. injection F as <-. rewrite <- R. now rewrite Y.
    + intros X. split; [intros j b L; apply X; lia|]. specialize (X k a ltac:(lia) E). rewrite <- R in X. now destruct r.
  - exists ok. rewrite IH. split; intros X j b L F; [|apply (X j); [lia|exact F]]. destruct (Nat.eq_dec j k) as [->|N]; [congruence|apply (X j); [lia|exact F]].
Qed.
Section Unique.
Variables (id_of : list nat -> id) (place_of : id -> option (list nat)) (ask : settings) (label : str).
Variables (n : name) (prune : bool) (limit : Z) (m : name) (k : kind) (l : list scalar).
Variables (op : node -> node -> res bool) (title : node -> pyval) (alike : scalar -> scalar -> Prop).
Let member (a : scalar) : node := Node [m] (SScalar m k) (EScalar m a).
Let root : node := Node [] (SList n prune limit (SScalar m k)) (EList n (map (EScalar m) l)).
Hypothesis ID : identified id_of place_of root.
Hypothesis RD : st_down (ask []) = [].
Hypothesis RC : st_checks (ask []) = [].
Hypothesis MO : st_optional (ask [m]) = false.
Hypothesis MC : st_checks (ask [m]) = [not_duplicated_check op title].
Hypothesis MP : forall u, plain (st_context (ask [m]) u) label.
Hypothesis OP : forall a b, exists r, op (member a) (member b) = Ok r /\ (r = true <-> alike a b).
Let fresh_at (i : nat) : Prop := forall a j b, nth_error l i = Some a -> j < i -> nth_error l j = Some b -> ~ alike a b.
Let message : str := label ++ lit " may not be repeated within " ++ vtext (title root) ++ lit ".".

Lemma kids : child_nodes root = map member l.
Proof. unfold root, child_nodes, member. cbn. rewrite map_map. reflexivity. Qed.
Lemma kid_at i c : nth_error (child_nodes root) i = Some c <-> exists a, nth_error l i = Some a /\ c = member a.
Proof.
  rewrite kids, nth_error_map. destruct (nth_error l i) as [a|]; cbn; split; [intros E; injection E as <-; now exists a|intros (b & E & ->); now injection E as <-|easy|now intros (b & E & _)].
Qed.
Lemma member_grades i a : nth_error l i = Some a -> forall u, exists ok, (ok = true <-> fresh_at i) /\ grades (not_duplicated_check op title) (st_context (ask [m]) u) root [i] ok message.
Proof.
  intros E u. destruct (first_none (alike a) l (fun b => let (r, H) := OP a b in ex_intro _ r (proj2 H)) i) as [ok OK].
  assert (FR : ok = true <-> fresh_at i) by (rewrite OK; unfold fresh_at; split; [intros X a' j b E' L F; rewrite E in E'; injection E' as <-; now apply (X j)|intros X j b L F; now apply (X a j)]).
  exists ok. split; [exact FR|]. apply (not_duplicated_grades _ label root [] root i op title (fun x y => exists a b, x = member a /\ y = member b /\ alike a b)); [apply MP|reflexivity| | |].
  - apply nth_error_Some. assert (X : nth_error (child_nodes root) i = Some (member a)) by (apply kid_at; now exists a). now rewrite X.
  - intros j x y _ X Y. apply kid_at in X as (a1 & _ & ->). apply kid_at in Y as (b1 & _ & ->). destruct (OP a1 b1) as (r & R & RR). exists r. split; [exact R|]. rewrite RR. split; [intros Z; now exists a1, b1|].
    intros (a2 & b2 & U & W & Z). injection U as ->. now injection W as ->.
  - rewrite FR. unfold fresh_at. split.
    + intros H j x y L X Y (a2 & b2 & -> & -> & Z). apply kid_at in X as (a3 & X & U). apply kid_at in Y as (b3 & Y & W). injection U as ->. injection W as ->. now apply (H a3 j b3).
    + intros H a2 j b E2 L F Z. apply (H j (member a2) (member b) L); [apply kid_at; now exists a2|apply kid_at; now exists b|]. now exists a2, b.
Qed.
Lemma nodes p nd : node_at root p = Some nd -> p = [] /\ nd = root \/ exists i a, p = [i] /\ nth_error l i = Some a /\ nd = member a.
Proof.
  destruct p as [|i [|j p]]; cbn [node_at]; intros E.
  - injection E as <-. now left.
  - right. destruct (nth_error (child_nodes root) i) as [c|] eqn:F; [|easy]. injection E as <-. apply kid_at in F as (a & F & ->). now exists i, a.
  - destruct (nth_error (child_nodes root) i) as [c|] eqn:F; [|easy]. apply kid_at in F as (a & F & ->). cbn in E. now destruct j.
Qed.
Lemma unique_graded : graded ask root.
Proof.
  intros p nd c A I. destruct (nodes p nd A) as [[-> ->]|(i & a & -> & E & ->)]; cbn [nd_way root member] in I |- *.
  - rewrite RC, RD in I. now destruct I as [[]|[_ []]].
  - rewrite MC in I. destruct I as [[<-|[]]|[X _]]; [|destruct X; cbn; now exists m, a]. destruct (member_grades i a E (nd_element (member a))) as (ok & _ & G). now exists ok, message.
Qed.
Lemma member_assessed i a ok ms : nth_error l i = Some a -> assessed ask root [i] (member a) ok ms -> (ok = true <-> fresh_at i) /\ ms = (if ok then [] else [message]).
Proof.
  intros E A. destruct (member_grades i a E (nd_element (member a))) as (ok0 & OK & G). rewrite <- OK.
  inversion A as [ok1 o D R X Y|x o y o2 S D R R2 X Y]; subst; [|destruct S; cbn; now exists m, a]. cbn [nd_way member] in R. rewrite MC in R.
  inversion R as [VA OPT|? VA OPT|? VA|o1 NE VO O]; subst; try easy; try (cbn [nd_way member] in OPT; congruence). cbn [nd_way member] in O.
  destruct ok0.
  - pose proof (objection_one _ _ _ _ _ O _ (ob_next _ _ _ _ [] _ None G (ob_none _ _ _))) as ->. now split.
  - pose proof (objection_one _ _ _ _ _ O _ (ob_this _ _ _ _ [] _ G)) as ->. now split.
Qed.
Lemma root_assessed p ok ms : assessed ask root p root ok ms -> (ok = true <-> (l = [] -> st_optional (ask []) = true)) /\ ms = [].
Proof.
  assert (VA : vacant (nd_schema root) (nd_element root) <-> l = []).
  { unfold root. cbn [nd_schema nd_element]. split; [intros X; inversion X as [| | | |n' p' z' s' m' Q1 Q2| |]; now destruct l|intros ->; constructor]. }
  intros A. inversion A as [ok1 o D R X Y|x o y o2 S D R R2 X Y]; subst; [|cbn in D; now rewrite RD in D]. cbn [nd_way root] in R. rewrite RC in R.
  inversion R as [V OPT|? V OPT|? V|o1 NE VO O]; subst; try easy; cbn [nd_way root] in *; rewrite VA in *; (split; [|reflexivity]); split; try easy; intros Z; specialize (Z V); congruence.
Qed.
Theorem unique_lemma errors V :
  exists F errors' V' b, (forall fuel, F <= fuel -> validate_form (form_of id_of place_of ask root) fuel errors V (id_of []) = (errors', V', Ok b))
    /\ (b = true <-> (l = [] -> st_optional (ask []) = true) /\ forall i j x y, j < i -> nth_error l i = Some x -> nth_error l j = Some y -> ~ alike x y)
    /\ forall i x, nth_error l i = Some x ->
         ((forall j y, j < i -> nth_error l j = Some y -> ~ alike x y) -> V' (id_of [i]) = Valid /\ errors' (id_of [i]) = errors (id_of [i]))
         /\ forall j y, j < i -> nth_error l j = Some y -> alike x y -> V' (id_of [i]) = Invalid /\ noted (errors (id_of [i])) [message] (errors' (id_of [i])).
Proof.
  destruct (places_lemma id_of place_of ask root errors V ID I (graded_answered ask root I unique_graded)) as (F & errors' & V' & b & H1 & H2 & _ & H4).
  assert (NA : forall i x, nth_error l i = Some x -> node_at root [i] = Some (member x)).
  { intros i x E. cbn [node_at]. assert (X : nth_error (child_nodes root) i = Some (member x)) by (apply kid_at; now exists x). now rewrite X. }
  exists F, errors', V', b. split; [exact H1|]. split.
  - rewrite H4. split.
    + intros Z. split; [destruct (root_assessed _ _ _ (Z [] root eq_refl)) as [X _]; now apply X|]. intros i j x y L E E2. destruct (member_assessed _ _ _ _ E (Z [i] _ (NA i x E))) as [X _]. now apply (proj1 X eq_refl x j y).
    + intros [Z1 Z2] p nd A. destruct (H2 p nd A) as (ok & ms & AS & _). destruct (nodes p nd A) as [[-> ->]|(i & a & -> & E & ->)].
      * destruct (root_assessed _ _ _ AS) as [X ->]. now rewrite (proj2 X Z1) in AS.
      * destruct (member_assessed _ _ _ _ E AS) as [X ->]. assert (ok = true) as -> by (apply X; intros a' j b' E' L Q; now apply (Z2 i j)). exact AS.
  - intros i x E. destruct (H2 [i] _ (NA i x E)) as (ok & ms & AS & VV & N). destruct (member_assessed _ _ _ _ E AS) as [X ->]. split.
    + intros Z. assert (ok = true) as -> by (apply X; intros a' j b' E' L Q; rewrite E in E'; injection E' as <-; now apply (Z j)). split; [exact VV|]. now inversion N.
    + intros j y L Q AL. destruct ok; [|now split]. exfalso. now apply (proj1 X eq_refl x j y).
Qed.
End Unique.
