(* The tokens of a path. *)
From Verif Require Import PyBase PyBaseFacts ModelPaths SpecRegex ProofRegex ProofRegex2.
From Coq Require Import Lia.

Definition Many (l : list charset) : rx := RRep 0 None false (RSet false l).
Definition Maybe1 (l : list charset) : rx := RRep 0 (Some 1) false (RSet false l).
Definition not_after : rx := RLook true true (RCat (RSet false [One 92]) REmpty).
Definition at_stop : rx := RLook false false (RAlt (RCat REnd REmpty) (RAlt (RCat (RSet false [One 47]) REmpty) (RCat (RSet false [One 91]) REmpty))).
Definition name_char : rx := RAlt (RCat (RSet false [One 92]) (RCat (RSet false [One 47; One 46; One 91]) REmpty)) (RCat (RSet true [One 47; One 91]) REmpty).
Definition name_rx : rx := RCat (RRep 1 None false name_char) REmpty.
Definition slash_rx : rx := RCat not_after (RCat (RSet false [One 47]) REmpty).
Definition parts : list (bool * list charset) :=
  [(false, [One 45]); (true, [Digits]); (false, [One 58]); (false, [One 45]); (true, [Digits]); (false, [One 58]); (false, [One 45]); (true, [Digits])].
Definition part_rx (p : bool * list charset) : rx := if fst p then Many (snd p) else Maybe1 (snd p).
Definition spec_rx : rx := fold_right (fun p r => RCat (part_rx p) r) REmpty parts.
Definition close_rx : rx := RCat not_after (RCat (RSet false [One 93]) (RCat at_stop REmpty)).
Definition slice_rx : rx := RCat not_after (RCat (RSet false [One 91]) (RCat (RGroup 2 None spec_rx) close_rx)).
Definition bogus_rx : rx := RCat not_after (RCat (RSet false [One 91]) (RCat (RRep 0 None false (RSet true [One 93])) close_rx)).
Definition dots_rx (r : rx) : rx := RCat r (RCat (RSet false [One 46]) (RCat (Maybe1 [One 46]) REmpty)).
Definition token_rx : rx := RAlt name_rx (RAlt slash_rx (RAlt slice_rx (RAlt bogus_rx (RAlt (dots_rx RBegin)
  (RAlt (dots_rx (RLook true false (RCat (RSet true [One 92]) (RCat (RSet false [One 47]) REmpty)))) (RCat (RSet false [One 91]) REmpty)))))).
Lemma token_compiled r : compiled_verbose (lit token_pattern) r -> r = RCat (RGroup 1 None token_rx) REmpty.
Proof. unfold compiled_verbose. intros H. vm_compute in H. injection H as <-. reflexivity. Qed.

(* ---- names ---- *)
Definition munched (p : pos) : pos := Pos (rev (fst (munch (p_aft p))) ++ p_bef p) (snd (munch (p_aft p))) (p_cap p).
Lemma in_neg a b c : in_class false true [One a; One b] c = negb ((c =? a)%N || (c =? b)%N).
Proof. unfold in_class. cbn [existsb in_set]. rewrite orb_false_r. now destruct ((c =? a)%N || (c =? b)%N). Qed.
Lemma in_three a b d c : in_class false false [One a; One b; One d] c = (c =? a)%N || (c =? b)%N || (c =? d)%N.
Proof. unfold in_class. cbn [existsb in_set]. rewrite orb_false_r, orb_assoc. now destruct ((c =? a)%N || (c =? b)%N || (c =? d)%N). Qed.
Lemma runs_name_char p : runs false name_char p = match p_aft p with
  | c :: s => (match s with d :: s' => if pair c d then [Pos (d :: c :: p_bef p) s' (p_cap p)] else [] | [] => [] end)
              ++ (if stop c then [] else [Pos (c :: p_bef p) s (p_cap p)])
  | [] => [] end.
Proof.
  unfold name_char. change (runs false (RAlt ?a ?b) p) with (runs false a p ++ runs false b p). destruct p as [b [|c s] l]; [reflexivity|]. cbn [p_aft p_bef p_cap].
  rewrite !run_set, one_class, in_neg. f_equal.
  - unfold pair, backslash. destruct s as [|d s].
    + now destruct (c =? 92)%N.
    + destruct (c =? 92)%N; [|reflexivity]. rewrite run_set, in_three. unfold is_ch. change (ch "/") with 47%N. change (ch ".") with 46%N. change (ch "[") with 91%N. cbn [andb].
      now destruct ((d =? 47)%N || (d =? 46)%N || (d =? 91)%N).
  - unfold stop, is_ch. change (ch "/") with 47%N. change (ch "[") with 91%N. now destruct ((c =? 47)%N || (c =? 91)%N).
Qed.
Lemma hd_app {A} (l1 l2 : list A) : hd_error (l1 ++ l2) = match hd_error l1 with Some x => Some x | None => hd_error l2 end.
Proof. now destruct l1. Qed.
Lemma more_name : forall fuel p, List.length (p_aft p) <= fuel -> hd_error (more (runs false name_char) false None fuel p) = Some (munched p).
Proof.
  induction fuel as [|fuel IH]; intros [b s l] H; cbn [p_aft] in H.
  - destruct s; [reflexivity|cbn in H; lia].
  - cbn [more option_map]. rewrite hd_app, runs_name_char. cbn [p_aft p_bef p_cap]. unfold munched. cbn [p_aft p_bef p_cap].
    assert (forall x q, List.length (p_aft x) < List.length s -> hd_error (flat_map (more (runs false name_char) false None fuel) (filter (progress (Pos b s l)) (x :: q))) = Some (munched x)) as Go.
    { intros x q L. cbn [filter]. assert (progress (Pos b s l) x = true) as -> by (apply Nat.ltb_lt; exact L). cbn [flat_map]. rewrite hd_app, IH by lia. reflexivity. }
    destruct s as [|c [|d s]]; [reflexivity| |].
    + cbn [app]. destruct (stop c) eqn:St; [cbn; now rewrite St|]. rewrite Go by (cbn; lia). unfold munched. cbn [munch p_aft p_bef p_cap]. rewrite St. reflexivity.
    + destruct (pair c d) eqn:P.
      * cbn [app]. rewrite Go by (cbn; lia). unfold munched. cbn [p_aft p_bef p_cap].
        assert (munch (c :: d :: s) = let '(x, y) := munch s in (c :: d :: x, y)) as -> by (cbn [munch]; now rewrite P).
        destruct (munch s) as [x y]. cbn [fst snd rev]. now rewrite <- !app_assoc.
      * assert (munch (c :: d :: s) = if stop c then ([], c :: d :: s) else let '(x, y) := munch (d :: s) in (c :: x, y)) as -> by (cbn [munch]; now rewrite P).
        cbn [app]. destruct (stop c); [reflexivity|]. rewrite Go by (cbn; lia). unfold munched. cbn [p_aft p_bef p_cap]. destruct (munch (d :: s)) as [x y]. cbn [fst snd rev]. now rewrite <- !app_assoc.
Qed.
Lemma one_flat {A} (l : list A) : flat_map (fun q => [q]) l = l.
Proof. induction l as [|x l IH]; [reflexivity|]. cbn. now rewrite IH. Qed.
Lemma runs_name p : hd_error (runs false name_rx p) = match fst (munch (p_aft p)) with [] => None | _ => Some (munched p) end.
Proof.
  unfold name_rx. change (runs false (RCat ?a REmpty) p) with (flat_map (fun q => [q]) (runs false a p)). rewrite one_flat.
  change (runs false (RRep 1 None false name_char) p) with (flat_map (fun p' => more (runs false name_char) false None (List.length (p_aft p')) p') (flat_map (fun q => [q]) (runs false name_char p))).
  rewrite one_flat, runs_name_char. destruct p as [b [|c s] l]; [reflexivity|]. cbn [p_aft p_bef p_cap]. unfold munched. cbn [p_aft p_bef p_cap].
  destruct s as [|d s].
  - cbn [app munch]. destruct (stop c); reflexivity.
  - assert (munch (c :: d :: s) = if pair c d then let '(x, y) := munch s in (c :: d :: x, y) else if stop c then ([], c :: d :: s) else let '(x, y) := munch (d :: s) in (c :: x, y)) as -> by reflexivity.
    destruct (pair c d); [|destruct (stop c); [reflexivity|]]; cbn [app flat_map]; rewrite hd_app, more_name by (cbn; lia); unfold munched; cbn [p_aft p_bef p_cap].
    + destruct (munch s) as [x y]. cbn [fst snd rev]. now rewrite <- !app_assoc.
    + destruct (munch (d :: s)) as [x y]. cbn [fst snd rev]. now rewrite <- !app_assoc.
Qed.

(* ---- what comes before and after ---- *)
Lemma run_one a p : runs false (RCat a REmpty) p = runs false a p.
Proof. apply (one_flat (runs false a p)). Qed.
Lemma behind_one b s l k : k <= List.length b ->
  existsb (fun p' => (List.length (p_aft p') =? List.length s)%nat) (runs false (RCat (RSet false [One 92]) REmpty) (back k (Pos b s l)))
  = match k, b with 1, c :: _ => (c =? 92)%N | _, _ => false end.
Proof.
  intros K. rewrite run_one. cbn [runs].
  unfold back. cbn [p_bef p_aft p_cap].
  assert (forall x t, existsb (fun p' => (List.length (p_aft p') =? List.length s)%nat) (step (in_class false false [One 92]) (Pos x t l))
     = match t with y :: t' => (y =? 92)%N && (List.length t' =? List.length s)%nat | [] => false end) as St.
  { intros x [|y t]; [reflexivity|]. unfold step. cbn [p_aft p_bef p_cap]. rewrite one_class. destruct (y =? 92)%N; [|reflexivity]. cbn. apply orb_false_r. }
  rewrite St. destruct (rev (firstn k b) ++ s) as [|y t] eqn:E.
  - destruct k as [|[|k]]; [reflexivity|destruct b; [reflexivity|discriminate]|destruct b; reflexivity].
  - assert (List.length (y :: t) = k + List.length s) as L by (rewrite <- E, app_length, rev_length, firstn_length; lia). cbn in L.
    destruct k as [|[|k]].
    + apply andb_false_iff. right. apply Nat.eqb_neq. lia.
    + destruct b as [|c b]; [cbn in K; lia|]. cbn in E. injection E as <- <-. now rewrite Nat.eqb_refl, andb_true_r.
    + destruct b; apply andb_false_iff; right; apply Nat.eqb_neq; lia.
Qed.
Lemma runs_look p : runs false not_after p = if not_escaped (hd_error (p_bef p)) then [p] else [].
Proof.
  destruct p as [b s l].
  assert (existsb (fun k => existsb (fun p' => (List.length (p_aft p') =? List.length s)%nat) (runs false (RCat (RSet false [One 92]) REmpty) (back k (Pos b s l)))) (seq 0 (S (List.length b)))
    = match b with c :: _ => (c =? 92)%N | [] => false end) as E.
  { destruct b as [|c b].
    - cbn [List.length seq existsb]. rewrite behind_one by (cbn; lia). reflexivity.
    - cbn [List.length]. cbn [seq existsb]. rewrite !behind_one by (cbn; lia). cbn [orb].
      match goal with |- _ || ?x = _ => enough (x = false) as -> by apply orb_false_r end. apply not_true_iff_false. intros H. apply existsb_exists in H. destruct H as [k [H H']].
      apply in_seq in H. rewrite behind_one in H' by (cbn; lia). destruct k as [|[|k]]; [discriminate|lia|discriminate]. }
  change (runs false not_after (Pos b s l)) with (if xorb true (existsb (fun k => existsb (fun p' => (List.length (p_aft p') =? List.length s)%nat) (runs false (RCat (RSet false [One 92]) REmpty) (back k (Pos b s l)))) (seq 0 (S (List.length b)))) then [Pos b s l] else []).
  rewrite E. cbn [p_bef]. unfold not_escaped, backslash. destruct b as [|c b]; [reflexivity|]. cbn [hd_error]. now destruct (c =? 92)%N.
Qed.
Lemma runs_ahead p : runs false at_stop p = if ahead (p_aft p) then [p] else [].
Proof.
  change (runs false at_stop p) with (if xorb false (negb (match runs false (RCat REnd REmpty) p ++ runs false (RCat (RSet false [One 47]) REmpty) p ++ runs false (RCat (RSet false [One 91]) REmpty) p with [] => true | _ => false end)) then [p] else []).
  rewrite run_end. destruct p as [b s l]. cbn [p_aft]. destruct s as [|c s]; [reflexivity|]. rewrite !run_set, !one_class.
  change (runs false REmpty ?q) with [q]. unfold ahead, is_ch. change (ch "/") with 47%N. change (ch "[") with 91%N. destruct (c =? 47)%N.
  { cbn [orb app]. now destruct (ends_at (c :: s)). }
  destruct (c =? 91)%N; [cbn [orb app]; now destruct (ends_at (c :: s))|]. cbn [orb app]. rewrite app_nil_r. destruct s as [|d s]; cbn [ends_at].
  - rewrite andb_true_r. now destruct (c =? 10)%N.
  - rewrite andb_false_r. reflexivity.
Qed.
Lemma run_look r p : runs false (RCat not_after r) p = if not_escaped (hd_error (p_bef p)) then runs false r p else [].
Proof. change (runs false (RCat not_after r) p) with (flat_map (runs false r) (runs false not_after p)). rewrite runs_look. destruct (not_escaped _); [|reflexivity]. apply app_nil_r. Qed.
Lemma runs_close p : runs false close_rx p = match p_aft p with
  | c :: s => if not_escaped (hd_error (p_bef p)) && (c =? 93)%N && ahead s then [Pos (c :: p_bef p) s (p_cap p)] else []
  | [] => [] end.
Proof.
  unfold close_rx. rewrite run_look. destruct p as [b [|c s] l]; cbn [p_bef p_aft p_cap].
  - rewrite run_set_nil. now destruct (not_escaped _).
  - destruct (not_escaped _); [|reflexivity]. rewrite run_set, one_class. destruct (c =? 93)%N; [|reflexivity]. rewrite run_one, runs_ahead. reflexivity.
Qed.
Lemma last_hd a : forall b, last_char (hd_error b) a = hd_error (rev a ++ b).
Proof.
  unfold last_char. induction a as [|c a IH]; intros b; [reflexivity|]. cbn [rev]. rewrite <- app_assoc. cbn [app]. rewrite <- IH. cbn [hd_error map].
  destruct a as [|d a]; [reflexivity|]. change (last (Some c :: map Some (d :: a)) (hd_error b)) with (last (map Some (d :: a)) (hd_error b)).
  assert (forall (l : list (option N)) x y, l <> [] -> last l x = last l y) as L.
  { intros l x y H. induction l as [|z l IHl]; [easy|]. destruct l; [reflexivity|]. apply IHl. discriminate. }
  now apply L.
Qed.
Lemma bracket_some s : forall a b, to_bracket s = Some (a, b) <-> s = (a ++ 93%N :: b)%list /\ ~ In 93%N a.
Proof.
  induction s as [|c s IH]; intros a b; cbn [to_bracket].
  - split; [discriminate|]. intros [H _]. now destruct a.
  - unfold is_ch. change (ch "]") with 93%N. destruct (N.eqb_spec c 93).
    + subst c. split.
      * intros H. injection H as <- <-. now split.
      * intros [H I]. destruct a as [|x a]; [cbn in H; injection H as ->; reflexivity|]. injection H as <- ->. destruct I. now left.
    + destruct (to_bracket s) as [[x y]|].
      * split.
        -- intros H. injection H as <- <-. destruct (proj1 (IH x y) eq_refl) as [-> I]. split; [reflexivity|]. intros [H|H]; auto.
        -- intros [H I]. destruct a as [|z a]; [cbn in H; injection H as -> _; easy|]. injection H as -> ->. assert (Some (x, y) = Some (a, b)) as H.
           { apply IH. split; [reflexivity|]. intros K. apply I. now right. }
           now injection H as -> ->.
      * split; [discriminate|]. intros [H I]. destruct a as [|z a]; [cbn in H; injection H as -> _; easy|]. injection H as -> ->.
        assert (None = Some (a, b)) as H; [|discriminate]. apply IH. split; [reflexivity|]. intros K. apply I. now right.
Qed.
Lemma hd_unique {A} (l : list A) (P : bool) y : (forall z, In z l -> z = y /\ P = true) -> (P = true -> In y l) -> hd_error l = if P then Some y else None.
Proof.
  intros U E. destruct l as [|z l].
  - destruct P; [destruct (E eq_refl)|reflexivity].
  - destruct (U z) as [-> ->]; [now left|reflexivity].
Qed.

(* ---- slices: parts any of which may be left out ---- *)
Inductive within : list (Datatypes.prod bool (list charset)) -> str -> Prop :=
| within_nil : within [] []
| within_skip p ps s : within ps s -> within (p :: ps) s
| within_take p ps c s : in_class false false (snd p) c = true -> within (if (fst p : bool) then p :: ps else ps) s -> within (p :: ps) (c :: s).
Lemma within_none ps : within ps [].
Proof. induction ps; now constructor. Qed.
Lemma within_tail ps s : within ps s -> forall c s', s = c :: s' -> within ps s'.
Proof.
  induction 1; intros x s' E; [discriminate|subst; constructor; eauto|]. injection E as -> ->. destruct (fst p); [assumption|]. now constructor.
Qed.
Lemma within_drop ps n : forall s, within ps s -> within ps (skipn n s).
Proof. induction n as [|n IH]; intros s W; [exact W|]. destruct s as [|c s]; [exact W|]. apply IH. eapply within_tail; eauto. Qed.
Definition stripped (p : bool * list charset) (s : str) : str :=
  if fst p then skipn (reach (in_class false false (snd p)) s) s
  else match s with c :: r => if in_class false false (snd p) c then r else s | [] => [] end.
Lemma within_strip ps0 s : within ps0 s -> forall p ps, ps0 = p :: ps -> within ps (stripped p s).
Proof.
  induction 1; intros q qs E; [discriminate| |]; injection E as -> ->.
  - unfold stripped. destruct (fst q); [now apply within_drop|]. destruct s as [|c s]; [assumption|]. destruct (in_class _ _ _ c); [|assumption]. eapply within_tail; eauto.
  - unfold stripped in *. rewrite H. cbn [reach]. rewrite H. destruct (fst q) eqn:F; [|assumption]. cbn [skipn]. specialize (IHwithin _ _ eq_refl). now rewrite F in IHwithin.
Qed.
Lemma strip_within p ps s : within ps (stripped p s) -> within (p :: ps) s.
Proof.
  unfold stripped. destruct (fst p) eqn:F.
  - induction s as [|c s IH]; cbn [reach skipn]; [now constructor|]. destruct (in_class _ _ _ c) eqn:K; [|now constructor].
    intros W. constructor; [exact K|]. rewrite F. now apply IH.
  - destruct s as [|c s]; [now constructor|]. destruct (in_class _ _ _ c) eqn:K; [|now constructor]. intros W. constructor; [exact K|]. now rewrite F.
Qed.
Lemma strip_iff p ps s : within (p :: ps) s <-> within ps (stripped p s).
Proof. split; [intros W; now apply (within_strip _ _ W)|apply strip_within]. Qed.
Lemma strip_opt (a : Ascii.ascii) s : stripped (false, [One (ch a)]) s = opt a s.
Proof. unfold stripped, opt. cbn [fst snd]. destruct s as [|c s]; [reflexivity|]. now rewrite one_class. Qed.
Lemma strip_digits s : stripped (true, [Digits]) s = skip_digits s.
Proof.
  unfold stripped. cbn [fst snd]. change (in_class false false [Digits]) with digit_class. induction s as [|c s IH]; [reflexivity|]. cbn [reach skip_digits]. rewrite digit_class_eq. now destruct (is_digit c).
Qed.
Lemma slice_within a : within parts a <-> is_slice_spec a = true.
Proof.
  unfold parts, is_slice_spec, number. rewrite !strip_iff. change 45%N with (ch "-"). change 58%N with (ch ":"). rewrite ?strip_opt, ?strip_digits.
  destruct (skip_digits _) as [|c s]; [split; [reflexivity|intros _; constructor]|]. split; [inversion 1|discriminate].
Qed.
Lemma within_chars ps s : within ps s -> Forall (fun c => exists p, In p ps /\ in_class false false (snd p) c = true) s.
Proof.
  induction 1; [constructor| |].
  - eapply Forall_impl; [|exact IHwithin]. intros c (q & I & K). exists q. split; [now right|exact K].
  - constructor; [exists p; split; [now left|assumption]|]. eapply Forall_impl; [|exact IHwithin]. intros x (q & I & K). exists q. split; [|exact K].
    destruct (fst p); [exact I|now right].
Qed.
Lemma parts_chars s c : within parts s -> In c s -> c <> 92%N /\ c <> 93%N.
Proof.
  intros W I. apply within_chars in W. rewrite Forall_forall in W. destruct (W c I) as (p & J & K).
  assert (forall x, c = x -> existsb (fun p => in_class false false (snd p) x) parts = true) as E by (intros x <-; apply existsb_exists; eauto).
  split; intros E'; specialize (E _ E'); discriminate.
Qed.
Lemma maybe_runs l p q : In q (runs false (Maybe1 l) p) <-> q = p \/ match p_aft p with c :: _ => in_class false false l c = true /\ q = ahead_by 1 p | [] => False end.
Proof.
  unfold Maybe1. change (runs false (RRep 0 (Some 1) false (RSet false l)) p) with (more (step (in_class false false l)) false (Some 1) (List.length (p_aft p)) p ++ []). rewrite app_nil_r.
  destruct p as [b [|c s] cap]; cbn [p_aft].
  - cbn. intuition.
  - cbn [List.length more option_map pred]. rewrite step_progress. unfold step. cbn [p_aft p_bef p_cap]. destruct (in_class false false l c).
    + cbn [flat_map]. rewrite more_none. cbn. intuition.
    + cbn. intuition.
Qed.
Lemma many_runs l p q : In q (runs false (Many l) p) <-> exists k, k <= reach (in_class false false l) (p_aft p) /\ q = ahead_by k p.
Proof.
  unfold Many. rewrite runs_at_least. change ((0 <=? ?x)%nat) with true. cbn iota. rewrite in_map_iff. split.
  - intros (k & <- & I). apply down_in in I. exists k. split; [lia|reflexivity].
  - intros (k & L & ->). exists k. split; [reflexivity|]. apply down_in. lia.
Qed.
Lemma reach_within p ps k : fst p = true -> forall s t, k <= reach (in_class false false (snd p)) s -> within ps t -> within (p :: ps) (firstn k s ++ t).
Proof.
  intros F. induction k as [|k IH]; intros s t L W; [now constructor|]. destruct s as [|c s]; cbn [reach] in L; [lia|]. destruct (in_class _ _ _ c) eqn:K; [|lia].
  cbn. constructor; [exact K|]. rewrite F. apply IH; [lia|exact W].
Qed.
Lemma parts_runs ps : forall p q, In q (runs false (fold_right (fun p r => RCat (part_rx p) r) REmpty ps) p)
  <-> exists w t, p_aft p = (w ++ t)%list /\ within ps w /\ q = ahead_by (List.length w) p.
Proof.
  induction ps as [|x ps IH]; intros p q.
  - cbn. split.
    + intros [<-|[]]. exists [], (p_aft p). split; [reflexivity|]. split; [constructor|now rewrite ahead_0].
    + intros (w & t & _ & W & ->). inversion W. subst. left. now rewrite ahead_0.
  - cbn [fold_right]. change (runs false (RCat ?a ?b) p) with (flat_map (runs false b) (runs false a p)). rewrite in_flat_map. split.
    + intros (m & I & J). apply IH in J. destruct J as (w & t & E & W & ->). unfold part_rx in I. destruct (fst x) eqn:F.
      * apply many_runs in I. destruct I as (k & L & ->). cbn [p_aft ahead_by] in E. exists (firstn k (p_aft p) ++ w), t. split; [|split].
        -- rewrite <- app_assoc, <- E. symmetry. apply firstn_skipn.
        -- now apply reach_within.
        -- rewrite ahead_add, app_length, firstn_length. pose proof (reach_length (in_class false false (snd x)) (p_aft p)). f_equal. lia.
      * apply maybe_runs in I. destruct I as [->|I].
        -- exists w, t. split; [exact E|]. split; [now constructor|reflexivity].
        -- destruct p as [b [|c s] l]; [destruct I|]. destruct I as [K ->]. cbn [p_aft ahead_by skipn] in E. exists (c :: w), t. split; [cbn; now rewrite E|]. split.
           ++ constructor; [exact K|]. now rewrite F.
           ++ rewrite ahead_add. reflexivity.
    + intros (w & t & E & W & ->). unfold part_rx. destruct (fst x) eqn:F.
      * assert (exists k, k <= reach (in_class false false (snd x)) w /\ within ps (skipn k w)) as (k & L & V).
        { exists (reach (in_class false false (snd x)) w). split; [lia|]. apply strip_iff in W. unfold stripped in W. now rewrite F in W. }
        pose proof (reach_length (in_class false false (snd x)) w) as L'.
        exists (ahead_by k p). split.
        -- apply many_runs. exists k. split; [|reflexivity]. rewrite E. clear - L. revert w L. induction k as [|k IH]; intros w L; [lia|].
           destruct w as [|c w]; cbn [reach app] in *; [lia|]. destruct (in_class _ _ _ c); [|lia]. apply le_n_S, IH. lia.
        -- apply IH. exists (skipn k w), t. split; [|split; [exact V|]].
           ++ cbn [p_aft ahead_by]. rewrite E, skipn_app. replace (k - List.length w) with 0 by lia. reflexivity.
           ++ rewrite ahead_add, skipn_length. f_equal. lia.
      * apply strip_iff in W. unfold stripped in W. rewrite F in W. destruct w as [|c w].
        -- exists p. split; [apply maybe_runs; now left|]. apply IH. exists [], t. split; [exact E|]. split; [exact W|reflexivity].
        -- destruct (in_class _ _ _ c) eqn:K.
           ++ exists (ahead_by 1 p). split; [apply maybe_runs; right; rewrite E; now split|]. apply IH. exists w, t. split; [cbn [p_aft ahead_by]; now rewrite E|]. split; [exact W|].
              now rewrite ahead_add.
           ++ exists p. split; [apply maybe_runs; now left|]. apply IH. exists (c :: w), t. split; [exact E|]. split; [exact W|reflexivity].
Qed.
Lemma ahead_word w t p : p_aft p = (w ++ t)%list -> ahead_by (List.length w) p = Pos (rev w ++ p_bef p) t (p_cap p).
Proof.
  intros E. unfold ahead_by. rewrite E, firstn_app, skipn_app, firstn_all, skipn_all, Nat.sub_diag. cbn. now rewrite app_nil_r.
Qed.
Definition sliced (b s : str) (l : list (nat * str)) : option pos :=
  match to_bracket s with
  | Some (a, t) => if is_slice_spec a && ahead t then Some (Pos (93%N :: rev a ++ b) t (aset Nat.eqb 2 a l)) else None
  | None => None
  end.
Lemma run_slice x b s l : x <> 92%N -> hd_error (runs false (RCat (RGroup 2 None spec_rx) close_rx) (Pos (x :: b) s l)) = sliced (x :: b) s l.
Proof.
  intros X. change (runs false (RCat (RGroup 2 None spec_rx) close_rx) (Pos (x :: b) s l)) with (flat_map (runs false close_rx) (map (capture 2 (Pos (x :: b) s l)) (runs false spec_rx (Pos (x :: b) s l)))).
  set (L := flat_map _ _).
  assert (forall z, In z L <-> exists a t, s = (a ++ 93%N :: t)%list /\ within parts a /\ ahead t = true /\ z = Pos (93%N :: rev a ++ x :: b) t (aset Nat.eqb 2 a l)) as M.
  { intros z. unfold L. rewrite in_flat_map. split.
    - intros (m & I & J). apply in_map_iff in I as (q & <- & I). apply parts_runs in I as (w & t & E & W & ->). cbn [p_aft] in E.
      rewrite (ahead_word w t) in J by exact E. rewrite runs_close in J. cbn [p_aft p_bef p_cap capture] in J. destruct t as [|c t]; [destruct J|].
      destruct (N.eqb_spec c 93); [|rewrite andb_false_r in J; destruct J]. subst c. destruct (ahead t) eqn:A; [|rewrite andb_false_r in J; destruct J].
      destruct (not_escaped _); [|destruct J]. destruct J as [<-|[]]. exists w, t. split; [exact E|]. split; [exact W|]. split; [exact A|]. f_equal. f_equal.
      unfold spanned. cbn [p_aft]. rewrite E, app_length. replace (_ - _) with (List.length w) by lia. rewrite firstn_app, Nat.sub_diag, firstn_all. cbn. now rewrite app_nil_r.
    - intros (a & t & E & W & A & ->). exists (capture 2 (Pos (x :: b) s l) (Pos (rev a ++ x :: b) (93%N :: t) l)). split.
      + apply in_map. apply parts_runs. exists a, (93%N :: t). split; [exact E|]. split; [exact W|]. symmetry. now apply (ahead_word a _ (Pos (x :: b) s l)).
      + rewrite runs_close. cbn [p_aft p_bef p_cap capture]. rewrite A. change ((93 =? 93)%N) with true.
        assert (not_escaped (hd_error (rev a ++ x :: b)) = true) as ->.
        { destruct (rev a) as [|c r] eqn:R; cbn.
          - unfold backslash. destruct (N.eqb_spec x 92); easy.
          - assert (In c a) as I by (apply in_rev; rewrite R; now left). destruct (parts_chars _ _ W I) as [N _]. unfold backslash. destruct (N.eqb_spec c 92); easy. }
        cbn [andb]. left. f_equal. f_equal.
        unfold spanned. cbn [p_aft]. rewrite E, app_length. replace (_ - _) with (List.length a) by lia. rewrite firstn_app, Nat.sub_diag, firstn_all. cbn. now rewrite app_nil_r. }
  unfold sliced. destruct (to_bracket s) as [[a t]|] eqn:B.
  - apply bracket_some in B as B'. destruct B' as [E N]. apply hd_unique.
    + intros z I. apply M in I as (a' & t' & E' & W & A & ->). assert (to_bracket s = Some (a', t')) as B'.
      { apply bracket_some. split; [exact E'|]. intros I. now destruct (parts_chars _ _ W I) as [_ K]. }
      rewrite B in B'. injection B' as -> ->. split; [reflexivity|]. apply andb_true_iff. split; [now apply slice_within|exact A].
    + intros H. apply andb_true_iff in H as [H A]. apply M. exists a, t. split; [exact E|]. split; [now apply slice_within|]. now split.
  - rewrite (hd_unique L false (Pos [] [] [])); [reflexivity| |discriminate].
    intros z I. apply M in I as (a' & t' & E' & W & A & ->). assert (to_bracket s = Some (a', t')) as B'; [|rewrite B in B'; discriminate].
    apply bracket_some. split; [exact E'|]. intros I. now destruct (parts_chars _ _ W I) as [_ K].
Qed.
Definition bogus (b s : str) (l : list (nat * str)) : option pos :=
  match to_bracket s with
  | Some (a, t) => if not_escaped (hd_error (rev a ++ b)) && ahead t then Some (Pos (93%N :: rev a ++ b) t l) else None
  | None => None
  end.
Lemma reach_no a : forall s, ~ In a (firstn (reach (in_class false true [One a]) s) s).
Proof.
  induction s as [|c s IH]; [easy|]. cbn [reach]. destruct (in_class false true [One a] c) eqn:K; [|easy]. cbn. intros [H|H]; [|contradiction].
  subst. unfold in_class in K. cbn [existsb in_set] in K. rewrite N.eqb_refl in K. discriminate.
Qed.
Lemma no_reach a w t : ~ In a w -> List.length w <= reach (in_class false true [One a]) (w ++ t).
Proof.
  induction w as [|c w IH]; intros N; [cbn; lia|]. cbn [app reach List.length]. assert (in_class false true [One a] c = true) as ->.
  { unfold in_class. cbn [existsb in_set]. destruct (N.eqb_spec c a); [|reflexivity]. subst. destruct N. now left. }
  apply le_n_S, IH. intros I. apply N. now right.
Qed.
Lemma run_bogus b s l : hd_error (runs false (RCat (RRep 0 None false (RSet true [One 93])) close_rx) (Pos b s l)) = bogus b s l.
Proof.
  change (runs false (RCat ?a close_rx) (Pos b s l)) with (flat_map (runs false close_rx) (runs false a (Pos b s l))). rewrite runs_at_least. change ((0 <=? ?x)%nat) with true. cbn iota. cbn [p_aft plus].
  set (L := flat_map _ _).
  assert (forall z, In z L <-> exists a t, s = (a ++ 93%N :: t)%list /\ ~ In 93%N a /\ not_escaped (hd_error (rev a ++ b)) && ahead t = true /\ z = Pos (93%N :: rev a ++ b) t l) as M.
  { intros z. unfold L. rewrite in_flat_map. split.
    - intros (m & I & J). apply in_map_iff in I as (k & <- & I). apply down_in in I. rewrite Nat.sub_0_r in I. rewrite runs_close in J. cbn [ahead_by p_aft p_bef p_cap] in J.
      destruct (skipn k s) as [|c t] eqn:E; [destruct J|]. destruct (N.eqb_spec c 93); [|rewrite andb_false_r in J; destruct J]. subst c. rewrite andb_true_r in J.
      destruct (not_escaped _ && ahead t) eqn:A; [|destruct J]. destruct J as [<-|[]]. exists (firstn k s), t. split; [rewrite <- E; symmetry; apply firstn_skipn|]. split; [|now split].
      intros H. apply (reach_no 93 s). revert H. replace k with (min k (reach (in_class false true [One 93]) s)) by lia. rewrite <- firstn_firstn. intros H.
      rewrite <- (firstn_skipn k (firstn _ s)). apply in_or_app. now left.
    - intros (a & t & E & N & A & ->). exists (ahead_by (List.length a) (Pos b s l)). split.
      + apply in_map_iff. exists (List.length a). split; [reflexivity|]. apply down_in. rewrite E. pose proof (no_reach 93 a (93%N :: t) N). lia.
      + rewrite (ahead_word a (93%N :: t)) by exact E. rewrite runs_close. cbn [p_aft p_bef p_cap]. rewrite andb_true_r, A. now left. }
  unfold bogus. destruct (to_bracket s) as [[a t]|] eqn:B.
  - apply bracket_some in B as B'. destruct B' as [E N]. apply hd_unique.
    + intros z I. apply M in I as (a' & t' & E' & W & A & ->). assert (to_bracket s = Some (a', t')) as B' by (apply bracket_some; now split).
      rewrite B in B'. injection B' as -> ->. now split.
    + intros H. apply M. exists a, t. now repeat split.
  - rewrite (hd_unique L false (Pos [] [] [])); [reflexivity| |discriminate].
    intros z I. apply M in I as (a' & t' & E' & W & A & ->). assert (to_bracket s = Some (a', t')) as B' by (apply bracket_some; now split). rewrite B in B'. discriminate.
Qed.

(* ---- tokens ---- *)
Lemma munch_parts : forall n s, List.length s <= n -> s = (fst (munch s) ++ snd (munch s))%list.
Proof.
  induction n as [|n IH]; intros s L; [now destruct s; [|cbn in L; lia]|]. destruct s as [|c [|d s]]; [reflexivity| |].
  - cbn. now destruct (stop c).
  - assert (munch (c :: d :: s) = if pair c d then let '(x, y) := munch s in (c :: d :: x, y) else if stop c then ([], c :: d :: s) else let '(x, y) := munch (d :: s) in (c :: x, y)) as -> by reflexivity.
    destruct (pair c d).
    + pose proof (IH s ltac:(cbn in L; lia)) as E. destruct (munch s) as [x y]. cbn in *. now rewrite E at 1.
    + destruct (stop c); [reflexivity|]. pose proof (IH (d :: s) ltac:(cbn in *; lia)) as E. destruct (munch (d :: s)) as [x y]. cbn [fst snd app] in *. now rewrite E at 1.
Qed.
Lemma munch_stop c s : fst (munch (c :: s)) = [] -> c = 47%N \/ c = 91%N.
Proof.
  intros H. assert (stop c = true) as St.
  { destruct s as [|d s].
    - cbn in H. now destruct (stop c).
    - assert (munch (c :: d :: s) = if pair c d then let '(x, y) := munch s in (c :: d :: x, y) else if stop c then ([], c :: d :: s) else let '(x, y) := munch (d :: s) in (c :: x, y)) as E by reflexivity.
      rewrite E in H. destruct (pair c d); [destruct (munch s); discriminate|]. destruct (stop c); [reflexivity|]. destruct (munch (d :: s)); discriminate. }
  unfold stop, is_ch in St. change (ch "/") with 47%N in St. change (ch "[") with 91%N in St. apply orb_true_iff in St. rewrite !N.eqb_eq in St. exact St.
Qed.
Lemma run_dots x r b c s l : c <> 46%N -> (forall p q, In q (runs false x p) -> q = p) -> runs false (RCat x (RCat (RSet false [One 46]) r)) (Pos b (c :: s) l) = [].
Proof.
  intros N X. change (runs false (RCat x ?y) ?p) with (flat_map (runs false y) (runs false x p)).
  assert (forall q, In q (runs false x (Pos b (c :: s) l)) -> q = Pos b (c :: s) l) as H by auto. clear X. induction (runs false x (Pos b (c :: s) l)) as [|q qs IH]; [reflexivity|]. cbn [flat_map].
  rewrite IH by (intros; apply H; now right). rewrite (H q) by now left. rewrite run_set, one_class. destruct (N.eqb_spec c 46); [contradiction|reflexivity].
Qed.
Lemma look_stay behind neg x p q : In q (runs false (RLook behind neg x) p) -> q = p.
Proof. cbn [runs]. destruct behind; destruct (xorb neg _); cbn; intuition. Qed.
Lemma begin_stay p q : In q (runs false RBegin p) -> q = p.
Proof. cbn [runs]. destruct (p_bef p); cbn; intuition. Qed.
Definition tokened (b : str) (tok spec rest : str) (p : pos) : Prop := p_bef p = (rev tok ++ b)%list /\ p_aft p = rest /\ group_or_empty 2 p = spec.
Lemma runs_token b s : match next_token (hd_error b) s with
  | Some (tok, spec, rest) => exists p, hd_error (runs false token_rx (Pos b s [])) = Some p /\ tokened b tok spec rest p /\ s = (tok ++ rest)%list /\ tok <> []
  | None => runs false token_rx (Pos b s []) = []
  end.
Proof.
  assert (forall x y, runs false (RAlt x y) (Pos b s []) = runs false x (Pos b s []) ++ runs false y (Pos b s []))%list as Alt by reflexivity.
  unfold next_token, token_rx. rewrite Alt. pose proof (runs_name (Pos b s [])) as Nm. cbn [p_aft] in Nm. pose proof (munch_parts _ s (le_n _)) as MP.
  pose proof (fun c r (E : s = c :: r) H => munch_stop c r (eq_ind s (fun s => fst (munch s) = []) H _ E)) as Stop.
  unfold munched in Nm. cbn [p_aft p_bef p_cap] in Nm. destruct (munch s) as [a t] eqn:Mu. cbn [fst snd] in *. destruct a as [|x a].
  2: { exists (Pos (rev (x :: a) ++ b) t []). rewrite hd_app, Nm. split; [reflexivity|]. split; [repeat split|]. split; [exact MP|discriminate]. }
  assert (runs false name_rx (Pos b s []) = []) as -> by now destruct (runs false name_rx (Pos b s [])). cbn [app]. rewrite !Alt.
  destruct s as [|c r]; [|clear MP].
  { assert (forall y, runs false (RCat not_after (RCat (RSet false [One y]) REmpty)) (Pos b [] []) = []) as K by (intros; rewrite run_look, run_set_nil; now destruct (not_escaped _)).
    unfold slash_rx, slice_rx, bogus_rx. rewrite !run_look, !run_set_nil. destruct (not_escaped _); cbn [app]; unfold dots_rx.
    all: change (runs false (RCat RBegin ?y) ?p) with (flat_map (runs false y) (runs false RBegin p)); change (runs false (RCat (RLook ?u ?v ?w) ?y) ?p) with (flat_map (runs false y) (runs false (RLook u v w) p)).
    all: cbn [runs p_bef p_aft]; destruct b; cbn [flat_map app]; repeat match goal with |- context [if ?x then _ else _] => destruct x end; reflexivity. }
  specialize (Stop c r eq_refl eq_refl).
  assert (c <> 46%N) as D by (destruct Stop; subst; discriminate).
  unfold dots_rx. rewrite (run_dots RBegin) by (exact D || exact begin_stay). rewrite (run_dots (RLook _ _ _)) by (exact D || apply look_stay). cbn [app].
  unfold slash_rx, slice_rx, bogus_rx. rewrite !run_look, !run_set, !one_class. cbn [p_bef]. change (runs false REmpty ?q) with [q]. unfold is_ch. change (ch "/") with 47%N. change (ch "[") with 91%N. change (ch "]") with 93%N.
  destruct Stop as [-> | ->].
  - change ((47 =? 47)%N) with true. change ((47 =? 91)%N) with false. cbn [andb]. destruct (not_escaped (hd_error b)); cbn [app]; [|reflexivity].
    eexists. split; [reflexivity|]. split; [repeat split|]. split; [reflexivity|discriminate].
  - change ((91 =? 47)%N) with false. change ((91 =? 91)%N) with true. cbn [andb].
    assert (exists p, Some (Pos (91%N :: b) r []) = Some p /\ tokened b [91%N] [] r p /\ (91%N :: r) = ([91%N] ++ r)%list /\ [91%N] <> []) as Open.
    { eexists. split; [reflexivity|]. split; [repeat split|]. split; [reflexivity|discriminate]. }
    destruct (not_escaped (hd_error b)); cbn [app]; [|exact Open]. rewrite !hd_app, run_slice, run_bogus by discriminate. unfold sliced, bogus.
    destruct (to_bracket r) as [[a t']|] eqn:B; [|exact Open]. apply bracket_some in B as [E _]. rewrite <- last_hd. cbn [hd_error].
    assert (91%N :: r = ((91%N :: a ++ [93%N]) ++ t')%list) as E' by (rewrite E; cbn; now rewrite <- app_assoc).
    assert ((93%N :: rev a ++ 91%N :: b) = (rev (91%N :: a ++ [93%N]) ++ b)%list) as E2 by (cbn [rev]; rewrite rev_app_distr; cbn; now rewrite <- app_assoc).
    destruct (is_slice_spec a && ahead t'); [|destruct (not_escaped (last_char (Some 91%N) a) && ahead t'); [|exact Open]].
    + eexists. split; [reflexivity|]. split; [split; [exact E2|split; reflexivity]|]. split; [exact E'|discriminate].
    + eexists. split; [reflexivity|]. split; [split; [exact E2|split; reflexivity]|]. split; [exact E'|discriminate].
Qed.
Lemma match_token b s : match next_token (hd_error b) s with
  | Some (tok, spec, rest) => exists p, match_at false (RCat (RGroup 1 None token_rx) REmpty) b s = Some p
      /\ p_bef p = (rev tok ++ b)%list /\ p_aft p = rest /\ group_or_empty 1 p = tok /\ group_or_empty 2 p = spec /\ s = (tok ++ rest)%list /\ tok <> []
  | None => match_at false (RCat (RGroup 1 None token_rx) REmpty) b s = None
  end.
Proof.
  pose proof (runs_token b s) as H. unfold match_at. rewrite run_one.
  change (runs false (RGroup 1 None token_rx) (Pos b s [])) with (map (capture 1 (Pos b s [])) (runs false token_rx (Pos b s []))).
  destruct (next_token (hd_error b) s) as [[[tok spec] rest]|]; [|now rewrite H].
  destruct H as (p & H & (B & A & G) & E & N). exists (capture 1 (Pos b s []) p).
  destruct (runs false token_rx (Pos b s [])) as [|x l]; [discriminate|]. injection H as ->. cbn [map hd_error capture p_bef p_aft].
  split; [reflexivity|]. split; [exact B|]. split; [exact A|]. split; [|split; [|now split]].
  - unfold group_or_empty, group. cbn [capture p_cap]. rewrite (aget_aset_eq Nat.eqb Nat.eqb_eq). unfold spanned. cbn [p_aft]. rewrite A, E, app_length.
    replace (_ - _) with (List.length tok) by lia. rewrite firstn_app, Nat.sub_diag, firstn_all. cbn. apply app_nil_r.
  - rewrite <- G. unfold group_or_empty, group. cbn [capture p_cap]. rewrite (aget_aset_neq Nat.eqb Nat.eqb_eq) by discriminate. reflexivity.
Qed.
Lemma lex_scan r : r = RCat (RGroup 1 None token_rx) REmpty -> forall fuel b s, List.length s <= fuel ->
  lex fuel (hd_error b) s = flat_map (fun x => match x with inr p => [(group_or_empty 1 p, group_or_empty 2 p)] | inl _ => [] end) (scan false r (S fuel) b s).
Proof.
  intros ->. set (r := RCat _ _). induction fuel as [|fuel IH]; intros b s L.
  - destruct s; [|cbn in L; lia]. cbn [lex scan]. pose proof (match_token b []) as M. cbn in M. fold token_rx in M. change (match_at false r b [] = None) in M. now rewrite M.
  - cbn [lex]. change (scan false r (S (S fuel)) b s) with (match s with
      | [] => match match_at false r b s with Some p => [inr p] | None => [] end
      | c :: s' => match match_at false r b s with
          | Some p => if progress (Pos b s []) p then inr p :: scan false r (S fuel) (p_bef p) (p_aft p) else inr p :: inl c :: scan false r (S fuel) (c :: b) s'
          | None => inl c :: scan false r (S fuel) (c :: b) s' end end).
    destruct s as [|c s].
    + pose proof (match_token b []) as M. change (match_at false r b [] = None) in M. now rewrite M.
    + pose proof (match_token b (c :: s)) as M. fold r in M. destruct (next_token (hd_error b) (c :: s)) as [[[tok spec] rest]|].
      * destruct M as (p & -> & B & A & G1 & G2 & E & N). assert (progress (Pos b (c :: s) []) p = true) as ->.
        { unfold progress. cbn [p_aft]. apply Nat.ltb_lt. rewrite A, E, app_length. destruct tok; [easy|cbn; lia]. }
        cbn [flat_map app]. rewrite G1, G2. f_equal. rewrite B, A, last_hd. apply IH.
        assert (List.length (c :: s) = List.length tok + List.length rest) as K by (rewrite E; apply app_length). cbn in K, L. destruct tok; [easy|cbn in K; lia].
      * rewrite M. cbn [flat_map app]. apply (IH (c :: b)). cbn in L. lia.
Qed.
Lemma findall_match r s : compiled_verbose (lit token_pattern) r -> findall s = re_findall false r (fun p => (group_or_empty 1 p, group_or_empty 2 p)) s.
Proof. intros C. apply token_compiled in C. unfold findall, re_findall, re_scan. now apply (lex_scan r C _ []). Qed.

(* ---- escapes ---- *)
Definition unescape_rx : rx := RCat (RSet false [One 92]) (RCat (RGroup 1 None (RAlt (RCat (RSet false [One 47]) REmpty) (RAlt (RCat (RSet false [One 91]) REmpty)
   (RAlt (RCat (RSet false [One 93]) REmpty) (RCat (RSet false [One 46]) REmpty))))) REmpty).
Lemma unescape_compiled r : compiled unescape_pattern r -> r = unescape_rx.
Proof. unfold compiled. intros H. vm_compute in H. injection H as <-. reflexivity. Qed.
Lemma match_unescape b s : match_at false unescape_rx b s = match s with
  | c :: d :: s' => if (c =? 92)%N && ((d =? 47)%N || (d =? 91)%N || (d =? 93)%N || (d =? 46)%N) then Some (Pos (d :: c :: b) s' [(1, [d])]) else None
  | _ => None end.
Proof.
  unfold match_at, unescape_rx. destruct s as [|c s]; [reflexivity|]. rewrite run_set, one_class. destruct (c =? 92)%N; [|now destruct s]. rewrite run_one.
  change (runs false (RGroup 1 None ?y) ?p) with (map (capture 1 p) (runs false y p)). destruct s as [|d s]; [reflexivity|].
  change (runs false (RAlt ?x ?y) ?p) with (runs false x p ++ runs false y p)%list. change (runs false (RAlt ?x ?y) ?p) with (runs false x p ++ runs false y p)%list.
  change (runs false (RAlt ?x ?y) ?p) with (runs false x p ++ runs false y p)%list. rewrite !run_set, !one_class. change (runs false REmpty ?q) with [q].
  assert (capture 1 (Pos (c :: b) (d :: s) []) (Pos (d :: c :: b) s []) = Pos (d :: c :: b) s [(1, [d])]) as K.
  { unfold capture, spanned. cbn [p_aft p_bef p_cap]. change (List.length (d :: s)) with (S (List.length s)). rewrite Nat.sub_succ_l, Nat.sub_diag by lia. reflexivity. }
  cbn [andb]. destruct (d =? 47)%N; [cbn [app map hd_error orb]; now rewrite K|]. destruct (d =? 91)%N; [cbn [app map hd_error orb]; now rewrite K|].
  destruct (d =? 93)%N; [cbn [app map hd_error orb]; now rewrite K|]. destruct (d =? 46)%N; [cbn [app map hd_error orb]; now rewrite K|]. reflexivity.
Qed.
Lemma unescape_scan : forall fuel b s, List.length s <= fuel ->
  unescape s = flat_map (fun x => match x with inr p => group_or_empty 1 p | inl c => [c] end) (scan false unescape_rx (S fuel) b s).
Proof.
  induction fuel as [|fuel IH]; intros b s L.
  - destruct s; [|cbn in L; lia]. reflexivity.
  - change (scan false unescape_rx (S (S fuel)) b s) with (match s with
      | [] => match match_at false unescape_rx b s with Some p => [inr p] | None => [] end
      | c :: s' => match match_at false unescape_rx b s with
          | Some p => if progress (Pos b s []) p then inr p :: scan false unescape_rx (S fuel) (p_bef p) (p_aft p) else inr p :: inl c :: scan false unescape_rx (S fuel) (c :: b) s'
          | None => inl c :: scan false unescape_rx (S fuel) (c :: b) s' end end).
    rewrite match_unescape. destruct s as [|c [|d s]]; [reflexivity| |].
    + cbn [flat_map app]. rewrite <- IH by (cbn; lia). reflexivity.
    + change (unescape (c :: d :: s)) with (if (c =? 92)%N && ((d =? 47)%N || (d =? 91)%N || (d =? 93)%N || (d =? 46)%N) then d :: unescape s else c :: unescape (d :: s)).
      destruct ((c =? 92)%N && _).
      * cbn [p_bef p_aft]. assert (progress (Pos b (c :: d :: s) []) (Pos (d :: c :: b) s [(1, [d])]) = true) as -> by (apply Nat.ltb_lt; cbn; lia).
        cbn [flat_map app]. rewrite <- IH by (cbn in L; lia). reflexivity.
      * cbn [flat_map app]. rewrite <- IH by (cbn in *; lia). reflexivity.
Qed.
Lemma unescape_match r s : compiled unescape_pattern r -> unescape s = re_sub false r (group_or_empty 1) s.
Proof. intros C. apply unescape_compiled in C. subst r. apply (unescape_scan _ []). lia. Qed.
