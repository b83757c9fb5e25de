(* Numbers of credit cards and telephones, and characters to be left out. *)
From Verif Require Import PyBase PyBaseFacts ModelScalar ModelValidators ModelNetwork ModelMarkup SpecRegex ProofRegex.
From Verif Require ProofPaths3 PyBaseFacts.
From Coq Require Import Lia.

Lemma run_begin ic r s l : runs ic (RCat RBegin r) (Pos [] s l) = runs ic r (Pos [] s l).
Proof. cbn [runs p_bef flat_map]. apply app_nil_r. Qed.
Lemma run_set ic neg l r b c s cap : runs ic (RCat (RSet neg l) r) (Pos b (c :: s) cap) = if in_class ic neg l c then runs ic r (Pos (c :: b) s cap) else [].
Proof. cbn [runs]. unfold step. cbn [p_aft p_bef p_cap]. destruct (in_class ic neg l c); [|reflexivity]. cbn [flat_map]. apply app_nil_r. Qed.
Lemma run_set_nil ic neg l r b cap : runs ic (RCat (RSet neg l) r) (Pos b [] cap) = [].
Proof. reflexivity. Qed.
Definition ends_at (s : str) : bool := match s with [] => true | [c] => (c =? 10)%N | _ => false end.
Lemma run_end ic p : runs ic (RCat REnd REmpty) p = if ends_at (p_aft p) then [p] else [].
Proof. destruct p as [b [|c [|d s]] l]; try reflexivity. cbn. now destruct (c =? 10)%N. Qed.
Lemma run_exactly ic n lazy neg l r p : runs ic (RCat (RRep n (Some n) lazy (RSet neg l)) r) p =
  if (n <=? reach (in_class ic neg l) (p_aft p))%nat then runs ic r (ahead_by n p) else [].
Proof.
  change (runs ic (RCat ?a ?b) p) with (flat_map (runs ic b) (runs ic a p)). rewrite runs_exactly. destruct (n <=? _)%nat; [|reflexivity]. cbn [flat_map]. apply app_nil_r.
Qed.
Lemma reach_all ok s : (List.length s <=? reach ok s)%nat = forallb ok s.
Proof.
  induction s as [|c s IH]; [reflexivity|]. cbn [List.length reach forallb]. destruct (ok c); [exact IH|reflexivity].
Qed.
Definition no_newline (s : str) : bool := forallb (fun c => negb (c =? 10)%N) s.
Lemma skipn_all_iff {A} n (s : list A) : skipn n s = [] <-> List.length s <= n.
Proof. split; [|apply skipn_all2]. intros H. assert (List.length (skipn n s) = 0) as L by now rewrite H. rewrite skipn_length in L. lia. Qed.
Lemma no_newline_skip n s : no_newline s = true -> no_newline (skipn n s) = true.
Proof. revert s. induction n as [|n IH]; intros s H; [exact H|]. destruct s as [|c s]; [reflexivity|]. cbn in *. apply andb_true_iff in H as [_ H]. auto. Qed.
Lemma ends_plain s : no_newline s = true -> ends_at s = match s with [] => true | _ => false end.
Proof. destruct s as [|c [|d s]]; try reflexivity. cbn. now destruct (c =? 10)%N. Qed.
Lemma exactly_all ok n s : no_newline s = true -> (n <=? reach ok s)%nat && ends_at (skipn n s) = (List.length s =? n)%nat && forallb ok s.
Proof.
  intros N. rewrite ends_plain by now apply no_newline_skip. apply eq_true_iff_eq. rewrite !andb_true_iff, Nat.leb_le, Nat.eqb_eq. split.
  - intros [L E]. assert (skipn n s = []) as E' by now destruct (skipn n s). apply skipn_all_iff in E'. pose proof (reach_length ok s). split; [lia|].
    rewrite <- reach_all. apply Nat.leb_le. lia.
  - intros [L F]. rewrite <- reach_all in F. apply Nat.leb_le in F. split; [lia|]. assert (skipn n s = []) as -> by (apply skipn_all_iff; lia). reflexivity.
Qed.
Lemma is_some_if {A B} (c : bool) (f : A -> list B) p : match hd_error (if c then f p else []) with Some _ => true | None => false end
  = c && match hd_error (f p) with Some _ => true | None => false end.
Proof. now destruct c. Qed.

(* ASCII *)
Definition ascii_text (s : str) : Prop := Forall (fun c => (c < 128)%N) s.
Lemma digit_in_none zs c : forallb (fun z => (c <? z)%N) zs = true -> digit_in zs c = None.
Proof.
  induction zs as [|z zs IH]; [reflexivity|]. cbn [forallb digit_in]. intros H. apply andb_true_iff in H as [H1 H2]. apply N.ltb_lt in H1.
  assert ((z <=? c)%N = false) as -> by (apply N.leb_gt; lia). exact (IH H2).
Qed.
Lemma ascii_is_digit c : (c < 128)%N -> is_digit c = ascii_digit c.
Proof.
  intros H. unfold is_digit, digit_val, ascii_digit. change nd_zeros with (48%N :: tl nd_zeros). cbn [digit_in].
  destruct ((48 <=? c)%N) eqn:A; cbn [andb].
  - destruct ((c <=? 57)%N) eqn:B.
    + assert ((c <? 48 + 10)%N = true) as -> by (apply N.leb_le in B; apply N.ltb_lt; lia). reflexivity.
    + assert ((c <? 48 + 10)%N = false) as -> by (apply N.leb_gt in B; apply N.ltb_ge; lia). rewrite digit_in_none; [reflexivity|].
      assert (forallb (fun z => (127 <? z)%N) (tl nd_zeros) = true) as F by reflexivity. rewrite forallb_forall in F |- *. intros z I. apply F, N.ltb_lt in I. apply N.ltb_lt. lia.
  - rewrite digit_in_none; [reflexivity|].
    assert (forallb (fun z => (127 <? z)%N) (tl nd_zeros) = true) as F by reflexivity. rewrite forallb_forall in F |- *. intros z I. apply F, N.ltb_lt in I. apply N.ltb_lt. lia.
Qed.
Lemma forallb_ext_in {A} (f g : A -> bool) l : (forall x, In x l -> f x = g x) -> forallb f l = forallb g l.
Proof. induction l as [|x l IH]; intros H; [reflexivity|]. cbn. rewrite (H x) by now left. f_equal. apply IH. intros y I. apply H. now right. Qed.
Lemma ascii_digits_all s : ascii_text s -> forallb digit_class s = forallb ascii_digit s.
Proof. intros A. apply forallb_ext_in. intros c I. rewrite digit_class_eq. apply ascii_is_digit. unfold ascii_text in A. rewrite Forall_forall in A. auto. Qed.

(* ---- cards ---- *)
Definition card_text (s : str) : Prop := ascii_text s /\ no_newline s = true.
Lemma card_text_tail c s : card_text (c :: s) -> card_text s.
Proof. intros [A N]. split; [now inversion A|]. cbn in N. apply andb_true_iff in N. easy. Qed.
Lemma one_class c x : in_class false false [One c] x = (x =? c)%N.
Proof. unfold in_class. cbn. now destruct (x =? c)%N. Qed.
Lemma digits_end n lazy p : card_text (p_aft p) -> match hd_error (runs false (RCat (RRep n (Some n) lazy (RSet false [Digits])) (RCat REnd REmpty)) p) with Some _ => true | None => false end
  = digits_only n (p_aft p).
Proof.
  intros [A N]. rewrite run_exactly. fold digit_class. rewrite is_some_if, run_end. cbn [ahead_by p_aft].
  transitivity ((n <=? reach digit_class (p_aft p))%nat && ends_at (skipn n (p_aft p))); [f_equal; now destruct (ends_at _)|].
  rewrite exactly_all by exact N. now rewrite ascii_digits_all.
Qed.
Lemma visa_match r s : compiled visa_pattern r -> card_text s -> re_visa s = matches false r s.
Proof.
  intros C T. vm_compute in C. injection C as <-. unfold matches, re_match, match_at. rewrite run_begin. destruct s as [|c s]; [reflexivity|].
  rewrite run_set, one_class. cbn [re_visa]. apply card_text_tail in T. destruct (c =? ch "4")%N eqn:E; (match type of E with (?x =? ?y)%N = _ => let z := eval vm_compute in y in change y with z in E end); rewrite E; [|reflexivity]. cbn [andb].
  rewrite run_exactly. fold digit_class. rewrite is_some_if, run_exactly. fold digit_class. rewrite is_some_if, run_end, ahead_add. cbn [ahead_by p_aft Nat.add].
  transitivity ((15 <=? reach digit_class s)%nat && ends_at (skipn 15 s)).
  - rewrite exactly_all by apply T. unfold digits_only. now rewrite ascii_digits_all by apply T.
  - rewrite andb_assoc. f_equal; [|now destruct (ends_at _)]. apply eq_true_iff_eq. rewrite andb_true_iff, !Nat.leb_le.
    destruct (le_lt_dec 12 (reach digit_class s)) as [L|L]; [rewrite reach_skip by exact L|]; lia.
Qed.
Lemma mc_match r s : compiled mc_pattern r -> card_text s -> re_mc s = matches false r s.
Proof.
  intros C T. vm_compute in C. injection C as <-. unfold matches, re_match, match_at. rewrite run_begin. destruct s as [|c s]; [reflexivity|].
  rewrite run_set, one_class. apply card_text_tail in T. destruct s as [|d s]; [unfold re_mc; now destruct (c =? _)%N|]. cbn [re_mc].
  destruct (c =? ch "5")%N eqn:E; (match type of E with (?x =? ?y)%N = _ => let z := eval vm_compute in y in change y with z in E end); rewrite E; [|reflexivity]. cbn [andb].
  rewrite run_set. apply card_text_tail in T.
  assert (in_class false false [Span 49 53] d = ((ch "1" <=? d) && (d <=? ch "5"))%N) as -> by (unfold in_class; cbn [existsb in_set]; change (ch "1") with 49%N; change (ch "5") with 53%N; now destruct ((49 <=? d)%N), ((d <=? 53)%N)).
  destruct ((ch "1" <=? d) && (d <=? ch "5"))%N; [|reflexivity]. cbn [andb]. symmetry. now apply digits_end.
Qed.
Lemma amex_match r s : compiled amex_pattern r -> card_text s -> re_amex s = matches false r s.
Proof.
  intros C T. vm_compute in C. injection C as <-. unfold matches, re_match, match_at. rewrite run_begin. destruct s as [|c s]; [reflexivity|].
  rewrite run_set, one_class. apply card_text_tail in T. destruct s as [|d s]; [unfold re_amex; now destruct (c =? _)%N|]. cbn [re_amex].
  destruct (c =? ch "3")%N eqn:E; (match type of E with (?x =? ?y)%N = _ => let z := eval vm_compute in y in change y with z in E end); rewrite E; [|reflexivity]. cbn [andb].
  rewrite run_set. apply card_text_tail in T.
  assert (in_class false false [One 52; One 55] d = ((d =? ch "4") || (d =? ch "7"))%N) as -> by (unfold in_class; cbn [existsb in_set]; change (ch "4") with 52%N; change (ch "7") with 55%N; now destruct ((d =? 52)%N), ((d =? 55)%N)).
  destruct ((d =? ch "4") || (d =? ch "7"))%N; [|reflexivity]. cbn [andb]. symmetry. now apply digits_end.
Qed.
Lemma disc_match r s : compiled disc_pattern r -> card_text s -> re_disc s = matches false r s.
Proof.
  intros C T. vm_compute in C. injection C as <-. unfold matches, re_match, match_at. rewrite run_begin. unfold re_disc.
  change (lit "6011") with [54; 48; 49; 49]%N.
  do 4 (destruct s as [|? s]; [cbn; repeat (rewrite one_class; match goal with |- context [(?x =? ?y)%N] => destruct (x =? y)%N; cbn end); reflexivity|];
    rewrite run_set, one_class; apply card_text_tail in T; cbn [starts_with]; match goal with |- context [if (?x =? ?y)%N then runs _ _ _ else _] => rewrite (N.eqb_sym y x) || idtac; destruct (x =? y)%N; [|reflexivity]; cbn [andb] end).
  cbn [starts_with skipn andb]. symmetry. now apply digits_end.
Qed.
Lemma vtext_card v : vnum v <> None -> card_text (vtext v).
Proof.
  assert (forall s, forallb (fun c => (c <? 128)%N && negb (c =? 10)%N) s = true -> card_text s) as K.
  { intros s H. rewrite forallb_forall in H. split; [apply Forall_forall|unfold no_newline; apply forallb_forall]; intros c I; apply H, andb_true_iff in I as [A B]; [now apply N.ltb_lt|exact B]. }
  destruct v; cbn [vnum]; intros H; try easy; cbn [vtext]; [destruct b; now apply K|].
  apply K, forallb_forall. intros c I. apply ProofPaths3.dec_z_chars in I as [I| ->]; [|reflexivity].
  unfold PyBaseFacts.is_adigit in I. apply andb_true_iff in I as [A B]. apply N.leb_le in A, B. apply andb_true_iff. split; [apply N.ltb_lt; lia|].
  apply negb_true_iff, N.eqb_neq. lia.
Qed.
Lemma card_type_match visa mc amex disc v : compiled visa_pattern visa -> compiled mc_pattern mc -> compiled amex_pattern amex -> compiled disc_pattern disc ->
  vnum v <> None -> card_type v = Ok (if matches false visa (vtext v) then Some Visa else if matches false mc (vtext v) then Some MasterCard
    else if matches false amex (vtext v) then Some Amex else if matches false disc (vtext v) then Some Discover else None).
Proof.
  intros C1 C2 C3 C4 V. pose proof (vtext_card v V) as T. unfold card_type. destruct (vnum v); [|easy].
  now rewrite (visa_match _ _ C1 T), (mc_match _ _ C2 T), (amex_match _ _ C3 T), (disc_match _ _ C4 T).
Qed.

(* ---- characters left out ---- *)
Lemma at_class ic neg l b s : match_at ic (RCat (RSet neg l) REmpty) b s = match s with c :: s' => if in_class ic neg l c then Some (Pos (c :: b) s' []) else None | [] => None end.
Proof. unfold match_at. destruct s as [|c s]; [reflexivity|]. rewrite run_set. now destruct (in_class ic neg l c). Qed.
Lemma sub_class ic neg l s : re_sub ic (RCat (RSet neg l) REmpty) (fun _ => []) s = filter (fun c => negb (in_class ic neg l c)) s.
Proof.
  unfold re_sub, re_scan.
  enough (forall fuel b, List.length s < fuel -> flat_map (fun x : N + pos => match x with inr _ => [] | inl c => [c] end) (scan ic (RCat (RSet neg l) REmpty) fuel b s)
    = filter (fun c => negb (in_class ic neg l c)) s) as H by (apply H; lia).
  induction s as [|c s IH]; intros fuel b L; (destruct fuel as [|fuel]; [lia|]); cbn [scan]; rewrite at_class; [reflexivity|].
  cbn [List.length] in L. cbn [filter]. destruct (in_class ic neg l c); cbn [negb].
  - assert (progress (Pos b (c :: s) []) (Pos (c :: b) s []) = true) as -> by (apply Nat.ltb_lt; cbn; lia). cbn [flat_map app p_bef p_aft]. apply IH. lia.
  - cbn [flat_map app]. f_equal. apply IH. lia.
Qed.
Lemma strip_match r s : compiled strip_pattern r -> filter ascii_digit s = re_sub false r (fun _ => []) s.
Proof.
  intros C. vm_compute in C. injection C as <-. rewrite sub_class. apply filter_ext. intros c. unfold in_class, ascii_digit. cbn [existsb in_set]. now destruct ((48 <=? c)%N), ((c <=? 57)%N).
Qed.
Lemma cleaner_match r s : compiled cleaner_pattern r -> clean_digits s = re_sub false r (fun _ => []) s.
Proof.
  intros C. vm_compute in C. injection C as <-. rewrite sub_class. apply filter_ext. intros c. unfold in_class. cbn. now destruct (is_digit c).
Qed.
Lemma invalid_match r s : compiled invalid_pattern r -> filter domid_char s = re_sub false r (fun _ => []) s.
Proof.
  intros C. vm_compute in C. injection C as <-. rewrite sub_class. apply filter_ext. intros c. unfold in_class, domid_char. cbn [existsb in_set]. change (xorb true ?x) with (negb x).
  rewrite negb_involutive, orb_false_r, !orb_assoc. reflexivity.
Qed.
(* one or more, n or more of a class up to the end *)
Lemma down_in k j : In j (down k) <-> j <= k.
Proof. unfold down. rewrite <- in_rev, in_seq. lia. Qed.
Lemma some_exists {A} (l : list A) : match hd_error l with Some _ => true | None => false end = true <-> exists x, In x l.
Proof. destruct l as [|x l]; cbn; [split; [discriminate|now intros (x & [])]|split; [intros _; exists x; now left|easy]]. Qed.
Lemma at_least_end ic n neg l p : match hd_error (runs ic (RCat (RRep n None false (RSet neg l)) (RCat REnd REmpty)) p) with Some _ => true | None => false end = true
  <-> exists k, n <= k <= reach (in_class ic neg l) (p_aft p) /\ ends_at (skipn k (p_aft p)) = true.
Proof.
  rewrite some_exists. change (runs ic (RCat ?a ?b) p) with (flat_map (runs ic b) (runs ic a p)). rewrite runs_at_least. split.
  - intros (x & I). apply in_flat_map in I as (q & I1 & I2). destruct (n <=? _)%nat eqn:E; [|easy]. apply Nat.leb_le in E. apply in_map_iff in I1 as (k & <- & K). apply down_in in K.
    rewrite run_end in I2. cbn [ahead_by p_aft] in I2. destruct (ends_at _) eqn:En; [|easy]. exists (n + k). split; [lia|exact En].
  - intros (k & L & En). exists (ahead_by k p). apply in_flat_map. exists (ahead_by k p). assert ((n <=? reach (in_class ic neg l) (p_aft p))%nat = true) as -> by (apply Nat.leb_le; lia).
    split; [apply in_map_iff; exists (k - n); split; [f_equal; lia|apply down_in; lia]|]. rewrite run_end. cbn [ahead_by p_aft]. rewrite En. now left.
Qed.
Lemma filler_match r s : compiled filler_pattern r -> (15 <=? List.length s)%nat && forallb filler_char s = matches false r s.
Proof.
  intros C. vm_compute in C. injection C as <-. unfold matches, re_match, match_at. rewrite run_begin. apply eq_true_iff_eq. rewrite at_least_end. cbn [p_aft].
  assert (forall c, in_class false false [Span 48 57; Blanks; One 45] c = filler_char c) as F.
  { intros c. unfold in_class, filler_char, ascii_digit. cbn [existsb in_set xorb]. rewrite orb_false_r, orb_assoc. change (ch "-") with 45%N. now destruct ((48 <=? c)%N && (c <=? 57)%N || is_space c || (c =? 45)%N). }
  assert (reach (in_class false false [Span 48 57; Blanks; One 45]) s = reach filler_char s) as ->.
  { clear -F. induction s as [|c s IH]; [reflexivity|]. cbn [reach]. now rewrite F, IH. }
  rewrite andb_true_iff, Nat.leb_le, <- reach_all, Nat.leb_le. split.
  - intros [L R]. exists (List.length s). rewrite skipn_all. split; [lia|reflexivity].
  - intros (k & L & E). assert (List.length s <= reach filler_char s) as R.
    { destruct (skipn k s) as [|c [|d q]] eqn:Sk; [apply skipn_all_iff in Sk; lia| |discriminate]. apply N.eqb_eq in E. subst c.
      assert (s = firstn k s ++ [10%N]) as Es by (rewrite <- Sk; symmetry; apply firstn_skipn).
      assert (reach filler_char (skipn k s) = 1) as R1 by now rewrite Sk. rewrite reach_skip in R1 by apply L.
      assert (List.length (skipn k s) = 1) as L1 by now rewrite Sk. rewrite skipn_length in L1. lia. }
    split; [|exact R]. pose proof (reach_length filler_char s). lia.
Qed.
Lemma from_string_match filler strip s : compiled filler_pattern filler -> compiled strip_pattern strip ->
  from_string s = if matches false filler s then Some (py_int (re_sub false strip (fun _ => []) s)) else None.
Proof. intros C1 C2. unfold from_string. now rewrite (filler_match _ _ C1), (strip_match _ _ C2). Qed.
Lemma lowbit_match r s : compiled lowbit_pattern r -> clean_digits s <> [] -> forallb ascii_digit (clean_digits s) = matches false r (clean_digits s).
Proof.
  intros C Ne. vm_compute in C. injection C as <-. unfold matches, re_match, match_at. rewrite run_begin. apply eq_true_iff_eq. rewrite at_least_end. cbn [p_aft].
  assert (no_newline (clean_digits s) = true) as N. { unfold no_newline. apply forallb_forall. intros c I. apply filter_In in I as [_ D]. apply negb_true_iff, N.eqb_neq. intros ->. discriminate D. }
  set (v := clean_digits s) in *. assert (reach (in_class false false [Span 48 57]) v = reach ascii_digit v) as ->.
  { assert (forall c, in_class false false [Span 48 57] c = ascii_digit c) as F by (intros c; unfold in_class, ascii_digit; cbn [existsb in_set]; now destruct ((48 <=? c)%N), ((c <=? 57)%N)).
    clearbody v. clear -F. induction v as [|c s IH]; [reflexivity|]. cbn [reach]. now rewrite F, IH. }
  rewrite <- reach_all, Nat.leb_le. split.
  - intros R. exists (List.length v). rewrite skipn_all. destruct v; [easy|]. cbn [List.length] in *. split; [lia|reflexivity].
  - intros (k & L & E). rewrite ends_plain in E by now apply no_newline_skip. assert (skipn k v = []) as Z by now destruct (skipn k v). apply skipn_all_iff in Z. lia.
Qed.
