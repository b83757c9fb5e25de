(* Keys of Lists and Arrays: patterns made with re_uescape(). *)
From Verif Require Import PyBase PyBaseFacts ModelUtil ModelFlat SpecRegex ProofRegex ProofRegex2.
From Coq Require Import Lia.

(* ---- reading escaped text ---- *)
Definition lits (t : str) (b : rx) : rx := fold_right (fun c r => RCat (RSet false [One c]) r) b t.
Definition plain_head (s : str) : Prop := match s with c :: _ => is "*" c = false /\ is "+" c = false /\ is "?" c = false /\ is "{" c = false | [] => True end.
Lemma plain_quantified a s : plain_head s -> quantified a s = (a, s).
Proof. unfold quantified, quantifier. destruct s as [|c s]; [reflexivity|]. intros (A & B & C & D). now rewrite A, B, C, D. Qed.
Lemma alnum_is c a : alnum c = true -> alnum (ch a) = false -> is a c = false.
Proof. intros A B. unfold is. apply N.eqb_neq. intros ->. congruence. Qed.
Lemma alnum_same c : re_alphanum c = alnum c.
Proof. reflexivity. Qed.
Lemma escape_head c t : exists a r, re_uescape (c :: t) = a :: r /\ (alnum a = true \/ a = ch "\").
Proof.
  unfold re_uescape. cbn [flat_map]. rewrite alnum_same. destruct (alnum c) eqn:A; [exists c; eexists; split; [reflexivity|now left]|].
  destruct (c =? 0)%N; eexists _, _; (split; [reflexivity|now right]).
Qed.
Lemma escaped_plain t rest : plain_head rest -> plain_head (re_uescape t ++ rest).
Proof.
  destruct t as [|c t]; [easy|]. intros _. destruct (escape_head c t) as (a & r & -> & [A| ->]); cbn [app plain_head]; [|easy].
  rewrite !(alnum_is _ _ A) by reflexivity. easy.
Qed.
Lemma items_escaped n rest : plain_head rest -> forall t fuel, items (List.length t + fuel) n (re_uescape t ++ rest)
  = match items fuel n rest with Some (b, n1, r1) => Some (lits t b, n1, r1) | None => None end.
Proof.
  intros P. induction t as [|c t IH]; intros fuel; [cbn; now destruct (items fuel n rest) as [[[? ?] ?]|]|].
  pose proof (escaped_plain t rest P) as Pt. specialize (IH fuel).
  change (re_uescape (c :: t)) with ((if re_alphanum c then [c] else if (c =? 0)%N then lit "\000" else [92%N; c]) ++ re_uescape t).
  rewrite <- app_assoc, alnum_same. cbn [List.length Nat.add].
  assert (forall a, a = RSet false [One c] -> (let '(a, r) := quantified a (re_uescape t ++ rest) in
     match items (List.length t + fuel) n r with Some (b, n1, r1) => Some (RCat a b, n1, r1) | None => None end)
     = match items fuel n rest with Some (b, n1, r1) => Some (lits (c :: t) b, n1, r1) | None => None end) as Nx.
  { intros a ->. rewrite plain_quantified by exact Pt. rewrite IH. now destruct (items fuel n rest) as [[[? ?] ?]|]. }
  destruct (alnum c) eqn:A.
  - cbn [app items]. rewrite !(alnum_is _ _ A) by reflexivity. cbn [orb]. apply Nx. reflexivity.
  - destruct (c =? 0)%N eqn:Z.
    + apply N.eqb_eq in Z. subst c. cbn [items]. change (lit "\000" ++ re_uescape t ++ rest) with (92%N :: 48%N :: 48%N :: 48%N :: re_uescape t ++ rest).
      cbn. apply Nx. reflexivity.
    + cbn [app items]. change (is "|" 92 || is ")" 92) with false. change (is "^" 92) with false. change (is "$" 92) with false. change (is "\" 92) with true. cbn iota.
      assert (forall a, is a c = true -> alnum (ch a) = true -> False) as Q. { intros a E B. unfold is in E. apply N.eqb_eq in E. subst c. congruence. }
      unfold escape. destruct (is "d" c) eqn:D1; [now elim (Q _ D1)|]. destruct (is "D" c) eqn:D2; [now elim (Q _ D2)|]. destruct (is "s" c) eqn:D3; [now elim (Q _ D3)|].
      rewrite A. cbn [negb]. apply Nx. reflexivity.
Qed.
Lemma runs_lits ic b : forall t p, ic = false -> runs ic (lits t b) p = if starts_with t (p_aft p) then runs ic b (ahead_by (List.length t) p) else [].
Proof.
  intros t. induction t as [|c t IH]; intros p ->; [cbn [lits fold_right starts_with List.length]; now rewrite ahead_0|].
  cbn [lits fold_right]. fold (lits t b). destruct p as [x [|d s] l]; [reflexivity|]. rewrite run_set, one_class. cbn [p_aft starts_with].
  rewrite (N.eqb_sym d c). destruct (c =? d)%N; [|reflexivity]. cbn [andb List.length]. rewrite ahead_S. now apply IH.
Qed.
Lemma escaped_length t : List.length t <= List.length (re_uescape t).
Proof.
  induction t as [|c t IH]; [apply Nat.le_refl|]. change (re_uescape (c :: t)) with ((if re_alphanum c then [c] else if (c =? 0)%N then lit "\000" else [92%N; c]) ++ re_uescape t).
  assert (1 <= List.length (if re_alphanum c then [c] else if (c =? 0)%N then lit "\000" else [92%N; c])) as L.
  { destruct (re_alphanum c); [cbn; lia|]. destruct (c =? 0)%N; cbn; lia. }
  rewrite app_length. change (List.length (c :: t)) with (S (List.length t)). unfold str in *. lia.
Qed.

(* ---- separator or end ---- *)
Definition tail_rx (sep : str) : rx := RCat (RAlt (lits sep REmpty) (RCat REnd REmpty)) REmpty.
Lemma ends_same s : at_end s = ends_at s.
Proof. reflexivity. Qed.
Lemma runs_tail sep p : hd_error (runs false (tail_rx sep) p)
  = if starts_with sep (p_aft p) then Some (ahead_by (List.length sep) p) else if at_end (p_aft p) then Some p else None.
Proof.
  unfold tail_rx. change (runs false (RCat ?a REmpty) p) with (flat_map (fun q => [q]) (runs false a p)).
  assert (forall l : list pos, flat_map (fun q => [q]) l = l) as F. { induction l as [|x l IH]; [reflexivity|]. cbn. now rewrite IH. }
  rewrite F. change (runs false (RAlt ?a ?b) p) with (runs false a p ++ runs false b p). rewrite (runs_lits false REmpty sep p eq_refl). rewrite run_end. cbn [runs].
  destruct (starts_with sep (p_aft p)); [reflexivity|]. change (at_end (p_aft p)) with (ends_at (p_aft p)). now destruct (ends_at (p_aft p)).
Qed.
Lemma after_tail sep p : option_map p_aft (hd_error (runs false (tail_rx sep) p)) = after_sep sep (p_aft p).
Proof. rewrite runs_tail. unfold after_sep. destruct (starts_with sep (p_aft p)); [reflexivity|]. now destruct (at_end (p_aft p)). Qed.
Lemma tail_cap sep p q : hd_error (runs false (tail_rx sep) p) = Some q -> p_cap q = p_cap p.
Proof. rewrite runs_tail. destruct (starts_with sep (p_aft p)); [now intros [= <-]|]. destruct (at_end (p_aft p)); [now intros [= <-]|discriminate]. Qed.

(* ---- Arrays ---- *)
Lemma fuel_split m n : m <= n -> exists k, n = m + k.
Proof. intros H. exists (n - m). lia. Qed.
Lemma tail_items sep fuel k n rest : alternatives (items (List.length sep + (4 + fuel))) (S (S k)) n (re_uescape sep ++ lit "|$)" ++ rest)
  = Some (RAlt (lits sep REmpty) (RCat REnd REmpty), n, ch ")" :: rest).
Proof.
  assert (items (List.length sep + (4 + fuel)) n (re_uescape sep ++ lit "|$)" ++ rest) = Some (lits sep REmpty, n, lit "|$)" ++ rest)) as E1.
  { rewrite items_escaped by easy. reflexivity. }
  assert (items (List.length sep + (4 + fuel)) n (ch "$" :: ch ")" :: rest) = Some (RCat REnd REmpty, n, ch ")" :: rest)) as E2.
  { replace (List.length sep + (4 + fuel)) with (S (S (List.length sep + (2 + fuel)))) by lia. reflexivity. }
  cbn [alternatives]. rewrite E1. change (lit "|$)" ++ rest) with (ch "|" :: ch "$" :: ch ")" :: rest). change (is "|" (ch "|")) with true. cbn iota beta.
  rewrite E2. reflexivity.
Qed.
(* (?: escaped sep |$) and the rest *)
Lemma items_tail sep fuel n rest : plain_head rest -> items (S (List.length sep + (4 + fuel))) n (lit "(?:" ++ re_uescape sep ++ lit "|$)" ++ rest)
  = match items (List.length sep + (4 + fuel)) n rest with
    | Some (b, n1, r1) => Some (RCat (RAlt (lits sep REmpty) (RCat REnd REmpty)) b, n1, r1) | None => None end.
Proof.
  intros P. set (f := List.length sep + (4 + fuel)). set (q := re_uescape sep ++ lit "|$)" ++ rest).
  assert (opener n (lit "?:" ++ q) = Some ((fun r : rx => r, n), q)) as O by reflexivity.
  change (lit "(?:" ++ q) with (ch "(" :: lit "?:" ++ q). cbn [items].
  change (is "|" (ch "(") || is ")" (ch "(")) with false. change (is "^" (ch "(")) with false. change (is "$" (ch "(")) with false.
  change (is "\" (ch "(")) with false. change (is "[" (ch "(")) with false. change (is "(" (ch "(")) with true. cbn iota. rewrite O.
  assert (exists k, List.length q = S k) as (k & ->). { unfold q. rewrite !app_length. cbn [lit List.length list_ascii_of_string map]. eexists. cbn. rewrite Nat.add_succ_r. reflexivity. }
  unfold f, q. rewrite tail_items. fold f. change (is ")" (ch ")")) with true. cbn iota. now rewrite plain_quantified by exact P.
Qed.
Lemma plain_opener n s : plain_head s -> opener n s = Some ((RGroup n None, S n), s).
Proof.
  destruct s as [|c s]; [reflexivity|]. intros (_ & _ & Q & _). unfold is in Q.
  assert (forall x, starts_with (ch "?" :: x) (c :: s) = false) as F. { intros x. cbn [starts_with]. now rewrite N.eqb_sym, Q. }
  unfold opener. change (lit "?:") with (ch "?" :: lit ":"). change (lit "?=") with (ch "?" :: lit "="). change (lit "?!") with (ch "?" :: lit "!").
  change (lit "?<=") with (ch "?" :: lit "<="). change (lit "?<!") with (ch "?" :: lit "<!"). change (lit "?P<") with (ch "?" :: lit "P<"). change (lit "?") with (ch "?" :: lit "").
  now rewrite !F.
Qed.
(* one group without a name *)
Lemma items_group fuel n s a n2 r : plain_head s -> alternatives (items fuel) (S (List.length s)) (S n) s = Some (a, n2, ch ")" :: r) -> plain_head r ->
  items (S fuel) n (ch "(" :: s) = match items fuel n2 r with Some (b, n1, r1) => Some (RCat (RGroup n None a) b, n1, r1) | None => None end.
Proof.
  intros P A Q. cbn [items].
  change (is "|" (ch "(") || is ")" (ch "(")) with false. change (is "^" (ch "(")) with false. change (is "$" (ch "(")) with false.
  change (is "\" (ch "(")) with false. change (is "[" (ch "(")) with false. change (is "(" (ch "(")) with true. cbn iota. rewrite plain_opener by exact P.
  rewrite A. change (is ")" (ch ")")) with true. cbn iota. now rewrite plain_quantified by exact Q.
Qed.
Lemma items_digits fuel n rest : plain_head rest -> items (4 + fuel) n (lit "(\d+)" ++ rest)
  = match items (3 + fuel) (S n) rest with Some (b, n1, r1) => Some (RCat (RGroup n None (RCat (RRep 1 None false (RSet false [Digits])) REmpty)) b, n1, r1) | None => None end.
Proof.
  intros P. change (lit "(\d+)" ++ rest) with (ch "(" :: lit "\d+)" ++ rest). apply (items_group (3 + fuel)); [easy| |exact P]. reflexivity.
Qed.
Lemma items_begin fuel n s : plain_head s -> items (S fuel) n (ch "^" :: s) = match items fuel n s with Some (b, n1, r1) => Some (RCat RBegin b, n1, r1) | None => None end.
Proof.
  intros P. cbn [items]. change (is "|" (ch "^") || is ")" (ch "^")) with false. change (is "^" (ch "^")) with true. cbn iota. now rewrite plain_quantified by exact P.
Qed.
Lemma one_alternative f k n s a n1 r : f n s = Some (a, n1, r) -> match r with c :: _ => is "|" c = false | [] => True end -> alternatives f (S k) n s = Some (a, n1, r).
Proof. intros E H. cbn [alternatives]. rewrite E. destruct r as [|c r]; [reflexivity|]. now rewrite H. Qed.

Lemma array_compiled x sep : re_compile (array_pattern (re_uescape x) (re_uescape sep)) = Some (RCat RBegin (RCat (RGroup 1 None (lits x (tail_rx sep))) REmpty)).
Proof.
  unfold re_compile. set (s := array_pattern (re_uescape x) (re_uescape sep)).
  assert (exists k, List.length s = S (S (S (List.length x + S (List.length sep + (4 + k)))))) as (k & E).
  { exists (List.length s - S (S (S (List.length x + S (List.length sep + 4))))). subst s. unfold array_pattern. rewrite !app_length. pose proof (escaped_length x). pose proof (escaped_length sep). cbn [lit List.length list_ascii_of_string map]. unfold str in *. cbn. lia. }
  rewrite E. clear E. assert (s = ch "^" :: ch "(" :: re_uescape x ++ lit "(?:" ++ re_uescape sep ++ lit "|$)" ++ lit ")") as ->.
  { subst s. unfold array_pattern. rewrite (app_assoc (lit "^(")). change (lit "|$))") with (lit "|$)" ++ lit ")"). now rewrite <- !app_assoc. }
  assert (plain_head (re_uescape x ++ lit "(?:" ++ re_uescape sep ++ lit "|$)" ++ lit ")")) as P by now apply escaped_plain.
  rewrite (one_alternative _ _ _ _ (RCat RBegin (RCat (RGroup 1 None (lits x (tail_rx sep))) REmpty)) 2 []); [reflexivity| |exact I]. rewrite items_begin by easy.
  rewrite (items_group _ 1 _ (lits x (tail_rx sep)) 2 []); [reflexivity|exact P| |exact I].
  apply one_alternative; [|reflexivity]. replace (S (S (List.length x + S (List.length sep + (4 + k))))) with (List.length x + S (List.length sep + (4 + S (S k)))) by lia.
  rewrite items_escaped by easy. rewrite items_tail by easy.
  replace (List.length sep + (4 + S (S k))) with (S (List.length sep + (4 + S k))) by lia. reflexivity.
Qed.
Lemma list_compiled x sep : re_compile (list_pattern (re_uescape x) (re_uescape sep))
  = Some (RCat RBegin (lits x (RCat (RGroup 1 None (RCat (RRep 1 None false (RSet false [Digits])) REmpty)) (tail_rx sep)))).
Proof.
  unfold re_compile. set (s := list_pattern (re_uescape x) (re_uescape sep)).
  assert (exists k, List.length s = S (List.length x + (4 + S (List.length sep + (4 + k))))) as (k & E).
  { exists (List.length s - S (List.length x + (4 + S (List.length sep + 4)))). subst s. unfold list_pattern. rewrite !app_length. pose proof (escaped_length x). pose proof (escaped_length sep). unfold str in *. cbn. lia. }
  rewrite E. clear E. assert (s = ch "^" :: re_uescape x ++ lit "(\d+)" ++ lit "(?:" ++ re_uescape sep ++ lit "|$)" ++ []) as ->.
  { subst s. unfold list_pattern. change (lit "(\d+)(?:") with (lit "(\d+)" ++ lit "(?:"). rewrite app_nil_r, <- !app_assoc. reflexivity. }
  assert (plain_head (re_uescape x ++ lit "(\d+)" ++ lit "(?:" ++ re_uescape sep ++ lit "|$)" ++ [])) as P by now apply escaped_plain.
  rewrite (one_alternative _ _ _ _ (RCat RBegin (lits x (RCat (RGroup 1 None (RCat (RRep 1 None false (RSet false [Digits])) REmpty)) (tail_rx sep)))) 2 []); [reflexivity| |exact I].
  rewrite items_begin by exact P.
  replace (S (List.length x + (4 + S (List.length sep + (4 + k))))) with (List.length x + (4 + (S (S (List.length sep + (4 + k)))))) by lia.
  rewrite items_escaped by easy. rewrite items_digits by easy. replace (3 + S (S (List.length sep + (4 + k)))) with (S (List.length sep + (4 + (4 + k)))) by lia. rewrite items_tail by easy.
  replace (List.length sep + (4 + (4 + k))) with (S (List.length sep + (4 + (3 + k)))) by lia. reflexivity.
Qed.

Lemma array_key_match x sep : exists r, re_compile (array_pattern (re_uescape x) (re_uescape sep)) = Some r
  /\ forall key, array_key x sep key = option_map p_aft (re_match false r key).
Proof.
  eexists. split; [apply array_compiled|]. intros key. unfold re_match, match_at. rewrite run_begin. unfold array_key.
  change (runs false (RCat ?a REmpty) ?p) with (flat_map (fun q => [q]) (runs false a p)).
  assert (forall l : list pos, flat_map (fun q => [q]) l = l) as F. { induction l as [|y l IH]; [reflexivity|]. cbn. now rewrite IH. }
  rewrite F. change (runs false (RGroup ?i ?nm ?r) ?p) with (map (capture i p) (runs false r p)). rewrite (runs_lits false _ _ _ eq_refl). cbn [p_aft].
  destruct (starts_with x key); [|reflexivity].
  assert (forall p l, option_map p_aft (hd_error (map (capture 1 p) l)) = option_map p_aft (hd_error l)) as M by now intros p [|q l]. rewrite M, after_tail. reflexivity.
Qed.
Lemma hd_flat_map {A B} (f : A -> list B) l : hd_error (flat_map f l) = fold_right (fun x o => match hd_error (f x) with Some y => Some y | None => o end) None l.
Proof. induction l as [|x l IH]; [reflexivity|]. cbn. rewrite <- IH. now destruct (f x). Qed.
Lemma down_cons k : down (S k) = S k :: down k.
Proof. unfold down. rewrite seq_S, rev_app_distr. reflexivity. Qed.
Lemma reach_run s : reach digit_class s = digit_run s.
Proof. induction s as [|c s IH]; [reflexivity|]. cbn [reach digit_run]. now rewrite digit_class_eq, IH. Qed.
Lemma list_key_gen (x sep key : str) : (if starts_with x key then let r := skipn (List.length x) key in index_match (digit_run r) sep r else None)
  = option_map (fun p => (group_or_empty 1 p, p_aft p))
      (re_match false (RCat RBegin (lits x (RCat (RGroup 1 None (RCat (RRep 1 None false (RSet false [Digits])) REmpty)) (tail_rx sep)))) key).
Proof.
  unfold re_match, match_at. rewrite run_begin, (runs_lits false _ _ _ eq_refl). cbn [p_aft]. cbv zeta.
  destruct (starts_with x key); [|reflexivity].
  set (p := ahead_by (List.length x) (Pos [] key [])). assert (p_aft p = skipn (List.length x) key) as Ep by reflexivity. rewrite <- Ep. assert (p_cap p = []) as Cp by reflexivity.
  clearbody p. clear Ep x key. change (runs false (RCat ?a ?b) p) with (flat_map (runs false b) (runs false a p)).
  change (runs false (RGroup ?i ?nm ?r) p) with (map (capture i p) (runs false r p)).
  change (runs false (RCat ?a REmpty) p) with (flat_map (fun q => [q]) (runs false a p)).
  assert (forall l : list pos, flat_map (fun q => [q]) l = l) as F. { induction l as [|y l IH]; [reflexivity|]. cbn. now rewrite IH. }
  rewrite F, runs_at_least. fold digit_class. rewrite reach_run. pose proof (reach_length digit_class (p_aft p)) as L. rewrite reach_run in L.
  destruct (digit_run (p_aft p)) as [|k]; [reflexivity|]. cbn [Nat.leb]. replace (S k - 1) with k by lia. rewrite map_map, hd_flat_map.
  assert (forall j, j <= k -> index_match (S j) sep (p_aft p) = option_map (fun p => (group_or_empty 1 p, p_aft p))
      (fold_right (fun x o => match hd_error (runs false (tail_rx sep) x) with Some y => Some y | None => o end) None (map (fun j => capture 1 p (ahead_by (1 + j) p)) (down j)))) as H.
  { assert (forall j, j <= k -> match hd_error (runs false (tail_rx sep) (capture 1 p (ahead_by (1 + j) p))) with
      | Some q => after_sep sep (skipn (S j) (p_aft p)) = Some (p_aft q) /\ group_or_empty 1 q = firstn (S j) (p_aft p)
      | None => after_sep sep (skipn (S j) (p_aft p)) = None end) as One.
    { intros j J. pose proof (after_tail sep (capture 1 p (ahead_by (1 + j) p))) as A. pose proof (tail_cap sep (capture 1 p (ahead_by (1 + j) p))) as C.
      change (p_aft (capture 1 p (ahead_by (1 + j) p))) with (skipn (S j) (p_aft p)) in A.
      destruct (hd_error (runs false (tail_rx sep) (capture 1 p (ahead_by (1 + j) p)))) as [q|]; [|now rewrite <- A]. split; [now rewrite <- A|].
      unfold group_or_empty, group. rewrite (C q eq_refl). unfold capture. cbn [p_cap]. rewrite firstn_between by lia. cbn [ahead_by p_cap]. rewrite Cp. reflexivity. }
    intros j J. induction j as [|j IH].
    - specialize (One 0 J). cbn [down seq rev app map fold_right index_match]. destruct (hd_error _) as [q|]; [destruct One as [E1 E2]; cbn [option_map]; rewrite E1, E2; reflexivity|now rewrite One].
    - rewrite down_cons. cbn [map fold_right]. specialize (One (S j) J). change (1 + S j) with (S (S j)) in *.
      change (index_match (S (S j)) sep (p_aft p)) with (match after_sep sep (skipn (S (S j)) (p_aft p)) with Some r => Some (firstn (S (S j)) (p_aft p), r) | None => index_match (S j) sep (p_aft p) end).
      destruct (hd_error (runs false (tail_rx sep) (capture 1 p (ahead_by (S (S j)) p)))) as [q|]; [destruct One as [E1 E2]; cbn [option_map]; rewrite E1, E2; reflexivity|]. rewrite One. apply IH. lia. }
  apply H. lia.
Qed.
Lemma list_key_match (n : name) (sep : str) : exists r, re_compile (list_pattern (re_uescape (match n with Some ((_ :: _) as x) => x ++ sep | _ => [] end)) (re_uescape sep)) = Some r
  /\ forall key, list_key n sep key = option_map (fun p => (group_or_empty 1 p, p_aft p)) (re_match false r key).
Proof. eexists. split; [apply list_compiled|]. intros key. exact (list_key_gen _ sep key). Qed.
