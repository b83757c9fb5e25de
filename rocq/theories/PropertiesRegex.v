(* C101: text is read as the regular expressions say. *)
From Verif Require Import PyBase ModelScalar ModelValidators ModelNetwork ModelMarkup ModelPaths ModelFlat ModelUtil SpecRegex ProofRegex ProofRegex2 ProofRegex3 ProofRegex4 ProofRegex6.
Open Scope string_scope.

Theorem C101_temporals : forall t st r s, compiled (temporal_pattern t) r ->
  adapt (KTemporal t st) (VText s) = match re_match false r (if st then strip s else s) with
    | None => Err AdaptErr
    | Some p => adaptation false (bind (ints (present r (temporal_fields t) p)) (construct t))
    end
  /\ forall p, re_match false r (if st then strip s else s) = Some p -> Forall (fun f => group_named r f p <> None) (temporal_fields t).
Proof. exact @temporal_adapts. Qed.
Print Assumptions C101_temporals.
Theorem C101_card_types : forall visa mc amex disc v,
  compiled visa_pattern visa -> compiled mc_pattern mc -> compiled amex_pattern amex -> compiled disc_pattern disc -> vnum v <> None ->
  card_type v = Ok (if matches false visa (vtext v) then Some Visa else if matches false mc (vtext v) then Some MasterCard
    else if matches false amex (vtext v) then Some Amex else if matches false disc (vtext v) then Some Discover else None).
Proof. exact @card_type_match. Qed.
Print Assumptions C101_card_types.
Theorem C101_card_text : forall filler strip s, compiled filler_pattern filler -> compiled strip_pattern strip ->
  from_string s = if matches false filler s then Some (py_int (re_sub false strip (fun _ => []) s)) else None.
Proof. exact @from_string_match. Qed.
Print Assumptions C101_card_text.
Theorem C101_phones : forall rc rl s, compiled cleaner_pattern rc -> compiled lowbit_pattern rl ->
  clean_digits s = re_sub false rc (fun _ => []) s /\ (clean_digits s <> [] -> forallb ascii_digit (clean_digits s) = matches false rl (clean_digits s)).
Proof. exact @phone_matches. Qed.
Print Assumptions C101_phones.
Theorem C101_domains : forall to_ascii local_ok r self u, compiled domain_pattern r ->
  email to_ascii local_ok domain_match self u = email to_ascii local_ok (matches true r) self u.
Proof. exact @email_matches. Qed.
Print Assumptions C101_domains.
Theorem C101_domids : forall r s, compiled invalid_pattern r ->
  sanitize_domid_suffix (MText s) = Ok (re_sub false r (fun _ => []) s) /\ sanitize_domid_suffix (MHtml s) = Ok (re_sub false r (fun _ => []) s).
Proof. exact @sanitize_matches. Qed.
Print Assumptions C101_domids.
Theorem C101_paths : forall rt ru, compiled_verbose (lit token_pattern) rt -> compiled unescape_pattern ru ->
  (forall s, findall s = re_findall false rt (fun p => (group_or_empty 1 p, group_or_empty 2 p)) s) /\ (forall s, unescape s = re_sub false ru (group_or_empty 1) s).
Proof. exact @path_matches. Qed.
Print Assumptions C101_paths.
Theorem C101_list_keys : forall (n : name) (sep : str),
  exists r, re_compile (list_pattern (re_uescape (match n with Some ((_ :: _) as x) => x ++ sep | _ => [] end)%list) (re_uescape sep)) = Some r
  /\ forall key, list_key n sep key = option_map (fun p => (group_or_empty 1 p, p_aft p)) (re_match false r key).
Proof. exact @list_key_match. Qed.
Print Assumptions C101_list_keys.
Theorem C101_array_keys : forall x sep, exists r, re_compile (array_pattern (re_uescape x) (re_uescape sep)) = Some r
  /\ forall key, array_key x sep key = option_map p_aft (re_match false r key).
Proof. exact @array_key_match. Qed.
Print Assumptions C101_array_keys.

(* ---- cases: every pattern compiles ---- *)
Definition ok (s : string) : bool := match re_compile (lit s) with Some _ => true | None => false end.
Example C101_ex_compile : forallb ok [date_pattern; time_pattern; datetime_pattern; visa_pattern; mc_pattern; amex_pattern; disc_pattern; strip_pattern;
  filler_pattern; cleaner_pattern; lowbit_pattern; domain_pattern; invalid_pattern; unescape_pattern]%string = true
  /\ match re_compile (verbose false false (lit token_pattern)) with Some _ => true | None => false end = true.
Proof. split; vm_compute; reflexivity. Qed.
Definition find (ic : bool) (p s : string) : option (str * list (nat * str)) :=
  match re_compile (lit p) with Some r => option_map (fun q => (p_aft q, p_cap q)) (re_match ic r (lit s)) | None => None end.
(* greedy, lazy, giving back, alternatives in order, looking around *)
Example C101_ex_greedy : find false "(a*)(a*)b" "aaabc" = Some (lit "c", [(1, lit "aaa"); (2, lit "")]).
Proof. vm_compute. reflexivity. Qed.
Example C101_ex_lazy : find false "(a*?)(a*)b" "aaabc" = Some (lit "c", [(1, lit ""); (2, lit "aaa")]).
Proof. vm_compute. reflexivity. Qed.
Example C101_ex_back : find false "(a+)ab" "aaab" = Some (lit "", [(1, lit "aa")]) /\ find false "(a+)ab" "ab" = None.
Proof. split; vm_compute; reflexivity. Qed.
Example C101_ex_order : find false "(a|ab)(c|bcd)(d*)" "abcd" = Some (lit "", [(1, lit "a"); (2, lit "bcd"); (3, lit "")]).
Proof. vm_compute. reflexivity. Qed.
Example C101_ex_date : find false date_pattern "2011-02-03" = Some (lit "", [(1, lit "2011"); (2, lit "02"); (3, lit "03")])
  /\ find false date_pattern "2011-2-03" = None /\ find false date_pattern "2011-02-03 " = None.
Proof. repeat split; vm_compute; reflexivity. Qed.
Example C101_ex_visa : find false visa_pattern "4111111111111111" <> None /\ find false visa_pattern "4111111111111" = None.
Proof. split; [vm_compute; discriminate|vm_compute; reflexivity]. Qed.
Example C101_ex_domain : find true domain_pattern "WWW.example-1.com" <> None /\ find true domain_pattern "www..com" = None /\ find true domain_pattern ".com" = None.
Proof. repeat split; try (vm_compute; reflexivity); vm_compute; discriminate. Qed.
Example C101_ex_key : match re_compile (list_pattern (re_uescape (lit "a_")) (re_uescape (lit "_"))) with
  | Some r => option_map (fun p => (group_or_empty 1 p, p_aft p)) (re_match false r (lit "a_12_b")) | None => None end = Some (lit "12", lit "b").
Proof. vm_compute. reflexivity. Qed.
Example C101_ex_paths : match re_compile (verbose false false (lit token_pattern)) with
  | Some r => re_findall false r (fun p => (group_or_empty 1 p, group_or_empty 2 p)) (lit "/a\/b/../c[1:-2][x]d[3") | None => [] end
  = map (fun p => (lit (fst p), lit (snd p))) [("/", ""); ("a\/b", ""); ("/", ""); ("..", ""); ("/", ""); ("c", ""); ("[1:-2]", "1:-2"); ("[", ""); ("x]d", ""); ("[", ""); ("3", "")].
Proof. vm_compute. reflexivity. Qed.
