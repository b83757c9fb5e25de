(* Patterns and the functions that use them. *)
From Verif Require Import PyBase ModelScalar ModelValidators ModelNetwork ModelMarkup ModelPaths SpecRegex ProofRegex ProofRegex2 ProofRegex4 ProofRegex5.

Lemma temporal_adapts t st r s : compiled (temporal_pattern t) r ->
  adapt (KTemporal t st) (VText s) = match re_match false r (if st then strip s else s) with
    | None => Err AdaptErr
    | Some p => adaptation false (bind (ints (present r (temporal_fields t) p)) (construct t))
    end
  /\ forall p, re_match false r (if st then strip s else s) = Some p -> Forall (fun f => group_named r f p <> None) (temporal_fields t).
Proof.
  intros C. destruct (temporal_match t r (if st then strip s else s) C) as [E G]. split; [|exact G].
  cbn [adapt]. replace (has_type t (VText s)) with false by now destruct t. rewrite E. now destruct (re_match _ _ _).
Qed.
Lemma email_matches to_ascii local_ok r self u : compiled domain_pattern r ->
  email to_ascii local_ok domain_match self u = email to_ascii local_ok (matches true r) self u.
Proof.
  intros C. unfold email. destruct (split _ u) as [|x [|y [|z l]]]; try reflexivity. destruct (str_eqb x [] || is_space_str x); [reflexivity|].
  destruct (match local_ok with Some f => negb (f x) | None => false end); [reflexivity|]. destruct (idna to_ascii y) as [d|e]; [|reflexivity].
  now rewrite (domain_match_rx r d C).
Qed.
Lemma sanitize_matches r s : compiled invalid_pattern r ->
  sanitize_domid_suffix (MText s) = Ok (re_sub false r (fun _ => []) s) /\ sanitize_domid_suffix (MHtml s) = Ok (re_sub false r (fun _ => []) s).
Proof. intros C. cbn [sanitize_domid_suffix]. now rewrite (invalid_match r s C). Qed.
Lemma path_matches rt ru : compiled_verbose (lit token_pattern) rt -> compiled unescape_pattern ru ->
  (forall s, findall s = re_findall false rt (fun p => (group_or_empty 1 p, group_or_empty 2 p)) s) /\ (forall s, unescape s = re_sub false ru (group_or_empty 1) s).
Proof. intros C1 C2. split; intros s; [now apply findall_match|now apply unescape_match]. Qed.
Lemma phone_matches rc rl s : compiled cleaner_pattern rc -> compiled lowbit_pattern rl ->
  clean_digits s = re_sub false rc (fun _ => []) s /\ (clean_digits s <> [] -> forallb ascii_digit (clean_digits s) = matches false rl (clean_digits s)).
Proof. intros C1 C2. split; [now apply cleaner_match|now apply lowbit_match]. Qed.
