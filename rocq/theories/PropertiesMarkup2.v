(* C46: formats of automatic ids, missing settings. *)
From Verif Require Import PyBase PyBaseFacts ModelMarkup SpecMarkup SpecMarkup2 ProofMarkup6.

(* A forced id or for= is the element's name put into domid_format: the format
   must be a text with exactly one %s (%% is a per cent sign), else TypeError;
   no domid_format at all is KeyError. *)
Theorem C46_id_formats : forall tag a c ctx b nm v, named_id tag a b nm ->
  (get "auto_domid" a = Some v -> says_yes v -> exists out, formatted nm (get "domid_format" ctx) out
     /\ transform_domid tag a c ctx b = rmap (fun s => (set "id" (MText s) (del "auto_domid" a), c)) out)
  /\ (get "auto_for" a = Some v -> says_yes v -> exists out, formatted nm (get "domid_format" ctx) out
     /\ transform_for tag a c ctx b = rmap (fun s => (set "for" (MText s) (del "auto_for" a), c)) out).
Proof. exact id_formats. Qed.
Print Assumptions C46_id_formats.
(* formatted leaves no choice for formats made of characters, %% and %s *)
Theorem C46_formatted_unique : forall nm f o1 o2, formatted nm f o1 -> formatted nm f o2 ->
  (forall t, (exists v, f = Some v /\ value_is v t) -> exists ps, Forall plain_piece ps /\ t = written ps) -> o1 = o2.
Proof. exact formatted_one. Qed.
Print Assumptions C46_formatted_unique.
(* a switch the tag does not decide and the settings do not have is KeyError *)
Theorem C46_missing_switch : forall env tag a c ctx b,
  (undecided "auto_name" a -> get "auto_name" ctx = None -> transform_name tag a c ctx b = Err KeyErr)
  /\ (undecided "auto_value" a -> get "auto_value" ctx = None -> transform_value tag a c ctx b = Err KeyErr)
  /\ (undecided "auto_domid" a -> get "auto_domid" ctx = None -> transform_domid tag a c ctx b = Err KeyErr)
  /\ (undecided "auto_for" a -> get "auto_for" ctx = None -> transform_for tag a c ctx b = Err KeyErr)
  /\ (undecided "auto_tabindex" a -> get "auto_tabindex" ctx = None -> transform_tabindex tag a c ctx = (ctx, Err KeyErr))
  /\ (undecided "auto_filter" a -> get "auto_filter" ctx = None -> transform_filters env tag a c ctx b = (ctx, Err KeyErr)).
Proof. exact missing_switch. Qed.
Print Assumptions C46_missing_switch.
Theorem C46_missing_counter : forall tag a c ctx v, get "auto_tabindex" a = Some v -> says_yes v -> get "tabindex" ctx = None ->
  transform_tabindex tag a c ctx = (ctx, Err KeyErr).
Proof. exact missing_counter. Qed.
Print Assumptions C46_missing_counter.
(* filters are read even where they are switched off *)
Theorem C46_missing_filters : forall env tag a c ctx b on forced, effective "auto_filter" a ctx on forced -> get "filters" ctx = None ->
  transform_filters env tag a c ctx b = (ctx, Err KeyErr).
Proof. exact missing_filters. Qed.
Print Assumptions C46_missing_filters.

Definition some_el : belement := Bound (lit "a_b") (lit "v") BOther.
Example C46_formats_case : named_id (lit "div") [(lit "auto_domid", MBool true)] (Some some_el) (lit "a_b")
  /\ transform_domid (lit "div") [(lit "auto_domid", MBool true)] MNone [(lit "domid_format", MText (lit "100%%-%s"))] (Some some_el)
     = Ok ([(lit "id", MText (lit "100%-a_b"))], MNone)
  /\ transform_domid (lit "div") [(lit "auto_domid", MBool true)] MNone [(lit "domid_format", MText (lit "%s%s"))] (Some some_el) = Err TypeErr
  /\ transform_domid (lit "div") [(lit "auto_domid", MBool true)] MNone [(lit "domid_format", MText (lit "f"))] (Some some_el) = Err TypeErr
  /\ transform_domid (lit "div") [(lit "auto_domid", MBool true)] MNone [(lit "domid_format", MInt 3)] (Some some_el) = Err TypeErr
  /\ transform_domid (lit "div") [(lit "auto_domid", MBool true)] MNone [] (Some some_el) = Err KeyErr.
Proof.
  split; [split; [now exists some_el|split; [discriminate|intros (H & _); discriminate]]|]. vm_compute. repeat split; reflexivity.
Qed.
Example C46_written : lit "100%%-%s" = written (map FChar (lit "100") ++ [FPercent; FChar (ch "-"); FHole])
  /\ undecided "auto_name" [(lit "auto_name", MText (lit "perhaps"))].
Proof.
  split; [reflexivity|]. intros (v & G & H). vm_compute in G. injection G as <-.
  destruct H as [H|H].
  - apply ProofMarkup2.parse_trool_spec in H. vm_compute in H. discriminate.
  - apply ProofMarkup2.parse_trool_spec in H. vm_compute in H. discriminate.
Qed.
