(* C112: fields of a form that must meet conditions. *)
From Verif Require Import PyBase ModelUtil SpecUtil ModelScalar SpecScalar ModelValidate ModelMessage SpecMessage ModelValidators SpecValidators ModelNetwork SpecNetwork ProofNetwork ProofNetwork2 ModelReport SpecReport ModelCompound ModelFlat SpecFlat ModelCheck SpecCheck SpecTwin ModelBounds SpecBounds ProofBounds.
From Coq Require Import Lia.

(* C112: what a validator says of a scalar or a JoinedString, anywhere in a tree *)
Theorem C112_one : forall x label root p nd v u c ok m, plain x label -> node_at root p = Some nd -> bears (nd_element nd) v u -> wants label v u c ok m -> grades c x root p ok m.
Proof. exact @wants_lemma. Qed.
Print Assumptions C112_one.
Theorem C112_made : forall n lo hi b a, (exists c, shorter_than_check n = Ok c) /\ (exists c, longer_than_check n = Ok c) /\ (exists c, length_between_check lo hi = Ok c)
  /\ (exists c, less_than_check b = Ok c) /\ (exists c, at_most_check b = Ok c) /\ (exists c, greater_than_check b = Ok c) /\ (exists c, at_least_check b = Ok c) /\ (exists c, between_check a b = Ok c).
Proof. exact @made_all. Qed.
Print Assumptions C112_made.
Theorem C112_value_in : forall x label root p nd v u options ok, plain x label -> offers (x_element x) (lit "value") v -> node_at root p = Some nd -> bears (nd_element nd) v u ->
  (ok = true <-> exists o, In o options /\ equal_values v o) -> grades (value_in_check options) x root p ok (vtext v ++ lit " is not a valid value for " ++ label ++ lit ".").
Proof. exact @value_in_lemma. Qed.
Print Assumptions C112_value_in.

(* C112: and of the members of a List or an Array *)
Theorem C112_has_at_most : forall x label root p nd m child n l ok, plain x label -> node_at root p = Some nd -> nd_element nd = EList n l \/ nd_element nd = EArray n l -> (ok = true <-> (l = [] \/ Z.of_nat (List.length l) <= m)%Z) ->
  exists c, has_at_most_check m child = Ok c /\ grades c x root p ok (label ++ lit " must contain at most "
        ++ if (m =? 1)%Z then lit "one " ++ vtext child else dec_z m ++ lit " " ++ vtext child ++ lit "s").
Proof. exact @at_most_lemma. Qed.
Print Assumptions C112_has_at_most.
Theorem C112_has_between : forall x label root p nd lo hi child n l ok, plain x label -> node_at root p = Some nd -> nd_element nd = EList n l \/ nd_element nd = EArray n l -> (0 <= lo <= hi)%Z -> (ok = true <-> (lo <= Z.of_nat (List.length l) <= hi)%Z) ->
  exists c, has_between_check lo hi child = Ok c /\ grades c x root p ok (label ++ lit " must contain " ++
        if (lo =? hi)%Z
        then lit "exactly " ++ (if (lo =? 1)%Z then lit "one " ++ vtext child else dec_z lo ++ lit " " ++ vtext child ++ lit "s")
        else lit "at least " ++ dec_z lo ++ lit " and at most " ++ dec_z hi ++ lit " " ++ vtext child
             ++ (if (hi =? 1)%Z then [] else lit "s")).
Proof. exact @between_lemma. Qed.
Print Assumptions C112_has_between.
Theorem C112_sizes_others : forall root p nd c, node_at root p = Some nd -> (exists n st, nd_element nd = EScalar n st) \/ (exists n cp items, nd_element nd = EDict n cp items) ->
  (exists m child, has_at_most_check m child = Ok c) \/ (exists lo hi child, has_between_check lo hi child = Ok c) -> ck_says c root p = Err AssertErr.
Proof. exact @sizes_others. Qed.
Print Assumptions C112_sizes_others.

(* C112: a form of scalars with any such validators, sent texts *)
Theorem C112_sent : forall id_of place_of (ask : settings) label n fields sep ps e, NoDup (map fst fields) -> text_keys ps -> text_values ps ->
  set_flat (plain_form n fields) sep (fresh (plain_form n fields)) ps = (e, Ok tt) ->
  let root := Node [] (plain_form n fields) e in
  let good f k o := welcome (st_optional (ask [Some f])) (label f) (st_checks (ask [Some f])) k o in
  let bad f k o m := unwelcome (st_optional (ask [Some f])) (label f) (st_checks (ask [Some f])) k o m in
  identified id_of place_of root -> st_down (ask []) = [] -> st_checks (ask []) = [] ->
  (forall f k, In (f, k) fields -> st_checks (ask [Some f]) <> [] /\ forall u, plain (st_context (ask [Some f]) u) (label f)) ->
  (forall f k o, In (f, k) fields -> first_sent (sent_key n sep f) ps o -> good f k o \/ exists m, bad f k o m) ->
  exists F errors V b, (forall fuel, F <= fuel -> validate_form (form_of id_of place_of ask root) fuel (fun _ => []) (fun _ => Uneval) (id_of []) = (errors, V, Ok b))
    /\ (b = true <-> forall f k o, In (f, k) fields -> first_sent (sent_key n sep f) ps o -> good f k o)
    /\ forall f k o, In (f, k) fields -> first_sent (sent_key n sep f) ps o -> exists p st, node_at root p = Some (Node [Some f] (SScalar (Some f) k) (EScalar (Some f) st))
         /\ (good f k o -> errors (id_of p) = [] /\ V (id_of p) = Valid)
         /\ (forall m, bad f k o m -> errors (id_of p) = [m] /\ V (id_of p) = Invalid).
Proof. exact @bounds_form. Qed.
Print Assumptions C112_sent.

(* C112: validators that look at their element only, and by what it holds, judge elements
   alike that hold the same; these are such *)
Theorem C112_impartial : forall ask, (forall way e e', same e e' -> st_context (ask way) e = st_context (ask way) e') ->
  (forall way c, In c (st_checks (ask way)) \/ In c (st_down (ask way)) -> exists f, ck_says c = own f /\ forall e e', same e e' -> f e = f e') -> impartial ask.
Proof. exact @own_lemma. Qed.
Print Assumptions C112_impartial.
Theorem C112_own : forall c, (exists self f, c = on_text self f) \/ (exists self f, c = on_value self f) \/ (exists self f l, c = on_members self f l) ->
  exists f, ck_says c = own f /\ forall e e', same e e' -> f e = f e'.
Proof. exact @made_lemma. Qed.
Print Assumptions C112_own.

(* C112: without Converted() before it a bound raises for a text that is not read *)
Theorem C112_unread_refuted : exists id_of place_of ask fields ps e c errors V, at_least_check (VInt 18) = Ok c /\ st_checks (ask [Some (lit "age")]) = [c]
  /\ set_flat (plain_form None fields) (lit "_") (fresh (plain_form None fields)) ps = (e, Ok tt) /\ identified id_of place_of (Node [] (plain_form None fields) e)
  /\ validate_form (form_of id_of place_of ask (Node [] (plain_form None fields) e)) 9 (fun _ => []) (fun _ => Uneval) (id_of []) = (errors, V, Err TypeErr).
Proof.
  exists sample_id, sample_place, (fun way => match way with [Some f] => Setting false [] (skipn 1 (entry_checks f)) (fun _ => sample_context f) | _ => Setting false [] [] (fun _ => sample_context (lit "Form")) end),
    (skipn 1 entry_fields), (skipn 1 (entry_sent [] (lit "ten"))). do 4 eexists.
  split; [reflexivity|]. split; [reflexivity|]. split; [reflexivity|]. split; [|reflexivity].
  intros [|j [|i p]] H; [reflexivity|reflexivity|]. destruct H. cbn. destruct j as [|j]; cbn; [now destruct i|now destruct j].
Qed.
Print Assumptions C112_unread_refuted.

(* C112: hypotheses met: a name that is too long and an age in letters; the bound of the age,
   which would raise, is not asked *)
Example C112_case : let ps := entry_sent (lit "Roberta") (lit "ten") in
  NoDup (map fst entry_fields) /\ text_keys ps /\ text_values ps
  /\ unwelcome false (lit "name") (entry_checks (lit "name")) (KString true) (Some (VText (lit "Roberta"))) (lit "name may not exceed 5 characters.")
  /\ unwelcome false (lit "age") (entry_checks (lit "age")) (KInteger true) (Some (VText (lit "ten"))) (lit "age is not correct.")
  /\ exists e, set_flat (plain_form None entry_fields) (lit "_") (fresh (plain_form None entry_fields)) ps = (e, Ok tt)
     /\ let root := Node [] (plain_form None entry_fields) e in identified sample_id sample_place root
        /\ let '(errors, V, r) := validate_form (form_of sample_id sample_place entry_ask root) 9 (fun _ => []) (fun _ => Uneval) 0 in
           r = Ok false /\ V 0 = Valid /\ errors 1 = [lit "name may not exceed 5 characters."] /\ errors 2 = [lit "age is not correct."].
Proof.
  cbv zeta. split; [repeat constructor; cbn; intuition discriminate|]. split; [now repeat constructor|]. split; [repeat constructor; eexists; reflexivity|]. split; [|split].
  - exists (VText (lit "Roberta")), (lit "Roberta"). split; [now split|]. split; [now intros [? _]|]. change (entry_checks (lit "name")) with (present_check :: match shorter_than_check 5 with Ok c => [c] | Err _ => [] end).
    eapply se_next; [apply wa_present; split; [discriminate|reflexivity]|]. apply se_this. apply (wa_shorter (lit "name") _ _ 5); [reflexivity|]. split; [discriminate|]. intros H. exfalso. now apply H.
  - exists VNone, (lit "ten"). split; [now split|]. split; [now intros [? _]|]. apply se_this. apply (wa_converted (lit "age") VNone (lit "ten") false). split; [discriminate|]. now intros H.
  - eexists. split; [reflexivity|]. split; [|vm_compute; repeat split].
    intros [|j [|i p]] H; [reflexivity|reflexivity|]. destruct H. cbn. destruct j as [|[|j]]; cbn; [now destruct i|now destruct i|now destruct j].
Qed.
(* a name and an age that are fine, and an age that is too low *)
Example C112_other_cases :
  welcome false (lit "age") (entry_checks (lit "age")) (KInteger true) (Some (VText (lit "18")))
  /\ unwelcome false (lit "age") (entry_checks (lit "age")) (KInteger true) (Some (VText (lit "17"))) (lit "age must be greater than or equal to 18.").
Proof.
  split.
  - exists (VInt 18), (lit "18"). split; [now split|]. right. eapply se_next; [apply wa_converted; split; [discriminate|reflexivity]|]. eapply se_next; [|constructor].
    apply (wa_at_least (lit "age") _ _ (VInt 18)); [reflexivity|apply (cp_number _ _ 18 18); constructor|]. split; [|reflexivity]. intros _ L. inversion L as [? ? x y X Y Q| | | |]; inversion X; inversion Y; subst; discriminate.
  - exists (VInt 17), (lit "17"). split; [now split|]. split; [now intros [? _]|]. eapply se_next; [apply wa_converted; split; [discriminate|reflexivity]|]. apply se_this.
    apply (wa_at_least (lit "age") _ _ (VInt 18)); [reflexivity|apply (cp_number _ _ 17 18); constructor|]. split; [discriminate|]. intros N. exfalso. apply N. apply (ls_number _ _ 17 18); [constructor|constructor|reflexivity].
Qed.
(* an address that is fine and one that is not; a scheme that is not allowed *)
Example C112_network_cases :
  let mail := email_check (fun _ => Err ValueErr) in
  let page := url_check (fun _ => Ok (Url (lit "ftp") (lit "h") (lit "/p") [] [] [])) (Some [lit "http"]) (map lit url_parts) in
  welcome false (lit "mail") [mail] (KString true) (Some (VText (lit "me@example.com")))
  /\ unwelcome false (lit "mail") [mail] (KString true) (Some (VText (lit "me@localhost"))) (lit "mail is not a valid email address.")
  /\ unwelcome false (lit "page") [page] (KString true) (Some (VText (lit "ftp://h/p"))) (lit "page is not a valid URL.")
  /\ welcome false (lit "site") [http_check (fun _ => Ok (sample_parts (Some (lit "http")) None (Some (lit "h"))))] (KString true) (Some (VText (lit "http://h/")))
  /\ unwelcome false (lit "site") [http_check (fun _ => Ok (sample_parts (Some (lit "http")) (Some (lit "me")) (Some (lit "h"))))] (KString true) (Some (VText (lit "http://me@h/"))) (lit "site is not a valid URL.")
  /\ welcome false (lit "card") [luhn_check 9] (KInteger true) (Some (VText (lit "182")))
  /\ unwelcome false (lit "card") [luhn_check 9] (KInteger true) (Some (VText (lit "x"))) (lit "The card was not entered correctly.").
Proof.
  assert (D : forall u b, email (fun _ => Err ValueErr) None domain_match email_cls u = Ok (if b : bool then Pass else Fail (lit "invalid") []) ->
    (b = true <-> address (fun _ => Err ValueErr) (fun _ => True) domain_form true u)).
  { intros u b E. destruct (email_iff (fun _ => Err ValueErr) None domain_match email_cls (Plain (VBool true)) u (fun _ => True) domain_form) as (b' & E' & I).
    - now intros s e [= <-].
    - intros s. split; [discriminate|easy].
    - intros s. symmetry. apply domain_match_iff.
    - reflexivity.
    - rewrite E in E'. destruct b, b'; try discriminate; exact I. }
  cbv zeta. split; [|split; [|split; [|split; [|split; [|split]]]]].
  - exists (VText (lit "me@example.com")), (lit "me@example.com"). split; [now split|]. right. eapply se_next; [|constructor]. apply wa_email; [now intros s e [= <-]|]. apply D. vm_compute. reflexivity.
  - exists (VText (lit "me@localhost")), (lit "me@localhost"). split; [now split|]. split; [now intros [? _]|]. apply se_this.
    apply (wa_email (lit "mail")); [now intros s e [= <-]|]. apply D. vm_compute. reflexivity.
  - exists (VText (lit "ftp://h/p")), (lit "ftp://h/p"). split; [now split|]. split; [now intros [? _]|]. apply se_this.
    apply (wa_url (lit "page")). split; [discriminate|]. intros (s & r & _ & [= <-] & (_ & G) & _). destruct (G _ eq_refl) as [X|[]]. discriminate.
  - exists (VText (lit "http://h/")), (lit "http://h/"). split; [now split|]. right. eapply se_next; [|constructor].
    apply (wa_http (lit "site") _ _ _ (sample_parts (Some (lit "http")) None (Some (lit "h"))) (fun k => match sample_parts (Some (lit "http")) None (Some (lit "h")) k with Ok x => x | Err _ => None end)); [discriminate|reflexivity| |].
    + intros p. unfold sample_parts. now repeat destruct (str_eqb p _).
    + split; [|reflexivity]. intros _. repeat split; [now left|now left|discriminate].
  - exists (VText (lit "http://me@h/")), (lit "http://me@h/"). split; [now split|]. split; [now intros [? _]|]. apply se_this.
    apply (wa_http (lit "site") _ _ _ (sample_parts (Some (lit "http")) (Some (lit "me")) (Some (lit "h"))) (fun k => match sample_parts (Some (lit "http")) (Some (lit "me")) (Some (lit "h")) k with Ok x => x | Err _ => None end)); [discriminate|reflexivity| |].
    + intros p. unfold sample_parts. now repeat destruct (str_eqb p _).
    + split; [discriminate|]. intros ([X|X] & _); discriminate.
  - exists (VInt 182), (lit "182"). split; [now split|]. right. eapply se_next; [|constructor]. apply (wa_luhn _ _ _ [1; 8; 2]%Z); [repeat constructor; lia|constructor|reflexivity|]. split; [reflexivity|easy].
  - exists VNone, (lit "x"). split; [now split|]. split; [now intros [? _]|]. apply se_this. now apply (wa_luhn_none (lit "card")).
Qed.
