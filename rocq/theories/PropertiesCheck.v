(* C109: texts sent to a form, and what validate() makes of them. *)
From Verif Require Import PyBase ModelScalar ModelValidate ModelMessage SpecMessage ModelValidators ModelReport SpecReport ModelCompound ModelFlat SpecFlat ModelCheck SpecCheck ProofCheck ProofCheck2 ProofCheck3.

(* C109: every element of a tree is valid or not and has its message or none, by what it
   holds and its validators say; validate() is true if all are valid; nothing else
   changes *)
Theorem C109_elements : forall id_of place_of ask root errors V, identified id_of place_of root -> named_fields (nd_schema root) -> answered ask root ->
  exists F errors' V' b, (forall fuel, F <= fuel -> validate_form (form_of id_of place_of ask root) fuel errors V (id_of []) = (errors', V', Ok b))
    /\ (forall p nd, node_at root p = Some nd -> exists ok ms, assessed ask root p nd ok ms
          /\ V' (id_of p) = (if ok then Valid else Invalid) /\ noted (errors (id_of p)) ms (errors' (id_of p)))
    /\ (forall x, (forall p, node_at root p <> None -> x <> id_of p) -> errors' x = errors x /\ V' x = V x)
    /\ (b = true <-> forall p nd, node_at root p = Some nd -> assessed ask root p nd true []).
Proof. exact @places_lemma. Qed.
Print Assumptions C109_elements.

(* C109: so it is if all validators say yes, or no with a message *)
Theorem C109_answered : forall ask root, named_fields (nd_schema root) -> graded ask root -> answered ask root.
Proof. exact @graded_answered. Qed.
Print Assumptions C109_answered.

(* C109: what these elements are *)
Theorem C109_places : forall root, named_fields (nd_schema root) -> is_of (nd_schema root) (nd_element root) ->
  forall p nd, node_at root p = Some nd <-> stands_at root p nd.
Proof. exact @stands_iff. Qed.
Print Assumptions C109_places.

Theorem C109_one_account : forall ask root p nd ok ms ok' ms', assessed ask root p nd ok ms -> assessed ask root p nd ok' ms' -> ok = ok' /\ ms = ms'.
Proof. exact @assessed_one. Qed.
Print Assumptions C109_one_account.

(* C109: validators that such trees may have *)
Theorem C109_present : forall x label root p nd n st, plain x label -> node_at root p = Some nd -> nd_element nd = EScalar n st ->
  grades present_check x root p (negb (str_eqb (s_u st) [])) (label ++ lit " may not be blank.").
Proof. exact @present_grades. Qed.
Print Assumptions C109_present.
Theorem C109_converted : forall x label root p nd n st, plain x label -> node_at root p = Some nd -> nd_element nd = EScalar n st ->
  grades converted_check x root p (negb (is_none (s_value st))) (label ++ lit " is not correct.").
Proof. exact @converted_grades. Qed.
Print Assumptions C109_converted.
Theorem C109_has_at_least : forall x label root p nd m child n l, plain x label -> node_at root p = Some nd -> nd_element nd = EList n l \/ nd_element nd = EArray n l ->
  grades (has_at_least_check m child) x root p (m <=? Z.of_nat (List.length l))%Z
    (label ++ lit " must contain at least " ++ if (m =? 1)%Z then lit "one " ++ vtext child else dec_z m ++ lit " " ++ vtext child ++ lit "s").
Proof. exact @at_least_grades. Qed.
Print Assumptions C109_has_at_least.
(* Present() and Converted() let Dicts, Lists and Arrays pass; of a JoinedString they take the
   text, and so does HasAtLeast(), which counts its characters *)
Theorem C109_containers : forall x root p nd c m, node_at root p = Some nd -> plain_container (nd_element nd) -> c = present_check \/ c = converted_check -> grades c x root p true m.
Proof. exact @plain_grades. Qed.
Print Assumptions C109_containers.
Theorem C109_present_joined : forall x label root p nd n j l, plain x label -> node_at root p = Some nd -> nd_element nd = EJoined n j l ->
  grades present_check x root p (negb (str_eqb (joined_value (j_glue j) l) [])) (label ++ lit " may not be blank.").
Proof. exact @present_joined. Qed.
Print Assumptions C109_present_joined.
Theorem C109_converted_joined : forall x root p nd n j l m, node_at root p = Some nd -> nd_element nd = EJoined n j l -> grades converted_check x root p true m.
Proof. exact @converted_joined. Qed.
Print Assumptions C109_converted_joined.
Theorem C109_has_at_least_joined : forall x label root p nd m child n j l, plain x label -> node_at root p = Some nd -> nd_element nd = EJoined n j l ->
  grades (has_at_least_check m child) x root p (m <=? Z.of_nat (List.length (joined_value (j_glue j) l)))%Z
    (label ++ lit " must contain at least " ++ if (m =? 1)%Z then lit "one " ++ vtext child else dec_z m ++ lit " " ++ vtext child ++ lit "s").
Proof. exact @at_least_joined. Qed.
Print Assumptions C109_has_at_least_joined.
Theorem C109_has_at_least_others : forall root p nd m child, node_at root p = Some nd ->
  (exists n st, nd_element nd = EScalar n st) \/ (exists n cp items, nd_element nd = EDict n cp items) -> ck_says (has_at_least_check m child) root p = Err AssertErr.
Proof. exact @at_least_others. Qed.
Print Assumptions C109_has_at_least_others.
(* the element at position i of a container, compared with those before it *)
Theorem C109_not_duplicated : forall x label root q container i op title alike ok, plain x label -> node_at root q = Some container -> i < List.length (child_nodes container) ->
  (forall j a b, j < i -> nth_error (child_nodes container) i = Some a -> nth_error (child_nodes container) j = Some b -> exists r, op a b = Ok r /\ (r = true <-> alike a b)) ->
  (ok = true <-> forall j a b, j < i -> nth_error (child_nodes container) i = Some a -> nth_error (child_nodes container) j = Some b -> ~ alike a b) ->
  grades (not_duplicated_check op title) x root (q ++ [i]) ok (label ++ lit " may not be repeated within " ++ vtext (title container) ++ lit ".").
Proof. exact @not_duplicated_grades. Qed.
Print Assumptions C109_not_duplicated.
(* an element on its own cannot be asked this *)
Theorem C109_not_duplicated_alone : forall op title root, ck_says (not_duplicated_check op title) root [] = Err TypeErr.
Proof. reflexivity. Qed.
Print Assumptions C109_not_duplicated_alone.

(* C109: a form of scalars that want to be converted: validate() is true if every field got
   a text it reads, or is optional and got none; the other fields say so *)
Theorem C109_sent : forall id_of place_of (ask : settings) label n fields sep ps e, NoDup (map fst fields) -> text_keys ps -> text_values ps ->
  set_flat (plain_form n fields) sep (fresh (plain_form n fields)) ps = (e, Ok tt) ->
  let root := Node [] (plain_form n fields) e in
  identified id_of place_of root -> st_down (ask []) = [] -> st_checks (ask []) = [] ->
  (forall f k, In (f, k) fields -> st_checks (ask [Some f]) = [converted_check] /\ forall u, plain (st_context (ask [Some f]) u) (label f)) ->
  exists F errors V b, (forall fuel, F <= fuel -> validate_form (form_of id_of place_of ask root) fuel (fun _ => []) (fun _ => Uneval) (id_of []) = (errors, V, Ok b))
    /\ (b = true <-> forall f k o, In (f, k) fields -> first_sent (sent_key n sep f) ps o -> accepted (st_optional (ask [Some f])) k o)
    /\ forall f k o, In (f, k) fields -> first_sent (sent_key n sep f) ps o -> exists p st, node_at root p = Some (Node [Some f] (SScalar (Some f) k) (EScalar (Some f) st))
         /\ (accepted (st_optional (ask [Some f])) k o -> errors (id_of p) = [] /\ V (id_of p) = Valid)
         /\ (~ accepted (st_optional (ask [Some f])) k o -> errors (id_of p) = [label f ++ lit " is not correct."] /\ V (id_of p) = Invalid).
Proof. exact @converted_form. Qed.
Print Assumptions C109_sent.

(* C109: nothing is optional, all scalars want to be converted and the containers want
   nothing: validate() is true if every scalar has a value and no container is without *)
Theorem C109_complete : forall id_of place_of ask label root errors V, identified id_of place_of root -> named_fields (nd_schema root) ->
  (forall p nd, node_at root p = Some nd -> st_optional (ask (nd_way nd)) = false /\ plain (st_context (ask (nd_way nd)) (nd_element nd)) (label p)
     /\ (is_scalar nd -> st_checks (ask (nd_way nd)) = [converted_check]) /\ (~ is_scalar nd -> st_down (ask (nd_way nd)) = [] /\ st_checks (ask (nd_way nd)) = [])) ->
  exists F errors' V' b, (forall fuel, F <= fuel -> validate_form (form_of id_of place_of ask root) fuel errors V (id_of []) = (errors', V', Ok b))
    /\ (b = true <-> forall p nd, node_at root p = Some nd -> match nd_element nd with EScalar _ st => s_value st <> VNone | _ => ~ vacant (nd_schema nd) (nd_element nd) end).
Proof. exact @complete_lemma. Qed.
Print Assumptions C109_complete.

(* C109: a List whose members may not be repeated: validate() is true if no two are alike,
   and the later ones of those that are alike say so *)
Theorem C109_unique : forall id_of place_of (ask : settings) label n prune limit m k (l : list scalar) op title (alike : scalar -> scalar -> Prop),
  let member a := Node [m] (SScalar m k) (EScalar m a) in
  let root := Node [] (SList n prune limit (SScalar m k)) (EList n (map (EScalar m) l)) in
  identified id_of place_of root -> st_down (ask []) = [] -> st_checks (ask []) = [] ->
  st_optional (ask [m]) = false -> st_checks (ask [m]) = [not_duplicated_check op title] -> (forall u, plain (st_context (ask [m]) u) label) ->
  (forall a b, exists r, op (member a) (member b) = Ok r /\ (r = true <-> alike a b)) ->
  let message := label ++ lit " may not be repeated within " ++ vtext (title root) ++ lit "." in
  forall errors V, exists F errors' V' b, (forall fuel, F <= fuel -> validate_form (form_of id_of place_of ask root) fuel errors V (id_of []) = (errors', V', Ok b))
    /\ (b = true <-> (l = [] -> st_optional (ask []) = true) /\ forall i j x y, j < i -> nth_error l i = Some x -> nth_error l j = Some y -> ~ alike x y)
    /\ forall i x, nth_error l i = Some x ->
         ((forall j y, j < i -> nth_error l j = Some y -> ~ alike x y) -> V' (id_of [i]) = Valid /\ errors' (id_of [i]) = errors (id_of [i]))
         /\ forall j y, j < i -> nth_error l j = Some y -> alike x y -> V' (id_of [i]) = Invalid /\ noted (errors (id_of [i])) [message] (errors' (id_of [i])).
Proof. exact @unique_lemma. Qed.
Print Assumptions C109_unique.

(* C109: a form may be invalid and no element of it say why: a List without members *)
Theorem C109_silent_refuted : exists id_of place_of ask root errors', identified id_of place_of root /\ named_fields (nd_schema root) /\ graded ask root
  /\ (forall fuel, 2 <= fuel -> exists V', validate_form (form_of id_of place_of ask root) fuel (fun _ => []) (fun _ => Uneval) (id_of []) = (errors', V', Ok false))
  /\ forall x, errors' x = [].
Proof.
  exists sample_id, sample_place, sample_ask, (Node [] (SList (Some (lit "l")) false 9 (SScalar None (KInteger true))) (EList (Some (lit "l")) [])). eexists. split; [|split; [exact I|split; [|split]]].
  - intros [|[|j] p] H; [reflexivity|now destruct H..].
  - intros [|[|j] p] nd c E; [|discriminate|discriminate]. injection E as <-. now intros [[]|[_ []]].
  - intros fuel H. destruct fuel as [|[|fuel]]; [inversion H|inversion H as [|? H']; inversion H'|]. eexists. reflexivity.
  - reflexivity.
Qed.
Print Assumptions C109_silent_refuted.

(* C109: hypotheses met: the first age counts, and it is in letters *)
Example C109_case : NoDup (map fst sample_fields) /\ text_keys sample_sent /\ text_values sample_sent
  /\ (forall u, plain (st_context (sample_ask [Some (lit "age")]) u) (lit "age"))
  /\ exists e, set_flat (plain_form (Some (lit "o")) sample_fields) (lit "_") (fresh (plain_form (Some (lit "o")) sample_fields)) sample_sent = (e, Ok tt)
     /\ let root := Node [] (plain_form (Some (lit "o")) sample_fields) e in
        identified sample_id sample_place root
        /\ let '(errors, V, r) := validate_form (form_of sample_id sample_place sample_ask root) 9 (fun _ => []) (fun _ => Uneval) 0 in
           r = Ok false /\ errors 0 = [] /\ errors 1 = [] /\ errors 2 = [lit "age is not correct."] /\ V 0 = Valid /\ V 1 = Valid /\ V 2 = Invalid.
Proof.
  split; [repeat constructor; cbn; intuition discriminate|]. split; [now repeat constructor|]. split; [repeat constructor; eexists; reflexivity|].
  split; [intros u; unfold plain, untranslated; repeat split; try (now left); try (repeat constructor; fail); right; split; [now intros g|reflexivity]|]. eexists. split; [reflexivity|]. split; [|vm_compute; repeat split].
  intros [|j [|i p]] H; [reflexivity|reflexivity|]. destruct H. cbn. destruct j as [|[|j]]; cbn; [now destruct i|now destruct i|now destruct j].
Qed.
(* and with an age that is a number all is well *)
Example C109_good_case : exists e, set_flat (plain_form (Some (lit "o")) sample_fields) (lit "_") (fresh (plain_form (Some (lit "o")) sample_fields)) (skipn 1 sample_sent) = (e, Ok tt)
  /\ snd (validate_form (form_of sample_id sample_place sample_ask (Node [] (plain_form (Some (lit "o")) sample_fields) e)) 9 (fun _ => []) (fun _ => Uneval) 0) = Ok true.
Proof. eexists. split; [reflexivity|]. vm_compute. reflexivity. Qed.
(* C109: a List that wants at least two members, asked before and after them: both messages
   are kept *)
Example C109_container_case :
  graded two_ask (two_root []) /\ identified sample_id sample_place (two_root [])
  /\ (let '(errors, V, r) := validate_form (form_of sample_id sample_place two_ask (two_root [])) 9 (fun _ => []) (fun _ => Uneval) 0 in
      r = Ok false /\ V 0 = Invalid /\ errors 0 = [lit "Numbers must contain at least one number"; lit "Numbers must contain at least 2 numbers"])
  /\ (let '(errors, V, r) := validate_form (form_of sample_id sample_place two_ask (two_root [EScalar None (Scalar (Some (VText (lit "7"))) (VInt 7) (lit "7"))])) 9 (fun _ => []) (fun _ => Uneval) 0 in
      r = Ok false /\ V 0 = Invalid /\ V 1 = Valid /\ errors 0 = [lit "Numbers must contain at least 2 numbers"] /\ errors 1 = []).
Proof.
  assert (P : plain (sample_context (lit "Numbers")) (lit "Numbers")) by (unfold plain, untranslated; repeat split; try (now left); try (repeat constructor; fail); right; split; [now intros g|reflexivity]).
  split; [|split; [|split; vm_compute; repeat split]].
  - intros [|[|j] p] nd c E; [|discriminate|discriminate]. injection E as <-. intros [[<-|[]]|[_ [<-|[]]]]; do 2 eexists; (eapply at_least_grades; [exact P|reflexivity|now left]).
  - intros [|[|j] p] H; [reflexivity|now destruct H..].
Qed.
(* C109: hypotheses met: of the numbers 7, 8 and 7 the last is repeated *)
Example C109_unique_case :
  let root := two_root (map (EScalar None) [number 7; number 8; number 7]) in
  identified sample_id sample_place root /\ (forall u, plain (st_context (once_ask [None]) u) (lit "Number"))
  /\ (forall a b, exists r, values_match (Node [None] (SScalar None (KInteger true)) (EScalar None a)) (Node [None] (SScalar None (KInteger true)) (EScalar None b)) = Ok r /\ (r = true <-> py_eq (s_value a) (s_value b) = true))
  /\ let '(errors, V, r) := validate_form (form_of sample_id sample_place once_ask root) 9 (fun _ => []) (fun _ => Uneval) 0 in
     r = Ok false /\ V 0 = Valid /\ V 1 = Valid /\ V 2 = Valid /\ V 3 = Invalid /\ errors 0 = [] /\ errors 1 = [] /\ errors 2 = [] /\ errors 3 = [lit "Number may not be repeated within Numbers."].
Proof.
  split; [|split; [|split; [|vm_compute; repeat split]]].
  - intros [|j [|i p]] H; [reflexivity|reflexivity|]. destruct H. cbn. destruct j as [|[|[|j]]]; cbn; [now destruct i..|]. now destruct j.
  - intros u; unfold plain, untranslated; repeat split; try (now left); try (repeat constructor; fail); right; split; [now intros g|reflexivity].
  - intros a b. eexists. split; reflexivity.
Qed.
