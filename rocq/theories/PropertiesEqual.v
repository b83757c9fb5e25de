(* C111: fields of a form that must agree. *)
From Verif Require Import PyBase ModelScalar SpecScalar ModelValidate ModelMessage SpecMessage ModelValidators ModelReport ModelPaths SpecPaths ModelFlat SpecFlat ModelCheck SpecCheck SpecTwin ProofTwin ModelEqual SpecEqual ProofEqual.

(* C111: UnisEqual and ValuesEqual of an element anywhere in a tree, with paths by keys and
   positions from it *)
Theorem C111_compared : forall root nd p label, named_fields (nd_schema root) /\ is_of (nd_schema root) (nd_element root) -> ModelCheck.node_at root p = Some nd ->
  forall how l ls qu qus v vs ok, how = MU \/ how = MValue ->
  Forall2 (fun l qu => reaches (nd_element nd) l (fst qu) (snd qu) /\ writable l) (l :: ls) (qu :: qus) ->
  Forall2 (fun qu v => match how with MU => exists t, texted (snd qu) t /\ v = VText t | _ => valued (snd qu) v end) (qu :: qus) (v :: vs) ->
  (ok = true <-> Forall (fun w => equal_values w v) vs) ->
  exists f, forall fuel x own, f <= fuel -> plain x own ->
    grades (equal_check fuel how label (map (path_text false) (l :: ls))) x root p ok (mismatch (label (p ++ fst qu)) (map (fun qu => label (p ++ fst qu)) qus)).
Proof. exact @compared_lemma. Qed.
Print Assumptions C111_compared.

(* C111: two fields of a form, and the texts sent for them *)
Theorem C111_form : forall id_of place_of place label own n fields sep ps e f g kf kg, NoDup (map fst fields) -> text_keys ps -> text_values ps ->
  set_flat (plain_form n fields) sep (fresh (plain_form n fields)) ps = (e, Ok tt) ->
  let root := ModelCheck.Node [] (plain_form n fields) e in
  identified id_of place_of root -> In (f, kf) fields -> In (g, kg) fields -> f <> [] -> g <> [] ->
  exists i j stf stg F0, ModelCheck.node_at root [i] = Some (ModelCheck.Node [Some f] (SScalar (Some f) kf) (EScalar (Some f) stf))
    /\ ModelCheck.node_at root [j] = Some (ModelCheck.Node [Some g] (SScalar (Some g) kg) (EScalar (Some g) stg))
    /\ forall found (ask : settings), F0 <= found -> st_down (ask []) = [] ->
       st_checks (ask []) = [equal_check found MU place [path_text false [Key f]; path_text false [Key g]]] -> plain (st_context (ask []) e) own ->
       (forall f k, In (f, k) fields -> st_checks (ask [Some f]) = [converted_check] /\ forall u, plain (st_context (ask [Some f]) u) (label f)) ->
       exists F errors V b, (forall fuel, F <= fuel -> validate_form (form_of id_of place_of ask root) fuel (fun _ => []) (fun _ => Uneval) (id_of []) = (errors, V, Ok b))
         /\ (b = true <-> s_u stf = s_u stg /\ forall f k o, In (f, k) fields -> first_sent (sent_key n sep f) ps o -> accepted (st_optional (ask [Some f])) k o)
         /\ (s_u stf = s_u stg -> errors (id_of []) = [] /\ V (id_of []) = Valid)
         /\ (s_u stf <> s_u stg -> errors (id_of []) = [place [i] ++ lit " and " ++ place [j] ++ lit " do not match."] /\ V (id_of []) = Invalid)
         /\ forall f k o, In (f, k) fields -> first_sent (sent_key n sep f) ps o -> exists p st, ModelCheck.node_at root p = Some (ModelCheck.Node [Some f] (SScalar (Some f) k) (EScalar (Some f) st))
              /\ (accepted (st_optional (ask [Some f])) k o -> errors (id_of p) = [] /\ V (id_of p) = Valid)
              /\ (~ accepted (st_optional (ask [Some f])) k o -> errors (id_of p) = [label f ++ lit " is not correct."] /\ V (id_of p) = Invalid).
Proof. exact @agree_lemma. Qed.
Print Assumptions C111_form.

(* C111: the same with any one validator of the Dict *)
Theorem C111_checked : forall id_of place_of (ask : settings) label n fields sep ps e c ok m, NoDup (map fst fields) -> text_keys ps -> text_values ps ->
  set_flat (plain_form n fields) sep (fresh (plain_form n fields)) ps = (e, Ok tt) ->
  let root := ModelCheck.Node [] (plain_form n fields) e in
  identified id_of place_of root -> st_down (ask []) = [] -> st_checks (ask []) = [c] -> grades c (st_context (ask []) e) root [] ok m ->
  (forall f k, In (f, k) fields -> st_checks (ask [Some f]) = [converted_check] /\ forall u, plain (st_context (ask [Some f]) u) (label f)) ->
  exists F errors V b, (forall fuel, F <= fuel -> validate_form (form_of id_of place_of ask root) fuel (fun _ => []) (fun _ => Uneval) (id_of []) = (errors, V, Ok b))
    /\ (b = true <-> ok = true /\ forall f k o, In (f, k) fields -> first_sent (sent_key n sep f) ps o -> accepted (st_optional (ask [Some f])) k o)
    /\ errors (id_of []) = (if ok then [] else [m]) /\ V (id_of []) = (if ok then Valid else Invalid)
    /\ forall f k o, In (f, k) fields -> first_sent (sent_key n sep f) ps o -> exists p st, ModelCheck.node_at root p = Some (ModelCheck.Node [Some f] (SScalar (Some f) k) (EScalar (Some f) st))
         /\ (accepted (st_optional (ask [Some f])) k o -> errors (id_of p) = [] /\ V (id_of p) = Valid)
         /\ (~ accepted (st_optional (ask [Some f])) k o -> errors (id_of p) = [label f ++ lit " is not correct."] /\ V (id_of p) = Invalid).
Proof. exact @checked_form. Qed.
Print Assumptions C111_checked.

(* C111: the texts are compared as the fields show them: a String drops spaces around its
   text, so texts that were sent different agree, and those of fields that could not be read are
   compared too *)
Theorem C111_sent_refuted : exists again, again <> lit "abc" /\ exists e,
  set_flat (plain_form None signup_fields) (lit "_") (fresh (plain_form None signup_fields)) (signup_sent again) = (e, Ok tt)
  /\ snd (validate_form (form_of sample_id sample_place (signup_ask 9) (ModelCheck.Node [] (plain_form None signup_fields) e)) 9 (fun _ => []) (fun _ => Uneval) 0) = Ok true.
Proof. exists (lit " abc "). split; [discriminate|]. eexists. split; [reflexivity|]. vm_compute. reflexivity. Qed.
Print Assumptions C111_sent_refuted.

(* C111: hypotheses met: a password repeated wrongly *)
Example C111_case : NoDup (map fst signup_fields) /\ text_keys (signup_sent (lit "abd")) /\ text_values (signup_sent (lit "abd"))
  /\ path_text false [Key (lit "password")] = lit "password" /\ path_text false [Key (lit "again")] = lit "again"
  /\ (forall u, plain (st_context (signup_ask 9 [Some (lit "again")]) u) (lit "again"))
  /\ exists e, set_flat (plain_form None signup_fields) (lit "_") (fresh (plain_form None signup_fields)) (signup_sent (lit "abd")) = (e, Ok tt)
     /\ let root := ModelCheck.Node [] (plain_form None signup_fields) e in
        identified sample_id sample_place root
        /\ let '(errors, V, r) := validate_form (form_of sample_id sample_place (signup_ask 9) root) 9 (fun _ => []) (fun _ => Uneval) 0 in
           r = Ok false /\ errors 0 = [lit "Password and Repetition do not match."] /\ errors 1 = [] /\ errors 2 = [] /\ V 0 = Invalid /\ V 1 = Valid /\ V 2 = Valid.
Proof.
  split; [repeat constructor; cbn; intuition discriminate|]. split; [now repeat constructor|]. split; [repeat constructor; eexists; reflexivity|]. split; [reflexivity|]. split; [reflexivity|].
  split; [intros u; unfold plain, untranslated; repeat split; try (now left); try (repeat constructor; fail); right; split; [now intros g|reflexivity]|]. eexists. split; [reflexivity|]. split; [|vm_compute; repeat split].
  intros [|j [|i p]] H; [reflexivity|reflexivity|]. destruct H. cbn. destruct j as [|[|j]]; cbn; [now destruct i|now destruct i|now destruct j].
Qed.
