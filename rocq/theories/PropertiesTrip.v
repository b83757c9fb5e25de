(* C106: data through flat pairs and forms and back. *)
From Verif Require Import PyBase ModelUtil ModelMap SpecScalar ModelPaths SpecPaths ModelScalar ModelFlat SpecFlat ModelNest SpecAgain SpecTrip ProofFlat10 ProofTrip.
From Verif Require SpecForm ModelGenshi SpecGenshi SpecPost.

(* C106: setting data that comes back succeeds and stores it; the flattened
   pairs of the element, set on a new element, give the data again *)
Theorem C106_trip : forall object sep s n d, separator sep -> clear_schema sep s -> shows s -> matching s n -> comes_back false s d ->
  exists r e, nested_set object n (empty n) d = (r, Ok true) /\ dressed s r e /\ same_data (record_value r) d
  /\ exists f fl, (forall fuel, (f <= fuel)%nat -> flatten_element fuel e sep = Ok fl)
  /\ exists e' v, set_flat s sep (fresh s) (as_flat fl) = (e', Ok tt) /\ gives e' v /\ same_data v d.
Proof. exact @trip. Qed.
Print Assumptions C106_trip.

(* C106: the two descriptions of an element agree: one element per record, of
   the same value *)
Theorem C106_one : forall s r e e', named_fields s -> dressed s r e -> dressed s r e' -> e = e' /\ gives e (record_value r).
Proof. exact (fun s r e e' N D D' => conj (dressed_one s N r e e' D D') (dressed_value s r e D)). Qed.
Print Assumptions C106_one.

(* C106: by the form that a generator draws of the element *)
Theorem C106_form : forall object s n d r env g e kind xs l g' outs,
  clear_schema (lit "_") s -> shows s -> matching s n -> comes_back false s d ->
  nested_set object n (empty n) d = (r, Ok true) -> dressed s r e ->
  SpecForm.flattened_parts e xs -> map snd l = map (SpecForm.field kind e) xs ->
  Forall (fun cb => SpecForm.suited (fst cb) (snd cb)) l -> Forall (fun cb => SpecForm.has_place (fst cb) (snd cb)) l ->
  SpecForm.form_settings g -> SpecForm.form_drawn env g l g' outs ->
  exists fl, SpecForm.submitted outs fl /\ exists e' v, set_flat s (lit "_") (fresh s) (as_flat fl) = (e', Ok tt) /\ gives e' v /\ same_data v d.
Proof. exact @trip_form. Qed.
Print Assumptions C106_form.

(* C106: by the form that a template draws of it *)
Theorem C106_page : forall object s n d r env filters rc ns e kind xs l rc' out,
  clear_schema (lit "_") s -> shows s -> matching s n -> comes_back false s d ->
  nested_set object n (empty n) d = (r, Ok true) -> dressed s r e ->
  SpecForm.flattened_parts e xs -> map snd l = map (SpecForm.field kind e) xs -> Forall SpecPost.fit l ->
  Forall (fun wb => SpecForm.has_place (SpecPost.control_of (fst wb)) (snd wb)) l ->
  SpecPost.template_settings rc -> SpecGenshi.renders env filters rc (SpecPost.form_page ns l) rc' out ->
  exists fl, SpecPost.posted out fl /\ exists e' v, set_flat s (lit "_") (fresh s) (as_flat fl) = (e', Ok tt) /\ gives e' v /\ same_data v d.
Proof. exact @trip_page. Qed.
Print Assumptions C106_page.

(* C106: the values that come back: what a scalar takes unchanged and writes
   without loss (see C09); None in what has no value when blank, or where blank
   texts are dropped *)
Theorem C106_values : forall p k,
  (forall v st, scalar_set k blank v = (st, Ok true) -> s_value st = v -> v <> VNone -> real_val v -> lossless k v -> sound_texts k ->
     (p = true -> s_u st <> []) -> takes p k v)
  /\ (adapt k VNone = Ok VNone -> p = true \/ never_blank k -> takes p k VNone).
Proof. exact (fun p k => conj (takes_lossless p k) (takes_none p k)). Qed.
Print Assumptions C106_values.

(* None in a String, a blank member of a pruning List, an empty last member, an
   empty List in a SparseDict and more members than the limit do not come back *)
Theorem C106_unrestricted_refuted :
  let loses s n d := clear_schema (lit "_") s /\ shows s /\ matching s n /\ exists r e fuel fl e' v,
    nested_set (fun _ => VNone) n (empty n) d = (r, Ok true) /\ dressed s r e /\ record_value r = d
    /\ flatten_element fuel e (lit "_") = Ok fl /\ set_flat s (lit "_") (fresh s) (as_flat fl) = (e', Ok tt) /\ gives e' v /\ ~ same_data v d in
  loses (SScalar (text "s") (KString true)) (NScalar (KString true)) (DVal VNone)
  /\ loses (SList (text "l") true 9 (SScalar None (KString true))) (NSeq OfList (NScalar (KString true))) (DSeq [word ""; word "a"])
  /\ loses (SList (text "l") false 9 (SList None false 9 (SScalar None (KString true)))) (NSeq OfList (NSeq OfList (NScalar (KString true)))) (DSeq [DSeq []])
  /\ loses (SDict None None [(false, SScalar (text "s") (KString true)); (false, SList (text "l") true 9 (SScalar None (KString true)))])
           (NDict Subset [((text "s", false), NScalar (KString true)); ((text "l", false), NSeq OfList (NScalar (KString true)))])
           (DMap [(text "s", word "a"); (text "l", DSeq [])])
  /\ loses (SList (text "l") true 1 (SScalar None (KString true))) (NSeq OfList (NScalar (KString true))) (DSeq [word "a"; word "b"]).
Proof. exact trip_lossy. Qed.
Print Assumptions C106_unrestricted_refuted.

(* a Dict with a String and a List of SparseDicts with an Integer and an Array *)
Example C106_case : separator (lit "_") /\ clear_schema (lit "_") sample_schema /\ shows sample_schema /\ matching sample_schema sample_nested
  /\ comes_back false sample_schema sample_data
  /\ snd (nested_set (fun _ => VNone) sample_nested (empty sample_nested) sample_data) = Ok true
  /\ record_value (fst (nested_set (fun _ => VNone) sample_nested (empty sample_nested) sample_data)) =
     DMap [(text "s", word "hi");
           (text "l", DSeq [DMap [(text "x", DVal (VInt (-1))); (text "t", DSeq [word "b"; word "a"])]; DMap [(text "x", DVal (VInt 3))]])].
Proof.
  split; [exact (ex_intro _ 95%N (ex_intro _ [] (conj eq_refl eq_refl)))|]. split; [exact clear_sample|]. split; [exact Logic.I|].
  split; [exact matching_sample|]. split; [exact comes_sample|]. split; vm_compute; reflexivity.
Qed.
