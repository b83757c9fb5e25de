(* The controls of all that is flattened of an element read back as what flatten() gives. *)
From Verif Require Import PyBase PyBaseFacts ModelPaths SpecPaths ModelScalar ModelFlat SpecFlat ProofFlat2 ProofFlat3 ProofFlat4 ProofFlat5 ProofFlat8.
From Verif Require Import ProofFlat10.
From Verif Require ModelMarkup SpecMarkup SpecForm ProofForm.

Lemma fields_named kind s e x : clear_schema (lit "_") s -> shows s -> is_of s e -> text_at e x = true ->
  ModelMarkup.b_name (SpecForm.field kind e x) <> [].
Proof.
  intros C R O S. destruct x as [p|]; [|easy]. cbn in S. cbn [SpecForm.field ModelMarkup.b_name].
  destruct (part e p) as [u|] eqn:P; [|easy]. destruct (own_text u) as [w|] eqn:W; [|easy].
  assert (node_at (tree_of e) p <> None) as N by (rewrite node_part, P; easy).
  rewrite name_lemma by exact N.
  assert (names_to (tree_of e) p <> []) as NE.
  { apply (cells_named 95%N [] s e C R O _ (u_at e (Node p))). rewrite cells_leaves. apply in_map_iff. exists p. split; [easy|]. apply In_leaves. eauto. }
  pose proof (names_good 95%N [] (tree_of e) p eq_refl (is_of_clear_tree _ _ _ C O) N) as G.
  change (lit "_") with [95%N]. destruct (names_to (tree_of e) p) as [|y l]; [easy|]. now apply (join_nonempty 95%N).
Qed.
Lemma generation_end t e n k : generation t e n = [] -> (n <= k)%nat -> generation t e k = [].
Proof. intros E L. induction L as [|k L IH]; [exact E|]. cbn [generation]. now rewrite IH. Qed.
Lemma generations_end t e n k : generation t e n = [] -> generation t e k = [] -> generations t e n = generations t e k.
Proof.
  assert (W : forall n d, generation t e n = [] -> generations t e (n + d) = generations t e n).
  { intros i d E. unfold generations. rewrite seq_app, flat_map_app, (flat_map_concat_map _ (seq (0 + i) d)).
    replace (List.concat _) with (@nil elem); [apply app_nil_r|]. symmetry. apply concat_nil_Forall, Forall_forall. intros x I.
    apply in_map_iff in I as (j & <- & I). apply in_seq in I. apply (generation_end t e i); [exact E|lia]. }
  intros A B. destruct (Nat.le_ge_cases n k) as [L|L].
  - replace k with (n + (k - n))%nat by lia. now rewrite W.
  - replace n with (k + (n - k))%nat by lia. now rewrite W.
Qed.
Lemma form_lemma env g s e kind xs l g' outs :
  clear_schema (lit "_") s -> shows s -> is_of s e -> kept false s e ->
  SpecForm.flattened_parts e xs -> map snd l = map (SpecForm.field kind e) xs ->
  Forall (fun cb => SpecForm.suited (fst cb) (snd cb)) l ->
  SpecForm.form_settings g -> SpecForm.form_drawn env g l g' outs ->
  SpecForm.submitted outs (List.concat (map (fun cb => SpecForm.sent (fst cb) (snd cb)) l))
  /\ (Forall (fun cb => SpecForm.has_place (fst cb) (snd cb)) l -> exists fl, SpecForm.submitted outs fl
    /\ (exists f, forall fuel, (f <= fuel)%nat -> flatten_element fuel e (lit "_") = Ok fl)
    /\ exists e', set_flat s (lit "_") (fresh s) (as_flat fl) = (e', Ok tt) /\ same e e').
Proof.
  intros C R O K (n & E & X) L Q F D.
  destruct (ProofForm.drawn_lemma env g l g' outs F D) as [P _].
  { apply Forall_forall. intros cb I. split; [rewrite Forall_forall in Q; now apply Q|].
    assert (In (snd cb) (map (SpecForm.field kind e) xs)) as I2 by (rewrite <- L; now apply in_map).
    apply in_map_iff in I2 as (x & <- & I2). rewrite X in I2. apply filter_In in I2 as [_ I2]. now apply (fields_named kind s). }
  split; [exact P|]. intros H.
  destruct (flatten_back_lemma (lit "_") s e) as (f & fl & Hf & B); [now exists 95%N, []|easy..|].
  assert (fl = map (fun x => (flattened_name (tree_of e) x (lit "_"), u_at e x)) xs) as Efl.
  { destruct (flatten_element_lemma e (lit "_")) as (n' & f' & E' & H').
    assert (flatten_element (Nat.max f f') e (lit "_") = Ok fl) as A by (apply Hf; lia). rewrite H' in A by lia. injection A as <-.
    rewrite X. now rewrite (generations_end (tree_of e) (Node []) n n' E E'). }
  exists fl. split; [|split; [now exists f|exact B]].
  replace fl with (List.concat (map (fun cb => SpecForm.sent (fst cb) (snd cb)) l)); [exact P|].
  subst fl. clear -L H. revert xs L. induction H as [|[c b] l H _ IH]; intros [|x xs] L; try easy. cbn [map snd] in L. injection L as -> L.
  cbn [map List.concat fst snd]. cbn [fst snd] in H. rewrite (ProofForm.sent_place _ _ H), (IH xs L). reflexivity.
Qed.

(* ---------------- a form ---------------- *)
Local Open Scope string_scope.
Definition sample_xs : list elem := map Node [[0]; [0; 0; 1]; [0; 1; 1]; [0; 1; 0; 1]; [1; 1; 0; 1]]%nat.
Definition sample_kind (x : elem) : ModelMarkup.bkind :=
  match x with Node [1; 1; 0; 1]%nat => ModelMarkup.BBoolean (lit "a") | _ => ModelMarkup.BOther end.
Definition sample_controls : list SpecForm.control :=
  [SpecForm.Area []; SpecForm.Menu false [SpecForm.Pick (Some (lit "0")) (lit "none") [(lit "class_", ModelMarkup.MText (lit "n"))]; SpecForm.Pick None (lit "-1") []] []; SpecForm.Input [(lit "type", ModelMarkup.MText (lit "hidden"))];
   SpecForm.Choice false [lit "a"; lit "b"] [(lit "class", ModelMarkup.MText (lit "r"))]; SpecForm.Tick []].
Definition sample_fields := combine sample_controls (map (SpecForm.field sample_kind sample_element) sample_xs).
Definition no_filters : ModelMarkup.filters_env :=
  ModelMarkup.FEnv (fun _ => []) (fun _ _ a c ctx _ => (ctx, Ok (a, c))).
Lemma sample_form :
  let g := match ModelMarkup.gen_init (lit "html") [] with Ok g => g | Err _ => ModelMarkup.Gen true [] end in
  let outs := [lit "<textarea name=""o_s"">hi</textarea>"; lit "<select name=""o_l_0_x""><option value=""0"" class=""n"">none</option><option selected=""selected"">-1</option></select>";
               lit "<input type=""hidden"" name=""o_l_1_x"" value=""3"">"; lit "<input type=""radio"" name=""o_l_0_t"" value=""a"" class=""r"">";
               lit "<input type=""radio"" name=""o_l_0_t"" value=""b"" checked=""checked"" class=""r"">";
               lit "<input type=""checkbox"" name=""o_l_0_t"" value=""a"" checked=""checked"">"] in
  SpecForm.flattened_parts sample_element sample_xs
  /\ map snd sample_fields = map (SpecForm.field sample_kind sample_element) sample_xs
  /\ Forall (fun cb => SpecForm.suited (fst cb) (snd cb)) sample_fields
  /\ Forall (fun cb => SpecForm.has_place (fst cb) (snd cb)) sample_fields
  /\ SpecForm.form_settings g
  /\ SpecForm.form_drawn no_filters g sample_fields g outs
  /\ SpecForm.submitted outs [(lit "o_s", lit "hi"); (lit "o_l_0_x", lit "-1"); (lit "o_l_1_x", lit "3"); (lit "o_l_0_t", lit "b"); (lit "o_l_0_t", lit "a")].
Proof.
  intros g outs. split; [|split; [|split; [|split; [|split; [|split]]]]].
  - exists 4%nat. split; vm_compute; reflexivity.
  - reflexivity.
  - assert (Q0 : SpecForm.quiet []) by (intros k v []).
    assert (Qc : forall k t, In k [lit "class_"; lit "class"] -> SpecForm.quiet [(k, ModelMarkup.MText t)]).
    { intros k t K k' v [[= <- <-]|[]]. destruct K as [<-|[<-|[]]]; (split; [reflexivity|]; split; [eexists; reflexivity|]; split; [|vm_compute; discriminate]; vm_compute; intuition discriminate). }
    unfold sample_fields, sample_controls, sample_xs. cbn [map combine]. repeat apply Forall_cons; [..|constructor]; cbn [fst snd].
    + now split.
    + split; [exact Q0|]. split; [intros k v []|]. constructor; [|constructor; [|constructor]].
      * split; [apply Qc; now left|]. split; [vm_compute; intuition discriminate|easy].
      * split; [exact Q0|]. split; [vm_compute; intuition discriminate|now split].
    + split; [|easy]. intros k v [[= <- <-]|[]]. split; [reflexivity|]. split; [eexists; reflexivity|]. split; [vm_compute; intuition discriminate|].
      intros _ t T [E|E]; [|discriminate]. injection E as E. simpl in T.
      repeat (destruct T as [<-|T]; [vm_compute in E; discriminate|]). easy.
    + split; [apply Qc; right; now left|]. intros k v [[= <- <-]|[]]. vm_compute. discriminate.
    + split; [exact Q0|]. split; [intros k v []|]. eexists. reflexivity.
  - unfold sample_fields, sample_controls, sample_xs. cbn [map combine]. repeat apply Forall_cons; [..|constructor]; cbn [fst snd]; try exact I.
    + split; [right; left; reflexivity|]. split; [discriminate|easy].
    + split; [|split; [right; left; reflexivity|discriminate]]. constructor; [intros [E|[]]; discriminate|]. constructor; [easy|constructor].
    + reflexivity.
  - eexists _, _. split; [vm_compute; reflexivity|]. split; [|split; [reflexivity|split]].
    + intros k K. simpl in K. repeat (destruct K as [<-|K]; [eexists; reflexivity|]). easy.
    + intros v [= <-] [E|[E _]]; [discriminate|]. apply E. exists true. now left.
    + intros v [= <-] [E|[E _]]; [discriminate|]. apply E. exists true. now left.
  - unfold sample_fields, sample_controls, sample_xs, outs. cbn [map combine].
    eapply (SpecForm.fd_cons _ _ _ _ _ _ _ [_]); [eapply SpecForm.cd_calls; [reflexivity|]; (eapply SpecForm.dr_cons; [vm_compute; reflexivity|constructor])|].
    eapply (SpecForm.fd_cons _ _ _ _ _ _ _ [_]).
    { eapply SpecForm.cd_menu; [cbn [map]; repeat (eapply SpecForm.dr_cons; [vm_compute; reflexivity|]); constructor|vm_compute; reflexivity]. }
    eapply (SpecForm.fd_cons _ _ _ _ _ _ _ [_]); [eapply SpecForm.cd_calls; [reflexivity|]; (eapply SpecForm.dr_cons; [vm_compute; reflexivity|constructor])|].
    eapply (SpecForm.fd_cons _ _ _ _ _ _ _ [_; _]).
    { eapply SpecForm.cd_calls; [reflexivity|]. cbn [map]. repeat (eapply SpecForm.dr_cons; [vm_compute; reflexivity|]). constructor. }
    eapply (SpecForm.fd_cons _ _ _ _ _ _ _ [_]); [eapply SpecForm.cd_calls; [reflexivity|]; (eapply SpecForm.dr_cons; [vm_compute; reflexivity|constructor])|constructor].
  - unfold outs. match goal with |- SpecForm.submitted _ ?fl => change fl with
      ([(lit "o_s", lit "hi")] ++ [(lit "o_l_0_x", lit "-1")] ++ [(lit "o_l_1_x", lit "3")] ++ [] ++ [(lit "o_l_0_t", lit "b")] ++ [(lit "o_l_0_t", lit "a")] ++ [])%list end.
    repeat (constructor; [vm_compute; reflexivity|]). constructor.
Qed.
