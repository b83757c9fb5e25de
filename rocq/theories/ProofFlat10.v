(* Samples. *)
From Verif Require Import PyBase PyBaseFacts PyList ModelMap SpecScalar ModelPaths SpecPaths ModelScalar ModelCompound ModelFlat SpecFlat ProofPaths8 ProofFlat2 ProofFlat5 ProofFlat6.
Local Open Scope string_scope.

Lemma clear_text x : negb (existsb (N.eqb 95) x) && negb (existsb (N.eqb 10) x) && negb (str_eqb x []) = true -> clear_name (lit "_") (Some x).
Proof.
  intros H y [= <-]. apply andb_true_iff in H as [H H3]. apply andb_true_iff in H as [H1 H2]. split; [|split].
  - intros ->. discriminate H3.
  - intros c r [= <- _] I. apply negb_true_iff in H1. assert (existsb (N.eqb 95) x = true); [|congruence]. apply existsb_exists. now exists 95%N.
  - intros y ->. apply negb_true_iff in H2. assert (existsb (N.eqb 10) (y ++ [10%N]) = true); [|congruence].
    apply existsb_exists. exists 10%N. split; [|reflexivity]. apply in_or_app. right. now left.
Qed.
Lemma clear_line : clear_schema (lit "_") line_schema.
Proof.
  apply clear_dict. split; [easy|]. split; [repeat constructor; cbn; intuition discriminate|]. split.
  - intros f g x y [H|[H|[]]] G; [discriminate H|]. injection H as <-. cbn [schema_name]. intros [= <-].
    destruct G as [<-|[<-|[]]]; cbn [snd schema_name]; intros [=]; auto.
  - intros b f [[= <- <-]|[[= <- <-]|[]]]; (split; [easy|]); (split; [now apply clear_text|]); [easy|split; easy].
Qed.
Lemma clear_sample : clear_schema (lit "_") sample_schema.
Proof.
  apply clear_dict. split; [now apply clear_text|]. split; [repeat constructor; cbn; intuition discriminate|]. split.
  - intros f g x y [H|[H|[]]]; discriminate H.
  - intros b f [[= <- <-]|[[= <- <-]|[]]]; (split; [easy|]); (split; [now apply clear_text|]); [easy|split; [exact clear_line|discriminate]].
Qed.
Ltac pick H := cbn in H; repeat destruct H as [H|H]; try (now destruct H); try discriminate H; try (injection H as <-).
Lemma is_of_sample : is_of sample_schema sample_element.
Proof.
  apply is_of_dict. split; [easy|]. split; [easy|]. split; [repeat constructor; cbn; intuition discriminate|]. split; [cbn; intuition|].
  intros b f [[= <- <-]|[[= <- <-]|[]]]; (split; [|intros; cbn; auto]); intros u H; pick H; [easy|].
  split; [easy|]. apply Forall_cons; [|apply Forall_cons; [|apply Forall_nil]]; apply is_of_dict; (split; [easy|]); (split; [easy|]); (split; [repeat constructor; cbn; intuition discriminate|]); (split; [cbn; intuition|]);
    intros b f [[= <- <-]|[[= <- <-]|[]]]; (split; [|intros; cbn; auto; try discriminate]); intros u H; pick H; cbn; auto.
Qed.
Lemma kept_sample : kept false sample_schema sample_element.
Proof.
  apply kept_dict. intros b f [[= <- <-]|[[= <- <-]|[]]] u Hu; pick Hu; (split; [|discriminate]).
  - exists (Some (VText (lit "hi"))), true. vm_compute. reflexivity.
  - split; [easy|]. split.
    + apply Forall_cons; [|apply Forall_cons; [|apply Forall_nil]]; apply kept_dict; intros b f [[= <- <-]|[[= <- <-]|[]]] u Hu; pick Hu.
      * split; [|discriminate]. exists (Some (VText (lit "-1"))), true. vm_compute. reflexivity.
      * split; [split|].
        -- apply Forall_cons; [|apply Forall_cons; [|apply Forall_nil]]; eexists _, true; vm_compute; reflexivity.
        -- apply Forall_cons; [|apply Forall_cons; [|apply Forall_nil]]; exists []; eexists _, _; (split; [reflexivity|]); (split; [reflexivity|discriminate]).
        -- intros _. exists [O]. eexists _, _. split; [reflexivity|]. split; [reflexivity|discriminate].
      * split; [|discriminate]. exists (Some (VText (lit "3"))), true. vm_compute. reflexivity.
    + apply Forall_cons; [|apply Forall_cons; [|apply Forall_nil]]; exists [O]; eexists _, _; (split; [reflexivity|]); (split; [reflexivity|discriminate]).
Qed.
Lemma plain_l0x : plain_key (lit "_") (lit "l_0_x").
Proof.
  split; [|split].
  - intros a ds b E ND D NA NB.
    assert (G : forall x y z w v : N, x :: y :: z :: w :: v :: [] = (a ++ ds ++ b)%list -> is_digit x = false -> is_digit y = false -> z = 48%N -> is_digit w = false -> is_digit v = false -> ds = [48%N]).
    { clear E. intros x y z w v E Dx Dy -> Dw Dv. destruct ds as [|d ds]; [easy|]. apply Forall_cons_iff in D as [D1 D2].
      destruct a as [|a0 [|a1 [|a2 [|a3 [|a4 a]]]]]; cbn in E; injection E as; subst; try congruence.
      2:{ destruct a; discriminate. }
      f_equal. destruct ds as [|d' ds]; [easy|]. apply Forall_cons_iff in D2 as [D2 _]. cbn in *. congruence. }
    rewrite (G _ _ _ _ _ E); try reflexivity. split; [|now left]. repeat constructor; easy.
  - intros r E. change (lit "l_0_x") with (lit "l_0_" ++ lit "x")%list in E. apply app_inj_tail in E as [_ E]. discriminate E.
  - intros r E. change (lit "l_0_x") with (lit "l_0_" ++ lit "x")%list in E. apply app_inj_tail in E as [_ E]. discriminate E.
Qed.
Lemma same_scalar_inv n a e : same (EScalar n a) e -> exists b, e = EScalar n b /\ s_value a = s_value b /\ s_u a = s_u b.
Proof. intros H. inversion H; subst. eauto. Qed.
Lemma same_list_inv n l e : same (EList n l) e -> exists l', e = EList n l' /\ List.length l = List.length l'.
Proof. intros H. inversion H as [| |? ? l' F| |]; subst. exists l'. split; [easy|]. clear H. now induction F; cbn; [|f_equal]. Qed.
Lemma unrestricted :
  let loses s e := exists fuel fl e', flatten_element fuel e (lit "_") = Ok fl
    /\ set_flat s (lit "_") (fresh s) (as_flat fl) = (e', Ok tt) /\ is_of s e /\ ~ same e e' in
  loses (SScalar None (KString true)) (EScalar None (plain_text "a"))
  /\ loses (SScalar (text "s") (KString true)) (EScalar (text "s") blank)
  /\ loses (SList (text "l") true 9 (SScalar None (KString true))) (EList (text "l") [EScalar None (plain_text "")])
  /\ loses (SList (text "l") false 9 (SList None false 9 (SScalar None (KString true)))) (EList (text "l") [EList None []])
  /\ loses (SDict None None [(true, SDict (text "a") None [(true, SScalar (text "b_c") (KString true))]);
                        (true, SDict (text "a_b") None [(true, SScalar (text "c") (KString true))])])
           (EDict None None [(text "a", EDict (text "a") None [(text "b_c", EScalar (text "b_c") (plain_text "1"))]);
                        (text "a_b", EDict (text "a_b") None [(text "c", EScalar (text "c") (plain_text "2"))])]).
Proof.
  cbn zeta. split; [|split; [|split; [|split]]]; exists 9%nat; eexists _, _;
    (split; [vm_compute; reflexivity|]); (split; [vm_compute; reflexivity|]); split.
  - easy.
  - intros H. apply same_scalar_inv in H as (b & [= <-] & H & _). discriminate H.
  - easy.
  - intros H. apply same_scalar_inv in H as (b & [= <-] & H & _). discriminate H.
  - cbn. split; [easy|]. repeat constructor.
  - intros H. apply same_list_inv in H as (l & [= <-] & H). discriminate H.
  - cbn. split; [easy|]. repeat constructor.
  - intros H. apply same_list_inv in H as (l & [= <-] & H). discriminate H.
  - apply is_of_dict. split; [easy|]. split; [easy|]. split; [repeat constructor; cbn; intuition discriminate|]. split; [cbn; intuition|].
    intros b f [[= <- <-]|[[= <- <-]|[]]]; (split; [|intros; cbn; auto]); intros u H; pick H;
    (apply is_of_dict; split; [easy|]; split; [easy|]; split; [repeat constructor; cbn; intuition discriminate|]; split; [cbn; intuition|];
     intros b f [[= <- <-]|[]]; (split; [|intros; cbn; auto]); intros u H; pick H; easy).
  - intros H. inversion H as [|? ? ? ? ? S| | |]; subst.
    specialize (S _ _ _ (or_intror (or_introl eq_refl)) (or_intror (or_introl eq_refl))).
    inversion S as [|? ? ? ? ? S2| | |]; subst. specialize (S2 _ _ _ (or_introl eq_refl) (or_introl eq_refl)).
    apply same_scalar_inv in S2 as (b & E & V & _). injection E as <-. discriminate V.
Qed.
Lemma similar_name : exists s e e' k, is_of s e /\ ~ matters (lit "_") s k
  /\ set_flat s (lit "_") e [] = (e, Ok tt)
  /\ set_flat s (lit "_") e [(Some k, VText [])] = (e', Ok tt) /\ ~ same e e'.
Proof.
  exists (SDict None None [(true, SList (text "a") true 9 (SScalar None (KString true)))]),
         (EDict None None [(text "a", EList (text "a") [EScalar None (plain_text "1")])]).
  eexists _, (lit "ab"). split; [|split; [|split; [|split; [vm_compute; reflexivity|]]]].
  - apply is_of_dict. split; [easy|]. split; [easy|]. split; [repeat constructor; cbn; intuition discriminate|]. split; [cbn; intuition|].
    intros b f [[= <- <-]|[]]; (split; [|intros; cbn; auto]); intros u H; pick H. cbn. split; [easy|]. repeat constructor.
  - intros (r & E & [(x & y & _ & _ & M)|[]]). cbn in E. subst r. specialize (M eq_refl). cbn in M. destruct M as (i & r & M).
    assert (P : forall p, prefixed (text "a") (lit "_") p -> p = lit "a_").
    { intros p H. inversion H as [z E N|E]; [now injection E as <-|]. destruct E; discriminate. }
    inversion M as [p ds j H ND NU E|p ds j H ND NU E|p ds j r' H ND NU NR E|p ds j H ND NU NS E]; apply P in H; subst p; discriminate E.
  - reflexivity.
  - intros H. inversion H as [|? ? ? ? ? S| | |]; subst. specialize (S _ _ _ (or_introl eq_refl) (or_introl eq_refl)).
    apply same_list_inv in S as (l & E & L). injection E as <-. discriminate L.
Qed.
Lemma sample_irrelevant : set_flat sample_schema (lit "_") (fresh sample_schema) sample_pairs
  = set_flat sample_schema (lit "_") (fresh sample_schema)
      (flat_of [("o_l_7_x", "3"); ("o_s", "hi"); ("o_l_2_x", "-1"); ("o_l_2_t", "b"); ("o_l_2_t", "a"); ("o_l_5_x", "")])
  /\ concerns (lit "_") sample_schema (lit "o_l_7_x") /\ ~ concerns (lit "_") sample_schema (lit "p_s").
Proof.
  split; [vm_compute; reflexivity|]. split.
  - eexists true, _, (lit "l"), (lit "_7_x"). split; [right; left; reflexivity|]. split; reflexivity.
  - intros (b & f & x & y & H & E & K). destruct H as [[= <- <-]|[[= <- <-]|[]]]; cbn in E; injection E as <-; discriminate K.
Qed.
Lemma meeting_names : exists t p q n m, proper t /\ p <> q /\ ~ siblings t p q
  /\ node_at t p = Some (Leaf n) /\ node_at t q = Some (Leaf m)
  /\ flattened_name t (Node p) (lit "_") = flattened_name t (Node q) (lit "_").
Proof.
  exists (Map None true [(text "a", Map (text "a") true [(text "b_c", Leaf (text "b_c"))]); (text "a_b", Map (text "a_b") true [(text "c", Leaf (text "c"))])]).
  exists [0; 0]%nat, [0; 1]%nat, (text "b_c"), (text "c"). split.
  { apply proper_b_ok. vm_compute. reflexivity. }
  split; [discriminate|]. split; [|split; [reflexivity|split; [reflexivity|vm_compute; reflexivity]]].
  intros (i & j & r & n & b & l & E1 & E2 & _). congruence.
Qed.
Lemma clear_month : clear_schema (lit "_") (SDict (text "d") (Some dashed) month_fields).
Proof.
  apply clear_dict. split; [now apply clear_text|]. split; [repeat constructor; cbn; intuition discriminate|]. split.
  - intros f g x y [H|[H|[]]]; discriminate H.
  - intros b f [[= <- <-]|[[= <- <-]|[]]]; (split; [easy|]); (split; [now apply clear_text|]); easy.
Qed.
Lemma clear_mixed : clear_schema (lit "_") mixed_schema.
Proof.
  apply clear_dict. split; [easy|]. split; [repeat constructor; cbn; intuition discriminate|]. split.
  - intros f g x y [H|[H|[H|[]]]]; discriminate H.
  - intros b f [[= <- <-]|[[= <- <-]|[[= <- <-]|[]]]]; (split; [easy|]).
    + split; [now apply clear_text|easy].
    + exact clear_month.
    + split; [now apply clear_text|]. split; [exact clear_month|discriminate].
Qed.
Lemma is_of_month y m sy sm : is_of (SDict (text "d") (Some dashed) month_fields) (month y m sy sm).
Proof.
  apply is_of_dict. split; [easy|]. split; [easy|]. split; [repeat constructor; cbn; intuition discriminate|]. split; [cbn; intuition|].
  intros b f [[= <- <-]|[[= <- <-]|[]]]; (split; [|intros; cbn; auto]); intros u H; pick H; easy.
Qed.
Lemma is_of_mixed : is_of mixed_schema mixed_element.
Proof.
  apply is_of_dict. split; [easy|]. split; [easy|]. split; [repeat constructor; cbn; intuition discriminate|]. split; [cbn; intuition|].
  intros b f [[= <- <-]|[[= <- <-]|[[= <- <-]|[]]]]; (split; [|intros; cbn; auto]); intros u H; pick H.
  - easy.
  - apply is_of_month.
  - split; [easy|]. apply Forall_cons; [|apply Forall_nil]. apply is_of_month.
Qed.
Lemma kept_mixed : kept false mixed_schema mixed_element.
Proof.
  apply kept_dict. intros b f [[= <- <-]|[[= <- <-]|[[= <- <-]|[]]]] u Hu; pick Hu; (split; [|discriminate]).
  - exists [plain_text "a"; plain_text "b"], true. split; [vm_compute; reflexivity|]. repeat constructor.
  - apply kept_dict. intros b f [[= <- <-]|[[= <- <-]|[]]] u Hu; pick Hu; (split; [|discriminate]); eexists _, true; vm_compute; reflexivity.
  - split; [easy|]. split.
    + apply Forall_cons; [|apply Forall_nil]. apply kept_dict. intros b f [[= <- <-]|[[= <- <-]|[]]] u Hu; pick Hu; (split; [|discriminate]); eexists _, true; vm_compute; reflexivity.
    + apply Forall_cons; [|apply Forall_nil]. exists [O]. eexists _, _. split; [reflexivity|]. split; [reflexivity|discriminate].
Qed.
Lemma nameless_compounds : exists s e fuel fl, s = SList (text "l") true 9 (SDict None (Some dashed) month_fields)
  /\ is_of s e /\ flatten_element fuel e (lit "_") = Ok fl
  /\ snd (set_flat s (lit "_") (fresh s) (as_flat fl)) = Err AttributeErr.
Proof.
  eexists _, (EList (text "l") [EDict None (Some dashed) [(text "y", EScalar (text "y") (whole 1 "1")); (text "m", EScalar (text "m") (whole 2 "2"))]]), 9%nat, _.
  split; [reflexivity|]. split; [|split; [vm_compute; reflexivity|vm_compute; reflexivity]].
  split; [easy|]. apply Forall_cons; [|apply Forall_nil]. apply is_of_dict.
  split; [easy|]. split; [easy|]. split; [repeat constructor; cbn; intuition discriminate|]. split; [cbn; intuition|].
  intros b f [[= <- <-]|[[= <- <-]|[]]]; (split; [|intros; cbn; auto]); intros u H; pick H; easy.
Qed.
Lemma joined_lossy : exists e fuel fl e', is_of (SJoined (text "t") commas) e
  /\ flatten_element fuel e (lit "_") = Ok fl
  /\ set_flat (SJoined (text "t") commas) (lit "_") (fresh (SJoined (text "t") commas)) (as_flat fl) = (e', Ok tt) /\ ~ same e e'.
Proof.
  exists (EJoined (text "t") commas [plain_text "a,b"]), 9%nat. eexists _, _. split; [easy|]. split; [vm_compute; reflexivity|].
  split; [vm_compute; reflexivity|]. intros H. inversion H as [| | | |? ? ? ? F]; subst. inversion F as [|? ? ? ? _ F2]; subst. inversion F2.
Qed.
