(* C100: templates and generators agree. *)
From Verif Require Import PyBase ModelMarkup SpecMarkup ModelGenshi SpecGenshi SpecForm SpecAgree ProofAgree3.

(* C100: from settings in step, a page of bound tags, blocks and changes of
   settings is either drawn by both front ends, with the same tags and settings
   in step again, or by neither *)
Theorem C100_agree : forall env filters p rc g, Forall proper p -> in_step rc g ->
  (exists rc' g' outs out,
     drawn env g (flat_map item_calls p) g' outs /\ renders env filters rc (map item_event p) rc' out
     /\ agree p outs out /\ in_step rc' g')
  \/ ((forall g' outs, ~ drawn env g (flat_map item_calls p) g' outs)
      /\ forall rc' out, ~ renders env filters rc (map item_event p) rc' out).
Proof. exact @pages_agree. Qed.
Print Assumptions C100_agree.

(* C100: what each of them gives is the only thing it gives *)
Theorem C100_both : forall env filters p rc g, Forall proper p -> in_step rc g ->
  (forall g' outs, drawn env g (flat_map item_calls p) g' outs ->
     exists rc' out, renders env filters rc (map item_event p) rc' out /\ agree p outs out /\ in_step rc' g')
  /\ (forall rc' out, renders env filters rc (map item_event p) rc' out ->
     exists g' outs, drawn env g (flat_map item_calls p) g' outs /\ agree p outs out /\ in_step rc' g').
Proof. exact @pages_both. Qed.
Print Assumptions C100_both.

(* C100: a new template and a new generator are in step *)
Theorem C100_start : forall markup g, gen_init markup [] = Ok g -> in_step None g.
Proof. exact @start_in_step. Qed.
Print Assumptions C100_start.

(* a block that numbers its controls, an input and a textarea in it, a switch of
   the settings, and a label without id *)
Definition field : belement := Bound (lit "who") (lit "a < b & c") BOther.
Definition page : list item :=
  [Within [(lit "auto_tabindex", MText (lit "on")); (lit "tabindex", MInt 7)]
     [Draw (Mark None (lit "input") true false [("auto-domid", "auto_domid", lit "yes")] [(lit "class", lit "wide"); (lit "type", lit "text")] None (Some field));
      Draw (Mark (Some (lit "ns")) (lit "textarea") false true [("auto-name", "auto_name", lit "off")] [] None (Some field))];
   Change [(lit "auto_for", MBool true)];
   Draw (Mark None (lit "label") false true [] [] (Some (lit "Who?")) (Some field))]%string.
Definition idle : filters_env := FEnv (fun _ => []) (fun _ _ a c ctx _ => (ctx, Ok (a, c))).

Example C100_page_proper : Forall proper page.
Proof.
  assert (forall m, proper_mark m -> proper (Draw m)) as D by (intros; now constructor).
  unfold page. repeat match goal with |- Forall proper _ => constructor | |- proper (Draw _) => apply D | |- proper _ => constructor end;
    unfold proper_mark, common; repeat match goal with |- _ /\ _ => split end; try reflexivity;
    try match goal with
    | |- NoDup _ => vm_compute; repeat (constructor; [intros I; simpl in I; intuition discriminate|]); constructor
    | |- Forall _ _ => repeat (constructor; [vm_compute; intuition discriminate|]); constructor
    | |- ~ _ => intros I; vm_compute in I; intuition discriminate
    end.
Qed.
Example C100_page_drawn : exists g g' outs, gen_init (lit "html") [] = Ok g /\ in_step None g /\ drawn idle g (flat_map item_calls page) g' outs
  /\ List.concat outs = lit "<input type=""text"" name=""who"" value=""a &lt; b &amp; c"" class=""wide"" id=""f_who"" tabindex=""7""><textarea tabindex=""8"">a &lt; b &amp; c</textarea><label for=""f_who"">Who?</label>".
Proof.
  eexists _, _, _. split; [reflexivity|]. split; [now apply (C100_start (lit "html"))|]. split.
  - cbn [page flat_map item_calls map app]. do 6 (econstructor; [vm_compute; reflexivity|]). constructor.
  - vm_compute. reflexivity.
Qed.
Example C100_page_rendered : exists rc' out, renders idle (fun v => Ok v) None (map item_event page) rc' out
  /\ out = [Start (QName None (lit "input")) (map (fun p : string * string => (QName None (lit (fst p)), inl (MText (lit (snd p)))))
              [("class", "wide"); ("type", "text"); ("name", "who"); ("value", "a < b & c"); ("id", "f_who"); ("tabindex", "7")]%string); End (QName None (lit "input"));
            Start (QName (Some (lit "ns")) (lit "textarea")) [(QName None (lit "tabindex"), inl (MText (lit "8")))]; Text true (lit "a &lt; b &amp; c"); End (QName (Some (lit "ns")) (lit "textarea"));
            Start (QName None (lit "label")) [(QName None (lit "for"), inl (MText (lit "f_who")))]; Text false (lit "Who?"); End (QName None (lit "label"))].
Proof. eexists _, _. split; [exists 40; vm_compute; reflexivity|]. vm_compute. reflexivity. Qed.
