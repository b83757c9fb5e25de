(* Pages: tags, blocks and changes of settings. *)
From Verif Require Import PyBase PyBaseFacts ModelMarkup SpecMarkup ProofMarkup ProofMarkup5.
From Verif Require Import ModelGenshi SpecGenshi SpecAgree ProofGenshi3 ProofGenshi5 ProofGenshi6 ProofAgree ProofAgree2.
From Verif Require Import SpecForm.

Lemma controls_split (l : list (string * string * str)) : let ds := map (fun p => DControl (lit (fst (fst p))) [PText (snd p)]) l in splits ds [] ds.
Proof. intros ds. subst ds. induction l as [|p l IH]; [constructor|]. cbn [map]. constructor; [discriminate|exact IH]. Qed.
Lemma written_aget a0 m a' : written a0 m a' -> forall k, aget qname_eqb (QName None k) a' = option_map inl (aget str_eqb k m).
Proof. intros [_ L _]. exact L. Qed.
Lemma renders_plain env filters rc l : (forall e, In e l -> shown_as e = Some e) -> renders env filters rc l rc l.
Proof.
  induction l as [|e l IH]; intros H; [now apply renders_nil|]. change (e :: l) with ([e] ++ l). apply renders_app. exists rc, [e], l.
  split; [|split; [apply IH; intros x I; apply H; now right|reflexivity]]. apply (renders_one env filters rc e e); [apply H; now left|]. now split.
Qed.
Lemma escaped_decodes u s : markup_escape (MText u) = Ok s -> decode content_table content_bad s = Some u.
Proof.
  intros E. destruct (markup_escape_safe u) as [_ H]. unfold markup_escape in E. cbn [truth bind] in E.
  destruct u as [|x u]; cbn [negb] in E; injection E as <-; [reflexivity|exact H].
Qed.

Lemma remainder_cases xml d p tag body : body = [] /\ In (remainder xml d p tag body) [lit " />"; lit ">"]
  \/ remainder xml d p tag body = lit ">" ++ body ++ lit "</" ++ tag ++ lit ">".
Proof.
  destruct body as [|x s]; [|now right]. cbn [remainder]. destruct p; [now right|]. destruct xml; [left; split; [reflexivity|now left]|].
  destruct d; [left; split; [reflexivity|right; now left]|now right].
Qed.

Section Pages.
Context (env : filters_env) (filters : mv -> res mv).

Lemma mark_step m rc g t ts gt gs : proper_mark m -> render_frames rc = t :: ts -> g_frames g = gt :: gs -> alike t gt ->
  (exists t' gt' out a' mid, alike t' gt' /\ same_tag m out a' mid
     /\ gen_step env g (mark_call m) = (Gen (g_xml g) (gt' :: gs), Ok out)
     /\ renders env filters rc [mark_event m] (Some (t' :: ts)) (Start (mark_name m) a' :: mid ++ [End (mark_name m)]))
  \/ ((exists g' e, gen_step env g (mark_call m) = (g', Err e)) /\ forall rc' out, ~ renders env filters rc [mark_event m] rc' out).
Proof.
  intros P Fr G A. destruct (transform_alike env (mk_tag m) (mark_pairs m) (mark_text m) t gt (mk_element m) A) as [Es A'].
  destruct (rewrite_mark env m rc t ts (mk_element m) P eq_refl Fr (al_filters _ _ A)) as (ex & Ex & Nx & R).
  destruct (call_mark env m g gt gs P G (al_ordered _ _ A')) as [C1 C2].
  pose proof (renders_bound env filters rc (DBind (mk_element m) :: mark_controls m) (mk_element m) (mark_controls m) (mark_name m) (mark_attrs m)
    (match mk_contents m with Some t => [Text false t] | None => [] end ++ [End (mark_name m)])) as B.
  assert (splits (DBind (mk_element m) :: mark_controls m) [] (DBind (mk_element m) :: mark_controls m)) as Sp.
  { constructor; [discriminate|]. apply controls_split. }
  destruct (transform env (mk_tag m) (mark_pairs m) (mark_text m) t (mk_element m)) as [t' [[a c]|e]] eqn:T;
    destruct (transform env (mk_tag m) (mark_pairs m) (mark_text m) gt (mk_element m)) as [gt' r] eqn:T'; cbn [fst snd] in *; subst r.
  - left. destruct (transform_texts _ _ _ _ _ _ _ _ _ (al_filters _ _ A) (mark_texts m P) T) as [Tx Fc].
    destruct (C1 gt' a c eq_refl Tx Fc) as (out & pairs & Eg & Pt & Np & Gp).
    assert (written (mark_attrs m) a (write_attrs (sort_attrs a) (mark_attrs m) ex)) as Wr.
    { apply write_spec; [reflexivity|reflexivity|exact Ex|exact Nx|apply Tx]. }
    exists t', gt', out, (write_attrs (sort_attrs a) (mark_attrs m) ex), (mark_mid c). split; [exact A'|]. split; [|split; [exact Eg|]].
    + exists pairs, (remainder (g_xml g) (mk_dangle m) (mk_paired m) (mk_tag m) (match c with MText s | MHtml s => s | _ => [] end)), (match c with MText s | MHtml s => s | _ => [] end).
      split; [exact Pt|]. split; [exact Np|]. split; [|split; [|split]].
      * intros k v. rewrite (written_aget _ _ _ Wr). split.
        -- destruct (aget str_eqb k a) as [w|] eqn:Ek; [|easy]. cbn [option_map]. intros [= <-]. apply Gp in Ek as (x & -> & Ep). now exists x.
        -- intros (x & -> & Ep). assert (aget str_eqb k a = Some (MText x)) as -> by (apply Gp; now exists x). reflexivity.
      * intros n k. rewrite (wr_foreign _ _ _ Wr). unfold mark_attrs. clear. induction (mk_attrs m) as [|p l IH]; [reflexivity|]. cbn [map aget]. rewrite foreign_eqb. exact IH.
      * apply remainder_cases.
      * destruct Fc as [->|(el & s & Be & -> & Em)].
        -- unfold mark_text. destruct (mk_contents m) as [x|] eqn:Cx; cbn [mark_mid]; [now apply in_given|now apply in_none].
        -- cbn [mark_mid]. eapply in_filled; [exact Be|]. now apply escaped_decodes.
    + apply (B (Some (t' :: ts)) _ Sp). exists (Some (t' :: ts)). eexists. split; [exact R|]. apply renders_plain.
      intros e [<-|I]; [reflexivity|]. apply in_app_or in I as [I|[<-|[]]]; [|reflexivity].
      destruct c; cbn [mark_mid] in I; try easy; destruct I as [<-|[]]; reflexivity.
  - right. split.
    + eexists _, _. apply C2. reflexivity.
    + intros rc' out H. apply (B rc' out Sp) in H as (rc1 & l & R' & _). rewrite R in R'. discriminate.
Qed.

Lemma drawn_app g l1 l2 g2 outs : drawn env g (l1 ++ l2) g2 outs <->
  exists g1 o1 o2, drawn env g l1 g1 o1 /\ drawn env g1 l2 g2 o2 /\ outs = o1 ++ o2.
Proof.
  split.
  - revert g outs. induction l1 as [|o l1 IH]; intros g outs H.
    + exists g, [], outs. split; [constructor|]. now split.
    + cbn [app] in H. inversion H as [|? ? g1 out ? ? outs' E D]; subst. apply IH in D as (g3 & o1 & o2 & D1 & D2 & ->).
      exists g3, (out :: o1), o2. split; [econstructor; eassumption|]. now split.
  - intros (g1 & o1 & o2 & D1 & D2 & ->). induction D1; [exact D2|]. cbn [app]. econstructor; [eassumption|auto].
Qed.
Lemma drawn_unique g l g1 o1 g2 o2 : drawn env g l g1 o1 -> drawn env g l g2 o2 -> g1 = g2 /\ o1 = o2.
Proof.
  intros D1. revert g2 o2. induction D1 as [g|g o g1 out rest g3 outs E D IH]; intros g2 o2 D2; inversion D2 as [|? ? g1' out' ? ? outs' E' D']; subst; [easy|].
  rewrite E in E'. injection E' as <- <-. apply IH in D' as [-> ->]. easy.
Qed.

Lemma page_ind (Q : list item -> Prop) : Q [] -> (forall m p, Q p -> Q (Draw m :: p)) ->
  (forall s l p, Q l -> Q p -> Q (Within s l :: p)) -> (forall s p, Q p -> Q (Change s :: p)) -> forall p, Q p.
Proof.
  intros H0 HD HW HC. assert (forall i p, Q p -> Q (i :: p)) as H.
  { fix F 1. intros [m|s l|s] p Qp; [now apply HD| |now apply HC]. apply HW; [|exact Qp].
    induction l as [|i l IH]; [exact H0|]. apply F. exact IH. }
  induction p as [|i p IH]; [exact H0|now apply H].
Qed.

Definition both (p : list item) (rc : option (list frame)) (g : gen) (ts gs : list frame) : Prop :=
  exists rc' t' gt' outs out, render_frames rc' = t' :: ts /\ alike t' gt'
    /\ drawn env g (flat_map item_calls p) (Gen (g_xml g) (gt' :: gs)) outs
    /\ renders env filters rc (map item_event p) rc' out /\ agree p outs out.
Definition neither (p : list item) (rc : option (list frame)) (g : gen) : Prop :=
  (forall g' outs, ~ drawn env g (flat_map item_calls p) g' outs) /\ (forall rc' out, ~ renders env filters rc (map item_event p) rc' out).
Lemma page_steps : forall p, Forall proper p -> forall rc g t ts gt gs,
  render_frames rc = t :: ts -> g_frames g = gt :: gs -> gs <> [] -> alike t gt -> both p rc g ts gs \/ neither p rc g.
Proof.
  induction p as [|m p IH|s l p IHl IH|s p IH] using page_ind; intros Pp rc [x fr] t ts gt gs Fr G Ng A; cbn in G; subst fr.
  - left. exists rc, t, gt, [], []. split; [exact Fr|]. split; [exact A|]. split; [constructor|]. split; [now apply renders_nil|constructor].
  - inversion Pp as [|? ? Pm Pp']; subst. inversion Pm as [? Pk| |]; subst. cbn [flat_map item_calls map item_event app].
    destruct (mark_step m rc (Gen x (gt :: gs)) t ts gt gs Pk Fr eq_refl A) as [(t' & gt' & out & a' & mid & A' & Sm & Eg & R)|[(g' & e & Eg) R]].
    + destruct (IH Pp' (Some (t' :: ts)) (Gen x (gt' :: gs)) t' ts gt' gs eq_refl eq_refl Ng A') as [(rc2 & t2 & g2 & outs & o2 & F2 & A2 & D2 & R2 & Ag)|[N1 N2]].
      * left. exists rc2, t2, g2, (out :: outs), ((Start (mark_name m) a' :: mid ++ [End (mark_name m)]) ++ o2). split; [exact F2|]. split; [exact A2|].
        split; [econstructor; [exact Eg|exact D2]|]. split.
        -- change (renders env filters rc ([mark_event m] ++ map item_event p) rc2 ((Start (mark_name m) a' :: mid ++ [End (mark_name m)]) ++ o2)).
           apply renders_app. exists (Some (t' :: ts)). eexists _, _. split; [exact R|]. split; [exact R2|reflexivity].
        -- cbn [app]. rewrite <- app_assoc. cbn [app]. now constructor.
      * right. split.
        -- intros g3 o3 D. cbn in D. inversion D as [|? ? g1 o1 ? ? os E D']; subst. rewrite Eg in E. injection E as <- <-. now apply N1 in D'.
        -- intros rc3 o3 H. change (renders env filters rc ([mark_event m] ++ map item_event p) rc3 o3) in H. apply renders_app in H as (rc1 & o1 & o2 & H1 & H2 & _).
           destruct (renders_unique _ _ _ _ _ _ _ _ H1 R) as [-> _]. now apply N2 in H2.
    + right. split.
      * intros g3 o3 D. cbn in D. inversion D as [|? ? g1 o1 ? ? os E D']; subst. rewrite Eg in E. discriminate.
      * intros rc3 o3 H. change (renders env filters rc ([mark_event m] ++ map item_event p) rc3 o3) in H. apply renders_app in H as (rc1 & o1 & o2 & H1 & _). now apply R in H1.
  - inversion Pp as [|? ? Pm Pp']; subst. inversion Pm as [|? ? (Ns & Nf & No) Pl|]; subst.
    pose proof (update_alike s t gt A Nf No) as U.
    assert (forall s', evaluated filters s s' -> s' = s) as Ev.
    { intros s' E. inversion E as [|v w ? Gf]; subst; [reflexivity|]. elim Nf. apply sget_in. eauto. }
    assert (evaluated filters s s) as Ev'. { apply ev_none. apply sget_out. exact Nf. }
    assert (forall rc' out, renders env filters rc [Sub [DWith s] (map item_event l)] rc' out <-> exists s' f f', evaluated filters s s' /\ updated t s' f
      /\ renders env filters (Some (f :: t :: ts)) (map item_event l) (Some (f' :: t :: ts)) out /\ rc' = Some (t :: ts)) as RW.
    { intros rc' out. apply renders_with; [repeat constructor; discriminate|exact Fr|exact Ns|apply (al_dict _ _ A)]. }
    change (map item_event (Within s l :: p)) with ([Sub [DWith s] (map item_event l)] ++ map item_event p) in *.
    unfold both, neither. change (map item_event (Within s l :: p)) with ([Sub [DWith s] (map item_event l)] ++ map item_event p).
    change (flat_map item_calls (Within s l :: p)) with (OBegin s :: (flat_map item_calls l ++ [OEnd]) ++ flat_map item_calls p).
    rewrite <- app_assoc. cbn [app].
    destruct (ctx_update t s) as [t1 [e1|]] eqn:U1; destruct (ctx_update gt s) as [g1 [e2|]] eqn:U2; try easy.
    + right. split.
      * intros g3 o3 D. inversion D as [|? ? g4 o1 ? ? os E D']; subst. cbn in E. rewrite U2 in E. discriminate.
      * intros rc3 o3 H. change (Sub [DWith s] (map item_event l) :: map item_event p) with ([Sub [DWith s] (map item_event l)] ++ map item_event p) in H.
        apply renders_app in H as (rc1 & o1 & o2 & H1 & _). apply RW in H1 as (s' & f & f' & E & Uf & _). apply Ev in E. subst s'.
        apply update_iff in Uf; [|apply (al_dict _ _ A)]. rewrite U1 in Uf. discriminate.
    + assert (gen_step env (Gen x (gt :: gs)) (OBegin s) = (Gen x (g1 :: gt :: gs), Ok [])) as Eb. { cbn. now rewrite U2. }
      destruct (IHl Pl (Some (t1 :: t :: ts)) (Gen x (g1 :: gt :: gs)) t1 (t :: ts) g1 (gt :: gs) eq_refl eq_refl ltac:(discriminate) U)
        as [(rc2 & t2 & g2 & outs & o2 & F2 & A2 & D2 & R2 & Ag)|[N1 N2]].
      * assert (gen_step env (Gen x (g2 :: gt :: gs)) OEnd = (Gen x (gt :: gs), Ok [])) as Ee. { destruct gs as [|y gs]; [easy|]. reflexivity. }
        assert (rc2 = Some (t2 :: t :: ts)) as ->. { destruct rc2 as [fs|]; cbn in F2; [congruence|discriminate]. }
        assert (renders env filters rc [Sub [DWith s] (map item_event l)] (Some (t :: ts)) o2) as RWs.
        { apply RW. exists s, t1, t2. split; [exact Ev'|]. split; [apply update_iff; [apply (al_dict _ _ A)|exact U1]|]. split; [exact R2|reflexivity]. }
        destruct (IH Pp' (Some (t :: ts)) (Gen x (gt :: gs)) t ts gt gs eq_refl eq_refl Ng A) as [(rc3 & t3 & g3 & outs3 & o3 & F3 & A3 & D3 & R3 & Ag3)|[M1 M2]].
        -- left. exists rc3, t3, g3, ([] :: outs ++ [] :: outs3), (o2 ++ o3). split; [exact F3|]. split; [exact A3|]. split; [|split].
           ++ econstructor; [exact Eb|]. apply drawn_app. exists (Gen x (g2 :: gt :: gs)). eexists _, _. split; [exact D2|]. split; [econstructor; [exact Ee|exact D3]|reflexivity].
           ++ change (Sub [DWith s] (map item_event l) :: map item_event p) with ([Sub [DWith s] (map item_event l)] ++ map item_event p).
              apply renders_app. exists (Some (t :: ts)). eexists _, _. split; [exact RWs|]. split; [exact R3|reflexivity].
           ++ now constructor.
        -- right. split.
           ++ intros g4 o4 D. inversion D as [|? ? g5 o1 ? ? os E D']; subst. rewrite Eb in E. injection E as <- <-.
              apply drawn_app in D' as (g6 & q1 & q2 & Q1 & Q2 & _). destruct (drawn_unique _ _ _ _ _ _ Q1 D2) as [-> _].
              inversion Q2 as [|? ? g7 q3 ? ? os' E' D'']; subst. cbn [g_xml] in E'. rewrite Ee in E'. injection E' as <- <-. now apply M1 in D''.
           ++ intros rc4 o4 H. change (Sub [DWith s] (map item_event l) :: map item_event p) with ([Sub [DWith s] (map item_event l)] ++ map item_event p) in H.
              apply renders_app in H as (rc1 & o1 & o5 & H1 & H2 & _). destruct (renders_unique _ _ _ _ _ _ _ _ H1 RWs) as [-> _]. now apply M2 in H2.
      * right. split.
        -- intros g4 o4 D. inversion D as [|? ? g5 o1 ? ? os E D']; subst. rewrite Eb in E. injection E as <- <-.
           apply drawn_app in D' as (g6 & q1 & q2 & Q1 & _). now apply N1 in Q1.
        -- intros rc4 o4 H. change (Sub [DWith s] (map item_event l) :: map item_event p) with ([Sub [DWith s] (map item_event l)] ++ map item_event p) in H.
           apply renders_app in H as (rc1 & o1 & o5 & H1 & _). apply RW in H1 as (s' & f & f' & E & Uf & H1 & _). apply Ev in E. subst s'.
           apply update_iff in Uf; [|apply (al_dict _ _ A)]. rewrite U1 in Uf. injection Uf as <-. now apply N2 in H1.
  - inversion Pp as [|? ? Pm Pp']; subst. inversion Pm as [| |? (Ns & Nf & No)]; subst.
    pose proof (set_alike s t gt A Nf No) as U.
    assert (forall rc' out, renders env filters rc [Sub [DSet s] []] rc' out <-> exists f, updated t s f /\ renders env filters (Some (f :: ts)) [] rc' out) as RS.
    { intros rc' out. apply renders_set; [repeat constructor; discriminate|exact Fr|apply (al_dict _ _ A)]. }
    unfold both, neither. change (map item_event (Change s :: p)) with ([Sub [DSet s] []] ++ map item_event p).
    change (flat_map item_calls (Change s :: p)) with (OSet s :: flat_map item_calls p).
    destruct (ctx_update t s) as [t1 [e1|]] eqn:U1; destruct (gen_set_loop gt s) as [g1 [e2|]] eqn:U2; try easy.
    + right. split.
      * intros g3 o3 D. inversion D as [|? ? g4 o1 ? ? os E D']; subst. cbn in E. rewrite U2 in E. discriminate.
      * intros rc3 o3 H. apply renders_app in H as (rc1 & o1 & o2 & H1 & _). apply RS in H1 as (f & Uf & _).
        apply update_iff in Uf; [|apply (al_dict _ _ A)]. rewrite U1 in Uf. discriminate.
    + assert (gen_step env (Gen x (gt :: gs)) (OSet s) = (Gen x (g1 :: gs), Ok [])) as Eb. { cbn. now rewrite U2. }
      assert (renders env filters rc [Sub [DSet s] []] (Some (t1 :: ts)) []) as RWs.
      { apply RS. exists t1. split; [apply update_iff; [apply (al_dict _ _ A)|exact U1]|now apply renders_nil]. }
      destruct (IH Pp' (Some (t1 :: ts)) (Gen x (g1 :: gs)) t1 ts g1 gs eq_refl eq_refl Ng U) as [(rc3 & t3 & g3 & outs3 & o3 & F3 & A3 & D3 & R3 & Ag3)|[M1 M2]].
      * left. exists rc3, t3, g3, ([] :: outs3), o3. split; [exact F3|]. split; [exact A3|]. split; [econstructor; [exact Eb|exact D3]|]. split; [|now constructor].
        apply renders_app. exists (Some (t1 :: ts)), [], o3. split; [exact RWs|]. split; [exact R3|reflexivity].
      * right. split.
        -- intros g4 o4 D. inversion D as [|? ? g5 o1 ? ? os E D']; subst. rewrite Eb in E. injection E as <- <-. now apply M1 in D'.
        -- intros rc4 o4 H. apply renders_app in H as (rc1 & o1 & o5 & H1 & H2 & _). destruct (renders_unique _ _ _ _ _ _ _ _ H1 RWs) as [-> _]. now apply M2 in H2.
Qed.

(* from settings in step: both succeed with the same tags and end in step, or
   neither succeeds *)
Lemma pages_agree p rc g : Forall proper p -> in_step rc g ->
  (exists rc' g' outs out, drawn env g (flat_map item_calls p) g' outs /\ renders env filters rc (map item_event p) rc' out
     /\ agree p outs out /\ in_step rc' g')
  \/ ((forall g' outs, ~ drawn env g (flat_map item_calls p) g' outs) /\ forall rc' out, ~ renders env filters rc (map item_event p) rc' out).
Proof.
  intros P (t & ts & gt & gs & Fr & G & Ng & A). destruct (page_steps p P rc g t ts gt gs Fr G Ng A) as [(rc' & t' & gt' & outs & out & F' & A' & D & R & Ag)|N]; [|now right].
  left. exists rc'. eexists _, outs, out. split; [exact D|]. split; [exact R|]. split; [exact Ag|]. exists t', ts, gt', gs. cbn [g_frames]. auto.
Qed.
End Pages.

(* a new template and a new generator *)
Lemma start_in_step markup g : gen_init markup [] = Ok g -> in_step None g.
Proof.
  unfold gen_init. intros H. assert (exists xml, g = Gen xml [set "ordered_attributes" (MBool true) default_context; set "ordered_attributes" (MBool true) default_context]) as (xml & ->).
  { destruct (str_eqb markup (lit "html")); [|destruct (_ || _)]; cbn [bind] in H; try discriminate; injection H as <-; eexists; reflexivity. }
  exists default_context, []. eexists _, _. split; [reflexivity|]. split; [reflexivity|]. split; [discriminate|]. split.
  - intros k N. unfold set. rewrite sget_set. destruct (str_eqb_spec k (lit "ordered_attributes")) as [->|D]; [easy|].
    unfold same_setting. destruct (aget str_eqb k default_context) as [v|]; [|easy]. destruct (starts_with _ k); [now apply same_word_trool|reflexivity].
  - reflexivity.
  - reflexivity.
  - exists (MBool true), true. split; reflexivity.
  - vm_compute. repeat (constructor; [intros I; simpl in I; repeat (destruct I as [I|I]; [discriminate I|]); exact I|]). constructor.
Qed.

Lemma pages_both env filters p rc g : Forall proper p -> in_step rc g ->
  (forall g' outs, drawn env g (flat_map item_calls p) g' outs ->
     exists rc' out, renders env filters rc (map item_event p) rc' out /\ agree p outs out /\ in_step rc' g')
  /\ (forall rc' out, renders env filters rc (map item_event p) rc' out ->
     exists g' outs, drawn env g (flat_map item_calls p) g' outs /\ agree p outs out /\ in_step rc' g').
Proof.
  intros P I. destruct (pages_agree env filters p rc g P I) as [(rc1 & g1 & o1 & l1 & D & R & Ag & I1)|[N1 N2]]; split.
  - intros g' outs D'. destruct (drawn_unique env _ _ _ _ _ _ D D') as [-> ->]. eauto.
  - intros rc' out R'. destruct (renders_unique _ _ _ _ _ _ _ _ R R') as [-> ->]. eauto.
  - intros g' outs D. now apply N1 in D.
  - intros rc' out R. now apply N2 in R.
Qed.
