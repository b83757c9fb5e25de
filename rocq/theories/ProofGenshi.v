(* Proofs: streams reduced to text. *)
From Verif Require Import PyBase ModelMarkup SpecMarkup ModelGenshi SpecGenshi.

Lemma esizes_app a b : esizes (a ++ b) = esizes a + esizes b.
Proof. unfold esizes. now rewrite map_app, list_sum_app. Qed.
Lemma esizes_cons e l : esizes (e :: l) = esize e + esizes l.
Proof. reflexivity. Qed.
Lemma esize_pos e : 1 <= esize e.
Proof. destruct e; cbn; lia. Qed.
Lemma splices_app a b : splices (a ++ b) = splices a ++ splices b.
Proof. apply flat_map_app. Qed.
Lemma splices_cons e l : splices (e :: l) = spliced e ++ splices l.
Proof. reflexivity. Qed.
Lemma tags_app a b : tags_in (a ++ b) = tags_in a + tags_in b.
Proof. unfold tags_in. now rewrite splices_app, filter_app, app_length. Qed.
Lemma chars_none (s : str) : filter is_event (map inl s) = [].
Proof. induction s; cbn; auto. Qed.
Lemma tags_cons e l : tags_in (e :: l) = tags_in [e] + tags_in l.
Proof. apply (tags_app [e]). Qed.
Lemma tags_text h s : tags_in [Text h s] = 0.
Proof. unfold tags_in, splices. cbn [flat_map spliced]. now rewrite app_nil_r, chars_none. Qed.
Lemma tags_expr h s : tags_in [Expr h s] = 0.
Proof. unfold tags_in, splices. cbn [flat_map spliced]. now rewrite app_nil_r, chars_none. Qed.
Lemma tags_iter l : tags_in [Iter l] = tags_in l.
Proof. unfold tags_in, splices. cbn [flat_map spliced]. now rewrite app_nil_r. Qed.
Lemma reads_tags l t : reads l t -> tags_in l = 0.
Proof.
  induction 1; [easy| | |]; rewrite tags_cons.
  - now rewrite tags_text. - now rewrite tags_expr. - rewrite tags_iter. lia.
Qed.
Lemma reads_splices l t : reads l t -> splices l = map inl t.
Proof.
  induction 1; [easy| | |]; rewrite splices_cons, map_app.
  - now rewrite IHreads. - now rewrite IHreads.
  - cbn [spliced]. fold (splices l1). now rewrite IHreads1, IHreads2.
Qed.

(* ---- a stream of text ---- *)
Lemma join_app p q : join_parts (p ++ q) = bind (join_parts p) (fun s => rmap (app s) (join_parts q)).
Proof.
  induction p as [|[s|] p IH]; cbn [app join_parts bind].
  - destruct (join_parts q); reflexivity.
  - rewrite IH. destruct (join_parts p); cbn [bind rmap]; [|easy]. destruct (join_parts q); cbn [rmap]; [|easy].
    now rewrite app_assoc.
  - reflexivity.
Qed.
Lemma simplify_reads l t : reads l t -> forall fuel done parts, esizes l < fuel ->
  simplify_loop fuel done parts l = rmap (fun s => inl (s ++ t)) (join_parts parts).
Proof.
  induction 1; intros fuel done parts F; (destruct fuel; [lia|]); rewrite ?esizes_cons in F; cbn [simplify_loop].
  - destruct (join_parts parts); cbn; [|easy]. now rewrite app_nil_r.
  - cbn [esize] in F. rewrite IHreads by lia. rewrite join_app. cbn [join_parts rmap].
    destruct (join_parts parts); cbn; [|easy]. now rewrite app_nil_r, <- app_assoc.
  - cbn [esize] in F. rewrite IHreads by lia. rewrite join_app. cbn [join_parts rmap].
    destruct (join_parts parts); cbn; [|easy]. now rewrite app_nil_r, <- app_assoc.
  - cbn [esize] in F. fold (esizes l1) in F. rewrite IHreads1 by lia. cbn [join_parts rmap bind app].
    rewrite IHreads2 by lia. rewrite join_app. cbn [join_parts rmap].
    destruct (join_parts parts); cbn; [|easy]. now rewrite app_nil_r, <- app_assoc.
Qed.

(* ---- any stream ---- *)
Definition plain_head (l : list event) : Prop := match l with Iter _ :: _ => False | _ => True end.
Lemma sound_app a b : sound a -> sound b -> sound (a ++ b).
Proof. induction 1; intros B; cbn [app]; [easy| |]; constructor; auto. Qed.
Lemma sound_tail e l : sound (e :: l) -> sound l.
Proof. inversion 1; auto. Qed.
Lemma sound_text h s l : sound l -> sound (Text h s :: l).
Proof. intros. constructor; [now intros|easy]. Qed.
Lemma sound_expr h s l : sound l -> sound (Expr h s :: l).
Proof. intros. constructor; [now intros|easy]. Qed.
Lemma sound_iter l1 l : sound (Iter l1 :: l) -> sound l1 /\ (tags_in l1 = 0 \/ 2 <= tags_in l1) /\ sound l.
Proof. inversion 1 as [|? ? ? ? ?|? ? D ?]; subst; [easy|]. now elim (D l1). Qed.
Lemma one_tag e : (forall l, e <> Iter l) -> tags_in [e] <= 1.
Proof.
  destruct e as [q a|q|h s|h s|l|ds l|n]; intros D; [cbn; lia|cbn; lia| | | |cbn; lia|cbn; lia].
  - rewrite tags_text. lia. - rewrite tags_expr. lia. - now elim (D l).
Qed.
Lemma plain_head_app done l x : plain_head (done ++ [x]) -> plain_head ((done ++ [x]) ++ l).
Proof. destruct done; cbn; auto. Qed.
Lemma plain_snoc done x : plain_head done -> plain_head [x] -> plain_head (done ++ [x]).
Proof. destruct done; cbn; auto. Qed.

Lemma simplify_main : forall fuel done parts rest, esizes rest < fuel ->
  match simplify_loop fuel done parts rest with
  | Ok (inl t) => exists t1 t2, join_parts parts = Ok t1 /\ reads rest t2 /\ t = t1 ++ t2
  | Ok (inr l) => splices l = splices (done ++ rest) /\ esizes l <= esizes done + esizes rest
                  /\ 1 <= tags_in l /\ (plain_head done -> plain_head l)
                  /\ (sound done -> sound rest -> sound l)
  | Err e => e = TypeErr /\ ~ (sound rest /\ (1 <= tags_in rest \/ exists s, join_parts parts = Ok s))
  end.
Proof.
  induction fuel as [|fuel IH]; intros done parts rest F; [lia|].
  assert (Stop : forall e r, rest = e :: r -> (forall l, e <> Iter l) -> spliced e = [inr e] ->
    splices (done ++ rest) = splices (done ++ rest) /\ esizes (done ++ rest) <= esizes done + esizes rest
    /\ 1 <= tags_in (done ++ rest) /\ (plain_head done -> plain_head (done ++ rest))
    /\ (sound done -> sound rest -> sound (done ++ rest))).
  { intros e r -> D S. rewrite esizes_app. repeat split; [lia| | |].
    - rewrite tags_app, tags_cons. unfold tags_in at 2, splices at 1. cbn [flat_map]. rewrite S. cbn. lia.
    - destruct done; [|easy]. intros _. destruct e; try exact I. now elim (D l).
    - apply sound_app. }
  assert (Step : forall s x r, rest = x :: r -> spliced x = map inl s -> plain_head [x] -> esize x = 1 -> tags_in [x] = 0 ->
    (forall t, reads r t -> reads rest (s ++ t)) ->
    match simplify_loop fuel (done ++ [x]) (parts ++ [Some s]) r with
    | Ok (inl t) => exists t1 t2, join_parts parts = Ok t1 /\ reads rest t2 /\ t = t1 ++ t2
    | Ok (inr l) => splices l = splices (done ++ rest) /\ esizes l <= esizes done + esizes rest
                    /\ 1 <= tags_in l /\ (plain_head done -> plain_head l)
                    /\ (sound done -> sound rest -> sound l)
    | Err e => e = TypeErr /\ ~ (sound rest /\ (1 <= tags_in rest \/ exists s, join_parts parts = Ok s))
    end).
  { intros s x r -> Sx Hx Z T R. rewrite esizes_cons in F |- *. specialize (IH (done ++ [x]) (parts ++ [Some s]) r ltac:(lia)).
    destruct (simplify_loop fuel (done ++ [x]) (parts ++ [Some s]) r) as [[t|l]|e].
    - destruct IH as (t1 & t2 & J & Rd & ->). rewrite join_app in J. destruct (join_parts parts) as [t0|]; [|easy].
      cbn in J. injection J as <-. exists t0, (s ++ t2). split; [easy|]. split; [now apply R|]. rewrite app_nil_r. now rewrite app_assoc.
    - destruct IH as (A & B & C & D & E). rewrite <- app_assoc in A. rewrite esizes_app, esizes_cons in B. change (esizes []) with 0 in B.
      split; [exact A|]. split; [lia|]. split; [easy|]. split; [intros; apply D; now apply plain_snoc|].
      intros S1 S2. apply E; [|now apply sound_tail in S2]. apply sound_app; [easy|]. constructor; [|constructor].
      intros l0 ->. exact Hx.
    - destruct IH as (-> & N0). split; [easy|]. intros (S1 & K). apply N0. split; [now apply sound_tail in S1|].
      rewrite tags_cons, T in K. destruct K as [K|(s0 & K)]; [now left|right].
      rewrite join_app, K. cbn. eauto. }
  cbn [simplify_loop]. destruct rest as [|e r].
  - destruct (join_parts parts) as [t|e] eqn:J; cbn [rmap].
    + exists t, []. rewrite app_nil_r. repeat split. constructor.
    + split.
      * clear -J. revert e J. induction parts as [|[s|] p IHp]; intros e; cbn; [easy| |congruence].
        destruct (join_parts p); cbn; [easy|]. intros E. injection E as <-. now apply IHp.
      * intros (_ & [K|(s & K)]); [|discriminate]. cbn in K. lia.
  - destruct e as [q a|q|h s|h s|l1|ds l|n].
    + now apply (Stop _ r eq_refl).
    + now apply (Stop _ r eq_refl).
    + apply (Step s _ r eq_refl); try easy; [apply tags_text|intros; now constructor].
    + apply (Step s _ r eq_refl); try easy; [apply tags_expr|intros; now constructor].
    + rewrite esizes_cons in F. cbn [esize] in F. fold (esizes l1) in F.
      pose proof (IH [] [] l1 ltac:(lia)) as I1.
      destruct (simplify_loop fuel [] [] l1) as [[t|l']|e]; cbn [bind].
      * destruct I1 as (t1 & t2 & J & Rd & ->). cbn in J. injection J as <-. cbn [app].
        pose proof (IH (done ++ [Text false t2]) (parts ++ [Some t2]) r ltac:(lia)) as I2.
        destruct (simplify_loop fuel (done ++ [Text false t2]) (parts ++ [Some t2]) r) as [[t|l]|e].
        -- destruct I2 as (u1 & u2 & J & Rd2 & ->). rewrite join_app in J. destruct (join_parts parts) as [t0|]; [|easy].
           cbn in J. injection J as <-. exists t0, (t2 ++ u2). split; [easy|]. split; [now constructor|].
           rewrite app_nil_r. now rewrite app_assoc.
        -- destruct I2 as (A & B & C & D & E). rewrite A, <- app_assoc, !splices_app. split.
           { cbn [app]. rewrite !splices_cons. cbn [spliced].
             fold (splices l1). rewrite (reads_splices _ _ Rd). cbn [app splices flat_map]. now rewrite ?app_nil_r, <- ?app_assoc. }
           rewrite esizes_app, esizes_cons in B. change (esizes []) with 0 in B. cbn [esize] in B.
           split; [rewrite esizes_cons; cbn [esize]; lia|]. split; [easy|]. split; [intros; apply D; now apply plain_snoc|].
           intros S1 S2. apply sound_iter in S2 as (_ & _ & S2). apply E; [|easy]. apply sound_app; [easy|]. now repeat constructor.
        -- destruct I2 as (-> & N0). split; [easy|]. intros (S1 & K). apply sound_iter in S1 as (_ & _ & S1).
           apply N0. split; [easy|]. rewrite tags_cons, tags_iter, (reads_tags _ _ Rd) in K.
           destruct K as [K|(s0 & K)]; [now left|right]. rewrite join_app, K. cbn. eauto.
      * destruct I1 as (A & B & C & D & E). specialize (D I). specialize (E so_nil).
        destruct l' as [|e l']; [cbn in C; lia|]. cbn [app]. change (esizes []) with 0 in B. rewrite esizes_cons in B.
        pose proof (esize_pos e) as Pe.
        pose proof (IH (done ++ [e]) (parts ++ [None]) (l' ++ r) ltac:(rewrite esizes_app; lia)) as I2.
        cbn [app] in A.
        destruct (simplify_loop fuel (done ++ [e]) (parts ++ [None]) (l' ++ r)) as [[t|l]|x].
        -- destruct I2 as (u1 & u2 & J & _). rewrite join_app in J. destruct (join_parts parts); cbn in J; discriminate.
        -- destruct I2 as (A2 & B2 & C2 & D2 & E2). split.
           { rewrite A2, !splices_app, !splices_cons. cbn [spliced]. fold (splices l1).
             rewrite <- A, splices_cons. change (splices []) with (@nil (N + event)). now rewrite app_nil_r, <- !app_assoc. }
           rewrite !esizes_app, esizes_cons in B2. change (esizes []) with 0 in B2. rewrite esizes_cons. cbn [esize]. fold (esizes l1).
           split; [lia|]. split; [easy|]. split; [intros; apply D2; now apply plain_snoc|].
           intros S1 S2. apply sound_iter in S2 as (S2 & _ & S3). apply E in S2. apply E2.
           ++ apply sound_app; [easy|]. constructor; [|constructor]. intros l0 ->. exact D.
           ++ apply sound_app; [|easy]. now apply sound_tail in S2.
        -- destruct I2 as (-> & N0). split; [easy|]. intros (S1 & K). apply sound_iter in S1 as (S1 & T & S3). apply N0.
           assert (P : forall l0, e <> Iter l0) by (intros l0 ->; exact D).
           split; [apply sound_app; [|easy]; apply E in S1; now apply sound_tail in S1|]. left.
           assert (tags_in (e :: l') = tags_in l1) as Q by (unfold tags_in; now rewrite A).
           rewrite tags_app. rewrite tags_cons in Q. rewrite tags_cons in C. pose proof (one_tag e P). lia.
      * destruct I1 as (-> & N0). split; [easy|]. intros (S1 & K). apply sound_iter in S1 as (S1 & T & S3). apply N0.
        split; [easy|]. right. cbn. eauto.
    + now apply (Stop _ r eq_refl).
    + now apply (Stop _ r eq_refl).
Qed.

Lemma simplify_text l t : simplify l = Ok (inl t) <-> reads l t.
Proof.
  unfold simplify. split.
  - intros E. pose proof (simplify_main (S (esizes l)) [] [] l ltac:(lia)) as M. rewrite E in M.
    destruct M as (t1 & t2 & J & R & ->). cbn in J. now injection J as <-.
  - intros R. rewrite (simplify_reads l t R) by lia. reflexivity.
Qed.
Lemma simplify_events l l' : simplify l = Ok (inr l') -> splices l' = splices l /\ (forall t, ~ reads l t) /\ 1 <= tags_in l.
Proof.
  unfold simplify. intros E. pose proof (simplify_main (S (esizes l)) [] [] l ltac:(lia)) as M. rewrite E in M.
  destruct M as (A & _ & C & _). cbn [app] in A. split; [easy|]. split.
  - intros t R. rewrite (simplify_reads l t R) in E by lia. discriminate.
  - unfold tags_in in *. now rewrite A in C.
Qed.
Lemma simplify_error l e : simplify l = Err e -> e = TypeErr /\ ~ sound l.
Proof.
  unfold simplify. intros E. pose proof (simplify_main (S (esizes l)) [] [] l ltac:(lia)) as M. rewrite E in M.
  destruct M as (-> & N0). split; [easy|]. intros S. apply N0. split; [easy|]. right. cbn. eauto.
Qed.
(* nothing but text: it always reads *)
Lemma reads_total : forall n l, esizes l < n -> tags_in l = 0 -> exists t, reads l t.
Proof.
  induction n as [|n IH]; intros l F T; [lia|]. destruct l as [|e l]; [exists []; constructor|].
  rewrite esizes_cons in F. rewrite tags_cons in T.
  destruct (IH l ltac:(pose proof (esize_pos e); lia) ltac:(lia)) as (t & R).
  destruct e as [q a|q|h s|h s|l1|ds l1|k]; try (cbn in T; lia).
  - exists (s ++ t). now constructor.
  - exists (s ++ t). now constructor.
  - cbn [esize] in F. fold (esizes l1) in F. rewrite tags_iter in T. destruct (IH l1 ltac:(lia) ltac:(lia)) as (t1 & R1).
    exists (t1 ++ t). now constructor.
Qed.
Lemma simplify_cases l : (tags_in l = 0 -> exists t, reads l t /\ simplify l = Ok (inl t))
  /\ (1 <= tags_in l -> (exists l', simplify l = Ok (inr l') /\ splices l' = splices l) \/ simplify l = Err TypeErr /\ ~ sound l).
Proof.
  split; intros T.
  - destruct (reads_total (S (esizes l)) l ltac:(lia) T) as (t & R). exists t. split; [easy|]. now apply simplify_text.
  - destruct (simplify l) as [[t|l']|e] eqn:E.
    + apply simplify_text, reads_tags in E. lia.
    + left. exists l'. split; [easy|]. now apply simplify_events in E.
    + right. apply simplify_error in E as (-> & ?). now split.
Qed.
