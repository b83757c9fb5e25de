(* Elements that hold the same are judged alike. *)
From Verif Require Import PyBase PyBaseFacts ModelMap ModelScalar SpecScalar ModelValidate ModelMessage SpecMessage ModelValidators SpecValidators ModelReport SpecReport ProofReport ModelCompound ModelFlat SpecFlat SpecSteps ProofFlat ProofFlat2 ProofFlat8 ProofFlat9 ProofFlat10 ProofAgain ProofSteps ModelCheck SpecCheck ProofCheck ProofCheck2 SpecTwin.
From Coq Require Import Lia.

Lemma same_sym : forall e e', same e e' -> same e' e.
Proof.
  induction e as [n st|n cp l IH|n l IH|n l IH|n j l] using element_ind'; intros e' H; inversion H as [? ? b A B|? ? ? l' A B|? ? l' A|? ? l' A|? ? ? l' A]; subst.
  - now constructor.
  - constructor; [intros k; symmetry; apply A|]. intros k u u' I J. rewrite Forall_forall in IH. apply (IH _ J). now apply (B k).
  - constructor. clear H. induction A as [|a b l l' X Y IHA]; constructor; apply Forall_cons_iff in IH as [I1 I2]; [now apply I1|now apply IHA].
  - constructor. clear H. induction A as [|a b l l' X Y IHA]; constructor; apply Forall_cons_iff in IH as [I1 I2]; [now apply I1|now apply IHA].
  - constructor. clear H. induction A as [|a b l l' [X Y] Z IHA]; constructor; [now split|exact IHA].
Qed.
Lemma twins_sym a b : twins a b -> twins b a.
Proof. intros (A & B & C). split; [easy|]. split; [easy|now apply same_sym]. Qed.
Definition good (nd : node) : Prop := named_fields (nd_schema nd) /\ is_of (nd_schema nd) (nd_element nd).
Lemma dict_child way n cp fs m cq items c : named_fields (SDict n cp fs) ->
  (In c (child_nodes (Node way (SDict n cp fs) (EDict m cq items))) <-> exists k u f, In (k, u) items /\ field_schema fs k = Some f /\ c = Node (way ++ [k]) f u).
Proof.
  intros N. cbn [child_nodes nd_schema nd_element nd_way]. rewrite in_flat_map. split.
  - intros ([k u] & I & J). cbn [fst snd] in J. destruct (field_schema fs k) as [f|] eqn:E; [|easy]. destruct J as [<-|[]]. now exists k, u, f.
  - intros (k & u & f & I & E & ->). exists (k, u). split; [exact I|]. cbn [fst snd]. rewrite E. now left.
Qed.
Lemma child_good nd c : good nd -> In c (child_nodes nd) -> good c.
Proof.
  intros [N O] I. split; [now apply (child_named nd)|]. destruct nd as [way s e]. cbn [nd_schema nd_element] in *. destruct s as [|n cp fs|? ? ? t|? ? t|? j], e as [|m cq items|? l|? l|? i l]; try easy.
  - apply dict_child in I as (k & u & f & I & E & ->); [|exact N]. apply of_dict in O as (_ & _ & _ & _ & O). apply named_dict in N as [ND _]. apply (field_In _ _ _ ND) in E as (<- & b & J). now apply (O b f J).
  - apply in_map_iff in I as (u & <- & J). destruct O as [_ O]. rewrite Forall_forall in O. now apply O.
  - apply in_map_iff in I as (u & <- & J). destruct O as [_ O]. rewrite Forall_forall in O. now apply O.
  - apply in_map_iff in I as (u & <- & J). reflexivity.
Qed.
Lemma F2_nth {A B} (R : A -> B -> Prop) l l' : Forall2 R l l' -> forall i a, nth_error l i = Some a -> exists b, nth_error l' i = Some b /\ R a b.
Proof. induction 1 as [|x y l l' X Y IH]; intros [|i] a E; try discriminate; [injection E as <-; now exists y|now apply IH]. Qed.
Lemma step_on a b i c : twins a b -> good a -> good b -> nth_error (child_nodes a) i = Some c ->
  exists j d, nth_error (child_nodes b) j = Some d /\ nd_way c = nd_way d /\ (keyed a \/ i = j) /\ twins c d.
Proof.
  destruct a as [way s e], b as [way' s' e']. intros (W & S & T) [N O] [_ O'] E. cbn [nd_way nd_schema nd_element] in *. subst way' s'.
  destruct T as [n x y A B|n cp l l' A B|n l l' A|n l l' A|n j l l' A]; destruct s as [|m cq fs|? ? ? t|? ? t|? k]; try easy; try (now destruct i).
  - apply nth_error_In in E. apply dict_child in E as (k & u & f & I & F & ->); [|exact N]. pose proof (proj1 (A k) (in_map fst _ _ I)) as J. apply in_map_iff in J as ([k' u'] & EK & J). cbn in EK. subst k'.
    assert (C : In (Node (way ++ [k]) f u') (child_nodes (Node way (SDict m cq fs) (EDict n cp l')))) by (apply dict_child; [exact N|]; now exists k, u', f).
    destruct (In_nth_error _ _ C) as [j Q]. exists j, (Node (way ++ [k]) f u'). split; [exact Q|]. split; [reflexivity|]. split; [left; now exists n, cp, l|]. split; [reflexivity|]. split; [reflexivity|]. cbn. now apply (B k).
  - cbn in E |- *. rewrite nth_error_map in E. destruct (nth_error l i) as [u|] eqn:Q; [|discriminate]. injection E as <-. destruct (F2_nth _ _ _ A _ _ Q) as (u' & Q' & X).
    exists i. eexists. rewrite nth_error_map, Q'. split; [reflexivity|]. split; [reflexivity|]. split; [now right|]. now split.
  - cbn in E |- *. rewrite nth_error_map in E. destruct (nth_error l i) as [u|] eqn:Q; [|discriminate]. injection E as <-. destruct (F2_nth _ _ _ A _ _ Q) as (u' & Q' & X).
    exists i. eexists. rewrite nth_error_map, Q'. split; [reflexivity|]. split; [reflexivity|]. split; [now right|]. now split.
  - cbn in E |- *. rewrite nth_error_map in E. destruct (nth_error l i) as [u|] eqn:Q; [|discriminate]. injection E as <-. destruct (F2_nth _ _ _ A _ _ Q) as (u' & Q' & X1 & X2).
    exists i. eexists. rewrite nth_error_map, Q'. split; [reflexivity|]. split; [reflexivity|]. split; [now right|]. split; [reflexivity|]. split; [reflexivity|]. now constructor.
Qed.
Lemma step_same a b i j c d : twins a b -> good a -> good b -> nth_error (child_nodes a) i = Some c -> nth_error (child_nodes b) j = Some d ->
  nd_way c = nd_way d -> keyed a \/ i = j -> twins c d.
Proof.
  intros T G G' E E' W K. destruct (step_on a b i c T G G' E) as (j' & d' & Q & W' & K' & T').
  destruct a as [way s e], b as [way' s' e']. destruct T as (TW & TS & T). cbn [nd_way nd_schema nd_element] in *. subst way' s'.
  destruct T as [n x y A B|n cp l l' A B|n l l' A|n l l' A|n jj l l' A].
  - destruct s; try easy; destruct i; discriminate.
  - destruct G as [N O], G' as [_ O']. cbn in N, O, O'. destruct s as [|m cq fs| | |]; try easy. apply nth_error_In in E, E'.
    apply dict_child in E as (k & u & f & I & F & ->); [|exact N]. apply dict_child in E' as (k' & u' & f' & I' & F' & ->); [|exact N].
    cbn in W. apply app_inj_tail in W as [_ <-]. rewrite F in F'. injection F' as <-. split; [reflexivity|]. split; [reflexivity|]. cbn. now apply (B k).
  - assert (i = j) as -> by (destruct K as [(? & ? & ? & K)|K]; [discriminate|exact K]). assert (j = j') as <- by (destruct K' as [(? & ? & ? & K')|K']; [discriminate|exact K']). rewrite Q in E'. now injection E' as <-.
  - assert (i = j) as -> by (destruct K as [(? & ? & ? & K)|K]; [discriminate|exact K]). assert (j = j') as <- by (destruct K' as [(? & ? & ? & K')|K']; [discriminate|exact K']). rewrite Q in E'. now injection E' as <-.
  - assert (i = j) as -> by (destruct K as [(? & ? & ? & K)|K]; [discriminate|exact K]). assert (j = j') as <- by (destruct K' as [(? & ? & ? & K')|K']; [discriminate|exact K']). rewrite Q in E'. now injection E' as <-.
Qed.
Lemma keyed_twin a b : twins a b -> keyed a -> keyed b.
Proof. intros (_ & _ & S) (n & cp & l & E). rewrite E in S. inversion S as [|? ? ? l' _ _ X Y| | |]. now exists n, cp, l'. Qed.
(* places *)
Lemma opposite_some p : forall a b c, twins a b -> good a -> good b -> node_at a p = Some c -> exists q, opposite a b p q.
Proof.
  induction p as [|i p IH]; intros a b c T G G' E; [exists []; constructor|]. cbn [node_at] in E. destruct (nth_error (child_nodes a) i) as [k|] eqn:Q; [|discriminate].
  destruct (step_on a b i k T G G' Q) as (j & d & Q' & W & K & T').
  destruct (IH k d c T') as [q O]; [apply (child_good a); [exact G|now apply nth_error_In in Q]|apply (child_good b); [exact G'|now apply nth_error_In in Q']|exact E|].
  exists (j :: q). now apply (op_below a b i j k d).
Qed.
Lemma opposite_twins a b p q : opposite a b p q -> twins a b -> good a -> good b -> forall c, node_at a p = Some c -> exists d, node_at b q = Some d /\ twins c d.
Proof.
  induction 1 as [a b|a b i j c d p q E E' W K O IH]; intros T G G' x X.
  - exists b. injection X as <-. now split.
  - cbn [node_at] in X |- *. rewrite E in X. rewrite E'. apply IH; [now apply (step_same a b i j)| | |exact X].
    + apply (child_good a); [exact G|now apply nth_error_In in E].
    + apply (child_good b); [exact G'|now apply nth_error_In in E'].
Qed.
Lemma opposite_sym a b p q : opposite a b p q -> twins a b -> good a -> good b -> opposite b a q p.
Proof.
  induction 1 as [a b|a b i j c d p q E E' W K O IH]; intros T G G'; [constructor|].
  apply (op_below b a j i d c); [exact E'|exact E|now symmetry|destruct K as [K| ->]; [left; now apply (keyed_twin a)|now right]|].
  apply IH; [now apply (step_same a b i j)| |].
  - apply (child_good a); [exact G|now apply nth_error_In in E].
  - apply (child_good b); [exact G'|now apply nth_error_In in E'].
Qed.
Theorem every_place a b : twins a b -> good a -> good b ->
  (forall p c, node_at a p = Some c -> exists q, opposite a b p q) /\ (forall q d, node_at b q = Some d -> exists p, opposite a b p q)
  /\ forall p q, opposite a b p q -> exists c d, node_at a p = Some c /\ node_at b q = Some d /\ twins c d.
Proof.
  intros T G G'. split; [intros p c E; now apply (opposite_some p a b c)|]. split.
  - intros q d E. destruct (opposite_some q b a d (twins_sym _ _ T) G' G E) as [p O]. exists p. apply opposite_sym; [exact O|now apply twins_sym|exact G'|exact G].
  - assert (X : forall p q, opposite a b p q -> node_at a p <> None). { clear. induction 1 as [|a b i j c d p q E E' W K O IH]; [easy|]. cbn [node_at]. now rewrite E. }
    intros p q O. destruct (node_at a p) as [c|] eqn:E; [|now destruct (X _ _ O)]. destruct (opposite_twins a b p q O T G G' c E) as (d & E' & TT). now exists c, d.
Qed.

(* verdicts *)
Lemma vacant_same : forall e s e', same e e' -> is_of s e' -> vacant s e -> vacant s e'.
Proof.
  induction e as [n st|n cp l IH|n l IH|n l IH|n j l] using element_ind'; intros s e' H O V; inversion H as [? ? b A B|? ? ? l' A B|? ? l' A|? ? l' A|? ? ? l' A]; subst.
  - inversion V as [? ? ? ? X Y|? ? ? ? X Y| | | | |]; subst; [apply va_string|apply va_scalar]; congruence.
  - inversion V as [| |? ? fs ? ? ? X|? fs ? ? f X| | |]; subst.
    + apply va_compound. intros b f u I J. pose proof (proj2 (A _) (in_map fst _ _ J)) as K. apply in_map_iff in K as ([k w] & E & K). cbn in E. subst k.
      rewrite Forall_forall in IH. apply (IH _ K f u); [now apply (B (schema_name f))|apply of_dict in O as (_ & _ & _ & _ & O); now apply (O b f I)|now apply (X b f w I)].
    + destruct l' as [|[k u] l']; [now apply va_sparse with (f := f)|]. destruct (proj2 (A k)). now left.
  - inversion V; subst. inversion A. constructor.
  - inversion V; subst. inversion A. constructor.
  - inversion V; subst. inversion A. constructor.
Qed.
Lemma scalar_twin a b : twins a b -> is_scalar a -> is_scalar b.
Proof. intros (_ & _ & S) (n & st & E). rewrite E in S. inversion S as [? ? b' _ _ X Y| | | |]. now exists n, b'. Qed.
Lemma reviewed_twin ask root p root' q a b cs ok o : twins a b -> good a -> good b ->
  (forall c ok m, In c cs -> grades c (st_context (ask (nd_way a)) (nd_element a)) root p ok m -> grades c (st_context (ask (nd_way a)) (nd_element b)) root' q ok m) ->
  reviewed ask root p a cs ok o -> reviewed ask root' q b cs ok o.
Proof.
  intros T [N O] [_ O'] I R. pose proof T as (W & S & E).
  assert (V : vacant (nd_schema a) (nd_element a) <-> vacant (nd_schema b) (nd_element b)).
  { rewrite <- S. rewrite <- S in O'. split; intros V; [now apply (vacant_same (nd_element a))|apply (vacant_same (nd_element b)); [now apply same_sym|exact O|exact V]]. }
  destruct R as [A B|A B C|A B|o A B C]; rewrite ?W in *.
  - now apply re_optional; [apply V|].
  - now apply re_missing; [|apply V|].
  - apply re_there; [exact A|]. now rewrite <- V.
  - apply re_asked; [exact A|intros X; apply B; now apply V|]. clear -C I. induction C as [|c cs m G|c cs m o G C IH]; [constructor| |].
    + apply ob_this. apply I; [now left|exact G].
    + apply (ob_next _ _ _ c cs m); [apply I; [now left|exact G]|]. apply IH. intros c' ok m' J. apply I. now right.
Qed.
Lemma assessed_twin ask root root' p q a b ok ms : impartial ask -> twins root root' -> opposite root root' p q -> node_at root p = Some a -> node_at root' q = Some b -> twins a b -> good a -> good b ->
  assessed ask root p a ok ms -> assessed ask root' q b ok ms.
Proof.
  intros IM TR OP NA NB T G G' A. pose proof T as (W & _ & _). destruct A as [ok o D R|x o y o' S D R R'].
  - apply as_once; [rewrite <- W; destruct D as [D|D]; [left; now apply (scalar_twin a)|now right]|]. rewrite <- W. apply (reviewed_twin ask root p root' q a b); try easy. intros c ok' m I. apply (IM root root' p q a b); [exact TR|exact OP|exact NA|exact NB|exact T|now left].
  - apply as_twice; [intros X; apply S; apply (scalar_twin b); [now apply twins_sym|exact X]|now rewrite <- W|rewrite <- W|rewrite <- W].
    + apply (reviewed_twin ask root p root' q a b); try easy. intros c ok' m I. apply (IM root root' p q a b); [exact TR|exact OP|exact NA|exact NB|exact T|right; now split].
    + apply (reviewed_twin ask root p root' q a b); try easy. intros c ok' m I. apply (IM root root' p q a b); [exact TR|exact OP|exact NA|exact NB|exact T|now left].
Qed.
Lemma node_good p : forall nd c, good nd -> node_at nd p = Some c -> good c.
Proof.
  induction p as [|j p IH]; intros nd c G E; cbn [node_at] in E; [now injection E as <-|]. destruct (nth_error (child_nodes nd) j) as [d|] eqn:F; [|easy].
  apply (IH d); [|exact E]. apply (child_good nd); [exact G|]. now apply nth_error_In in F.
Qed.
Theorem alike_lemma id_of place_of id_of' place_of' ask root root' : identified id_of place_of root -> identified id_of' place_of' root' ->
  twins root root' -> named_fields (nd_schema root) -> is_of (nd_schema root) (nd_element root) -> is_of (nd_schema root') (nd_element root') ->
  impartial ask -> answered ask root -> judged_alike id_of place_of id_of' place_of' ask root root'.
Proof.
  intros ID ID' T N O O' IM G errors V errors2 V2. pose proof T as (W & S & E).
  assert (N' : named_fields (nd_schema root')) by now rewrite <- S. assert (GA : good root) by now split. assert (GB : good root') by now split.
  destruct (every_place root root' T GA GB) as (P1 & P2 & P3).
  assert (AB : forall p q a d ok ms, opposite root root' p q -> node_at root p = Some a -> node_at root' q = Some d -> assessed ask root p a ok ms -> assessed ask root' q d ok ms).
  { intros p q a d ok ms OP A D AS. destruct (P3 p q OP) as (a' & d' & A' & D' & TT). rewrite A in A'. rewrite D in D'. injection A' as <-. injection D' as <-.
    apply (assessed_twin ask root root' p q a d); [exact IM|exact T|exact OP|exact A|exact D|exact TT|now apply (node_good p root)|now apply (node_good q root')|exact AS]. }
  assert (G' : answered ask root').
  { intros q d Q. destruct (P2 q d Q) as [p OP]. destruct (P3 p q OP) as (a & d' & A & D & TT). destruct (G p a A) as (ok & ms & AS). exists ok, ms. now apply (AB p q a). }
  destruct (places_lemma id_of place_of ask root errors V ID N G) as (F & errors' & V' & b & H1 & H2 & _ & H4).
  destruct (places_lemma id_of' place_of' ask root' errors2 V2 ID' N' G') as (F' & errors2' & V2' & b' & K1 & K2 & _ & K4).
  assert (BB : b = b').
  { apply eq_true_iff_eq. rewrite H4, K4. split.
    - intros Z q d D. destruct (P2 q d D) as [p OP]. destruct (P3 p q OP) as (a & d' & A & D' & _). apply (AB p q a); [exact OP|exact A|exact D|now apply (Z p)].
    - intros Z p a A. destruct (P1 p a A) as [q OP]. destruct (P3 p q OP) as (a' & d & A' & D & _). destruct (H2 p a A) as (ok & ms & AS & _).
      pose proof (AB p q a d ok ms OP A D AS) as BS. destruct (assessed_one _ _ _ _ _ _ _ _ BS (Z q d D)) as [-> ->]. exact AS. }
  subst b'. exists (Nat.max F F'), errors', V', errors2', V2', b. split; [intros fuel L; split; [apply H1|apply K1]; lia|].
  intros p q a OP A. destruct (P3 p q OP) as (a' & d & A' & D & _). destruct (H2 p a A) as (ok & ms & AS & VV & EE). destruct (K2 q d D) as (ok' & ms' & AS' & VV' & EE').
  pose proof (AB p q a d ok ms OP A D AS) as BS. destruct (assessed_one _ _ _ _ _ _ _ _ BS AS') as [<- <-]. split; [congruence|]. now exists ms.
Qed.

(* validators that go by what an element holds *)
Lemma grades_move c root p root' q x y ok0 m0 ok m : grades c x root p ok0 m0 -> grades c y root' q ok0 m0 -> grades c x root p ok m -> grades c y root' q ok m.
Proof.
  intros A B G. pose proof (graded_says _ _ _ _ _ _ 0 A) as X. rewrite (graded_says _ _ _ _ _ _ 0 G) in X. injection X as -> X. destruct ok0; [|now injection X as ->].
  intros errors. destruct (B errors) as [P _]. split; [exact P|]. intros Y. now destruct Y.
Qed.
Lemma grades_raise c root p x ok m e : ck_says c root p = Err e -> ~ grades c x root p ok m.
Proof. intros E G. pose proof (graded_says _ _ _ _ _ _ 0 G) as S. unfold says_of in S. cbn in S. rewrite E in S. discriminate. Qed.
Lemma joined_alike g l l' : Forall2 alike l l' -> joined_value g l = joined_value g l'.
Proof. intros F. unfold joined_value. f_equal. induction F as [|x y l l' [_ U] F IH]; [reflexivity|]. cbn. now rewrite U, IH. Qed.
Lemma plain_same e e' : same e e' -> plain_container e -> plain_container e'.
Proof. intros S P. destruct P; inversion S; subst; constructor. Qed.
Lemma move_plain c root p root' q a b x y ok m : node_at root p = Some a -> node_at root' q = Some b -> same (nd_element a) (nd_element b) -> plain_container (nd_element a) ->
  c = present_check \/ c = converted_check -> grades c x root p ok m -> grades c y root' q ok m.
Proof.
  intros NA NB T PC D G. eapply grades_move; [apply (plain_grades x root p a c m NA PC D)| |exact G]. apply (plain_grades y root' q b c m NB); [now apply (plain_same (nd_element a))|exact D].
Qed.
Theorem known_lemma ask : known_checks ask -> impartial ask.
Proof.
  intros K root root' p q a b c ok m _ _ NA NB (W & S & T) I G. destruct (K (nd_way a)) as ((label & P) & C).
  destruct (C c ltac:(tauto)) as [D|[D|(z & l & D)]].
  - destruct (nd_element a) as [n st|n [cp|] items|n u|n u|n j u] eqn:E; try (eapply (move_plain c root p root' q a b); [exact NA|exact NB|now rewrite E|rewrite E; constructor|now left|exact G]); subst c.
    + inversion T as [? ? st' A B X Y| | | |]. eapply grades_move; [eapply present_grades; [apply P|exact NA|exact E]| |exact G]. rewrite B. eapply present_grades; [apply P|exact NB|symmetry; exact Y].
    + exfalso. eapply grades_raise; [|exact G]. cbn. unfold own. now rewrite NA, E.
    + inversion T as [| | | |? ? ? u' A X Y]. eapply grades_move; [eapply present_joined; [apply P|exact NA|exact E]| |exact G]. rewrite (joined_alike _ _ _ A). eapply present_joined; [apply P|exact NB|symmetry; exact Y].
  - destruct (nd_element a) as [n st|n [cp|] items|n u|n u|n j u] eqn:E; try (eapply (move_plain c root p root' q a b); [exact NA|exact NB|now rewrite E|rewrite E; constructor|now right|exact G]); subst c.
    + inversion T as [? ? st' A B X Y| | | |]. eapply grades_move; [eapply converted_grades; [apply P|exact NA|exact E]| |exact G]. rewrite A. eapply converted_grades; [apply P|exact NB|symmetry; exact Y].
    + exfalso. eapply grades_raise; [|exact G]. cbn. unfold own. now rewrite NA, E.
    + inversion T as [| | | |? ? ? u' A X Y]. eapply grades_move; [eapply (converted_joined _ _ _ _ _ _ _ m); [exact NA|exact E]| |exact G]. eapply converted_joined; [exact NB|symmetry; exact Y].
  - subst c. destruct (nd_element a) as [n st|n cp items|n u|n u|n j u] eqn:E.
    + exfalso. eapply grades_raise; [|exact G]. eapply at_least_others; [exact NA|left; now exists n, st].
    + exfalso. eapply grades_raise; [|exact G]. eapply at_least_others; [exact NA|right; now exists n, cp, items].
    + inversion T as [| |? ? u' A X Y| |]. eapply grades_move; [eapply at_least_grades; [apply P|exact NA|left; exact E]| |exact G]. rewrite (F2_len _ _ _ A). eapply at_least_grades; [apply P|exact NB|left; symmetry; exact Y].
    + inversion T as [| | |? ? u' A X Y|]. eapply grades_move; [eapply at_least_grades; [apply P|exact NA|right; exact E]| |exact G]. rewrite (F2_len _ _ _ A). eapply at_least_grades; [apply P|exact NB|right; symmetry; exact Y].
    + inversion T as [| | | |? ? ? u' A X Y]. eapply grades_move; [eapply at_least_joined; [apply P|exact NA|exact E]| |exact G]. rewrite (joined_alike _ _ _ A). eapply at_least_joined; [apply P|exact NB|symmetry; exact Y].
Qed.

(* ---------------- forms sent ---------------- *)
Theorem sent_back_lemma sep s e ask id_of place_of id_of' place_of' : separator sep -> clear_schema sep s -> shows s -> is_of s e -> kept false s e -> impartial ask -> answered ask (Node [] s e) ->
  exists f fl e', (forall fuel, f <= fuel -> flatten_element fuel e sep = Ok fl) /\ set_flat s sep (fresh s) (as_flat fl) = (e', Ok tt)
    /\ (identified id_of place_of (Node [] s e) -> identified id_of' place_of' (Node [] s e') -> judged_alike id_of place_of id_of' place_of' ask (Node [] s e) (Node [] s e')).
Proof.
  intros SP CL SH O K IM G. destruct (flatten_back_lemma sep s e SP CL SH O K) as (f & fl & F & e' & S & T). exists f, fl, e'. split; [exact F|]. split; [exact S|]. intros ID ID'.
  pose proof (clear_named _ _ CL) as N. apply alike_lemma; try easy. cbn. pose proof (of_set s N sep (fresh s) (as_flat fl) (of_fresh s N)) as X. now rewrite S in X.
Qed.
Theorem corrected_lemma s sep e ps qs e2 ask id_of place_of id_of' place_of' : named_fields s -> is_of s e -> text_keys qs -> named_again ps qs ->
  set_flat s sep e qs = (e2, Ok tt) -> impartial ask -> answered ask (Node [] s e2) ->
  exists e3, set_flat s sep (fst (set_flat s sep e ps)) qs = (e3, Ok tt)
    /\ (identified id_of place_of (Node [] s e2) -> identified id_of' place_of' (Node [] s e3) -> judged_alike id_of place_of id_of' place_of' ask (Node [] s e2) (Node [] s e3)).
Proof.
  intros N O TK NA S IM G. destruct (replaced s N sep e ps qs e2 O TK NA S) as (e3 & S3 & T). exists e3. split; [exact S3|]. intros ID ID'.
  assert (O2 : is_of s e2) by (pose proof (of_set s N sep e qs O) as X; now rewrite S in X).
  assert (O3 : is_of s e3) by (pose proof (of_set s N sep _ qs (of_set s N sep e ps O)) as X; now rewrite S3 in X).
  apply alike_lemma; try easy. split; [easy|]. split; [easy|]. now apply same_sym.
Qed.
