(* Names of domains. *)
From Verif Require Import PyBase PyBaseFacts ModelScalar ModelValidators ModelNetwork SpecRegex ProofRegex ProofRegex2.
From Coq Require Import Lia.

Ltac fin := repeat match goal with |- _ /\ _ => split end; try reflexivity; auto; fail.

Definition label_set : list charset := [Span 97 122; Span 48 57; One 45].
Definition label_rx : rx := RRep 1 None false (RSet false label_set).
Definition dotted_rx : rx := RCat label_rx (RCat (RSet false [One 46]) REmpty).
Definition domain_rx : rx := RCat RBegin (RCat (RRep 0 None false dotted_rx) (RCat label_rx (RCat REnd REmpty))).
Lemma domain_compiled r : compiled domain_pattern r -> r = domain_rx.
Proof. unfold compiled. intros H. vm_compute in H. injection H as <-. reflexivity. Qed.
Lemma label_char c : in_class true false label_set c = domain_char c.
Proof.
  unfold in_class, label_set, domain_char, low, ascii_digit. change (ch "-") with 45%N. cbn [existsb in_set xorb].
  apply eq_true_iff_eq. destruct ((65 <=? c)%N && (c <=? 90)%N) eqn:U; rewrite ?orb_true_iff, ?andb_true_iff, ?N.leb_le, ?N.eqb_eq in *.
  - match goal with |- context [if ?x then true else false] => replace (if x then true else false) with x by (now destruct x) end.
    rewrite ?orb_true_iff, ?andb_true_iff, ?N.leb_le, ?N.eqb_eq. lia.
  - match goal with |- context [if ?x then true else false] => replace (if x then true else false) with x by (now destruct x) end.
    rewrite ?orb_true_iff, ?andb_true_iff, ?N.leb_le, ?N.eqb_eq. apply andb_false_iff in U. rewrite !N.leb_gt in U. lia.
Qed.
Definition label (l : str) : Prop := l <> [] /\ forallb domain_char l = true.
Definition dotted (ls : list str) : str := List.concat (map (fun l => l ++ [46%N])%list ls).
Lemma ahead_word w t p : p_aft p = (w ++ t)%list -> ahead_by (List.length w) p = Pos (rev w ++ p_bef p) t (p_cap p).
Proof.
  intros E. unfold ahead_by. rewrite E, firstn_app, skipn_app, firstn_all, skipn_all, Nat.sub_diag. cbn. now rewrite app_nil_r.
Qed.
Lemma reach_ext f g s : (forall c, f c = g c) -> reach f s = reach g s.
Proof. intros H. induction s as [|c s IH]; [reflexivity|]. cbn. now rewrite H, IH. Qed.
Lemma reach_ok ok k s : k <= reach ok s -> forallb ok (firstn k s) = true.
Proof.
  revert s. induction k as [|k IH]; intros s H; [reflexivity|]. destruct s as [|c s]; [reflexivity|]. cbn in *. destruct (ok c); [|lia]. apply IH. lia.
Qed.
Lemma ok_reach ok l t : forallb ok l = true -> List.length l <= reach ok (l ++ t).
Proof. induction l as [|c l IH]; cbn; [lia|]. destruct (ok c); [|discriminate]. intros H. specialize (IH H). cbn in *. lia. Qed.
Lemma in_label p q : In q (runs true label_rx p) <-> exists l t, p_aft p = (l ++ t)%list /\ label l /\ q = Pos (rev l ++ p_bef p) t (p_cap p).
Proof.
  unfold label_rx. rewrite runs_at_least, (reach_ext _ _ _ label_char). split.
  - destruct (1 <=? _)%nat eqn:E; [|intros []]. apply Nat.leb_le in E. intros I. apply in_map_iff in I as (k & <- & I). apply down_in in I.
    exists (firstn (S k) (p_aft p)), (skipn (S k) (p_aft p)). split; [symmetry; apply firstn_skipn|]. split; [|reflexivity]. split.
    + destruct (p_aft p); [cbn in E; lia|discriminate].
    + apply reach_ok. lia.
  - intros (l & t & E & [N L] & ->). pose proof (ok_reach _ _ t L) as K. rewrite <- E in K. assert (1 <= List.length l) by (destruct l; [easy|cbn; lia]).
    rewrite (proj2 (Nat.leb_le _ _)) by lia. apply in_map_iff. exists (List.length l - 1). split.
    + replace (1 + _) with (List.length l) by lia. now apply ahead_word.
    + apply down_in. lia.
Qed.
Lemma in_dotted p q : In q (runs true dotted_rx p) <-> exists l t, p_aft p = (l ++ 46%N :: t)%list /\ label l /\ q = Pos (46%N :: rev l ++ p_bef p) t (p_cap p).
Proof.
  unfold dotted_rx. change (runs true (RCat label_rx ?b) p) with (flat_map (runs true b) (runs true label_rx p)). rewrite in_flat_map.
  assert (forall b t c, runs true (RCat (RSet false [One 46]) REmpty) (Pos b t c) = match t with x :: t' => if (x =? 46)%N then [Pos (x :: b) t' c] else [] | [] => [] end) as St.
  { intros b [|x t] c; [reflexivity|]. rewrite run_set. assert (in_class true false [One 46] x = (x =? 46)%N) as ->; [|reflexivity].
    unfold in_class, low. cbn [existsb in_set xorb]. apply eq_true_iff_eq. destruct ((65 <=? x)%N && (x <=? 90)%N) eqn:U; rewrite ?andb_true_iff, ?N.leb_le in U.
    - match goal with |- context [if ?x then true else false] => replace (if x then true else false) with x by (now destruct x) end. rewrite ?orb_true_iff, !N.eqb_eq. lia.
    - match goal with |- context [if ?x then true else false] => replace (if x then true else false) with x by (now destruct x) end. rewrite ?orb_true_iff, !N.eqb_eq. intuition; discriminate. }
  split.
  - intros (m & I & J). apply in_label in I as (l & t & E & L & ->). rewrite St in J. destruct t as [|x t]; [destruct J|]. destruct (N.eqb_spec x 46); [|destruct J]. subst.
    destruct J as [<-|[]]. exists l, t. fin.
  - intros (l & t & E & L & ->). exists (Pos (rev l ++ p_bef p) (46%N :: t) (p_cap p)). split; [apply in_label; now exists l, (46%N :: t)|]. rewrite St. now left.
Qed.
Lemma in_more : forall fuel p q, List.length (p_aft p) <= fuel -> In q (more (runs true dotted_rx) false None fuel p)
  <-> exists ls t, p_aft p = (dotted ls ++ t)%list /\ Forall label ls /\ q = Pos (rev (dotted ls) ++ p_bef p) t (p_cap p).
Proof.
  assert (forall p, exists ls t, p_aft p = (dotted ls ++ t)%list /\ Forall label ls /\ p = Pos (rev (dotted ls) ++ p_bef p) t (p_cap p)) as Z.
  { intros [b s l]. exists [], s. fin. }
  induction fuel as [|fuel IH]; intros p q L.
  - cbn. split.
    + intros [<-|[]]. apply Z.
    + intros (ls & t & E & F & ->). left. destruct (p_aft p) eqn:A; [|cbn in L; lia]. destruct (dotted ls) eqn:D; [|discriminate]. cbn in E. subst t. destruct p. cbn in *. now subst.
  - cbn [more option_map]. rewrite in_app_iff, in_flat_map. split.
    + intros [(m & I & J)|[<-|[]]]; [|apply Z]. apply filter_In in I as [I P]. apply in_dotted in I as (l & t & E & Lb & ->).
      apply IH in J. 2: { cbn [p_aft]. rewrite E, app_length in L. cbn in L. lia. }
      destruct J as (ls & t' & E' & F & ->). cbn [p_aft p_bef p_cap] in *. exists (l :: ls), t'. unfold dotted in *. cbn [map List.concat]. split; [|split; [now constructor|]].
      * rewrite E, E', <- !app_assoc. reflexivity.
      * f_equal. rewrite !rev_app_distr. cbn [rev app]. now rewrite <- !app_assoc.
    + intros (ls & t & E & F & ->). destruct ls as [|l ls].
      * right. left. cbn in E. destruct p. cbn in *. now subst.
      * left. unfold dotted in E. cbn [map List.concat] in E. inversion F as [|? ? Lb F']. subst. rewrite <- !app_assoc in E. cbn [app] in E. fold (dotted ls) in E.
        exists (Pos (46%N :: rev l ++ p_bef p) (dotted ls ++ t) (p_cap p)). split.
        -- apply filter_In. split; [apply in_dotted; exists l, (dotted ls ++ t)%list; fin|]. unfold progress. cbn [p_aft]. apply Nat.ltb_lt. rewrite E, !app_length. cbn [List.length]. rewrite app_length. lia.
        -- apply IH.
           ++ cbn [p_aft]. rewrite E, app_length in L. cbn [List.length] in L. unfold str in *. lia.
           ++ exists ls, t. cbn [p_aft p_bef p_cap]. split; [reflexivity|]. split; [exact F'|]. f_equal. unfold dotted. cbn [map List.concat]. rewrite !rev_app_distr. cbn [rev app]. now rewrite <- !app_assoc.
Qed.
Lemma domain_runs s : matches true domain_rx s = true <-> exists ls l t, s = (dotted ls ++ l ++ t)%list /\ Forall label ls /\ label l /\ ends_at t = true.
Proof.
  unfold matches, re_match, match_at. rewrite some_exists. unfold domain_rx. rewrite run_begin.
  change (runs true (RCat (RRep 0 None false dotted_rx) ?y) ?p) with (flat_map (runs true y) (more (runs true dotted_rx) false None (List.length (p_aft p)) p ++ [])). rewrite app_nil_r. split.
  - intros (z & I). apply in_flat_map in I as (m & I & J). apply in_more in I as (ls & t & E & F & ->); [|cbn; lia]. cbn [p_aft p_bef p_cap] in *.
    change (runs true (RCat label_rx ?y) ?p) with (flat_map (runs true y) (runs true label_rx p)) in J. apply in_flat_map in J as (m & I & J).
    apply in_label in I as (l & t' & E' & L & ->). cbn [p_aft p_bef p_cap] in *. rewrite run_end in J. cbn [p_aft] in J. destruct (ends_at t') eqn:N; [|destruct J].
    exists ls, l, t'. split; [now rewrite E, E'|]. fin.
  - intros (ls & l & t & E & F & L & N). exists (Pos (rev l ++ rev (dotted ls) ++ []) t []). apply in_flat_map. exists (Pos (rev (dotted ls) ++ []) (l ++ t) []). split.
    + apply in_more; [cbn; lia|]. exists ls, (l ++ t)%list. fin.
    + change (runs true (RCat label_rx ?y) ?p) with (flat_map (runs true y) (runs true label_rx p)). apply in_flat_map. exists (Pos (rev l ++ rev (dotted ls) ++ []) t []). split.
      * apply in_label. exists l, t. fin.
      * rewrite run_end. cbn [p_aft]. rewrite N. now left.
Qed.
Lemma label_char_no l c : label l -> domain_char c = false -> ~ In c l.
Proof. intros [_ L] D I. rewrite forallb_forall in L. rewrite (L c I) in D. discriminate. Qed.
Lemma join_dotted ls l : join [46%N] (ls ++ [l]) = (dotted ls ++ l)%list.
Proof.
  induction ls as [|x ls IH]; [reflexivity|]. cbn [app]. rewrite join_cons by (now destruct ls). rewrite IH. unfold dotted. cbn [map List.concat]. now rewrite <- !app_assoc.
Qed.
Lemma split_labels s : forallb (fun l => negb (str_eqb l []) && forallb domain_char l) (split (lit ".") s) = true <-> exists ls l, s = (dotted ls ++ l)%list /\ Forall label ls /\ label l.
Proof.
  change (lit ".") with [46%N]. split.
  - intros H. assert (Forall label (split [46%N] s)) as F.
    { rewrite forallb_forall in H. apply Forall_forall. intros l I. apply H in I. apply andb_true_iff in I as [N D]. split; [now intros ->|exact D]. }
    destruct (exists_last (split_nonempty [46%N] s)) as (ls & l & E). exists ls, l. rewrite <- join_dotted, <- E, join_split by discriminate. split; [reflexivity|].
    rewrite E in F. apply Forall_app in F as [F1 F2]. split; [exact F1|]. now inversion F2.
  - intros (ls & l & -> & F & L). assert (Forall label (ls ++ [l])) as F' by (apply Forall_app; split; [exact F|now constructor]).
    rewrite <- join_dotted, split_join1.
    + apply forallb_forall. intros x I. rewrite Forall_forall in F'. destruct (F' x I) as [N D]. rewrite D. destruct x; [easy|reflexivity].
    + now destruct ls.
    + eapply Forall_impl; [|exact F']. intros x X. now apply label_char_no.
Qed.
Lemma drop_newline_end s : (drop_newline s = s /\ forall r, s <> (r ++ [10%N])%list) \/ s = (drop_newline s ++ [10%N])%list.
Proof.
  unfold drop_newline. destruct (rev s) as [|c r] eqn:R.
  - left. split; [reflexivity|]. intros x ->. rewrite rev_app_distr in R. discriminate.
  - destruct (N.eqb_spec c 10).
    + right. subst. rewrite <- (rev_involutive s), R. reflexivity.
    + left. split; [reflexivity|]. intros x ->. rewrite rev_app_distr in R. injection R as <- _. easy.
Qed.
Lemma label_end l r : label l -> l <> (r ++ [10%N])%list.
Proof. intros L ->. apply (label_char_no _ 10 L); [reflexivity|]. apply in_or_app. right. now left. Qed.
Lemma domain_match_rx r s : compiled domain_pattern r -> domain_match s = matches true r s.
Proof.
  intros C. apply domain_compiled in C. subst r. apply eq_true_iff_eq. rewrite domain_runs. unfold domain_match. rewrite split_labels. split.
  - intros (ls & l & E & F & L). destruct (drop_newline_end s) as [[D _]|D].
    + exists ls, l, []. rewrite D in E. rewrite app_nil_r. fin.
    + exists ls, l, [10%N]. rewrite D, E, <- app_assoc. fin.
  - intros (ls & l & t & E & F & L & N). exists ls, l. split; [|now split]. destruct t as [|c [|d t]]; [| |discriminate].
    + rewrite app_nil_r in E. destruct (drop_newline_end s) as [[D _]|D]; [now rewrite D|]. exfalso. destruct (exists_last (proj1 L)) as (l' & x & El).
      rewrite E, El, app_assoc in D. apply app_inj_tail in D as [_ ->]. exact (label_end l l' L El).
    + cbn in N. apply N.eqb_eq in N. subst c. rewrite app_assoc in E. destruct (drop_newline_end s) as [[_ D]|D]; [destruct (D _ E)|].
      rewrite D in E. now apply app_inj_tail in E as [E _].
Qed.
