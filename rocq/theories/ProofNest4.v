(* the text of containers can be read back *)
From Verif Require Import PyBase PyBaseFacts PyList ModelUtil ModelMap ModelScalar ModelNest SpecNest ProofNest.
From Coq Require Import Lia.

Lemma hex_length w n : List.length (hex_pad w n) = w.
Proof.
  revert n. induction w as [| w IH]; intros n; cbn [hex_pad]; [reflexivity |].
  rewrite app_length, IH. cbn. lia.
Qed.
Lemma hex_digit_inj a b : (a < 16)%N -> (b < 16)%N -> hex_digit a = hex_digit b -> a = b.
Proof.
  unfold hex_digit. intros Ha Hb. destruct (N.ltb_spec a 10), (N.ltb_spec b 10); lia.
Qed.
Lemma hex_inj w : forall a b, (a < 16 ^ N.of_nat w)%N -> (b < 16 ^ N.of_nat w)%N ->
  hex_pad w a = hex_pad w b -> a = b.
Proof.
  induction w as [| w IH]; intros a b Ha Hb H.
  - cbn in Ha, Hb. lia.
  - cbn [hex_pad] in H. apply app_inj_tail in H. destruct H as [H1 H2].
    assert (P : (16 ^ N.of_nat (S w) = 16 * 16 ^ N.of_nat w)%N).
    { rewrite Nnat.Nat2N.inj_succ, N.pow_succ_r'. reflexivity. }
    rewrite P in Ha, Hb.
    apply IH in H1; [| apply N.div_lt_upper_bound; lia | apply N.div_lt_upper_bound; lia].
    apply hex_digit_inj in H2; [| apply N.mod_lt; lia | apply N.mod_lt; lia].
    rewrite (N.div_mod a 16), (N.div_mod b 16) by lia. rewrite H1, H2. reflexivity.
Qed.
Lemma hex_prefix w a b x y : (a < 16 ^ N.of_nat w)%N -> (b < 16 ^ N.of_nat w)%N ->
  hex_pad w a ++ x = hex_pad w b ++ y -> a = b /\ x = y.
Proof.
  intros Ha Hb H.
  assert (E : hex_pad w a = hex_pad w b /\ x = y).
  { assert (L : List.length (hex_pad w a) = List.length (hex_pad w b)) by (rewrite !hex_length; reflexivity).
    revert H L. generalize (hex_pad w a) (hex_pad w b). clear. intros p q. revert q.
    induction p as [| c p IH]; intros [| d q] H L; cbn in L; try discriminate; [split; [reflexivity | exact H] |].
    cbn [app] in H. injection H as -> H. destruct (IH q H) as [-> ->]; [congruence | split; reflexivity]. }
  destruct E as [E ->]. split; [exact (hex_inj w a b Ha Hb E) | reflexivity].
Qed.

Section Repr.
Variable printable : N -> bool.
Notation repr_char := (repr_char printable).
Notation py_repr := (py_repr printable).
Notation show_text := (show_text printable).
Notation show_key := (show_key printable).
Notation record_u := (record_u printable).

(* the ways a character is written *)
Inductive written (q c : N) : str -> Prop :=
| w_plain : c <> q -> c <> 92%N -> written q c [c]
| w_self : c = q \/ c = 92%N -> written q c [92%N; c]
| w_tab : c = 9%N -> written q c [92; 116]%N
| w_nl : c = 10%N -> written q c [92; 110]%N
| w_cr : c = 13%N -> written q c [92; 114]%N
| w_x : (c < 256)%N -> written q c ([92; 120]%N ++ hex_pad 2 c)
| w_u : (c < 65536)%N -> written q c ([92; 117]%N ++ hex_pad 4 c)
| w_U : (c < 4294967296)%N -> written q c ([92; 85]%N ++ hex_pad 8 c).
Lemma repr_char_written q c : (c < 1114112)%N -> written q c (repr_char q c).
Proof.
  intros H. unfold ModelNest.repr_char.
  destruct (N.eqb_spec c q) as [E | E]; [apply w_self; left; exact E |].
  destruct (N.eqb_spec c 92) as [E2 | E2]; [apply w_self; right; exact E2 |]. cbn [orb].
  destruct (N.eqb_spec c 9); [apply w_tab; assumption |].
  destruct (N.eqb_spec c 10); [apply w_nl; assumption |].
  destruct (N.eqb_spec c 13); [apply w_cr; assumption |].
  destruct (N.ltb_spec c 32); [apply w_x; lia |].
  destruct (N.eqb_spec c 127); [apply w_x; lia |]. cbn [orb].
  destruct (N.ltb_spec c 127); [apply w_plain; assumption |].
  destruct (printable c); [apply w_plain; assumption |].
  destruct (N.ltb_spec c 256); [apply w_x; lia |].
  destruct (N.ltb_spec c 65536); [apply w_u; lia |].
  apply w_U. lia.
Qed.
Definition quotish (q : N) : Prop := q = 39%N \/ q = 34%N.
Lemma written_prefix q c d s t x y : quotish q -> written q c s -> written q d t -> s ++ x = t ++ y -> c = d /\ x = y.
Proof.
  intros Q Hs Ht H.
  assert (Q1 : (q <> 116 /\ q <> 110 /\ q <> 114 /\ q <> 120 /\ q <> 117 /\ q <> 85 /\ q <> 92)%N)
    by (destruct Q; subst q; repeat split; discriminate).
  inversion Hs; subst; inversion Ht; subst.
  all: try (rewrite <- !app_assoc in H; apply app_inv_head in H; apply hex_prefix in H; [exact H | cbn; lia | cbn; lia]).
  all: cbn [app] in H; injection H; clear H.
  all: try (intros; exfalso; intuition congruence).
  all: try (intros; split; congruence).
  all: try (intros; subst; exfalso; intuition (discriminate || congruence)).
Qed.
Lemma written_no_quote q c s : quotish q -> written q c s -> exists h t, s = h :: t /\ h <> q.
Proof.
  intros Q H. inversion H; subst; cbn [app]; eexists; eexists; (split; [reflexivity |]); try assumption;
    destruct Q; subst q; discriminate.
Qed.
Lemma body_prefix q : quotish q -> forall s t x y, unicode s -> unicode t ->
  flat_map (repr_char q) s ++ q :: x = flat_map (repr_char q) t ++ q :: y -> s = t /\ x = y.
Proof.
  intros Q. induction s as [| c s IH]; intros [| d t] x y Us Ut H; cbn [flat_map app] in H.
  - injection H as ->. split; reflexivity.
  - exfalso. inversion Ut as [| ? ? Hd Ut']; subst.
    destruct (written_no_quote q d _ Q (repr_char_written q d Hd)) as [h [r [E NE]]].
    rewrite E in H. cbn [app] in H. injection H as H _. congruence.
  - exfalso. inversion Us as [| ? ? Hc Us']; subst.
    destruct (written_no_quote q c _ Q (repr_char_written q c Hc)) as [h [r [E NE]]].
    rewrite E in H. cbn [app] in H. injection H as H _. congruence.
  - inversion Us as [| ? ? Hc Us']; subst. inversion Ut as [| ? ? Hd Ut']; subst.
    rewrite <- !app_assoc in H.
    apply (written_prefix q c d) in H; [| exact Q | apply repr_char_written, Hc | apply repr_char_written, Hd].
    destruct H as [-> H]. apply IH in H; [| assumption | assumption]. destruct H as [-> ->]. split; reflexivity.
Qed.
Lemma repr_quotish s : quotish (repr_quote s).
Proof. unfold repr_quote. destruct (_ && _); [right | left]; reflexivity. Qed.
Lemma py_repr_prefix s t x y : unicode s -> unicode t -> py_repr s ++ x = py_repr t ++ y -> s = t /\ x = y.
Proof.
  intros Us Ut. unfold ModelNest.py_repr. cbn [app]. intros H. injection H as Hq H.
  rewrite <- !app_assoc in H. cbn [app] in H. rewrite <- Hq in H.
  apply body_prefix in H; [exact H | apply repr_quotish | exact Us | exact Ut].
Qed.
Lemma py_repr_head s : exists q r, py_repr s = q :: r /\ quotish q.
Proof. unfold ModelNest.py_repr. eexists. eexists. split; [reflexivity | apply repr_quotish]. Qed.
Lemma show_text_prefix b c s t x y : unicode s -> unicode t ->
  show_text b s ++ x = show_text c t ++ y -> b = c /\ s = t /\ x = y.
Proof.
  intros Us Ut. unfold ModelNest.show_text.
  destruct b, c; cbn [app lit]; intros H.
  all: destruct (py_repr_head s) as [q [r [Es Qs]]]; destruct (py_repr_head t) as [q' [r' [Et Qt]]].
  - apply (f_equal (@tl N)), (f_equal (@tl N)) in H. cbn [tl app map] in H.
    change (py_repr s ++ x = py_repr t ++ y) in H. apply py_repr_prefix in H; [| exact Us | exact Ut]. split; [reflexivity | exact H].
  - exfalso. rewrite Es, Et in H. destruct Qt; subst; discriminate.
  - exfalso. rewrite Es, Et in H. destruct Qs; subst; discriminate.
  - apply (f_equal (@tl N)) in H. change (py_repr s ++ x = py_repr t ++ y) in H.
    apply py_repr_prefix in H; [| exact Us | exact Ut]. split; [reflexivity | exact H].
Qed.
Definition good_name (n : name) : Prop := match n with Some s => unicode s | None => True end.
Lemma show_key_prefix n m x y : good_name n -> good_name m -> show_key n ++ x = show_key m ++ y -> n = m /\ x = y.
Proof.
  destruct n as [s |], m as [t |]; cbn [good_name ModelNest.show_key]; intros Hn Hm H.
  - apply show_text_prefix in H; [| exact Hn | exact Hm]. destruct H as [_ [-> ->]]. split; reflexivity.
  - exfalso. unfold ModelNest.show_text in H. destruct (py_repr_head s) as [q [r [Es Qs]]]. rewrite Es in H.
    cbn in H. injection H as H _. destruct Qs; subst; discriminate.
  - exfalso. unfold ModelNest.show_text in H. destruct (py_repr_head t) as [q [r [Es Qs]]]. rewrite Es in H.
    cbn in H. injection H as H _. destruct Qs; subst; discriminate.
  - apply app_inv_head in H. split; [reflexivity | exact H].
Qed.

(* joined lists *)
Lemma join_tail (a : str) l : join (lit ", ") (a :: l) = a ++ flat_map (fun b => lit ", " ++ b) l.
Proof.
  revert a. induction l as [| b l IH]; intros a; [cbn; rewrite app_nil_r; reflexivity |].
  rewrite join_cons, IH by discriminate. cbn [flat_map]. rewrite <- !app_assoc. reflexivity.
Qed.
Lemma tails_prefix {A} (f : A -> str) (R : A -> A -> Prop) close : close <> 44%N -> forall l m x y,
  (forall a b x y, In a l -> In b m -> f a ++ x = f b ++ y -> R a b /\ x = y) ->
  flat_map (fun b => lit ", " ++ f b) l ++ close :: x = flat_map (fun b => lit ", " ++ f b) m ++ close :: y ->
  Forall2 R l m /\ x = y.
Proof.
  intros C. induction l as [| a l IH]; intros [| b m] x y P H; cbn [flat_map app] in H.
  - injection H as ->. split; [constructor | reflexivity].
  - exfalso. apply (f_equal (@hd_error BinNums.N)) in H. injection H as H. apply C. rewrite H. reflexivity.
  - exfalso. apply (f_equal (@hd_error BinNums.N)) in H. injection H as H. apply C. rewrite <- H. reflexivity.
  - rewrite <- !app_assoc in H. apply app_inv_head in H.
    apply P in H; [| left; reflexivity | left; reflexivity]. destruct H as [HR H].
    apply IH in H; [destruct H as [HF ->]; split; [constructor; assumption | reflexivity] |].
    intros a' b' x' y' Ha Hb. apply P; right; assumption.
Qed.
Lemma join_prefix {A} (f : A -> str) (R : A -> A -> Prop) close l m x y : close <> 44%N ->
  (forall a, In a l \/ In a m -> exists h r, f a = h :: r /\ h <> close) ->
  (forall a b x y, In a l -> In b m -> f a ++ x = f b ++ y -> R a b /\ x = y) ->
  join (lit ", ") (map f l) ++ close :: x = join (lit ", ") (map f m) ++ close :: y ->
  Forall2 R l m /\ x = y.
Proof.
  intros C Hh P H. destruct l as [| a l], m as [| b m]; cbn [map] in H.
  - cbn in H. injection H as ->. split; [constructor | reflexivity].
  - exfalso. rewrite join_tail in H. destruct (Hh b) as [h [r [E NE]]]; [right; left; reflexivity |].
    rewrite E in H. apply (f_equal (@hd_error BinNums.N)) in H. injection H as H. congruence.
  - exfalso. rewrite join_tail in H. destruct (Hh a) as [h [r [E NE]]]; [left; left; reflexivity |].
    rewrite E in H. apply (f_equal (@hd_error BinNums.N)) in H. injection H as H. congruence.
  - rewrite !join_tail, !flat_map_concat_map, !map_map, <- !flat_map_concat_map, <- !app_assoc in H.
    apply P in H; [| left; reflexivity | left; reflexivity]. destruct H as [HR H].
    apply (tails_prefix f R) in H; [destruct H as [HF ->]; split; [constructor; assumption | reflexivity] | exact C |].
    intros a' b' x' y' Ha Hb. apply P; right; assumption.
Qed.

(* elements as they show inside containers *)
Definition shown (e : record) : str := match e with RScalar sub st => show_text sub (s_u st) | _ => record_u e end.
Lemma u_dict l : record_u (RDict l) =
  lit "{" ++ join (lit ", ") (map (fun kv => show_key (fst kv) ++ lit ": " ++ shown (snd kv)) l) ++ lit "}".
Proof. reflexivity. Qed.
Lemma u_seq c l : c <> OfMulti -> record_u (RSeq c l) = lit "[" ++ join (lit ", ") (map shown l) ++ lit "]".
Proof. intros H. destruct c; try congruence; reflexivity. Qed.
Lemma shown_head e : clean e -> exists h r, shown e = h :: r /\ (h = 117 \/ h = 123 \/ h = 91)%N.
Proof.
  intros H. inversion H; subst; cbn [shown].
  - unfold ModelNest.show_text. cbn [lit]. eexists. eexists. split; [reflexivity | left; reflexivity].
  - rewrite u_dict. eexists. eexists. split; [reflexivity | right; left; reflexivity].
  - rewrite u_seq by assumption. eexists. eexists. split; [reflexivity | right; right; reflexivity].
Qed.
Theorem shown_prefix a : clean a -> forall b, clean b -> forall x y, shown a ++ x = shown b ++ y ->
  outline_of a = outline_of b /\ x = y.
Proof.
  induction a as [sub st | l IH | c l IH] using record_rect'; intros Ca b Cb x y H.
  - destruct b as [sub' st' | m | c' m].
    + inversion Ca; inversion Cb; subst. apply show_text_prefix in H; [| assumption | assumption].
      destruct H as [-> [E ->]]. cbn [outline_of]. rewrite E. split; reflexivity.
    + exfalso. cbn [shown] in H. rewrite u_dict in H. discriminate.
    + exfalso. inversion Cb; subst. cbn [shown] in H. rewrite u_seq in H by assumption. discriminate.
  - destruct b as [sub' st' | m | c' m].
    + exfalso. cbn [shown] in H. rewrite u_dict in H. discriminate.
    + cbn [shown] in H. rewrite !u_dict, <- !app_assoc in H. apply app_inv_head in H.
      inversion Ca as [| ? Cl |]; subst. inversion Cb as [| ? Cm |]; subst.
      rewrite Forall_forall in IH, Cl, Cm.
      apply (join_prefix (fun kv => show_key (fst kv) ++ lit ": " ++ shown (snd kv))
               (fun p q => fst p = fst q /\ outline_of (snd p) = outline_of (snd q))) in H.
      * destruct H as [HF ->]. split; [| reflexivity]. cbn [outline_of]. f_equal.
        clear - HF. induction HF as [| p q l m [E1 E2] F IHF]; cbn [map]; [reflexivity |]. rewrite E1, E2, IHF. reflexivity.
      * discriminate.
      * intros [n e] _. cbn [fst snd]. destruct n as [s |]; cbn [ModelNest.show_key]; eexists; eexists;
          (split; [reflexivity | discriminate]).
      * intros [n e] [n' e'] x' y' Hl Hm E. cbn [fst snd] in *. rewrite <- !app_assoc in E.
        destruct (Cl _ Hl) as [G1 G2]. destruct (Cm _ Hm) as [G3 G4]. cbn [fst snd] in *.
        apply show_key_prefix in E; [| exact G1 | exact G3]. destruct E as [-> E]. apply app_inv_head in E.
        apply (IH _ Hl G2 _ G4) in E. destruct E as [E ->]. cbn [snd] in E. rewrite E. repeat split.
    + exfalso. inversion Cb; subst. cbn [shown] in H. rewrite u_dict, u_seq in H by assumption. discriminate.
  - inversion Ca as [| | ? ? Hc Cl]; subst. destruct b as [sub' st' | m | c' m].
    + exfalso. cbn [shown] in H. rewrite u_seq in H by assumption. discriminate.
    + exfalso. cbn [shown] in H. rewrite u_dict, u_seq in H by assumption. discriminate.
    + inversion Cb as [| | ? ? Hc' Cm]; subst. cbn [shown] in H. rewrite !u_seq, <- !app_assoc in H by assumption.
      apply app_inv_head in H. rewrite Forall_forall in IH, Cl, Cm.
      apply (join_prefix shown (fun p q => outline_of p = outline_of q)) in H.
      * destruct H as [HF ->]. split; [| reflexivity]. cbn [outline_of]. f_equal.
        clear - HF. induction HF as [| p q l m E F IHF]; cbn [map]; [reflexivity |]. rewrite E, IHF. reflexivity.
      * discriminate.
      * intros e [He | He]; [apply Cl in He | apply Cm in He];
          destruct (shown_head e He) as [h [r [E D]]]; exists h, r; (split; [exact E |]);
          destruct D as [-> | [-> | ->]]; discriminate.
      * intros e e' x' y' He He' E. apply (IH e He (Cl e He) e' (Cm e' He') x' y' E).
Qed.
Lemma outline_shown a : clean a -> forall b, clean b -> outline_of a = outline_of b -> shown a = shown b.
Proof.
  induction a as [sub st | l IH | c l IH] using record_rect'; intros Ca b Cb H.
  - destruct b; cbn [outline_of] in H; try discriminate. injection H as -> E. cbn [shown]. rewrite E. reflexivity.
  - destruct b as [| m | c' m]; cbn [outline_of] in H; try discriminate. injection H as H.
    inversion Ca as [| ? Cl |]; subst. inversion Cb as [| ? Cm |]; subst.
    cbn [shown]. rewrite !u_dict. do 3 f_equal. clear Ca Cb.
    revert m H Cm. induction l as [| [n e] l IHl]; intros [| [n' e'] m] H Cm; cbn [map] in *; try discriminate; [reflexivity |].
    injection H as -> E H. inversion IH as [| ? ? I1 I2]; subst. inversion Cl as [| ? ? C1 C2]; subst.
    inversion Cm as [| ? ? D1 D2]; subst. cbn [fst snd] in *.
    rewrite (I1 (proj2 C1) e' (proj2 D1) E), (IHl I2 C2 m H D2). reflexivity.
  - destruct b as [| m | c' m]; cbn [outline_of] in H; try discriminate. injection H as H.
    inversion Ca as [| | ? ? Hc Cl]; subst. inversion Cb as [| | ? ? Hc' Cm]; subst.
    cbn [shown]. rewrite !u_seq by assumption. do 3 f_equal. clear Ca Cb.
    revert m H Cm. induction l as [| e l IHl]; intros [| e' m] H Cm; cbn [map] in *; try discriminate; [reflexivity |].
    injection H as E H. inversion IH as [| ? ? I1 I2]; subst. inversion Cl as [| ? ? C1 C2]; subst.
    inversion Cm as [| ? ? D1 D2]; subst.
    rewrite (I1 C1 e' D1 E), (IHl I2 C2 m H D2). reflexivity.
Qed.
Theorem container_text a b : clean a -> clean b -> is_scalar a = false -> is_scalar b = false ->
  (record_u a = record_u b <-> outline_of a = outline_of b).
Proof.
  intros Ca Cb Sa Sb.
  assert (Ea : shown a = record_u a) by (destruct a; [discriminate | reflexivity ..]).
  assert (Eb : shown b = record_u b) by (destruct b; [discriminate | reflexivity ..]).
  rewrite <- Ea, <- Eb. split.
  - intros H. apply (shown_prefix a Ca b Cb [] []). rewrite H. reflexivity.
  - apply outline_shown; assumption.
Qed.
End Repr.
