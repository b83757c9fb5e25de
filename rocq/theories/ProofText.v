From Verif Require Import PyBase PyBaseFacts ModelMap ModelScalar ModelNest SpecNest SpecText ProofNest ProofNest4.
From Coq Require Import Lia.

Lemma hex_of_digit d : (d < 16)%N -> hex_of (hex_digit d) = Some d.
Proof.
  intros H. unfold hex_of, hex_digit. destruct (N.ltb_spec d 10).
  - replace ((48 <=? 48 + d) && (48 + d <=? 57))%N with true; [f_equal; lia|].
    symmetry. apply andb_true_intro. split; apply N.leb_le; lia.
  - replace ((48 <=? 87 + d) && (87 + d <=? 57))%N with false.
    2:{ symmetry. apply andb_false_intro2. apply N.leb_gt. lia. }
    replace ((97 <=? 87 + d) && (87 + d <=? 102))%N with true; [f_equal; lia|].
    symmetry. apply andb_true_intro. split; apply N.leb_le; lia.
Qed.
Lemma hex_read_app acc l l' : hex_read acc (l ++ l') =
  match hex_read acc l with Some a => hex_read a l' | None => None end.
Proof. revert acc; induction l as [|c l IH]; intros acc; cbn [app hex_read]; [easy|]. now destruct (hex_of c). Qed.
Lemma hex_read_pad w n : (n < 16 ^ N.of_nat w)%N -> hex_read 0 (hex_pad w n) = Some n.
Proof.
  revert n; induction w as [|w IH]; intros n H.
  - cbn in *. f_equal. lia.
  - rewrite Nnat.Nat2N.inj_succ, N.pow_succ_r' in H. cbn [hex_pad]. rewrite hex_read_app, IH by (apply N.div_lt_upper_bound; lia).
    cbn [hex_read]. rewrite hex_of_digit by (apply N.mod_lt; lia). f_equal. rewrite (N.div_mod n 16) at 3 by lia. lia.
Qed.
Definition put (c : N) (r : option (str * str)) : option (str * str) := option_map (fun p => (c :: fst p, snd p)) r.
Lemma unquote_repr printable q c s : quotish q -> (c < 1114112)%N ->
  unquote q (repr_char printable q c ++ s) = put c (unquote q s).
Proof.
  intros Hq Hc. unfold repr_char.
  assert (q <> 92 /\ q <> 10 /\ (forall x, In x [116; 110; 114; 120; 117; 85] -> x <> q))%N as (Q1 & Q2 & Q3).
  { destruct Hq; subst q; (split; [discriminate|split; [discriminate|]]); cbn; intros x Hx; intuition (subst; discriminate). }
  assert (N.eqb 92 q = false) as E92 by (apply N.eqb_neq; congruence).
  destruct (N.eqb_spec c q) as [->|Nq]; [|destruct (N.eqb_spec c 92) as [->|N92]]; cbn [orb].
  - cbn [app unquote]. rewrite E92. cbn [N.eqb Pos.eqb negb].
    replace (_ || N.eqb q 39 || N.eqb q 34) with true; [easy|]. symmetry. destruct Hq; subst q; reflexivity.
  - cbn [app unquote]. rewrite E92. reflexivity.
  - destruct (N.eqb_spec c 9) as [->|N9]; [cbn [app unquote]; rewrite E92; reflexivity|].
    destruct (N.eqb_spec c 10) as [->|N10]; [cbn [app unquote]; rewrite E92; reflexivity|].
    destruct (N.eqb_spec c 13) as [->|N13]; [cbn [app unquote]; rewrite E92; reflexivity|].
    assert (forall c, (c < 256)%N -> unquote q (([92; 120]%N ++ hex_pad 2 c) ++ s) = put c (unquote q s)) as HX.
    { intros x Hx. pose proof (hex_read_pad 2 x Hx) as R. pose proof (hex_length 2 x) as L.
      destruct (hex_pad 2 x) as [|a [|b [|]]]; try discriminate. cbn [app unquote]. rewrite E92.
      change (hex_read 0 [a; b] = Some x) in R. cbn [N.eqb Pos.eqb negb orb]. now rewrite R. }
    assert (forall c, (c < 65536)%N -> unquote q (([92; 117]%N ++ hex_pad 4 c) ++ s) = put c (unquote q s)) as HU.
    { intros x Hx. pose proof (hex_read_pad 4 x Hx) as R. pose proof (hex_length 4 x) as L.
      destruct (hex_pad 4 x) as [|a [|b [|d [|e [|]]]]]; try discriminate. cbn [app unquote]. rewrite E92.
      cbn [N.eqb Pos.eqb negb orb]. now rewrite R. }
    assert (forall c, (c < 4294967296)%N -> unquote q (([92; 85]%N ++ hex_pad 8 c) ++ s) = put c (unquote q s)) as HL.
    { intros x Hx. pose proof (hex_read_pad 8 x Hx) as R. pose proof (hex_length 8 x) as L.
      destruct (hex_pad 8 x) as [|a [|b [|d [|e [|a' [|b' [|d' [|e' [|]]]]]]]]]; try discriminate.
      cbn [app unquote]. rewrite E92. cbn [N.eqb Pos.eqb negb orb]. now rewrite R. }
    assert (unquote q ([c] ++ s) = put c (unquote q s)) as HP.
    { cbn [app unquote]. apply N.eqb_neq in Nq, N92, N10. now rewrite Nq, N10, N92. }
    destruct (N.ltb_spec c 32); [apply HX; lia|].
    destruct (N.eqb_spec c 127); [apply HX; lia|]. cbn [orb].
    destruct (N.ltb_spec c 127); [exact HP|].
    destruct (printable c); [exact HP|].
    destruct (N.ltb_spec c 256); [apply HX; lia|].
    destruct (N.ltb_spec c 65536); [apply HU; lia|]. apply HL. lia.
Qed.
Lemma unquote_body printable q s rest : quotish q -> unicode s ->
  unquote q (flat_map (repr_char printable q) s ++ q :: rest) = Some (s, rest).
Proof.
  intros Q. induction s as [|c s IH]; intros U; cbn [flat_map app].
  - cbn [unquote]. now rewrite N.eqb_refl.
  - inversion U; subst. rewrite <- app_assoc, unquote_repr by easy. now rewrite IH.
Qed.
Lemma repr_ordinary printable q c : ordinary q c -> repr_char printable q c = [c].
Proof.
  intros (H1 & H2 & H3). unfold repr_char. apply N.eqb_neq in H2, H3. rewrite H2, H3. cbn [orb].
  destruct (N.eqb_spec c 9); [lia|]. destruct (N.eqb_spec c 10); [lia|]. destruct (N.eqb_spec c 13); [lia|].
  destruct (N.ltb_spec c 32); [lia|]. destruct (N.eqb_spec c 127); [lia|]. cbn [orb].
  destruct (N.ltb_spec c 127); [easy|lia].
Qed.
Lemma repr_literal printable s : unicode s -> literal s (py_repr printable s).
Proof.
  intros U. unfold py_repr. apply literal_intro.
  - unfold repr_quote.
    assert (forall x, memb N.eqb x s = true <-> In x s) as M.
    { intros x. apply (memb_In N.eqb N.eqb_eq). }
    destruct (memb N.eqb 39%N s) eqn:E1, (memb N.eqb 34%N s) eqn:E2; cbn [andb negb].
    + right. split; [easy|]. intros [_ H]. apply H. now apply M.
    + left. split; [easy|]. split; [now apply M|]. intros H. apply M in H. congruence.
    + right. split; [easy|]. intros [H _]. apply M in H. congruence.
    + right. split; [easy|]. intros [H _]. apply M in H. congruence.
  - intros rest. apply unquote_body; [apply repr_quotish|easy].
  - generalize (repr_quote s) as q. intros q H. induction H as [|c s' Hc Hs IH]; [easy|]. cbn [flat_map].
    rewrite repr_ordinary by easy. cbn [app]. f_equal. apply IH. now inversion U.
Qed.
Section Denotes.
Variable printable : N -> bool.
Lemma shown_denotes e : clean e -> denotes (outline_of e) (shown printable e).
Proof.
  induction e as [sub st|l IH|c l IH] using record_rect'; intros C.
  - inversion C; subst. cbn. unfold show_text. apply d_text. now apply repr_literal.
  - inversion C as [|? HF|]; subst. cbn [outline_of shown record_u]. apply d_map.
    rewrite Forall_forall in HF. clear C.
    induction l as [|[k v] l IHl]; cbn [map]; [constructor|]. constructor.
    + cbn [fst snd]. destruct (HF (k, v)) as [Hk Hv]; [now left|]. cbn [fst snd] in Hk, Hv.
      exists (show_key printable k), (shown printable v). split; [|split; [|easy]].
      * destruct k as [k|]; cbn [name_shown show_key]; [|easy].
        exists (py_repr printable k). split; [now apply repr_literal|]. reflexivity.
      * inversion IH; subst. now apply H1.
    + apply IHl; [now inversion IH|]. intros x Hx. apply HF. now right.
  - inversion C as [| |? ? Hc HF]; subst. destruct c; [| |easy]; cbn [outline_of shown record_u]; apply d_seq; clear C;
      (induction l as [|v l IHl]; cbn [map]; [constructor|]; inversion IH; subst; inversion HF; subst;
       constructor; [now apply H1|now apply IHl]).
Qed.
Lemma text_denotes e : clean e -> is_scalar e = false -> denotes (outline_of e) (record_u printable e).
Proof. intros C H. pose proof (shown_denotes e C) as D. destruct e; [discriminate|exact D|exact D]. Qed.
End Denotes.
