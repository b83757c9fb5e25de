(* C86 (Float elements), C87 (Decimal elements). *)
From Verif Require Import PyBase PyBaseFacts ModelScalar SpecScalar ModelNumber SpecNumber
  ProofNumber ProofNumber2 ProofNumber3 ProofNumber4 ProofNumber5.
Local Open Scope Z_scope.

Definition fresh {V} : num_elem V := NumElem None None [].
Definition shows {V} (r : num_elem V * res bool) : str * res bool := (n_u (fst r), snd r).

(* C86 *)

Theorem C86_set : forall signed st v st' r, real_num v -> float_set signed st v = (st', r) ->
  n_raw st' = Some v /\
  (v = NNone /\ r = Ok true /\ n_value st' = None /\ n_u st' = []
   \/ (exists f, as_float v f /\ (signed = true \/ ~ below_zero f)
        /\ r = Ok true /\ n_value st' = Some f /\ float_text f (n_u st'))
   \/ v <> NNone /\ (forall f, as_float v f -> signed = false /\ below_zero f)
        /\ r = Ok false /\ n_value st' = None /\ said v (n_u st')).
Proof. exact @float_set_spec. Qed.
Print Assumptions C86_set.

Theorem C86_one_number : forall dc s d d', literal dc s d -> literal dc s d' -> d = d'.
Proof. exact @literal_fun. Qed.
Print Assumptions C86_one_number.

Theorem C86_one_float : forall v f g, real_num v -> as_float v f -> as_float v g -> f = g.
Proof. exact @as_float_fun. Qed.
Print Assumptions C86_one_float.

Theorem C86_rounded_once : forall neg p q f g, 0 < q -> rounded neg p q f -> rounded neg p q g -> f = g.
Proof. exact @rounded_unique. Qed.
Print Assumptions C86_rounded_once.

Theorem C86_rounded : forall neg p q f, 0 <= p -> 0 < q -> rounded neg p q f <-> nearest neg p q = f.
Proof. exact @nearest_iff. Qed.
Print Assumptions C86_rounded.

Theorem C86_decimal_float : forall d, match d with DNum _ c _ => 0 <= c | _ => True end -> d <> DNan true -> exists f, float_of d f /\ forall g, float_of d g -> g = f.
Proof. exact @float_of_ex. Qed.
Print Assumptions C86_decimal_float.

Theorem C86_text : forall f, real_float f -> exists s, float_text f s.
Proof. exact @float_text_ex. Qed.
Print Assumptions C86_text.

Theorem C86_one_text : forall f s t, real_float f -> float_text f s -> float_text f t -> s = t.
Proof. exact @float_text_fun. Qed.
Print Assumptions C86_one_text.

Theorem C86_again : forall signed st v st' f, real_num v -> float_set signed st v = (st', Ok true) -> n_value st' = Some f ->
  forall st2, exists st3 f', float_set signed st2 (NText (n_u st')) = (st3, Ok true) /\ n_value st3 = Some f' /\ n_u st3 = n_u st'.
Proof. exact @float_again_text. Qed.
Print Assumptions C86_again.

Theorem C86_again_near : forall signed st v st' neg m e, real_num v -> float_set signed st v = (st', Ok true) -> n_value st' = Some (Fin neg m e) ->
  forall st2 st3 r, float_set signed st2 (NText (n_u st')) = (st3, r) ->
  exists m' e', n_value st3 = Some (Fin neg m' e') /\ Z.abs (units m' e' - units m e) * 1000000 <= 2 ^ 1074
    /\ ((exists n, units m e * 1000000 = n * 2 ^ 1074) -> m' = m /\ e' = e).
Proof. exact @float_again_near. Qed.
Print Assumptions C86_again_near.

(* an element can be set to its own value *)
Theorem C86_own_value : forall signed st v st' f, float_set signed st v = (st', Ok true) -> n_value st' = Some f ->
  forall shown st2, exists st3, float_set signed st2 (NFloat f shown) = (st3, Ok true) /\ n_value st3 = Some f /\ n_u st3 = n_u st'.
Proof. exact @float_own. Qed.
Print Assumptions C86_own_value.

(* nearest float, six places; signs, exponents, missing digits *)
Example C86_case : map (fun s => shows (float_set true fresh (NText (lit s)))) [" 0.1 "; "-1.5e3"; ".5"; "2."; "1e400"; "-nan"; "5e-7"; "15e-7"; "1e"; "."; "0x1"; "1 2"]%string
  = [(lit "0.100000", Ok true); (lit "-1500.000000", Ok true); (lit "0.500000", Ok true); (lit "2.000000", Ok true);
     (lit "inf", Ok true); (lit "nan", Ok true); (lit "0.000000", Ok true); (lit "0.000002", Ok true);
     (lit "1e", Ok false); (lit ".", Ok false); (lit "0x1", Ok false); (lit "1 2", Ok false)].
Proof. vm_compute. reflexivity. Qed.
Example C86_case_value : n_value (fst (float_set true fresh (NText (lit "0.1")))) = Some (Fin false 7205759403792794 (-56)).
Proof. vm_compute. reflexivity. Qed.
(* unsigned: less than zero is refused, -0 and nan are not *)
Example C86_case_unsigned : map (fun v => shows (float_set false fresh v)) [NText (lit "-1"); NText (lit "-0"); NText (lit "nan"); NInt (-3); NInt 3; NNone; NOther (lit "x")]
  = [(lit "-1", Ok false); (lit "-0.000000", Ok true); (lit "nan", Ok true); (lit "-3", Ok false); (lit "3.000000", Ok true); ([], Ok true); (lit "x", Ok false)].
Proof. vm_compute. reflexivity. Qed.
(* the text of a value is not always the text of the same value *)
Theorem C86_value_again_refuted : exists s f, n_value (fst (float_set true fresh (NText s))) = Some f
  /\ n_value (fst (float_set true fresh (NText (n_u (fst (float_set true fresh (NText s))))))) <> Some f.
Proof. exists (lit "1e-7"), (nearest false 1 (10 ^ 7)). split; [vm_compute; reflexivity|vm_compute; discriminate]. Qed.
Print Assumptions C86_value_again_refuted.
(* integers from 2^53 on need not be kept *)
Theorem C86_integers_refuted : exists z, shows (float_set true fresh (NInt z)) <> (dec_z z ++ lit ".000000", Ok true).
Proof. exists (2 ^ 53 + 1). vm_compute. discriminate. Qed.
Print Assumptions C86_integers_refuted.

(* C87 *)

Theorem C87_set : forall signed st v st' r, real_num v -> decimal_set signed st v = (st', r) ->
  n_raw st' = Some v /\
  (v = NNone /\ r = Ok true /\ n_value st' = None /\ n_u st' = []
   \/ (exists d f, as_decimal v d /\ (signed = true \/ ~ negative_decimal d /\ d <> DNan false) /\ float_of d f
        /\ r = Ok true /\ n_value st' = Some d /\ float_text f (n_u st'))
   \/ v <> NNone /\ (forall d, as_decimal v d -> signed = false /\ negative_decimal d)
        /\ r = Ok false /\ n_value st' = None /\ said v (n_u st')
   \/ signed = true /\ as_decimal v (DNan true) /\ r = Err ValueErr /\ n_value st' = Some (DNan true) /\ n_u st' = n_u st
   \/ signed = false /\ (exists sig, as_decimal v (DNan sig)) /\ r = Err ArithErr /\ n_value st' = n_value st /\ n_u st' = n_u st).
Proof. exact @decimal_set_spec. Qed.
Print Assumptions C87_set.

Theorem C87_one_decimal : forall v d d', real_num v -> as_decimal v d -> as_decimal v d' -> d = d'.
Proof. exact @as_decimal_fun. Qed.
Print Assumptions C87_one_decimal.

Theorem C87_again : forall signed st v st' d, real_num v -> decimal_set signed st v = (st', Ok true) -> n_value st' = Some d ->
  forall st2, exists st3 d2, decimal_set signed st2 (NText (n_u st')) = (st3, Ok true) /\ n_u st3 = n_u st'
    /\ n_value st3 = Some d2 /\ literal true (n_u st') d2.
Proof. exact @decimal_again. Qed.
Print Assumptions C87_again.

Theorem C87_own_value : forall signed st v st' d, decimal_set signed st v = (st', Ok true) -> n_value st' = Some d ->
  forall shown st2, exists st3, decimal_set signed st2 (NDec d shown) = (st3, Ok true) /\ n_value st3 = Some d /\ n_u st3 = n_u st'.
Proof. exact @decimal_own. Qed.
Print Assumptions C87_own_value.

(* the value is exact, the text has six places *)
Example C87_case : map (fun s => let r := decimal_set true fresh (NText (lit s)) in (n_value (fst r), n_u (fst r), snd r))
    [" -0.10 "; "1E+3"; "12.3456789"; "Infinity"; "NaN12"; "1,5"]%string
  = [(Some (DNum true 10 (-2)), lit "-0.100000", Ok true); (Some (DNum false 1 3), lit "1000.000000", Ok true);
     (Some (DNum false 123456789 (-7)), lit "12.345679", Ok true); (Some (DInf false), lit "inf", Ok true);
     (Some (DNan false), lit "nan", Ok true); (None, lit "1,5", Ok false)].
Proof. vm_compute. reflexivity. Qed.
Example C87_case_float : n_value (fst (decimal_set true fresh (NFloat (nearest false 5 4) (lit "1.25")))) = Some (DNum false 125 (-2)).
Proof. vm_compute. reflexivity. Qed.
(* the text goes through the nearest float: digits are lost even before the point *)
Theorem C87_digits_refuted : exists s, shows (decimal_set true fresh (NText s)) <> (s ++ lit ".000000", Ok true) /\ canonical_int s (2 ^ 53 + 1).
Proof. exists (dec_z (2 ^ 53 + 1)). split; [vm_compute; discriminate|apply ProofScalar2.dec_z_canonical]. Qed.
Print Assumptions C87_digits_refuted.
(* set raises, the element is left with the new value and the old text *)
Theorem C87_signaling_refuted : exists st v st', decimal_set true st v = (st', Err ValueErr)
  /\ n_value st' = Some (DNan true) /\ n_u st' = lit "1.000000".
Proof. exists (fst (decimal_set true fresh (NInt 1))), (NText (lit "sNaN")). eexists. split; [vm_compute; reflexivity|split; vm_compute; reflexivity]. Qed.
Print Assumptions C87_signaling_refuted.
(* unsigned: set raises, raw alone is new *)
Theorem C87_unsigned_nan_refuted : exists st v st', decimal_set false st v = (st', Err ArithErr)
  /\ n_raw st' = Some v /\ n_value st' = Some (DNum false 1 0).
Proof. exists (fst (decimal_set false fresh (NInt 1))), (NText (lit "nan")). eexists. split; [vm_compute; reflexivity|split; vm_compute; reflexivity]. Qed.
Print Assumptions C87_unsigned_nan_refuted.
