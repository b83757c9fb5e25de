(* What Compounds with a compose and an explode of their own should do. *)
From Verif Require Import PyBase ModelScalar ModelPaths ModelFlat SpecFlat ModelCompound SpecCompound ModelCustom.

(* the children have texts for names, and no two the same *)
Definition named (ps : list part) : Prop :=
  Forall (fun p => pt_name p <> None) ps /\ NoDup (map pt_name ps).
(* the same child with the same value and text *)
Definition alike (p q : part) : Prop :=
  pt_name p = pt_name q /\ pt_kind p = pt_kind q /\ pt_default p = pt_default q
  /\ s_value (pt_st p) = s_value (pt_st q) /\ s_u (pt_st p) = s_u (pt_st q).
(* compose looks at nothing but names, types, values and texts *)
Definition observant {V R} (c : custom V R) : Prop :=
  forall ps qs, Forall2 alike ps qs -> cu_compose c ps = cu_compose c qs.

(* ---------------- flat pairs ---------------- *)
(* raw is forgotten *)
Definition forgets (st : scalar) : scalar := Scalar None (s_value st) (s_u st).
(* a child is set from the first pair that has its key; a key that only starts
   the same way makes it forget raw *)
Inductive receives (n : name) (sep : str) (pairs : flat_pairs) : part -> part -> res unit -> Prop :=
| receives_value p x v a b st r : pt_name p = Some x -> pairs = a ++ (Some (below n sep x), v) :: b ->
    ~ In (Some (below n sep x)) (map fst a) -> scalar_set (pt_kind p) (forgets (pt_st p)) v = (st, r) ->
    receives n sep pairs p (Part (pt_name p) (pt_kind p) (pt_default p) st) (match r with Ok _ => Ok tt | Err e => Err e end)
| receives_like p x y : pt_name p = Some x -> ~ In (Some (below n sep x)) (map fst pairs) ->
    In (Some (below n sep (x ++ y))) (map fst pairs) ->
    receives n sep pairs p (Part (pt_name p) (pt_kind p) (pt_default p) (forgets (pt_st p))) (Ok tt)
| receives_nothing p x : pt_name p = Some x -> (forall y, ~ In (Some (below n sep (x ++ y))) (map fst pairs)) ->
    receives n sep pairs p p (Ok tt).
(* one child after the other, up to the first that raises *)
Inductive delivers (n : name) (sep : str) (pairs : flat_pairs) : list part -> list part -> res unit -> Prop :=
| delivers_end : delivers n sep pairs [] [] (Ok tt)
| delivers_next p q ps qs r : receives n sep pairs p q (Ok tt) -> delivers n sep pairs ps qs r ->
    delivers n sep pairs (p :: ps) (q :: qs) r
| delivers_raise p q ps e : receives n sep pairs p q (Err e) -> delivers n sep pairs (p :: ps) (q :: ps) (Err e).
(* the element itself, then its children *)
Definition listed (n : name) (sep : str) (u : str) (ps : list part) : list (str * str) :=
  (match n with Some x => x | None => [] end, u)
  :: map (fun p => (match pt_name p with Some x => below n sep x | None => [] end, s_u (pt_st p))) ps.

(* ---------------- defaults ---------------- *)
Inductive defaults : list part -> list part -> res unit -> Prop :=
| defaults_end : defaults [] [] (Ok tt)
| defaults_none p ps qs r : pt_default p = None -> defaults ps qs r -> defaults (p :: ps) (p :: qs) r
| defaults_set n k d s st b ps qs r : scalar_set k s d = (st, Ok b) -> defaults ps qs r ->
    defaults (Part n k (Some d) s :: ps) (Part n k (Some d) st :: qs) r
| defaults_raise n k d s st e ps : scalar_set k s d = (st, Err e) ->
    defaults (Part n k (Some d) s :: ps) (Part n k (Some d) st :: ps) (Err e).

(* the children of a new DateYYYYMMDD *)
Definition date_fields (n1 n2 n3 : name) : list part :=
  [Part n1 (k_y default_kinds) None blank; Part n2 (k_m default_kinds) None blank; Part n3 (k_d default_kinds) None blank].

(* ---------------- samples: Double of tests/schema/test_compound.py ---------------- *)
Inductive dvalue := DText (s : str) | DPair (x y : pyval) | DNone | DOther.
Definition part_text (p : part) : str := s_u (pt_st p).
Definition part_value (p : part) : pyval := s_value (pt_st p).
Definition double (default : option dvalue) : custom dvalue bool :=
  Custom
    (fun ps => match ps with
               | [x; y] =>
                   Ok (match part_text x, part_text y with
                       | [], _ | _, [] => []
                       | a, b => a ++ lit "x" ++ b
                       end,
                       match part_value x, part_value y with
                       | VNone, _ | _, VNone => DNone
                       | a, b => DPair a b
                       end)
               | _ => Err KeyErr
               end)
    (fun ps v => match ps with
                 | [x; y] =>
                     let both a b :=
                       let '(sx, r) := scalar_set (pt_kind x) (pt_st x) a in
                       match r with
                       | Err e => ([with_st x sx; y], Err e)
                       | Ok _ => let '(sy, r) := scalar_set (pt_kind y) (pt_st y) b in
                                 ([with_st x sx; with_st y sy], rmap (fun _ => Some true) r)
                       end in
                     match v with
                     | DText s => if str_eqb s (lit "boom") then (ps, Err AttributeErr)
                                  else if str_eqb s (lit "return-none") then (ps, Ok None)
                                  else match s with
                                       | [a; b] => both (VText [a]) (VText [b])
                                       | _ => (ps, Ok (Some false))
                                       end
                     | DPair a b => both a b
                     | DNone | DOther => (ps, Ok (Some false))
                     end
                 | _ => (ps, Err KeyErr)
                 end)
    default.
Definition double_parts : list part :=
  [Part (text "x") (KInteger true) None blank; Part (text "y") (KInteger true) None blank].
