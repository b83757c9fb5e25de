(* Specifications for sequences used as their own argument. *)
From Verif Require Import PyBase PyList ModelSeq SpecSeq ModelMap SpecMap ModelSelf.

(* l repeats b over and over, from its beginning *)
Definition cycles {A} (b l : list A) : Prop :=
  forall k, k < List.length l -> nth_error l k = nth_error b (k mod List.length b).
(* every slot belongs to the list and is named after its position *)
Definition numbered {M} (q : seqst M) : Prop :=
  forall i s, nth_error (q_items q) i = Some s -> h_name (q_h q) s = dec_nat i /\ h_parent (q_h q) s = Some (q_self q).
(* nothing is written into the elements that existed *)
Definition contents_kept {M} (q q' : seqst M) : Prop :=
  q_self q' = q_self q /\ forall e, e < h_next (q_h q) -> h_con (q_h q') e = h_con (q_h q) e.

(* a new member set to each content in turn: the members until one raises,
   whether all were accepted, and that exception *)
Fixpoint each_set {V M} (sch : mschema V M) (l : list M) : list M * bool * option exn :=
  match l with
  | [] => ([], true, None)
  | m :: l' => match ms_set_el sch (ms_new sch) m with
               | (_, Err x) => ([], true, Some x)
               | (m', Ok b) => let '(ms, c, x) := each_set sch l' in (m' :: ms, b && c, x)
               end
  end.

(* ------------------------------ mappings ------------------------------ *)
Section Maps.
Context {V M : Type} (cls : nat -> ecls V M) (fields : list field).
(* a blank member of the field set to itself *)
Definition blank_set (f : field) : M * res bool :=
  c_set_el (cls (f_class f)) (c_new (cls (f_class f))) (c_new (cls (f_class f))).
(* the fields of [which] hold a blank value set to itself, the others nothing *)
Definition holds_blank_sets (which : field -> bool) (s : mapst M) : Prop :=
  forall f, In f fields -> content s (f_name f) = if which f then Some (fst (blank_set f)) else None.
Definition set_self_outcome (pol : policy) (which : field -> bool) (s : mapst M) (r : res bool) : Prop :=
  match r with
  | Ok b => holds_blank_sets which s
            /\ (forall f, In f fields -> which f = true -> exists b', snd (blank_set f) = Ok b')
            /\ (b = true <-> forall f, In f fields -> which f = true -> snd (blank_set f) = Ok true)
            /\ (pol = Strict -> forall f, In f fields -> which f = true)
  | Err x => (exists f, In f fields /\ which f = true /\ snd (blank_set f) = Err x
                        /\ content s (f_name f) = Some (fst (blank_set f)))
             \/ (x = TypeErr /\ pol = Strict /\ holds_blank_sets which s
                 /\ exists f, In f fields /\ which f = false)
  end.
(* each member set to itself in turn *)
Definition own_set (s : mapst M) (e : nat) : M * res bool :=
  c_set_el (cls (e_class (m_h s) e)) (e_con (m_h s) e) (e_con (m_h s) e).
End Maps.
(* the same mapping, up to the functions that describe it *)
Definition same_mapping {M} (s s' : mapst M) : Prop :=
  m_items s' = m_items s /\ m_self s' = m_self s /\ e_next (m_h s') = e_next (m_h s)
  /\ forall i, e_parent (m_h s') i = e_parent (m_h s) i /\ e_class (m_h s') i = e_class (m_h s) i
      /\ e_optional (m_h s') i = e_optional (m_h s) i /\ e_con (m_h s') i = e_con (m_h s) i.
