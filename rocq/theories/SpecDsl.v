(* Specification of schema declaration. *)
From Verif Require Import PyBase ModelUtil ModelSeq ModelProps SpecProps ModelDsl.

Section SpecDsl.
Context {V : Type}.
Notation kd := (classes V).
Notation val := (value V).

(* the state Python can reach: existing classes are those below k_next; a class
   comes first in its own MRO, which holds existing classes, each once *)
Record kwf (k : kd) : Prop := Kwf {
  kw_sound : sound (k_props k);
  kw_mro : forall c, c < k_next k -> exists r, mro k c = c :: r /\ NoDup (c :: r) /\ forall b, In b r -> b < k_next k;
  kw_unborn : forall c, k_next k <= c -> mro k c = [] /\ w_own (k_props k) c = None /\ forall d, w_map (k_props k) d c = None;
  kw_desc : forall d, k_desc k <= d -> (forall c, w_own (k_props k) c <> Some d) /\ forall c, w_map (k_props k) d c = None }.

(* everything that exists in k is in k' as it was *)
Record extends (k k' : kd) : Prop := Extends {
  ex_next : k_next k <= k_next k';
  ex_mro : forall c, c < k_next k -> mro k' c = mro k c;
  ex_attrs : forall c, c < k_next k -> k_attrs k' c = k_attrs k c;
  ex_form : forall c, c < k_next k -> k_form k' c = k_form k c;
  ex_own : forall c, c < k_next k -> w_own (k_props k') c = w_own (k_props k) c;
  ex_says : forall d c key, c < k_next k -> mention (k_props k') d c key = mention (k_props k) d c key;
  ex_cls : w_cls (k_props k') = w_cls (k_props k);
  ex_local : forall i, whole (k_props k') i = whole (k_props k) i
                       /\ forall key, own_says (k_props k') i key = own_says (k_props k) i key }.

(* what can be seen of a class *)
Record looks_same (k k' : kd) (c : nat) : Prop := Looks {
  lk_mro : mro k' c = mro k c;
  lk_attr : forall a, getattr k' c a = getattr k c a;
  lk_has : forall a, hasattr k' c a = hasattr k c a;
  lk_form : k_form k' c = k_form k c;
  lk_name : name_of k' (VClass c) = name_of k (VClass c);
  lk_props : forall key, class_sees (k_props k') c key = class_sees (k_props k) c key }.

Definition unwrap (v : val) : val := match v with VStatic v => v | v => v end.
(* fields by name: the first (last) of a list with name n *)
Definition named_so (k : kd) (n : name) (f : val) : bool :=
  match name_of k f with Ok n' => name_eqb n' n | Err _ => false end.
Definition first_named (k : kd) (n : name) (fs : list val) : option val := find (named_so k n) fs.
Definition last_named (k : kd) (n : name) (fs : list val) : option val := find (named_so k n) (rev fs).
(* fs: one field per name, for each name the one chosen *)
Definition one_each (k : kd) (fs : list val) (choice : name -> option val) : Prop :=
  (exists ns, names_of k fs = Ok ns /\ NoDup ns)
  /\ forall n f, In f fs /\ name_of k f = Ok n <-> choice n = Some f.
Definition seq_items (v : option val) : option (list val) :=
  match v with Some (VSeq _ l) => Some l | None => Some [] | _ => None end.

(* n, made in k', is a copy of c with the given attributes set: a direct
   subclass of the same kind, on which every other attribute is inherited.
   A copy of a Form has its own list of the same fields. *)
Record derived (k : kd) (c : nat) (k' : kd) (n : nat) (changes : list (str * val)) : Prop := Derived {
  dv_fresh : k_next k <= n < k_next k';
  dv_mro : mro k' n = n :: mro k c;
  dv_form : k_form k' n = k_form k c;
  dv_changes : forall a v, aget str_eqb a changes = Some v -> getattr k' n a = Some (unwrap v);
  dv_rest : forall a, ahas str_eqb a changes = false -> a <> lit "__doc__" -> a <> lit "__module__" ->
            (a = lit "field_schema" /\ k_form k c = true) \/ getattr k' n a = getattr k c a;
  dv_doc : ahas str_eqb (lit "__doc__") changes = false ->
           match getattr k c (lit "__doc__") with
           | Some (VStatic _) => True
           | Some d => getattr k' n (lit "__doc__") = Some d
           | None => getattr k' n (lit "__doc__") = Some (VText [])
           end;
  dv_fields : k_form k c = true -> ahas str_eqb (lit "field_schema") changes = false ->
              exists l fs, seq_items (getattr k c (lit "field_schema")) = Some l
                           /\ getattr k' n (lit "field_schema") = Some (VSeq false fs)
                           /\ one_each k fs (fun x => first_named k x l) }.
Definition same_props (k : kd) (c : nat) (k' : kd) (n : nat) : Prop :=
  forall key, class_sees (k_props k') n key = class_sees (k_props k) c key.

(* a call that answered with such a copy, or was refused; nothing that existed
   changed *)
Definition made (k : kd) (c : nat) (r : kd * res nat) (changes : list (str * val)) : Prop :=
  exists k' n, r = (k', Ok n) /\ kwf k' /\ extends k k' /\ derived k c k' n changes /\ same_props k c k' n.
Definition refused (k : kd) (r : kd * res nat) (x : exn) : Prop :=
  exists k', r = (k', Err x) /\ kwf k' /\ extends k k'.
(* a Form whose field_schema can be copied *)
Definition copyable (k : kd) (c : nat) : Prop :=
  k_form k c = true -> exists l ns, seq_items (getattr k c (lit "field_schema")) = Some l /\ names_of k l = Ok ns.
(* what using() is given, other than properties; validators become a list *)
Definition settings (l : list (str * val)) : list (str * val) :=
  flat_map (fun p => if str_eqb (fst p) (lit "properties") then []
                     else [(fst p, if str_eqb (fst p) (lit "validators")
                                   then match snd p with VSeq _ xs => VSeq false xs | v => v end else snd p)]) l.
Definition using_types (l : list (str * val)) : Prop :=
  (forall v, aget str_eqb (lit "validators") l = Some v -> exists b xs, v = VSeq b xs)
  /\ forall v, aget str_eqb (lit "properties") l = Some v -> exists d, v = VDict d.
(* known on a copy of c *)
Definition known (k : kd) (c : nat) (a : str) : Prop :=
  hasattr k c a = true \/ a = lit "__doc__" \/ a = lit "__module__" \/ (a = lit "field_schema" /\ k_form k c = true).

(* where including_validators splices *)
Definition splice {A} (l : list A) (position : option Z) (xs : list A) (l' : list A) : Prop :=
  let len := Z.of_nat (List.length l) in
  let p := match position with Some p => p | None => (-1)%Z end in
  let i := if (0 <=? p)%Z then Z.min p len
           else if (0 <=? len + 1 + p)%Z then (len + 1 + p)%Z
           else Z.max 0 (len + (len + 1 + p)) in
  exists l1 l2, l = l1 ++ l2 /\ Z.of_nat (List.length l1) = i /\ l' = l1 ++ xs ++ l2.

(* the field a Form declared with these bases and members has for name n *)
Definition own_member (k : kd) (members : list (str * val)) (n : name) : option nat :=
  match n with
  | Some a => match aget str_eqb a members with
              | Some (VClass c) => if memb Nat.eqb element_class (mro k c) then Some c else None
              | _ => None
              end
  | None => None
  end.
Definition inherited_field (k : kd) (bases : list nat) (n : name) : option val :=
  first_some (fun b => match seq_items (getattr k b (lit "field_schema")) with
                       | Some l => first_named k n l | None => None end) bases.
Definition field_schema_of (members : list (str * val)) : list val :=
  match seq_items (aget str_eqb (lit "field_schema") members) with Some l => l | None => [] end.

Definition run_k (text_of : val -> str) (k : kd) (os : list (kop V)) : kd := fold_left (fun k o => fst (kstep text_of k o)) os k.
Definition proper_op (k : kd) (o : kop V) : Prop :=
  match o with
  | KCall _ _ _ => True
  | KDeclare bases members props => forall b, In b bases -> b < k_next k
  end.
Fixpoint proper_ops (text_of : val -> str) (k : kd) (os : list (kop V)) : Prop :=
  match os with [] => True | o :: r => proper_op k o /\ proper_ops text_of (fst (kstep text_of k o)) r end.
End SpecDsl.

(* a class statement: the attributes and properties found along the bases *)
Section SpecDeclare.
Context {V : Type}.
Notation kd := (classes V).
Notation val := (value V).
Definition along (k : kd) (lin : list nat) (a : str) : option val :=
  option_map unwrap (first_some (fun b => aget str_eqb a (k_attrs k b)) lin).
Definition sees_along (k : kd) (lin : list nat) (key : str) : option V :=
  let w := k_props k in
  match first_some (w_own w) lin with
  | Some d => shown (first_some (fun b => mention w d b key) (upto (w_own w) d lin))
  | None => None
  end.
(* the new class n, whose MRO continues with lin, has these attributes of its
   own and these properties *)
Record declared_class (k : kd) (lin : list nat) (own : str -> option val) (props : option (list (str * V)))
  (k' : kd) (n : nat) (form : bool) : Prop := DeclaredClass {
  dc_wf : kwf k';
  dc_ext : extends k k';
  dc_fresh : k_next k <= n < k_next k';
  dc_mro : mro k' n = n :: lin;
  dc_form : k_form k' n = form;
  dc_attr : forall a, getattr k' n a = match own a with Some v => Some (unwrap v) | None => along k lin a end;
  dc_props : forall key, class_sees (k_props k') n key = match props with Some l => last_for key l | None => sees_along k lin key end }.
(* the field a Form gets from its own member c, named x *)
Definition own_field (k : kd) (c : nat) (x : name) (k' : kd) (f : nat) : Prop :=
  match x with
  | Some a => if named_so k x (VClass c) then f = c
              else derived k c k' f [(lit "name", VText a)] /\ same_props k c k' f
  | None => False
  end.
(* one field per name: a member of the class, else the last of the class's own
   field_schema, else the first found among the bases *)
Definition form_fields (k : kd) (bases : list nat) (members : list (str * val)) (k' : kd) (fs : list val) : Prop :=
  exists choice, one_each k' fs choice /\ forall x,
    match own_member k members x with
    | Some c => exists f, choice x = Some (VClass f) /\ own_field k c x k' f
    | None => choice x = match last_named k x (field_schema_of members) with
                         | Some f => Some f
                         | None => inherited_field k bases x
                         end
    end.
(* the attributes left in the class's own dictionary *)
Definition form_attrs (k : kd) (members : list (str * val)) (fs : list val) (a : str) : option val :=
  if str_eqb a (lit "field_schema") then Some (VSeq false fs)
  else match own_member k members (Some a) with Some _ => None | None => aget str_eqb a members end.
(* a class statement that nothing is wrong with *)
Record declarable (k : kd) (bases : list nat) (members : list (str * val)) : Prop := Declarable {
  db_bases : forall b, In b bases -> b < k_next k;
  db_once : NoDup (keys members);
  db_born : forall a c, In (a, VClass c) members -> c < k_next k }.
Record form_declarable (k : kd) (bases : list nat) (members : list (str * val)) : Prop := FormDeclarable {
  fd_base : forall b, In b bases -> exists l ns, seq_items (getattr k b (lit "field_schema")) = Some l /\ names_of k l = Ok ns;
  fd_own : exists l ns, seq_items (aget str_eqb (lit "field_schema") members) = Some l /\ names_of k l = Ok ns;
  fd_members : forall a c, own_member k members (Some a) = Some c ->
               exists x, name_of k (VClass c) = Ok x
                         /\ (x = Some a \/ copyable k c /\ getattr k c (lit "named") = Some (VCloner MNamed)) }.
End SpecDeclare.

(* A sample: object 0, Element 1, Dict 2, Sequence 3, String 4, Integer 5,
   Form 6, Enum 7, Ref 8. *)
Definition sample_attrs (c : nat) : list (str * value nat) :=
  match c with
  | 1 => [(lit "name", VNone); (lit "validators", VSeq true []); (lit "optional", VObj 0); (lit "__doc__", VText (lit "An element"));
          (lit "named", VCloner MNamed); (lit "using", VCloner MUsing); (lit "validated_by", VCloner MValidatedBy);
          (lit "including_validators", VCloner MIncluding); (lit "with_properties", VCloner MWithProperties)]
  | 2 => [(lit "field_schema", VSeq true []); (lit "of", VCloner MDictOf); (lit "descent_validators", VSeq true []);
          (lit "descent_validated_by", VCloner MDescentBy); (lit "including_descent_validators", VCloner MIncludingDescent)]
  | 3 => [(lit "of", VCloner MSeqOf); (lit "member_schema", VNone)]
  | 6 => [(lit "field_schema", VSeq false [])]
  | 7 => [(lit "valid_values", VSeq true []); (lit "valued", VCloner MValued)]
  | 8 => [(lit "sep", VText (lit ".")); (lit "target_path", VNone); (lit "to", VCloner MTo)]
  | _ => []
  end.
Definition sample_classes : classes nat :=
  Classes (World (fun c => match c with
                           | 0 => [0] | 1 => [1; 0] | 6 => [6; 2; 1; 0]
                           | 2 | 3 | 4 | 5 | 7 | 8 => [c; 1; 0] | _ => [] end)
                 (fun c => match c with 1 => Some 0 | _ => None end) (fun _ => 0) (fun _ _ => None) 1
                 (fun r => match r with 0 => [(lit "label", Val 1)] | _ => [] end) (fun _ => 4) (fun _ => NoLocal))
          sample_attrs (fun c => Nat.eqb c 6) 9 1.
(* class A(Form): x = String; class B(A): y = String; class C(A): x = Integer;
   class D(B, C) *)
Definition diamond : list (kop nat) :=
  [KDeclare [6] [(lit "x", VClass 4)] None;                               (* x is 9, A is 10 *)
   KDeclare [10] [(lit "y", VClass 4); (lit "help", VText [])] None;      (* y is 11, B is 12 *)
   KDeclare [10] [(lit "x", VClass 5)] (Some [(lit "label", 2)]);         (* x is 13, C is 14 *)
   KDeclare [12; 14] [] None].                                            (* D is 15 *)
Definition no_text (v : value nat) : str := lit "?".
Definition dsl_history : list (kop nat) :=
  [KCall 4 (lit "named") (AOne (VText (lit "a")));
   KCall 9 (lit "using") (AKw [(lit "optional", VObj 1); (lit "validators", VSeq true [VFun 1; VFun 2])]);
   KCall 10 (lit "including_validators") (ASplice [VFun 3] (Some (-2)%Z) false);
   KCall 11 (lit "validated_by") (AVals [VClass 4]);
   KCall 2 (lit "of") (AVals [VClass 9; VClass 4]);
   KCall 13 (lit "with_properties") (AProps [(lit "label", 7)]);
   KCall 5 (lit "using") (AKw [(lit "optional", VObj 1); (lit "oops", VNone)]);
   KCall 3 (lit "of") (AVals [VClass 9; VClass 4])].
Inductive subseq {A} : list A -> list A -> Prop :=
| Sub_nil : forall l, subseq [] l
| Sub_keep : forall x l l', subseq l l' -> subseq (x :: l) (x :: l')
| Sub_skip : forall x l l', subseq l l' -> subseq l (x :: l').
