(* What validate() makes of the elements of a tree, and of the texts that a form was
   sent with. *)
From Verif Require Import PyBase ModelScalar SpecScalar ModelValidate ModelMessage SpecMessage ModelValidators SpecValidators ModelReport SpecReport ModelFlat ModelCheck.

(* the elements below another, in order *)
Inductive child_of : node -> nat -> node -> Prop :=
| co_field way n cp fields m cq items i there f u : nth_error items i = Some (schema_name f, u) -> In (there, f) fields ->
    child_of (Node way (SDict n cp fields) (EDict m cq items)) i (Node (way ++ [schema_name f]) f u)
| co_list way n prune limit s m l i u : nth_error l i = Some u ->
    child_of (Node way (SList n prune limit s) (EList m l)) i (Node (way ++ [schema_name s]) s u)
| co_array way n prune s m l i u : nth_error l i = Some u ->
    child_of (Node way (SArray n prune s) (EArray m l)) i (Node (way ++ [schema_name s]) s u)
| co_joined way n j m j' l i st : nth_error l i = Some st ->
    child_of (Node way (SJoined n j) (EJoined m j' l)) i (Node (way ++ [j_child j]) (SScalar (j_child j) (j_kind j)) (EScalar (j_child j) st)).
Inductive stands_at (root : node) : list nat -> node -> Prop :=
| sa_root : stands_at root [] root
| sa_below p nd i c : stands_at root p nd -> child_of nd i c -> stands_at root (p ++ [i]) c.
(* A validator lets the element at a place pass, or records this message. *)
Definition grades (c : check) (x : context) (root : node) (p : list nat) (ok : bool) (m : str) : Prop :=
  forall errors, judged (report (ck_self c) x errors (ck_says c root p)) errors (ok = true) m.
(* the first that is not content *)
Inductive objection (x : context) (root : node) (p : list nat) : list check -> option str -> Prop :=
| ob_none : objection x root p [] None
| ob_this c cs m : grades c x root p false m -> objection x root p (c :: cs) (Some m)
| ob_next c cs m o : grades c x root p true m -> objection x root p cs o -> objection x root p (c :: cs) o.
(* Dicts, Lists and Arrays *)
Inductive plain_container : element -> Prop :=
| pc_dict n items : plain_container (EDict n None items)
| pc_list n l : plain_container (EList n l)
| pc_array n l : plain_container (EArray n l).
(* without a value: a String that holds no text, another scalar that holds None and shows
   nothing, a Compound of such parts, a SparseDict without fields, a sequence without
   members; a Dict never is *)
Inductive vacant : schema -> element -> Prop :=
| va_string n b m st : ~ truthy (s_value st) -> s_u st = [] -> vacant (SScalar n (KString b)) (EScalar m st)
| va_scalar n k m st : s_value st = VNone -> s_u st = [] -> vacant (SScalar n k) (EScalar m st)
| va_compound n cp fs m cq items :
    (forall b f u, In (b, f) fs -> In (schema_name f, u) items -> vacant f u) -> vacant (SDict n (Some cp) fs) (EDict m cq items)
| va_sparse n fs m cq f : In (false, f) fs -> vacant (SDict n None fs) (EDict m cq [])
| va_list n p z s m : vacant (SList n p z s) (EList m [])
| va_array n p s m : vacant (SArray n p s) (EArray m [])
| va_joined n j m i : vacant (SJoined n j) (EJoined m i []).
(* what some validators make of an element, and the message that is said *)
Inductive reviewed (ask : settings) (root : node) (p : list nat) (nd : node) (cs : list check) : bool -> option str -> Prop :=
| re_optional : vacant (nd_schema nd) (nd_element nd) -> st_optional (ask (nd_way nd)) = true -> reviewed ask root p nd cs true None
| re_missing : cs = [] -> vacant (nd_schema nd) (nd_element nd) -> st_optional (ask (nd_way nd)) = false -> reviewed ask root p nd cs false None
| re_there : cs = [] -> ~ vacant (nd_schema nd) (nd_element nd) -> reviewed ask root p nd cs true None
| re_asked o : cs <> [] -> (vacant (nd_schema nd) (nd_element nd) -> st_optional (ask (nd_way nd)) = false) ->
    objection (st_context (ask (nd_way nd)) (nd_element nd)) root p cs o -> reviewed ask root p nd cs (match o with None => true | Some _ => false end) o.
Definition is_scalar (nd : node) : Prop := exists n st, nd_element nd = EScalar n st.
Definition said (o : option str) : list str := match o with None => [] | Some m => [m] end.
(* the verdict on the element nd at place p, and the messages it gets: a container may have
   validators for the way down too *)
Inductive assessed (ask : settings) (root : node) (p : list nat) (nd : node) : bool -> list str -> Prop :=
| as_once ok o : is_scalar nd \/ st_down (ask (nd_way nd)) = [] ->
    reviewed ask root p nd (st_checks (ask (nd_way nd))) ok o -> assessed ask root p nd ok (said o)
| as_twice a o b o' : ~ is_scalar nd -> st_down (ask (nd_way nd)) <> [] ->
    reviewed ask root p nd (st_down (ask (nd_way nd))) a o -> reviewed ask root p nd (st_checks (ask (nd_way nd))) b o' -> assessed ask root p nd (a && b) (said o ++ said o').
(* every element of the tree has an identity of its own *)
Definition identified (id_of : list nat -> id) (place_of : id -> option (list nat)) (root : node) : Prop :=
  forall p, node_at root p <> None -> place_of (id_of p) = Some p.
(* every element has an account: the validators that are asked say yes, or no with a message;
   one after a no is not asked, nor any of an optional element without a value *)
Definition answered (ask : settings) (root : node) : Prop :=
  forall p nd, node_at root p = Some nd -> exists ok ms, assessed ask root p nd ok ms.
(* all the validators do, whether asked or not *)
Definition graded (ask : settings) (root : node) : Prop :=
  forall p nd c, node_at root p = Some nd -> In c (st_checks (ask (nd_way nd))) \/ ~ is_scalar nd /\ In c (st_down (ask (nd_way nd))) ->
  exists ok m, grades c (st_context (ask (nd_way nd)) (nd_element nd)) root p ok m.

(* ---------------- forms of scalars ---------------- *)
(* a Dict of these fields *)
Definition plain_form (n : name) (fields : list (str * kind)) : schema :=
  SDict n None (map (fun f => (true, SScalar (Some (fst f)) (snd f))) fields).
(* the key that a field goes by *)
Definition sent_key (n : name) (sep f : str) : str := match n with Some o => o ++ sep ++ f | None => f end.
(* what was sent under a key: the first value counts *)
Inductive first_sent (key : str) : flat_pairs -> option pyval -> Prop :=
| fs_none : first_sent key [] None
| fs_this v ps : first_sent key ((Some key, v) :: ps) (Some v)
| fs_next k v ps o : k <> Some key -> first_sent key ps o -> first_sent key ((k, v) :: ps) o.
(* the field has a value then, or needs none *)
Inductive accepted (optional : bool) (k : kind) : option pyval -> Prop :=
| ac_read v x : adapt k v = Ok x -> x <> VNone -> accepted optional k (Some v)
| ac_absent : optional = true -> accepted optional k None
| ac_blank : optional = true -> accepted optional k (Some (VText []))
| ac_nothing v : optional = true -> adapt k v = Ok VNone -> accepted optional k (Some v).
Definition text_values (ps : flat_pairs) : Prop := Forall (fun p => exists t, snd p = VText t) ps.
(* sample: a name and an age, sent with no name and the age in letters; the name is
   optional *)
Definition sample_fields : list (str * kind) := [(lit "name", KString true); (lit "age", KInteger true)].
Definition sample_context (label : str) : context :=
  Context None (Target None (fun k => if str_eqb k (lit "label") then Ok (VText label) else Err AttributeErr)) nowhere nowhere.
Definition sample_label (way : list name) : str := match way with [Some f] => f | _ => lit "Form" end.
Definition sample_ask : settings := fun way => Setting (str_eqb (sample_label way) (lit "name")) [] (match way with [] => [] | _ => [converted_check] end) (fun _ => sample_context (sample_label way)).
Definition sample_sent : flat_pairs := [(Some (lit "o_age"), VText (lit "ten")); (Some (lit "o_age"), VText (lit "10"))].
Definition sample_id (p : list nat) : id := match p with [] => 0 | [j] => S j | _ => 9 end.
Definition sample_place (x : id) : option (list nat) := match x with O => Some [] | S j => Some [j] end.
(* sample: a List of numbers that wants at least two members, and is asked before and after them: both
   messages are kept *)
Definition bare (way : list name) : setting := Setting false [] [] (fun _ => sample_context (lit "Form")).
Definition two_ask : settings := fun way =>
  match way with
  | [] => Setting false [has_at_least_check 1 (VText (lit "number"))] [has_at_least_check 2 (VText (lit "number"))] (fun _ => sample_context (lit "Numbers"))
  | _ => bare way
  end.
Definition two_root (l : list element) : node := Node [] (SList (Some (lit "l")) false 9 (SScalar None (KInteger true))) (EList (Some (lit "l")) l).
(* sample: a List of numbers, none of which may be repeated *)
Definition number (z : Z) : scalar := Scalar (Some (VInt z)) (VInt z) (dec_z z).
Definition values_match (a b : node) : res bool :=
  match nd_element a, nd_element b with EScalar _ x, EScalar _ y => Ok (py_eq (s_value x) (s_value y)) | _, _ => Err TypeErr end.
Definition once_ask : settings := fun way =>
  match way with
  | [] => bare way
  | _ => Setting false [] [not_duplicated_check values_match (fun _ => VText (lit "Numbers"))] (fun _ => sample_context (lit "Number"))
  end.
