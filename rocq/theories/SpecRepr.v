(* What repr() of elements says, stated apart from the model. *)
From Verif Require Import PyBase ModelUtil ModelMap ModelScalar SpecScalar ModelNest SpecNest SpecText ModelRepr.

(* a number in ASCII digits without superfluous zeros *)
Definition decimal (n : N) (t : str) : Prop := plain_digits t /\ numeral t n.
(* a call with numbers *)
Inductive call (f : string) : list N -> str -> Prop :=
| call_intro l ts : Forall2 decimal l ts -> call f l (lit f ++ lit "(" ++ join (lit ", ") ts ++ lit ")").
(* the arguments for a time: no zeros at the end but the minutes *)
Inductive clock_args : time -> list N -> Prop :=
| ca_minutes h m : clock_args (Time h m 0 0) [h; m]
| ca_seconds h m s : s <> 0%N -> clock_args (Time h m s 0) [h; m; s]
| ca_fraction h m s us : us <> 0%N -> clock_args (Time h m s us) [h; m; s; us].
(* a Python expression for the value *)
Inductive expression : pyval -> str -> Prop :=
| ex_none : expression VNone (lit "None")
| ex_true : expression (VBool true) (lit "True")
| ex_false : expression (VBool false) (lit "False")
| ex_int z t : canonical_int t z -> expression (VInt z) t
| ex_text s t : literal s t -> expression (VText s) t
| ex_date y m d t : call "datetime.date" [y; m; d] t -> expression (VDate (Date y m d)) t
| ex_time c l t : clock_args c l -> call "datetime.time" l t -> expression (VTime c) t
| ex_datetime y m d c l t : clock_args c l -> call "datetime.datetime" (y :: m :: d :: l) t -> expression (VDateTime (Date y m d) c) t.
Definition named (n : name) (t : str) : Prop :=
  match n with Some s => literal s t | None => t = lit "None" end.
Inductive displays : looks -> str -> Prop :=
| di_scalar cls n v tn tv : named n tn -> expression v tv ->
    displays (ofScalar cls n (Ok v)) (lit "<" ++ cls ++ lit " " ++ tn ++ lit "; value=" ++ tv ++ lit ">")
| di_compound cls n v tn tv : named n tn -> expression v tv ->
    displays (ofCompound cls n (Ok v)) (lit "<" ++ cls ++ lit " " ++ tn ++ lit "; value=" ++ tv ++ lit ">")
| di_raised cls n e tn : named n tn ->
    displays (ofCompound cls n (Err e)) (lit "<" ++ cls ++ lit " " ++ tn ++ lit "; value raised " ++ exn_name e ++ lit ">")
| di_list l ts : Forall2 displays l ts -> displays (ofList l) (lit "[" ++ join (lit ", ") ts ++ lit "]")
| di_dict l ts :
    Forall2 (fun kv t => exists k v, named (fst kv) k /\ displays (snd kv) v /\ t = k ++ lit ": " ++ v) l ts ->
    displays (ofDict l) (lit "{" ++ join (lit ", ") ts ++ lit "}").

(* Unicode names and texts; values that are not other objects *)
Definition clean_name (n : name) : Prop := match n with Some s => unicode s | None => True end.
Definition clean_value (v : pyval) : Prop := match v with VText s => unicode s | VObj _ => False | _ => True end.
Inductive clean_looks : looks -> Prop :=
| cl_scalar cls n v : clean_name n -> (forall x, v = Ok x -> clean_value x) -> clean_looks (ofScalar cls n v)
| cl_compound cls n v : clean_name n -> (forall x, v = Ok x -> clean_value x) -> clean_looks (ofCompound cls n v)
| cl_list l : Forall clean_looks l -> clean_looks (ofList l)
| cl_dict l : Forall (fun kv => clean_name (fst kv) /\ clean_looks (snd kv)) l -> clean_looks (ofDict l).
(* an element whose value raises, other than a Compound, and no such one before it *)
Inductive troubled : looks -> exn -> Prop :=
| tr_scalar cls n e : troubled (ofScalar cls n (Err e)) e
| tr_list l1 e l2 x : Forall sane l1 -> troubled e x -> troubled (ofList (l1 ++ e :: l2)) x
| tr_dict l1 k e l2 x : Forall (fun kv => sane (snd kv)) l1 -> troubled e x -> troubled (ofDict (l1 ++ (k, e) :: l2)) x
with sane : looks -> Prop :=
| sn_scalar cls n v : sane (ofScalar cls n (Ok v))
| sn_compound cls n v : sane (ofCompound cls n v)
| sn_list l : Forall sane l -> sane (ofList l)
| sn_dict l : Forall (fun kv => sane (snd kv)) l -> sane (ofDict l).

(* class names have no spaces; too deep a recursion aside *)
Inductive spaceless : looks -> Prop :=
| sl_scalar cls n v : ~ In 32%N cls -> spaceless (ofScalar cls n v)
| sl_compound cls n v : ~ In 32%N cls -> v <> Err OutOfFuel -> spaceless (ofCompound cls n v)
| sl_list l : Forall spaceless l -> spaceless (ofList l)
| sl_dict l : Forall (fun kv => spaceless (snd kv)) l -> spaceless (ofDict l).
(* the same but for scalars and Compounds being told apart *)
Inductive told : looks -> looks -> Prop :=
| to_value cls n v a b : In a [ofScalar cls n (Ok v); ofCompound cls n (Ok v)] -> In b [ofScalar cls n (Ok v); ofCompound cls n (Ok v)] -> told a b
| to_raised cls n e : told (ofCompound cls n (Err e)) (ofCompound cls n (Err e))
| to_list l l' : Forall2 told l l' -> told (ofList l) (ofList l')
| to_dict l l' : Forall2 (fun x y => fst x = fst y /\ told (snd x) (snd y)) l l' -> told (ofDict l) (ofDict l').

(* ---------------- settings and complaints ---------------- *)
Definition settings_clean (l : list (str * pyval)) : Prop := Forall (fun kv => unicode (fst kv) /\ clean_value (snd kv)) l.
Inductive settings_show (l : list (str * pyval)) : str -> Prop :=
| ss_intro ts : Forall2 (fun kv t => exists k v, literal (fst kv) k /\ expression (snd kv) v /\ t = k ++ lit ": " ++ v) l ts ->
    settings_show l (lit "{" ++ join (lit ", ") ts ++ lit "}").
(* there is no such child *)
Inductive complains (cls : str) (n child : name) (expr : str) : str -> Prop :=
| co_named s tn tc te : n = Some s /\ s <> [] -> literal s tn -> name_shown child tc -> literal expr te ->
    complains cls n child expr (cls ++ lit " element " ++ lit "u" ++ tn ++ lit " has no child " ++ tc ++ lit " in expression " ++ lit "u" ++ te)
| co_unnamed tc te : n = None \/ n = Some [] -> name_shown child tc -> literal expr te ->
    complains cls n child expr (lit "Unnamed element " ++ cls ++ lit " has no child " ++ tc ++ lit " in expression " ++ lit "u" ++ te).
(* what is said when a path matches several elements *)
Definition several (path m : str) : Prop :=
  exists t, literal path t /\ m = lit "Path " ++ t ++ lit " matched multiple elements; single result expected.".
