(* What a validated form reports, element by element. *)
From Verif Require Import PyBase ModelScalar ModelValidate ModelMessage SpecMessage ModelValidators ModelReport SpecValidate.
Local Open Scope string_scope.
Local Open Scope list_scope.

(* a validator passes, fails with a message, or fails without *)
Inductive says (r : rule) (el : id) : bool -> list str -> Prop :=
| sy_pass : ru_verdict r el = Ok Pass -> says r el true []
| sy_quiet : ru_verdict r el = Ok Quiet -> says r el false []
| sy_blank key info a : ru_verdict r el = Ok (Fail key info) -> getattr (ru_self r) key = Ok a -> attr_truth a = false -> says r el false []
| sy_fail key info a m : ru_verdict r el = Ok (Fail key info) -> getattr (ru_self r) key = Ok a -> attr_truth a = true ->
    expand_message (ru_self r) (ru_context r el) a info = Ok m -> says r el false [m].
(* validators in turn, until one fails *)
Inductive chain (el : id) : list rule -> bool -> list str -> Prop :=
| ch_end : chain el [] true []
| ch_stop r rs ms : says r el false ms -> chain el (r :: rs) false ms
| ch_next r rs b ms : says r el true [] -> chain el rs b ms -> chain el (r :: rs) b ms.
(* what one pass makes of an element: nothing (None), or a verdict and messages *)
Inductive passes (f : form) (down : bool) (el : id) : option bool -> list str -> Prop :=
| pa_off : (if down then f_down f el else f_up f el) = None -> passes f down el None []
| pa_bare_container : down = true -> f_container f el = true -> f_down f el = Some [] -> passes f down el None []
| pa_optional rs : (if down then f_down f el else f_up f el) = Some rs -> (down && f_container f el = true -> rs <> []) ->
    f_is_empty f el = true -> f_optional f el = true -> passes f down el (Some true) []
| pa_bare : (if down then f_down f el else f_up f el) = Some [] -> down && f_container f el = false ->
    (f_is_empty f el = true -> f_optional f el = false) -> passes f down el (Some (negb (f_is_empty f el))) []
| pa_chain rs b ms : (if down then f_down f el else f_up f el) = Some rs -> rs <> [] ->
    (f_is_empty f el = true -> f_optional f el = false) -> chain el rs b ms -> passes f down el (Some b) ms.
(* messages are added at the end, each once *)
Inductive noted : list str -> list str -> list str -> Prop :=
| no_none l : noted l [] l
| no_old l m ms l' : In m l -> noted l ms l' -> noted l (m :: ms) l'
| no_new l m ms l' : ~ In m l -> noted (l ++ [m]) ms l' -> noted l (m :: ms) l'.
(* .valid after both passes *)
Inductive settles : option bool -> option bool -> vstat -> Prop :=
| se_none : settles None None Uneval
| se_down b : settles (Some b) None (if b then Valid else Invalid)
| se_up b : settles None (Some b) (if b then Valid else Invalid)
| se_failed u : settles (Some false) (Some u) Invalid
| se_both u : settles (Some true) (Some u) (if u then Valid else Invalid).
Definition fine (o : option bool) : Prop := o <> Some false.
(* a validator raises: in validate(), for want of the message, or making it *)
Inductive trips (r : rule) (el : id) (e : exn) : Prop :=
| tr_verdict : ru_verdict r el = Err e -> trips r el e
| tr_missing key info : ru_verdict r el = Ok (Fail key info) -> getattr (ru_self r) key = Err e -> trips r el e
| tr_message key info a : ru_verdict r el = Ok (Fail key info) -> getattr (ru_self r) key = Ok a -> attr_truth a = true ->
    expand_message (ru_self r) (ru_context r el) a info = Err e -> trips r el e.
(* .valid after both passes over one element alone: the second has the last word *)
Inductive last_word : option bool -> option bool -> vstat -> Prop :=
| lw_none : last_word None None Uneval
| lw_down b : last_word (Some b) None (if b then Valid else Invalid)
| lw_up d b : last_word d (Some b) (if b then Valid else Invalid).
(* sample: a form of two fields, the name blank and the nickname too short; the form
   itself wants them to differ *)
Definition sample_name : rule := Rule present_cls (fun _ => labelled "Name" (VText [])) (fun _ => present []).
Definition sample_nick : rule := Rule (given longer_than_cls "minlength" (Some (VInt 3))) (fun _ => labelled "Nick" (VText (lit "ab"))) (fun _ => longer_than (given longer_than_cls "minlength" (Some (VInt 3))) (lit "ab")).
Definition sample_both : rule := Rule [(lit "same", text "%(label)s must differ.")] (fun _ => labelled "All" VNone) (fun _ => Ok (Fail (lit "same") [])).
Definition sample : form := Form (fun x => if Nat.eqb x 0 then [1; 2] else []) (Nat.eqb 1) (fun _ => false) (Nat.eqb 0)
  (fun x => if Nat.eqb x 0 then Some [] else if Nat.eqb x 1 then Some [sample_name; sample_nick] else Some [sample_nick])
  (fun x => if Nat.eqb x 0 then Some [sample_both] else None).
