(* Specification for validators and receivers that assign .valid and raise. *)
From Verif Require Import PyBase ModelValidate SpecValidate ModelRaise SpecRaise ModelAssign.

(* the events without the assignments of validate itself *)
Definition happened {val} (tr : list (aevent val)) : list (event val) :=
  flat_map (fun e => match e with AEv e => [e] | AMark _ _ => [] end) tr.
(* the calls of validators, with what they returned *)
Definition calls {val} (tr : list (aevent val)) : list (val * vres) :=
  flat_map (fun e => match e with AEv (ERun fn _ r) => [(fn, r)] | _ => [] end) tr.
(* what an outcome makes of .valid *)
Inductive gives : outcome -> vstat -> Prop :=
| gv_none : gives OUneval Uneval
| gv_good o : o <> OUneval -> o_bool o = true -> gives o Valid
| gv_bad o : o_bool o = false -> gives o Invalid.

Section History.
  Context {S val : Type} (w : aworld S val).
  (* what changes the state, in order: calls of validators, each followed by the
     receivers when there are some; the notification of an element without
     validators; on the way down every outcome is assigned; on the way up every
     verdict about an element that is valid then *)
  Inductive history : S -> list (aevent val) -> S -> Prop :=
  | h_nil s : history s [] s
  | h_quiet fn el r s s1 tr s' : a_run w fn s el = (s1, Ok r) -> a_receivers w s1 = false -> history s1 tr s' ->
      history s (AEv (ERun fn el r) :: tr) s'
  | h_heard fn el r s s1 s2 tr s' : a_run w fn s el = (s1, Ok r) -> a_receivers w s1 = true ->
      a_notify w (Some fn) s1 el r = (s2, None) -> history s2 tr s' ->
      history s (AEv (ERun fn el r) :: AEv (ESent (Some fn) el r) :: tr) s'
  | h_empty el s s1 tr s' : a_receivers w s = true ->
      a_notify w None s el (if a_is_empty w s el then VRFalse else VRTrue) = (s1, None) -> history s1 tr s' ->
      history s (AEv (ESent None el (if a_is_empty w s el then VRFalse else VRTrue)) :: tr) s'
  | h_down el o v s tr s' : gives o v -> history (a_mark w s el v) tr s' ->
      history s (AEv (EEval el true o) :: AMark el v :: tr) s'
  | h_kids el s tr s' : history s tr s' -> history s (AEv (EKids el (a_children w s el)) :: tr) s'
  | h_up_none el s tr s' : history s tr s' -> history s (AEv (EEval el false OUneval) :: tr) s'
  | h_up_kept el o s tr s' : a_valid w s el = Invalid -> history s tr s' -> history s (AEv (EEval el false o) :: tr) s'
  | h_up el o v s tr s' : o <> OUneval -> a_valid w s el <> Invalid -> gives o v -> history (a_mark w s el v) tr s' ->
      history s (AEv (EEval el false o) :: AMark el v :: tr) s'.

  (* a history that an exception ends: of a validator, of a receiver, or of
     True & object *)
  Inductive broken : S -> list (aevent val) -> S -> exn -> Prop :=
  | b_validator fn el s tr s1 s2 e : history s tr s1 -> a_run w fn s1 el = (s2, Err e) -> broken s tr s2 e
  | b_receiver fn el r s tr s1 s2 s3 e : history s tr s1 -> a_run w fn s1 el = (s2, Ok r) -> a_receivers w s2 = true ->
      a_notify w (Some fn) s2 el r = (s3, Some e) ->
      broken s (tr ++ [AEv (ERun fn el r); AEv (ESent (Some fn) el r)]) s3 e
  | b_receiver_empty el s tr s1 s2 e : history s tr s1 -> a_receivers w s1 = true ->
      a_notify w None s1 el (if a_is_empty w s1 el then VRFalse else VRTrue) = (s2, Some e) ->
      broken s (tr ++ [AEv (ESent None el (if a_is_empty w s1 el then VRFalse else VRTrue))]) s2 e
  | b_and el d s tr s1 : history s (tr ++ [AEv (EEval el d OFalsyObj); AMark el Invalid]) s1 ->
      (forall x, ~ In (AMark x Invalid) tr) ->
      broken s (tr ++ [AEv (EEval el d OFalsyObj); AMark el Invalid]) s1 TypeErr.

  (* assigning .valid of an element assigns it, and no other's *)
  Definition assigns : Prop := forall s el v x, a_valid w (a_mark w s el v) x = if Nat.eqb x el then v else a_valid w s x.
End History.

(* the validators of ModelRaise, which read .valid but do not assign it *)
Definition onlookers {S val} (wr : rworld S val) : aworld (S * (id -> vstat)) val :=
  let w := r_world wr in
  AWorld (fun s x => w_children w (fst s) x) (fun s x => w_is_empty w (fst s) x) (fun s x => w_optional w (fst s) x) (w_container w)
         (fun s x => w_down w (fst s) x) (fun s x => w_up w (fst s) x)
         (fun s x => snd s x) (fun s x v => (fst s, upd (snd s) x v))
         (fun fn s x => match r_raise wr fn (fst s) (snd s) x with
                        | Some (s1, e) => ((s1, snd s), Err e)
                        | None => let '(s1, r) := w_run w fn (fst s) (snd s) x in ((s1, snd s), Ok r)
                        end)
         (fun s => w_receivers w (fst s)) (fun fn s x r => ((w_notify w fn (fst s) x r, snd s), None)).

(* the marking of x after the evaluations, when nobody else assigns it; remarks
   (SpecRaise) tells what one evaluation does *)
Inductive remarked (x : id) : vstat -> list (id * bool * outcome) -> vstat -> Prop :=
| rk_nil v : remarked x v [] v
| rk_other y d o v l v' : y <> x -> remarked x v l v' -> remarked x v ((y, d, o) :: l) v'
| rk_own d o v v1 l v' : remarks v d o v1 -> remarked x v1 l v' -> remarked x v ((x, d, o) :: l) v'.
(* validators and receivers leave the marking of x alone *)
Definition spares {S val} (w : aworld S val) (x : id) : Prop :=
  (forall fn s el s1 r, a_run w fn s el = (s1, r) -> a_valid w s1 x = a_valid w s x)
  /\ (forall fn s el r s1 e, a_notify w fn s el r = (s1, e) -> a_valid w s1 x = a_valid w s x).
(* the calls of one evaluation that an exception ends: all said to go on, the
   next validator raised, or it returned and a receiver raised *)
Inductive interrupted {S val} (w : aworld S val) (vs : list val) (el : id) (s' : S) (e : exn) : list (val * vres) -> Prop :=
| in_validator runs fn rest s1 : vs = map fst runs ++ fn :: rest -> Forall (fun c => continues (snd c)) runs ->
    a_run w fn s1 el = (s', Err e) -> interrupted w vs el s' e runs
| in_receiver runs fn r rest s1 : vs = map fst runs ++ fn :: rest -> Forall (fun c => continues (snd c)) runs ->
    a_notify w (Some fn) s1 el r = (s', Some e) -> interrupted w vs el s' e (runs ++ [(fn, r)]).
(* validators and receivers do not say that the fuel is out: it is no exception
   of Python *)
Definition pythonic {S val} (w : aworld S val) : Prop :=
  (forall fn s el s1, a_run w fn s el <> (s1, Err OutOfFuel)) /\ (forall fn s el r s1, a_notify w fn s el r <> (s1, Some OutOfFuel)).
