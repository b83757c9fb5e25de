(* Reading Python literals: what the text of a container denotes. *)
From Verif Require Import PyBase SpecNest.

Definition hex_of (c : N) : option N :=
  (if (48 <=? c) && (c <=? 57) then Some (c - 48)
   else if (97 <=? c) && (c <=? 102) then Some (c - 87)
   else if (65 <=? c) && (c <=? 70) then Some (c - 55) else None)%N.
Fixpoint hex_read (acc : N) (l : str) : option N :=
  match l with
  | [] => Some acc
  | c :: l => match hex_of c with Some d => hex_read (16 * acc + d)%N l | None => None end
  end.
(* the characters up to the closing quote, and what follows it; the escapes of
   the Python language reference that denote one character *)
Fixpoint unquote (q : N) (s : str) {struct s} : option (str * str) :=
  let put c r := option_map (fun p => (c :: fst p, snd p)) r in
  match s with
  | [] => None
  | c :: s =>
      if N.eqb c q then Some ([], s)
      else if N.eqb c 10 then None
      else if negb (N.eqb c 92) then put c (unquote q s)
      else match s with
           | [] => None
           | e :: s =>
               if N.eqb e 92 || N.eqb e 39 || N.eqb e 34 then put e (unquote q s)
               else if N.eqb e 116 then put 9%N (unquote q s)
               else if N.eqb e 110 then put 10%N (unquote q s)
               else if N.eqb e 114 then put 13%N (unquote q s)
               else if N.eqb e 120 then
                 match s with
                 | a :: b :: s => match hex_read 0 [a; b] with Some n => put n (unquote q s) | None => None end
                 | _ => None
                 end
               else if N.eqb e 117 then
                 match s with
                 | a :: b :: c :: d :: s =>
                     match hex_read 0 [a; b; c; d] with Some n => put n (unquote q s) | None => None end
                 | _ => None
                 end
               else if N.eqb e 85 then
                 match s with
                 | a :: b :: c :: d :: a' :: b' :: c' :: d' :: s =>
                     match hex_read 0 [a; b; c; d; a'; b'; c'; d'] with Some n => put n (unquote q s) | None => None end
                 | _ => None
                 end
               else None
           end
  end.
(* visible ASCII characters other than the backslash and the quote *)
Definition ordinary (q c : N) : Prop := (32 <= c < 127 /\ c <> 92 /\ c <> q)%N.
(* a string literal of the text [s]: in single quotes, or in double quotes when
   that saves escaping; ordinary texts stand for themselves *)
Inductive literal (s : str) : str -> Prop :=
| literal_intro q body :
    ((q = 34%N /\ In 39%N s /\ ~ In 34%N s) \/ (q = 39%N /\ ~ (In 39%N s /\ ~ In 34%N s))) ->
    (forall rest, unquote q (body ++ q :: rest) = Some (s, rest)) ->
    (Forall (ordinary q) s -> body = s) ->
    literal s (q :: body ++ [q]).
Definition name_shown (n : name) (t : str) : Prop :=
  match n with Some s => exists x, literal s x /\ t = lit "u" ++ x | None => t = lit "uNone" end.
(* a mapping or a sequence of Python literals, texts marked with a u; those made
   by String.serialize are marked twice *)
Inductive denotes : outline -> str -> Prop :=
| d_text sub s x : literal s x -> denotes (OText sub s) (lit "u" ++ (if sub then lit "u" else []) ++ x)
| d_map l ts :
    Forall2 (fun kv t => exists k v, name_shown (fst kv) k /\ denotes (snd kv) v /\ t = k ++ lit ": " ++ v) l ts ->
    denotes (OMap l) (lit "{" ++ join (lit ", ") ts ++ lit "}")
| d_seq l ts : Forall2 denotes l ts -> denotes (OSeq l) (lit "[" ++ join (lit ", ") ts ++ lit "]").
