(* Specification of Python's regular expressions, as far as flatland uses them:
   the syntax of patterns, and matching by backtracking, where the first match
   in the order of trying counts.  Nothing here is taken from the models. *)
From Verif Require Import PyBase.
From Verif Require ModelScalar.
From Coq Require Import Ascii.

(* members of a class: a character, a range, \d and \s *)
Inductive charset := One (c : N) | Span (a b : N) | Digits | Blanks.
Inductive rx :=
| REmpty
| RSet (neg : bool) (l : list charset)
| RCat (a b : rx)
| RAlt (a b : rx)
| RRep (lo : nat) (hi : option nat) (lazy : bool) (r : rx)
| RGroup (i : nat) (nm : option str) (r : rx)
| RLook (behind neg : bool) (r : rx)
| RBegin
| REnd.

(* ---- matching ---- *)
(* what is before (the nearest character first), what is ahead, and the groups *)
Record pos := Pos { p_bef : str; p_aft : str; p_cap : list (nat * str) }.
Definition in_set (c : N) (x : charset) : bool :=
  match x with
  | One d => (c =? d)%N
  | Span a b => ((a <=? c) && (c <=? b))%N
  | Digits => is_digit c
  | Blanks => is_space c
  end.
(* IGNORECASE, on ASCII text and classes without capitals *)
Definition low (c : N) : N := if ((65 <=? c) && (c <=? 90))%N then (c + 32)%N else c.
Definition in_class (ic neg : bool) (l : list charset) (c : N) : bool :=
  xorb neg (existsb (in_set (if ic then low c else c)) l).
Definition step (ok : N -> bool) (p : pos) : list pos :=
  match p_aft p with
  | c :: s => if ok c then [Pos (c :: p_bef p) s (p_cap p)] else []
  | [] => []
  end.
(* exactly k times *)
Fixpoint times (f : pos -> list pos) (k : nat) (p : pos) : list pos :=
  match k with O => [p] | S k' => flat_map (times f k') (f p) end.
(* further times: as often as possible first, or as seldom as possible; each time
   takes something, so that the number of characters ahead is enough *)
Definition progress (p p' : pos) : bool := (List.length (p_aft p') <? List.length (p_aft p))%nat.
Fixpoint more (f : pos -> list pos) (lazy : bool) (h : option nat) (fuel : nat) (p : pos) : list pos :=
  match fuel with
  | O => [p]
  | S fuel' =>
      let go := match h with
                | Some O => []
                | _ => flat_map (more f lazy (option_map pred h) fuel') (filter (progress p) (f p))
                end in
      if lazy then p :: go else go ++ [p]
  end.
(* the text between two positions *)
Definition spanned (p p' : pos) : str := firstn (List.length (p_aft p) - List.length (p_aft p')) (p_aft p).
Definition capture (i : nat) (p p' : pos) : pos := Pos (p_bef p') (p_aft p') (aset Nat.eqb i (spanned p p') (p_cap p')).
(* k characters back *)
Definition back (k : nat) (p : pos) : pos := Pos (skipn k (p_bef p)) (rev (firstn k (p_bef p)) ++ p_aft p) (p_cap p).
Fixpoint runs (ic : bool) (r : rx) (p : pos) : list pos :=
  match r with
  | REmpty => [p]
  | RSet neg l => step (in_class ic neg l) p
  | RCat a b => flat_map (runs ic b) (runs ic a p)
  | RAlt a b => runs ic a p ++ runs ic b p
  | RRep lo hi lazy r =>
      flat_map (fun p' => more (runs ic r) lazy (option_map (fun h => h - lo) hi) (List.length (p_aft p')) p')
        (times (runs ic r) lo p)
  | RGroup i _ r => map (capture i p) (runs ic r p)
  | RLook false neg r => if xorb neg (negb (match runs ic r p with [] => true | _ => false end)) then [p] else []
  | RLook true neg r =>
      if xorb neg (existsb (fun k => existsb (fun p' => (List.length (p_aft p') =? List.length (p_aft p))%nat) (runs ic r (back k p)))
                     (seq 0 (S (List.length (p_bef p))))) then [p] else []
  | RBegin => match p_bef p with [] => [p] | _ => [] end
  | REnd => match p_aft p with [] => [p] | [c] => if (c =? 10)%N then [p] else [] | _ => [] end
  end.
(* the first match at a place *)
Definition match_at (ic : bool) (r : rx) (b s : str) : option pos := hd_error (runs ic r (Pos b s [])).
(* pattern.match(s) *)
Definition re_match (ic : bool) (r : rx) (s : str) : option pos := match_at ic r [] s.
(* group i of a match; findall() and sub() take a group without part as '' *)
Definition group (i : nat) (p : pos) : option str := aget Nat.eqb i (p_cap p).
Definition group_or_empty (i : nat) (p : pos) : str := match group i p with Some s => s | None => [] end.
(* the matches from left to right, without overlap, and the characters left over *)
Fixpoint scan (ic : bool) (r : rx) (fuel : nat) (b s : str) : list (N + pos) :=
  match fuel with
  | O => []
  | S fuel' =>
      match s with
      | [] => match match_at ic r b s with Some p => [inr p] | None => [] end
      | c :: s' =>
          match match_at ic r b s with
          | Some p => if progress (Pos b s []) p then inr p :: scan ic r fuel' (p_bef p) (p_aft p)
                      else inr p :: inl c :: scan ic r fuel' (c :: b) s'
          | None => inl c :: scan ic r fuel' (c :: b) s'
          end
      end
  end.
Definition re_scan (ic : bool) (r : rx) (s : str) : list (N + pos) := scan ic r (S (List.length s)) [] s.
(* pattern.findall(s): each match *)
Definition re_findall {A} (ic : bool) (r : rx) (f : pos -> A) (s : str) : list A :=
  flat_map (fun x => match x with inr p => [f p] | inl _ => [] end) (re_scan ic r s).
(* pattern.sub(f, s) *)
Definition re_sub (ic : bool) (r : rx) (f : pos -> str) (s : str) : str :=
  flat_map (fun x => match x with inr p => f p | inl c => [c] end) (re_scan ic r s).

(* ---- patterns ---- *)
Definition is (a : ascii) (c : N) : bool := (c =? ch a)%N.
Definition alnum (c : N) : bool :=
  ((48 <=? c) && (c <=? 57) || (97 <=? c) && (c <=? 122) || (65 <=? c) && (c <=? 90))%N.
(* after a backslash: \d, \D, \s, \000 and characters that stand for themselves *)
Definition escape (s : str) : option (bool * charset * str) :=
  match s with
  | c :: r =>
      if is "d" c then Some (false, Digits, r)
      else if is "D" c then Some (true, Digits, r)
      else if is "s" c then Some (false, Blanks, r)
      else if negb (alnum c) then Some (false, One c, r)
      else if str_eqb (firstn 3 s) (lit "000") then Some (false, One 0%N, skipn 3 s)
      else None
  | [] => None
  end.
(* the members of a class up to the closing bracket *)
Fixpoint members (fuel : nat) (s : str) : option (list charset * str) :=
  match fuel with
  | O => None
  | S fuel' =>
      match s with
      | [] => None
      | c :: r =>
          if is "]" c then Some ([], r)
          else match (if is "\" c then match escape r with Some (false, x, r') => Some (x, r') | _ => None end
                      else Some (One c, r)) with
               | None => None
               | Some (x, r1) =>
                   match x, r1 with
                   | One a, h :: b :: r2 =>
                       if is "-" h && negb (is "]" b) && negb (is "\" b)
                       then match members fuel' r2 with Some (l, q) => Some (Span a b :: l, q) | None => None end
                       else match members fuel' r1 with Some (l, q) => Some (x :: l, q) | None => None end
                   | _, _ => match members fuel' r1 with Some (l, q) => Some (x :: l, q) | None => None end
                   end
               end
      end
  end.
Definition class (s : str) : option (rx * str) :=
  match s with
  | c :: r => let '(neg, s) := if is "^" c then (true, r) else (false, s) in
              match members (List.length s) s with Some (l, q) => Some (RSet neg l, q) | None => None end
  | [] => None
  end.
(* the decimal number at the beginning *)
Fixpoint digits (s : str) : str * str :=
  match s with
  | c :: r => if ((48 <=? c) && (c <=? 57))%N then let '(a, b) := digits r in (c :: a, b) else ([], s)
  | [] => ([], [])
  end.
Definition count (s : str) : option nat :=
  match s with [] => None | _ => match digits_val 0 s with Some n => Some (N.to_nat n) | None => None end end.
(* what may follow an item: star, +, ?, {n} and {n,} *)
Definition quantifier (s : str) : option (nat * option nat * str) :=
  match s with
  | c :: r =>
      if is "*" c then Some (0, None, r)
      else if is "+" c then Some (1, None, r)
      else if is "?" c then Some (0, Some 1, r)
      else if is "{" c then
        let '(n, r1) := digits r in
        match count n, r1 with
        | Some k, c1 :: r2 =>
            if is "}" c1 then Some (k, Some k, r2)
            else match r2 with
                 | c2 :: r3 => if is "," c1 && is "}" c2 then Some (k, None, r3) else None
                 | [] => None
                 end
        | _, _ => None
        end
      else None
  | [] => None
  end.
Definition quantified (a : rx) (s : str) : rx * str :=
  match quantifier s with
  | Some (lo, hi, r) =>
      match r with
      | c :: r' => if is "?" c then (RRep lo hi true a, r') else (RRep lo hi false a, r)
      | [] => (RRep lo hi false a, r)
      end
  | None => (a, s)
  end.
(* the name of a group, up to > *)
Fixpoint upto (s : str) : option (str * str) :=
  match s with
  | c :: r => if is ">" c then Some ([], r) else match upto r with Some (a, b) => Some (c :: a, b) | None => None end
  | [] => None
  end.
(* the beginning of a group: what to do with its contents, and its number *)
Definition opener (n : nat) (s : str) : option (((rx -> rx) * nat) * str) :=
  let after k := skipn k s in
  if starts_with (lit "?:") s then Some ((fun r => r, n), after 2)
  else if starts_with (lit "?=") s then Some ((RLook false false, n), after 2)
  else if starts_with (lit "?!") s then Some ((RLook false true, n), after 2)
  else if starts_with (lit "?<=") s then Some ((RLook true false, n), after 3)
  else if starts_with (lit "?<!") s then Some ((RLook true true, n), after 3)
  else if starts_with (lit "?P<") s
  then match upto (after 3) with Some (nm, r) => Some ((RGroup n (Some nm), S n), r) | None => None end
  else if starts_with (lit "?") s then None
  else Some ((RGroup n None, S n), s).
(* alternatives, given how sequences of items are read; n is the number of the
   next group *)
Fixpoint alternatives (f : nat -> str -> option (rx * nat * str)) (k n : nat) (s : str) : option (rx * nat * str) :=
  match k with
  | O => None
  | S k' =>
      match f n s with
      | Some (a, n1, c :: r) =>
          if is "|" c
          then match alternatives f k' n1 r with Some (b, n2, r2) => Some (RAlt a b, n2, r2) | None => None end
          else Some (a, n1, c :: r)
      | x => x
      end
  end.
(* a sequence of items, up to the end, a bar or a closing parenthesis *)
Fixpoint items (fuel : nat) (n : nat) (s : str) : option (rx * nat * str) :=
  match fuel with
  | O => None
  | S fuel' =>
      let next (a : rx) (n : nat) (r : str) :=
        let '(a, r) := quantified a r in
        match items fuel' n r with Some (b, n1, r1) => Some (RCat a b, n1, r1) | None => None end in
      match s with
      | [] => Some (REmpty, n, s)
      | c :: r =>
          if is "|" c || is ")" c then Some (REmpty, n, s)
          else if is "^" c then next RBegin n r
          else if is "$" c then next REnd n r
          else if is "\" c then match escape r with Some (neg, x, r1) => next (RSet neg [x]) n r1 | None => None end
          else if is "[" c then match class r with Some (a, r1) => next a n r1 | None => None end
          else if is "(" c
          then match opener n r with
               | Some ((f, n1), r1) =>
                   match alternatives (items fuel') (S (List.length r1)) n1 r1 with
                   | Some (a, n2, d :: r2) => if is ")" d then next (f a) n2 r2 else None
                   | _ => None
                   end
               | None => None
               end
          else if is "*" c || is "+" c || is "?" c || is "{" c || is "." c then None
          else next (RSet false [One c]) n r
      end
  end.
Definition re_compile (s : str) : option rx :=
  match alternatives (items (S (List.length s))) (S (List.length s)) 1 s with
  | Some (r, _, []) => Some r
  | _ => None
  end.
(* VERBOSE: white space and comments outside of classes do not count *)
Fixpoint verbose (cls comment : bool) (s : str) : str :=
  match s with
  | [] => []
  | c :: r =>
      if comment then verbose cls (negb (c =? 10)%N) r
      else if is "\" c then match r with d :: r' => c :: d :: verbose cls false r' | [] => [c] end
      else if cls then c :: verbose (negb (is "]" c)) false r
      else if is "#" c then verbose cls true r
      else if is_space c then verbose cls false r
      else c :: verbose (is "[" c) false r
  end.
(* pattern.match(s) and the like for the text of a pattern *)
Definition compiled (pattern : string) (r : rx) : Prop := re_compile (lit pattern) = Some r.
Definition compiled_verbose (pattern : str) (r : rx) : Prop := re_compile (verbose false false pattern) = Some r.
(* the numbers of named groups; match.group(name) *)
Fixpoint group_names (r : rx) : list (str * nat) :=
  match r with
  | RCat a b | RAlt a b => group_names a ++ group_names b
  | RRep _ _ _ a | RLook _ _ a => group_names a
  | RGroup i nm a => match nm with Some x => (x, i) :: group_names a | None => group_names a end
  | _ => []
  end.
Definition group_named (r : rx) (nm : str) (p : pos) : option str :=
  match aget str_eqb nm (group_names r) with Some i => group i p | None => None end.

(* ---- the patterns in flatland ---- *)
(* schema/scalars.py:538-539, 552-553, 522-524 *)
Definition date_pattern : string := "^(?P<year>\d{4})-(?P<month>\d{2})-(?P<day>\d{2})$".
Definition time_pattern : string := "^(?P<hour>\d{2}):(?P<minute>\d{2}):(?P<second>\d{2})$".
Definition datetime_pattern : string :=
  "^(?P<year>\d{4})-(?P<month>\d{2})-(?P<day>\d{2}) (?P<hour>\d{2}):(?P<minute>\d{2}):(?P<second>\d{2})$".
(* schema/scalars.py:541, 555, 527 *)
Definition date_fields : list str := map lit ["year"; "month"; "day"]%string.
Definition time_fields : list str := map lit ["hour"; "minute"; "second"]%string.
Definition datetime_fields : list str := date_fields ++ time_fields.
(* ext/creditcard.py:79-82, 100-101 *)
Definition visa_pattern : string := "^4\d{12}\d{3}?$".
Definition mc_pattern : string := "^5[1-5]\d{14}$".
Definition amex_pattern : string := "^3[47]\d{13}$".
Definition disc_pattern : string := "^6011\d{12}$".
Definition strip_pattern : string := "[^0-9]".
Definition filler_pattern : string := "^[0-9\s-]{15,}$".
(* validation/string.py:13-14 *)
Definition cleaner_pattern : string := "\D".
Definition lowbit_pattern : string := "^[0-9]+$".
(* validation/network.py:70-71, with IGNORECASE *)
Definition domain_pattern : string := "^(?:[a-z0-9\-]+\.)*[a-z0-9\-]+$".
(* out/generic.py:13 *)
Definition invalid_pattern : string := "[^A-Za-z0-9_:.\-]".
(* schema/paths.py:17-34 with VERBOSE, 35 *)
Definition token_pattern : string := "
    (
      # name
      (?:\\[/.\[]|[^/\[])+
    | # /
      (?<!\\)/
    | # [1:2:3]
      (?<!\\)\[(-?\d*:?-?\d*\:?-?\d*)(?<!\\)\](?=$|/|\[)
    | # [bogus]
      (?<!\\)\[[^\]]*(?<!\\)\](?=$|/|\[)
    | # . or .. at start
      ^\.\.?
    | # . or .. in expression
      (?<=[^\\]/)\.\.?
    |
      \[
    )
    ".
Definition unescape_pattern : string := "\\(/|\[|\]|\.)".
(* schema/containers.py:555-559, 669-670, for the text of re_uescape() *)
Definition list_pattern (escaped_prefix escaped_sep : str) : str :=
  lit "^" ++ escaped_prefix ++ lit "(\d+)(?:" ++ escaped_sep ++ lit "|$)".
Definition array_pattern (escaped_name escaped_sep : str) : str :=
  lit "^(" ++ escaped_name ++ lit "(?:" ++ escaped_sep ++ lit "|$))".
(* whether pattern.match(s) finds anything *)
Definition matches (ic : bool) (r : rx) (s : str) : bool := match re_match ic r s with Some _ => true | None => false end.
(* the pattern and the fields of each type; the texts of the fields *)
Definition temporal_pattern (t : ModelScalar.tkind) : string :=
  match t with ModelScalar.TDate => date_pattern | ModelScalar.TTime => time_pattern | ModelScalar.TDateTime => datetime_pattern end.
Definition temporal_fields (t : ModelScalar.tkind) : list str :=
  match t with ModelScalar.TDate => date_fields | ModelScalar.TTime => time_fields | ModelScalar.TDateTime => datetime_fields end.
Definition present (r : rx) (fields : list str) (p : pos) : list str :=
  flat_map (fun f => match group_named r f p with Some x => [x] | None => [] end) fields.
