(* Model of markup generation: flatland/out/generic.py, flatland/out/markup.py,
   flatland/out/util.py and Element.x / Element.xa of flatland/schema/base.py. *)
From Verif Require Import PyBase.

(* ------------------------------------------------------------------ *)
(* Escaping.  Each chain of one-character .replace() calls is followed
   literally. *)

(* generic.py:318-321, the text case of _markup_escape *)
Definition markup_escape_text (s : str) : str :=
  replace1 (ch ">") (lit "&gt;")
    (replace1 (ch "<") (lit "&lt;")
       (replace1 (ch "&") (lit "&amp;") s)).

(* markup.py:312-316, the text case of _attribute_escape *)
Definition attribute_escape_text (s : str) : str :=
  replace1 (ch """") (lit "&quot;")
    (replace1 (ch ">") (lit "&gt;")
       (replace1 (ch "<") (lit "&lt;")
          (replace1 (ch "&") (lit "&amp;") s))).

(* called at flatland/schema/base.py:872; xml.sax.saxutils.escape (Python
   3.3): & first, then > and < *)
Definition sax_escape (s : str) : str :=
  replace1 (ch "<") (lit "&lt;")
    (replace1 (ch ">") (lit "&gt;")
       (replace1 (ch "&") (lit "&amp;") s)).
(* part of quoteattr, called at flatland/schema/base.py:880; the whitespace
   entities quoteattr adds *)
Definition sax_ws (s : str) : str :=
  replace1 9%N (lit "&#9;") (replace1 13%N (lit "&#13;") (replace1 10%N (lit "&#10;") s)).
(* called at flatland/schema/base.py:880; xml.sax.saxutils.quoteattr *)
Definition sax_quoteattr (s : str) : str :=
  let data := sax_ws (sax_escape s) in
  if memb N.eqb (ch """") data then
    if memb N.eqb (ch "'") data
    then [ch """"] ++ replace1 (ch """") (lit "&quot;") data ++ [ch """"]
    else [ch "'"] ++ data ++ [ch "'"]
  else [ch """"] ++ data ++ [ch """"].

(* base.py:866-872 Element.x *)
Definition el_x (u : str) : str := sax_escape u.
(* base.py:874-880 Element.xa: quoteattr(u"'" + self.u)[2:-1] *)
Definition el_xa (u : str) : str :=
  removelast (skipn 2 (sax_quoteattr (ch "'" :: u))).

(* ------------------------------------------------------------------ *)
(* the values met in out/markup.py:238-324 and out/generic.py:102-272. Values
   that appear as tag attributes, contents and settings. [MHtml] is text with
   an __html__ method (Markup); [MFilters] is the tuple of filter functions,
   given by index; [MObj] any other object: its str() and its truth value,
   neither a string nor a number nor callable. *)
Inductive mv :=
| MNone | MBool (b : bool) | MMaybe | MText (s : str) | MHtml (s : str)
| MInt (z : Z) | MFilters (l : list nat) | MObj (text : str) (truth : bool).

(* out/util.py:14, out/generic.py:228: six.text_type(v). The text of a filter
   tuple is not modelled further. *)
Definition text_of (v : mv) : str :=
  match v with
  | MNone => lit "None" | MBool true => lit "True" | MBool false => lit "False"
  | MMaybe => lit "Maybe" | MText s => s | MHtml s => s | MInt z => dec_z z
  | MFilters _ => lit "(...)" | MObj t _ => t
  end.
(* bool(v); Maybe.__bool__ raises NotImplementedError (util/base.py:304) *)
Definition truth (v : mv) : res bool :=
  match v with
  | MNone => Ok false | MBool b => Ok b | MMaybe => Err NotImplErr
  | MText s | MHtml s => Ok (match s with [] => false | _ => true end)
  | MInt z => Ok (negb (z =? 0)%Z)
  | MFilters l => Ok (match l with [] => false | _ => true end)
  | MObj _ b => Ok b
  end.
(* out/generic.py:132-133,143,148,168,285: v == text; other objects never
   equal a text *)
Definition mv_is (v : mv) (t : str) : bool :=
  match v with MText s | MHtml s => str_eqb s t | _ => false end.

(* markup.py:306-316 _attribute_escape: false values vanish, __html__ goes
   through, and a non-text has no .replace *)
Definition attribute_escape (v : mv) : res str :=
  bind (truth v) (fun b =>
  if negb b then Ok [] else
  match v with
  | MHtml s => Ok s
  | MText s => Ok (attribute_escape_text s)
  | _ => Err AttributeErr
  end).
(* out/generic.py:304-321 _markup_escape with _unpack; Markup.__html__
   (out/generic.py:75-82) returns the text itself *)
Definition markup_escape (v : mv) : res str :=
  bind (truth v) (fun b =>
  if negb b then Ok [] else
  match v with
  | MHtml s => Ok s
  | MText s => Ok (markup_escape_text s)
  | _ => Err AttributeErr
  end).

(* ------------------------------------------------------------------ *)
(* out/util.py:10-22 parse_trool.  Only ASCII letters are lowered: no other
   code point lowers to a text in YES, NO or MAYBE. *)
Inductive tr := TTrue | TFalse | TMaybe.
(* out/util.py:15 value.lower(), one character *)
Definition lower_chr (c : N) : N :=
  if ((65 <=? c) && (c <=? 90))%N then (c + 32)%N else c.
(* out/util.py:15 value.lower() *)
Definition lower (s : str) : str := map lower_chr s.
(* out/util.py:5 YES *)
Definition trool_yes : list str := map lit ["1"; "true"; "True"; "t"; "on"; "yes"]%string.
(* out/util.py:6 NO *)
Definition trool_no : list str := map lit ["0"; "false"; "False"; "nil"; "off"; "no"]%string.
(* out/util.py:10-22 parse_trool *)
Definition parse_trool (v : mv) : tr :=
  match v with
  | MBool true => TTrue
  | MBool false => TFalse
  | MMaybe => TMaybe
  | _ => let t := lower (text_of v) in
         if memb str_eqb t trool_yes then TTrue
         else if memb str_eqb t trool_no then TFalse
         else TMaybe
  end.
(* out/util.py:10-22: the object parse_trool returns *)
Definition tr_mv (t : tr) : mv :=
  match t with TTrue => MBool true | TFalse => MBool false | TMaybe => MMaybe end.

(* ------------------------------------------------------------------ *)
(* out/generic.py:11,30, out/markup.py:319-324: Attribute and settings
   mappings *)
Definition attrs := list (str * mv).
(* out/generic.py:113,131,152,190 attributes.get(key) *)
Definition get (k : string) (a : attrs) : option mv := aget str_eqb (lit k) a.
(* out/generic.py:138,286 attributes.get(key, default) *)
Definition get_or (k : string) (a : attrs) (d : mv) : mv :=
  match get k a with Some v => v | None => d end.
(* out/generic.py:115,136,145 attributes[key] = value *)
Definition set (k : string) (v : mv) (a : attrs) : attrs := aset str_eqb (lit k) v a.
(* out/generic.py:147,172,266 attributes.pop(key, None) *)
Definition del (k : string) (a : attrs) : attrs := adel str_eqb (lit k) a.
(* out/generic.py:30,47-48: a frame of settings; reading a missing setting is
   KeyError *)
Definition frame := attrs.
(* out/generic.py:47-48 Context.__getitem__ *)
Definition setting (k : string) (f : frame) : res mv :=
  match get k f with Some v => Ok v | None => Err KeyErr end.

(* out/generic.py:11,84,95-99,103,120,184,200,216,234 _default_context.  The markup
   wrapper is always Markup (text in, the same text marked as HTML out). *)
Definition default_context : frame :=
  [ (lit "markup_wrapper", MObj (lit "Markup") true);
    (lit "auto_name", MBool true); (lit "auto_value", MBool true);
    (lit "auto_domid", MBool false); (lit "domid_format", MText (lit "f_%s"));
    (lit "auto_for", MBool false); (lit "auto_tabindex", MBool false);
    (lit "tabindex", MInt 0); (lit "auto_filter", MBool false);
    (lit "filters", MFilters []) ].
(* out/generic.py:270-271: _default_context[key] of a toggle *)
Definition default_toggle (key : string) : bool :=
  match get key default_context with Some (MBool b) => b | _ => false end.

(* generic.py:254-272 _pop_toggle: (effective, forced), attributes left *)
Definition pop_toggle (key : string) (a : attrs) (ctx : frame)
  : res (bool * bool * attrs) :=
  let value := parse_trool (get_or key a MMaybe) in
  let a1 := del key a in
  let forced := match value with TTrue => true | _ => false end in
  match value with
  | TTrue => Ok (true, forced, a1)
  | TFalse => Ok (false, forced, a1)
  | TMaybe =>
      bind (setting key ctx) (fun cv =>
      match parse_trool cv with
      | TTrue => Ok (true, forced, a1)
      | TFalse => Ok (false, forced, a1)
      | TMaybe => Ok (default_toggle key, forced, a1)
      end)
  end.

(* read at out/generic.py:109,135-143,165-168: What a transform reads of the
   bound element: flattened_name(), .u, whether it is an Array (with its
   membership test) or a Boolean (with its .true text). *)
Inductive bkind := BArray (has : mv -> bool) | BBoolean (true_text : str) | BOther.
(* out/generic.py:109,135-143,277: what is read of the bound element *)
Record belement := Bound { b_name : str; b_u : str; b_kind : bkind }.

(* tags of each transformer: generic.py:102,119,183,199,215 *)
Definition name_tags := map lit ["input"; "button"; "select"; "textarea"; "form"]%string.
(* out/generic.py:119 *)
Definition value_tags := map lit ["button"; "input"; "option"; "textarea"]%string.
(* out/generic.py:183 *)
Definition id_tags := map lit ["input"; "button"; "select"; "textarea"]%string.
(* out/generic.py:199 *)
Definition for_tags := map lit ["label"]%string.
(* out/generic.py:215 *)
Definition tabindex_tags := map lit ["input"; "button"; "select"; "textarea"]%string.
(* out/generic.py:90,114 tagname in _auto_tags[...] *)
Definition in_tags (t : str) (ts : list str) : bool := memb str_eqb t ts.
(* out/generic.py:130,155,173 tagname == ... *)
Definition tag_is (t : str) (n : string) : bool := str_eqb t (lit n).

(* out/generic.py:113-114,152-153,190-191: attributes.get(k) is None *)
Definition none_or_missing (k : string) (a : attrs) : bool :=
  match get k a with None | Some MNone => true | _ => false end.

(* out/generic.py:16-20. Result of a transform: attributes and contents. The
   context may be changed even when the transform raises, so it is returned
   separately where it can change. *)
Definition tres := res (attrs * mv).

(* generic.py:102-116 *)
Definition transform_name (tag : str) (a : attrs) (contents : mv) (ctx : frame)
           (b : option belement) : tres :=
  bind (pop_toggle "auto_name" a ctx) (fun '(proceed, forced, a) =>
  match proceed, b with
  | true, Some el =>
      match b_name el with
      | [] => Ok (a, contents)
      | nm =>
          if forced || (none_or_missing "name" a && in_tags tag name_tags)
          then Ok (set "name" (MText nm) a, contents)
          else Ok (a, contents)
      end
  | _, _ => Ok (a, contents)
  end).

(* out/generic.py:140-143,165-168: the membership / equality test used for
   radio, checkbox and option *)
Definition matches (el : belement) (v : mv) : bool :=
  match b_kind el with
  | BArray has => has v
  | _ => mv_is v (b_u el)
  end.
(* out/generic.py:144-147,169-172 *)
Definition toggle_attr (k : string) (on : bool) (a : attrs) : attrs :=
  if on then set k (MText (lit k)) a else del k a.

(* generic.py:119-180 *)
Definition transform_value (tag : str) (a : attrs) (contents : mv) (ctx : frame)
           (b : option belement) : tres :=
  bind (pop_toggle "auto_value" a ctx) (fun '(proceed, forced, a) =>
  match proceed, b with
  | true, Some el =>
      if negb forced && negb (in_tags tag value_tags) then Ok (a, contents)
      else if tag_is tag "input" then
        let subtype := get_or "type" a (MText []) in
        if mv_is subtype (lit "radio") || mv_is subtype (lit "checkbox") then
          let '(a, current) :=
            if mv_is subtype (lit "checkbox") then
              match get_or "value" a MNone, b_kind el with
              | MNone, BBoolean t => (set "value" (MText t) a, MText t)
              | c, _ => (a, c)
              end
            else (a, get_or "value" a (MText [])) in
          Ok (toggle_attr "checked" (matches el current) a, contents)
        else if mv_is subtype (lit "password") || mv_is subtype (lit "file")
                || mv_is subtype (lit "image") then
          if forced then Ok (set "value" (MText (b_u el)) a, contents)
          else Ok (a, contents)
        else if none_or_missing "value" a || forced
             then Ok (set "value" (MText (b_u el)) a, contents)
             else Ok (a, contents)
      else if tag_is tag "option" then
        let value :=
          if negb (none_or_missing "value" a) then get_or "value" a MNone
          else match contents with
               | MText s | MHtml s => MText (strip s)
               | MNone => MText []
               | c => c
               end in
        Ok (toggle_attr "selected" (matches el value) a, contents)
      else if tag_is tag "textarea" then
        if (match contents with MNone => true | _ => false end) || forced then
          rmap (fun s => (a, MHtml s)) (markup_escape (MText (b_u el)))
        else Ok (a, contents)
      else if none_or_missing "value" a || forced
           then Ok (set "value" (MText (b_u el)) a, contents)
           else Ok (a, contents)
  | _, _ => Ok (a, contents)
  end).

(* generic.py:13,292-301: characters outside [A-Za-z0-9_:.\-] are removed;
   re.sub on a non-text is TypeError *)
Definition domid_char (c : N) : bool :=
  ((65 <=? c) && (c <=? 90) || (97 <=? c) && (c <=? 122)
   || (48 <=? c) && (c <=? 57)
   || (c =? 95) || (c =? 58) || (c =? 46) || (c =? 45))%N.
(* out/generic.py:292-301 *)
Definition sanitize_domid_suffix (v : mv) : res str :=
  match v with
  | MText s | MHtml s => Ok (filter domid_char s)
  | _ => Err TypeErr
  end.

(* generic.py:275-289; MNone stands for None.  Concatenation to a non-text
   basis is TypeError. *)
Definition raw_domid (tag : str) (a : attrs) (b : option belement) : res mv :=
  let basis := match b with
               | Some el => MText (b_name el)
               | None => get_or "name" a MNone end in
  bind (truth basis) (fun t =>
  if negb t then Ok MNone
  else if tag_is tag "input"
          && (mv_is (get_or "type" a MNone) (lit "checkbox")
              || mv_is (get_or "type" a MNone) (lit "radio")) then
    bind (sanitize_domid_suffix (get_or "value" a (MText []))) (fun suffix =>
    match suffix with
    | [] => Ok basis
    | _ => match basis with
           | MText s | MHtml s => Ok (MText (s ++ lit "_" ++ suffix))
           | _ => Err TypeErr
           end
    end)
  else Ok basis).

(* out/generic.py:195,211: `fmt % text` for one text argument: %s and %%
   only; any other conversion is reported as ValueError (not modelled further)
   *)
Fixpoint format1_go (fmt : str) (arg : str) (used : bool) : res (bool * str) :=
  match fmt with
  | [] => Ok (used, [])
  | c :: r =>
      if N.eqb c (ch "%") then
        match r with
        | c2 :: r2 =>
            if N.eqb c2 (ch "s") then
              if used then Err TypeErr
              else rmap (fun '(u, t) => (u, arg ++ t)) (format1_go r2 arg true)
            else if N.eqb c2 (ch "%") then
              rmap (fun '(u, t) => (u, ch "%" :: t)) (format1_go r2 arg used)
            else Err ValueErr
        | [] => Err ValueErr
        end
      else rmap (fun '(u, t) => (u, c :: t)) (format1_go r arg used)
  end.
(* out/generic.py:195,211: exactly one argument must be used *)
Definition format1 (fmt : str) (arg : str) : res str :=
  bind (format1_go fmt arg false) (fun '(used, t) =>
  if used then Ok t else Err TypeErr).
(* out/generic.py:195,211: a format that is not text has no such operator *)
Definition format_mv (fmt : mv) (arg : mv) : res str :=
  match fmt with
  | MText f | MHtml f => format1 f (text_of arg)
  | _ => Err TypeErr
  end.

(* the common body of transform_domid and transform_for: generic.py:190-195,
   206-211 *)
Definition put_domid (key : string) (tags : list str) (forced : bool) (tag : str)
           (a : attrs) (contents : mv) (ctx : frame) (b : option belement) : tres :=
  if forced || (none_or_missing key a && in_tags tag tags) then
    bind (raw_domid tag a b) (fun raw =>
    bind (truth raw) (fun t =>
    if negb t then Ok (a, contents)
    else bind (setting "domid_format" ctx) (fun fmt =>
         rmap (fun s => (set key (MText s) a, contents)) (format_mv fmt raw))))
  else Ok (a, contents).
(* generic.py:183-196 *)
Definition transform_domid (tag : str) (a : attrs) (contents : mv) (ctx : frame)
           (b : option belement) : tres :=
  bind (pop_toggle "auto_domid" a ctx) (fun '(proceed, forced, a) =>
  if negb proceed then Ok (a, contents)
  else put_domid "id" id_tags forced tag a contents ctx b).
(* generic.py:199-212 *)
Definition transform_for (tag : str) (a : attrs) (contents : mv) (ctx : frame)
           (b : option belement) : tres :=
  bind (pop_toggle "auto_for" a ctx) (fun '(proceed, forced, a) =>
  match proceed, b with
  | true, Some _ => put_domid "for" for_tags forced tag a contents ctx b
  | _, _ => Ok (a, contents)
  end).

(* out/generic.py:223,229: the integer value of a setting, if it is a number
   *)
Definition int_of (v : mv) : option Z :=
  match v with MInt z => Some z | MBool b => Some (if b then 1 else 0)%Z | _ => None end.
(* generic.py:215-231; also returns the new context *)
Definition transform_tabindex (tag : str) (a : attrs) (contents : mv) (ctx : frame)
  : frame * tres :=
  match pop_toggle "auto_tabindex" a ctx with
  | Err e => (ctx, Err e)
  | Ok (proceed, forced, a) =>
      if negb proceed then (ctx, Ok (a, contents)) else
      match setting "tabindex" ctx with
      | Err e => (ctx, Err e)
      | Ok tv =>
          match int_of tv with
          | Some 0%Z => (ctx, Ok (a, contents))
          | n =>
              if forced || (none_or_missing "tabindex" a && in_tags tag tabindex_tags) then
                let a := set "tabindex" (MText (text_of tv)) a in
                match n with
                | None => (ctx, Err TypeErr)          (* '5' > 0 *)
                | Some z => if (0 <? z)%Z
                            then (set "tabindex" (MInt (z + 1)) ctx, Ok (a, contents))
                            else (ctx, Ok (a, contents))
                end
              else (ctx, Ok (a, contents))
          end
      end
  end.

(* called at out/generic.py:242-247. User supplied filters: their `tags` and
   what they do to the attributes, the contents and the current settings.
   Filters are assumed not to push or pop the context. *)
Record filters_env := FEnv {
  f_tags : nat -> list str;
  f_run : nat -> str -> attrs -> mv -> frame -> option belement -> frame * tres }.
(* out/generic.py:242-249, the loop over the filters *)
Fixpoint run_filters (env : filters_env) (fs : list nat) (tag : str) (a : attrs)
         (contents : mv) (ctx : frame) (b : option belement) : frame * tres :=
  match fs with
  | [] => (ctx, Ok (a, contents))
  | f :: fs' =>
      match f_tags env f with
      | (_ :: _) as want =>
          if negb (in_tags tag want)
          then run_filters env fs' tag a contents ctx b
          else match f_run env f tag a contents ctx b with
               | (ctx, Err e) => (ctx, Err e)
               | (ctx, Ok (a, contents)) => run_filters env fs' tag a contents ctx b
               end
      | [] => match f_run env f tag a contents ctx b with
              | (ctx, Err e) => (ctx, Err e)
              | (ctx, Ok (a, contents)) => run_filters env fs' tag a contents ctx b
              end
      end
  end.
(* generic.py:234-249; a `filters` setting that is not a tuple of functions is
   reported as TypeError *)
Definition transform_filters (env : filters_env) (tag : str) (a : attrs)
           (contents : mv) (ctx : frame) (b : option belement) : frame * tres :=
  match pop_toggle "auto_filter" a ctx with
  | Err e => (ctx, Err e)
  | Ok (proceed, _, a) =>
      match setting "filters" ctx with
      | Err e => (ctx, Err e)
      | Ok fv =>
          if negb proceed then (ctx, Ok (a, contents))
          else match fv with
               | MFilters fs => run_filters env fs tag a contents ctx b
               | _ => (ctx, Err TypeErr)
               end
      end
  end.

(* generic.py:16-20 transform: all of the above in registration order *)
Definition transform (env : filters_env) (tag : str) (a : attrs) (contents : mv)
           (ctx : frame) (b : option belement) : frame * tres :=
  match bind (transform_name tag a contents ctx b) (fun '(a, c) =>
        bind (transform_value tag a c ctx b) (fun '(a, c) =>
        bind (transform_domid tag a c ctx b) (fun '(a, c) =>
        transform_for tag a c ctx b))) with
  | Err e => (ctx, Err e)
  | Ok (a, c) =>
      match transform_tabindex tag a c ctx with
      | (ctx, Err e) => (ctx, Err e)
      | (ctx, Ok (a, c)) => transform_filters env tag a c ctx b
      end
  end.

(* ------------------------------------------------------------------ *)
(* markup.py:327-331 _attribute_sort_key and the sort it induces *)
Definition static_order : list str := map lit ["type"; "name"; "value"]%string.
(* out/markup.py:329 list.index *)
Fixpoint index_of (k : str) (l : list str) : option nat :=
  match l with
  | [] => None
  | x :: l' => if str_eqb k x then Some 0
               else option_map S (index_of k l')
  end.
(* out/markup.py:272,331: text order: code point by code point *)
Fixpoint str_ltb (a b : str) : bool :=
  match a, b with
  | [], [] => false
  | [], _ :: _ => true
  | _ :: _, [] => false
  | x :: a', y :: b' => (x <? y)%N || ((x =? y)%N && str_ltb a' b')
  end.
(* out/markup.py:327-331: key(a) < key(b) *)
Definition attr_before (a b : str) : bool :=
  match index_of a static_order, index_of b static_order with
  | Some i, Some j => Nat.ltb i j
  | Some _, None => true
  | None, Some _ => false
  | None, None => str_ltb a b
  end.
(* out/markup.py:272: sorted(): stable insertion sort *)
Fixpoint insert_attr {V} (x : str * V) (l : list (str * V)) : list (str * V) :=
  match l with
  | [] => [x]
  | y :: l' => if attr_before (fst y) (fst x) then y :: insert_attr x l'
               else x :: l
  end.
(* out/markup.py:272 *)
Fixpoint sort_attrs {V} (l : list (str * V)) : list (str * V) :=
  match l with
  | [] => []
  | x :: l' => insert_attr x (sort_attrs l')
  end.

(* markup.py:319-324 _unicode_keyed: trailing underscores of the keyword are
   removed, later ones overwrite earlier ones *)
Definition unicode_keyed (kw : attrs) : attrs :=
  fold_left (fun m p => aset str_eqb (rstrip_by (N.eqb (ch "_")) (fst p)) (snd p) m) kw [].

(* markup.py:275-276 *)
Fixpoint escape_all (l : attrs) : res (list (str * str)) :=
  match l with
  | [] => Ok []
  | (k, v) :: l' => bind (attribute_escape v) (fun t =>
                    rmap (cons (k, t)) (escape_all l'))
  end.
(* out/markup.py:275-276 *)
Definition guts (l : list (str * str)) : str :=
  join (lit " ") (map (fun '(k, t) => k ++ lit "=""" ++ t ++ lit """") l).
(* markup.py:277-280 *)
Definition header (tag : str) (l : list (str * str)) : str :=
  match guts l with
  | [] => lit "<" ++ tag
  | g => lit "<" ++ tag ++ lit " " ++ g
  end.

(* markup.py:257-280 Tag._open: the partial opener and the contents *)
Definition tag_open_ (env : filters_env) (tag : str) (kw : attrs) (ctx : frame)
           (b : option belement) : frame * res (str * str) :=
  let contents := get_or "contents" kw MNone in
  let a := unicode_keyed (del "contents" kw) in
  match transform env tag a contents ctx b with
  | (ctx, Err e) => (ctx, Err e)
  | (ctx, Ok (a, c)) =>
      (ctx, bind (truth c) (fun t =>
            let body := if t then text_of c else [] in
            bind (setting "ordered_attributes" ctx) (fun ov =>
            bind (truth ov) (fun o =>
            bind (escape_all (if o then sort_attrs a else a)) (fun l =>
            Ok (header tag l, body))))))
  end.

(* markup.py:282-283 *)
Definition tag_close_ (tag : str) : str := lit "</" ++ tag ++ lit ">".

(* markup.py:288-300 Tag.__call__ *)
Definition tag_call (env : filters_env) (xml dangle paired : bool) (tag : str)
           (kw : attrs) (ctx : frame) (b : option belement) : frame * res str :=
  match tag_open_ env tag kw ctx b with
  | (ctx, Err e) => (ctx, Err e)
  | (ctx, Ok (h, body)) =>
      (ctx, Ok (match body with
       | [] => if negb paired then
                 if xml then h ++ lit " />"
                 else if dangle then h ++ lit ">"
                 else h ++ lit ">" ++ body ++ tag_close_ tag
               else h ++ lit ">" ++ body ++ tag_close_ tag
       | _ => h ++ lit ">" ++ body ++ tag_close_ tag
       end))
  end.

(* ------------------------------------------------------------------ *)
(* Context and Generator.  The current frame is the head of the list. *)

(* out/generic.py:50-57 __setitem__ with __contains__ *)
Definition ctx_set (f : frame) (k : str) (v : mv) : res frame :=
  if ahas str_eqb k f then Ok (aset str_eqb k v f) else Err KeyErr.
(* generic.py:59-69 update: the pairs in iteration order; what was assigned
   before an unknown key stays *)
Fixpoint ctx_update (f : frame) (pairs : attrs) : frame * option exn :=
  match pairs with
  | [] => (f, None)
  | (k, v) :: rest =>
      match ctx_set f k v with
      | Ok f' => ctx_update f' rest
      | Err e => (f, Some e)
      end
  end.
(* markup.py:70-76 the loop of Generator.set *)
Fixpoint gen_set_loop (f : frame) (pairs : attrs) : frame * option exn :=
  match pairs with
  | [] => (f, None)
  | (k, v) :: rest =>
      if ahas str_eqb k f then
        let v := if starts_with (lit "auto_") k then tr_mv (parse_trool v) else v in
        gen_set_loop (aset str_eqb k v f) rest
      else (f, Some TypeErr)
  end.

(* out/markup.py:12-37: the style and the frames of a Generator *)
Record gen := Gen { g_xml : bool; g_frames : list frame }.

(* markup.py:15-37 Generator.__init__ *)
Definition gen_init (markup : str) (settings : attrs) : res gen :=
  bind (if str_eqb markup (lit "html") then Ok false
        else if str_eqb markup (lit "xhtml") || str_eqb markup (lit "xml") then Ok true
        else Err TypeErr) (fun xml =>
  let base := set "ordered_attributes" (MBool true) default_context in
  match ctx_update base settings with
  | (f, None) => Ok (Gen xml [f; base])
  | (_, Some e) => Err e
  end).

(* out/markup.py:39-77,288-303: the calls of a generator *)
Inductive gop :=
| OBegin (settings : attrs)                            (* generator.begin(...) *)
| OEnd                                                 (* generator.end() *)
| OSet (settings : attrs)                              (* generator.set(...) *)
| OTag (dangle paired : bool) (tag : str) (kw : attrs) (b : option belement).
                                                       (* generator.<tag>(...) *)

(* out/markup.py:39-77,288-303. One call; the state after it and what it
   returned or raised *)
Definition gen_step (env : filters_env) (g : gen) (o : gop) : gen * res str :=
  match g_frames g with
  | [] => (g, Err IndexErr)
  | top :: below =>
      match o with
      | OBegin settings =>               (* markup.py:39-48, generic.py:32-40 *)
          match ctx_update top settings with
          | (f, None) => (Gen (g_xml g) (f :: top :: below), Ok [])
          | (_, Some e) => (g, Err e)    (* pop() and re-raise *)
          end
      | OEnd =>                          (* markup.py:50-59 *)
          if Nat.eqb (List.length (g_frames g)) 2 then (g, Err RuntimeErr)
          else if Nat.eqb (List.length (g_frames g)) 1 then (g, Err RuntimeErr)
          else (Gen (g_xml g) below, Ok [])
      | OSet settings =>                 (* markup.py:61-77 *)
          match gen_set_loop top settings with
          | (f, None) => (Gen (g_xml g) (f :: below), Ok [])
          | (f, Some e) => (Gen (g_xml g) (f :: below), Err e)
          end
      | OTag dangle paired tag kw b =>
          let '(f, r) := tag_call env (g_xml g) dangle paired tag kw top b in
          (Gen (g_xml g) (f :: below), r)
      end
  end.
(* any sequence of the calls of out/markup.py:39-77,288-303 *)
Fixpoint gen_run (env : filters_env) (g : gen) (ops : list gop) : gen :=
  match ops with
  | [] => g
  | o :: ops' => gen_run env (fst (gen_step env g o)) ops'
  end.

(* markup.py:79-203: the flags (empty_in_html, always_paired) of the named tag
   properties, and of Generator.tag(name) *)
Definition named_flags (tag : string) : option (bool * bool) :=
  match tag with
  | "form" => Some (false, true)
  | "input" => Some (true, false)
  | "textarea" => Some (false, true)
  | "button" => Some (false, false)
  | "select" => Some (false, true)
  | "option" => Some (false, true)
  | "label" => Some (false, false)
  | _ => None
  end%string.
(* out/markup.py:185-205: Generator.tag(name) *)
Definition generic_flags : bool * bool := (false, false).

(* ------------------------------------------------------------------ *)
(* The stack of open tags: markup.py:205-208 _tag, 238-255 open/close.  A tag
   object is its identity with its flags; tags of different names are kept
   apart. *)
Record tagobj := TagObj { t_id : nat; t_name : str; t_dangle : bool; t_paired : bool }.
(* out/markup.py:34: the lists of open tags by name, and the next identity *)
Record registry := Registry { r_next : nat; r_open : list (str * list tagobj) }.
(* out/markup.py:34,206: a missing name is an empty list *)
Definition opened (r : registry) (nm : str) : list tagobj :=
  match aget str_eqb nm (r_open r) with Some l => l | None => [] end.
(* out/markup.py:246,252: the list of one name replaced *)
Definition put_opened (r : registry) (nm : str) (l : list tagobj) : registry :=
  Registry (r_next r) (aset str_eqb nm l (r_open r)).
(* out/markup.py:207: the item at index -1, if any *)
Definition last_error {A} (l : list A) : option A := hd_error (rev l).
(* out/markup.py:205-208: _tag: the innermost open tag of that name, or a new
   one *)
Definition get_tag (r : registry) (nm : str) (dangle paired : bool) : registry * tagobj :=
  match last_error (opened r nm) with
  | Some t => (r, t)
  | None => (Registry (S (r_next r)) (r_open r), TagObj (r_next r) nm dangle paired)
  end.
(* out/markup.py:245,252: tags are compared by identity *)
Definition tag_eqb (a b : tagobj) : bool := Nat.eqb (t_id a) (t_id b).
(* out/markup.py:245-246, open(): append unless already there *)
Definition tag_open (r : registry) (t : tagobj) : registry :=
  let l := opened r (t_name t) in
  if memb tag_eqb t l then r else put_opened r (t_name t) (l ++ [t]).
(* out/markup.py:252 list.remove; here a missing item changes nothing (253-254) *)
Fixpoint remove_first {A} (eqb : A -> A -> bool) (x : A) (l : list A) : list A :=
  match l with
  | [] => []
  | y :: l' => if eqb x y then l' else y :: remove_first eqb x l'
  end.
(* out/markup.py:249-255, close(): remove if present *)
Definition tag_close (r : registry) (t : tagobj) : registry :=
  put_opened r (t_name t) (remove_first tag_eqb t (opened r (t_name t))).
