(* Specifications for markup generation: entity decoding, an attribute
   parser, the meaning of toggles, and the tables of the automatic
   attributes. *)
From Verif Require Import PyBase ModelMarkup.

(* ---------------- entity decoding ---------------- *)
(* Strict decoding: every '&' must start one of the entities, and characters
   in [bad] must not occur raw. *)
Section Decode.
  Variable table : list (str * N).
  Variable bad : list N.
  Fixpoint decode_go (s : str) (skip : nat) : option str :=
    match s with
    | [] => match skip with O => Some [] | S _ => None end
    | c :: r =>
        match skip with
        | S k => decode_go r k
        | O =>
            if N.eqb c 38 then
              match find (fun e => starts_with (fst e) s) table with
              | Some e => option_map (cons (snd e)) (decode_go r (List.length (fst e) - 1))
              | None => None
              end
            else if memb N.eqb c bad then None
            else option_map (cons c) (decode_go r 0)
        end
    end.
  Definition decode (s : str) : option str := decode_go s 0.
End Decode.
Definition content_table : list (str * N) :=
  [(lit "&amp;", 38); (lit "&lt;", 60); (lit "&gt;", 62)]%N.
Definition attr_table : list (str * N) := content_table ++ [(lit "&quot;", 34%N)].
Definition xa_table : list (str * N) :=
  attr_table ++ [(lit "&#10;", 10); (lit "&#13;", 13); (lit "&#9;", 9)]%N.
Definition content_bad : list N := [60; 62]%N.
Definition attr_bad : list N := [34; 60; 62]%N.
Definition xa_bad : list N := [34; 60; 62; 10; 13; 9]%N.

(* no character of [bad] and every '&' starts an entity of the table *)
Definition inert (table : list (str * N)) (bad : list N) (out : str) : Prop :=
  (forall c, In c out -> ~ In c bad)
  /\ (forall l r, out = l ++ 38%N :: r ->
        exists e, In e table /\ starts_with (fst e) (38%N :: r) = true).

(* ---------------- attribute order ---------------- *)
Inductive text_lt : str -> str -> Prop :=
| tl_nil y b : text_lt [] (y :: b)
| tl_head x y a b : (x < y)%N -> text_lt (x :: a) (y :: b)
| tl_tail x a b : text_lt a b -> text_lt (x :: a) (x :: b).
Definition rank (k : str) : nat :=
  if str_eqb k (lit "type") then 0
  else if str_eqb k (lit "name") then 1
  else if str_eqb k (lit "value") then 2 else 3.
(* type, name, value first, then the others alphabetically *)
Definition ordered_before {V} (a b : str * V) : Prop :=
  rank (fst a) < rank (fst b)
  \/ (rank (fst a) = 3 /\ rank (fst b) = 3 /\ text_lt (fst a) (fst b)).

(* ---------------- parsing an opening tag ---------------- *)
Definition name_char (c : N) : bool :=
  negb (memb N.eqb c [32; 34; 39; 47; 60; 61; 62]%N).
Definition wf_name (s : str) : bool :=
  match s with [] => false | _ => forallb name_char s end.
Fixpoint span (f : N -> bool) (s : str) : str * str :=
  match s with
  | [] => ([], [])
  | c :: r => if f c then let '(a, b) := span f r in (c :: a, b) else ([], s)
  end.
Fixpoint parse_attrs (fuel : nat) (s : str) : option (list (str * str) * str) :=
  match fuel with
  | O => None
  | S fuel =>
      match s with
      | 32%N :: s1 =>
          match span name_char s1 with
          | ([], _) => Some ([], s)
          | (nm, 61%N :: 34%N :: r2) =>
              match span (fun c => negb (N.eqb c 34)) r2 with
              | (v, 34%N :: r4) =>
                  match decode attr_table attr_bad v, parse_attrs fuel r4 with
                  | Some t, Some (l, rest) => Some ((nm, t) :: l, rest)
                  | _, _ => None
                  end
              | _ => None
              end
          | _ => None
          end
      | _ => Some ([], s)
      end
  end.
(* tag name, attributes, what follows the attributes *)
Definition parse_tag (s : str) : option (str * list (str * str) * str) :=
  match s with
  | 60%N :: s1 =>
      match span name_char s1 with
      | ([], _) => None
      | (nm, r) =>
          match parse_attrs (S (List.length r)) r with
          | Some (l, rest) => Some (nm, l, rest)
          | None => None
          end
      end
  | _ => None
  end.

(* the text an attribute value shows as: false values show as nothing *)
Definition shown (v : mv) : option str :=
  match v with
  | MText s => Some s
  | MNone | MBool false | MInt 0 | MFilters [] | MObj _ false => Some []
  | _ => None
  end.

(* ---------------- toggles ---------------- *)
(* equal up to the case of ASCII letters, [w] being lower case *)
Definition ci_eq (s w : str) : Prop :=
  Forall2 (fun c d => c = d /\ ~ (65 <= c <= 90)%N \/ ((65 <= c <= 90)%N /\ d = (c + 32)%N)) s w.
Definition yes_words : list str := map lit ["1"; "true"; "t"; "on"; "yes"]%string.
Definition no_words : list str := map lit ["0"; "false"; "nil"; "off"; "no"]%string.
Definition is_trool (v : mv) : Prop := exists b, v = MBool b \/ v = MMaybe.
Definition says_yes (v : mv) : Prop :=
  v = MBool true \/ (~ is_trool v /\ exists w, In w yes_words /\ ci_eq (text_of v) w).
Definition says_no (v : mv) : Prop :=
  v = MBool false \/ (~ is_trool v /\ exists w, In w no_words /\ ci_eq (text_of v) w).
Definition says_nothing (v : mv) : Prop := ~ says_yes v /\ ~ says_no v.

(* the documented defaults *)
Definition on_by_default (key : string) : bool :=
  (String.eqb key "auto_name" || String.eqb key "auto_value")%string.

Inductive effective (key : string) (a : attrs) (ctx : frame) : bool -> bool -> Prop :=
| ef_forced v : get key a = Some v -> says_yes v -> effective key a ctx true true
| ef_off v : get key a = Some v -> says_no v -> effective key a ctx false false
| ef_ctx_on c : (forall v, get key a = Some v -> says_nothing v) ->
    get key ctx = Some c -> says_yes c -> effective key a ctx true false
| ef_ctx_off c : (forall v, get key a = Some v -> says_nothing v) ->
    get key ctx = Some c -> says_no c -> effective key a ctx false false
| ef_default c : (forall v, get key a = Some v -> says_nothing v) ->
    get key ctx = Some c -> says_nothing c ->
    effective key a ctx (on_by_default key) false.

(* attribute explicitly given *)
Definition given (k : string) (a : attrs) : Prop :=
  exists v, get k a = Some v /\ v <> MNone.
(* a' differs from a at most in the listed keys *)
Definition same_except (ks : list string) (a a' : attrs) : Prop :=
  forall k, ~ In k (map lit ks) -> aget str_eqb k a' = aget str_eqb k a.
Definition tag_among (tag : str) (l : list string) : Prop := exists n, In n l /\ tag = lit n.

(* text equality of an attribute value with a text *)
Definition value_is (v : mv) (t : str) : Prop := v = MText t \/ v = MHtml t.
(* whether a radio/checkbox/option with value v shows as chosen *)
Definition chosen (el : belement) (v : mv) : Prop :=
  match b_kind el with
  | BArray has => has v = true
  | _ => value_is v (b_u el)
  end.
Definition choice_attr (k : string) (el : belement) (v : mv) (a' : attrs) : Prop :=
  (chosen el v -> get k a' = Some (MText (lit k)))
  /\ (~ chosen el v -> get k a' = None).
Definition type_is (a : attrs) (l : list string) : Prop :=
  exists n v, In n l /\ get "type" a = Some v /\ value_is v (lit n).

(* what transform_value does to an element that is bound and switched on *)
Inductive value_rule (tag : str) (forced : bool) (el : belement) (a : attrs) (c : mv)
  : attrs -> mv -> Prop :=
| vr_unsupported a' : forced = false ->
    ~ tag_among tag ["button"; "input"; "option"; "textarea"]%string ->
    same_except ["auto_value"]%string a a' -> value_rule tag forced el a c a' c
| vr_checkbox_true t a' : tag = lit "input" -> type_is a ["checkbox"]%string ->
    ~ given "value" a -> b_kind el = BBoolean t ->
    get "value" a' = Some (MText t) -> choice_attr "checked" el (MText t) a' ->
    same_except ["auto_value"; "value"; "checked"]%string a a' ->
    value_rule tag forced el a c a' c
| vr_checkbox v a' : tag = lit "input" -> type_is a ["checkbox"]%string ->
    (given "value" a \/ (forall t, b_kind el <> BBoolean t)) ->
    (get "value" a = Some v \/ get "value" a = None /\ v = MNone) ->
    choice_attr "checked" el v a' ->
    same_except ["auto_value"; "checked"]%string a a' ->
    value_rule tag forced el a c a' c
| vr_radio v a' : tag = lit "input" -> type_is a ["radio"]%string ->
    (get "value" a = Some v \/ get "value" a = None /\ v = MText []) ->
    choice_attr "checked" el v a' ->
    same_except ["auto_value"; "checked"]%string a a' ->
    value_rule tag forced el a c a' c
| vr_secret a' : tag = lit "input" -> type_is a ["password"; "file"; "image"]%string ->
    (forced = true -> get "value" a' = Some (MText (b_u el))) ->
    (forced = false -> get "value" a' = get "value" a) ->
    same_except ["auto_value"; "value"]%string a a' ->
    value_rule tag forced el a c a' c
| vr_option v a' : tag = lit "option" ->
    (given "value" a -> get "value" a = Some v) ->
    (~ given "value" a ->
       v = match c with MText s | MHtml s => MText (strip s) | MNone => MText [] | o => o end) ->
    choice_attr "selected" el v a' ->
    same_except ["auto_value"; "selected"]%string a a' ->
    value_rule tag forced el a c a' c
| vr_textarea a' s : tag = lit "textarea" -> c = MNone \/ forced = true ->
    decode content_table content_bad s = Some (b_u el) ->
    same_except ["auto_value"]%string a a' -> value_rule tag forced el a c a' (MHtml s)
| vr_textarea_given a' : tag = lit "textarea" -> c <> MNone -> forced = false ->
    same_except ["auto_value"]%string a a' -> value_rule tag forced el a c a' c
| vr_plain a' :
    (tag = lit "input" /\ ~ type_is a ["radio"; "checkbox"; "password"; "file"; "image"]%string)
    \/ (tag <> lit "input" /\ tag <> lit "option" /\ tag <> lit "textarea"
        /\ (tag = lit "button" \/ forced = true)) ->
    (~ given "value" a \/ forced = true -> get "value" a' = Some (MText (b_u el))) ->
    (given "value" a -> forced = false -> get "value" a' = get "value" a) ->
    same_except ["auto_value"; "value"]%string a a' ->
    value_rule tag forced el a c a' c.

(* the raw id: name of the element (or the name attribute), and for checkboxes
   and radios the value stripped to id characters *)
Definition id_char (c : N) : Prop :=
  (65 <= c <= 90 \/ 97 <= c <= 122 \/ 48 <= c <= 57
   \/ c = 95 \/ c = 58 \/ c = 46 \/ c = 45)%N.
(* [kept s t]: t is s without the characters that are not id characters *)
Inductive kept : str -> str -> Prop :=
| ke_nil : kept [] []
| ke_keep c s t : id_char c -> kept s t -> kept (c :: s) (c :: t)
| ke_drop c s t : ~ id_char c -> kept s t -> kept (c :: s) t.
Definition domid_basis (b : option belement) (a : attrs) (nm : str) : Prop :=
  match b with
  | Some el => nm = b_name el
  | None => (exists v, get "name" a = Some v /\ value_is v nm) \/ (~ given "name" a /\ nm = [])
  end.
Inductive domid_of (tag : str) (a : attrs) (b : option belement) : str -> Prop :=
| do_plain nm : domid_basis b a nm ->
    ~ (tag = lit "input" /\ type_is a ["checkbox"; "radio"]%string) ->
    domid_of tag a b nm
| do_empty : domid_basis b a [] -> domid_of tag a b []
| do_suffix nm v s : nm <> [] -> domid_basis b a nm ->
    tag = lit "input" -> type_is a ["checkbox"; "radio"]%string ->
    (exists t, (get "value" a = Some v /\ value_is v t
                \/ get "value" a = None /\ t = []) /\ kept t s) ->
    domid_of tag a b (match s with [] => nm | _ => nm ++ lit "_" ++ s end).

(* ---------------- scoping ---------------- *)
(* executions of properly nested calls (any of them may raise) *)
Inductive nested (env : filters_env) : gen -> list gop -> gen -> Prop :=
| ne_nil g : nested env g [] g
| ne_set g s g1 ops g' : g1 = fst (gen_step env g (OSet s)) ->
    nested env g1 ops g' -> nested env g (OSet s :: ops) g'
| ne_tag g d p t kw b g1 ops g' : g1 = fst (gen_step env g (OTag d p t kw b)) ->
    nested env g1 ops g' -> nested env g (OTag d p t kw b :: ops) g'
| ne_failed_begin g s e ops g' : gen_step env g (OBegin s) = (g, Err e) ->
    nested env g ops g' -> nested env g (OBegin s :: ops) g'
| ne_block g s t1 g1 body g2 g3 ops g' :
    gen_step env g (OBegin s) = (g1, Ok t1) -> nested env g1 body g2 ->
    g3 = fst (gen_step env g2 OEnd) -> nested env g3 ops g' ->
    nested env g (OBegin s :: body ++ OEnd :: ops) g'.

(* the value of a setting after assigning pairs in order *)
Definition assigned (f : frame) (pairs : attrs) (k : str) : option mv :=
  match aget str_eqb k (rev pairs) with Some v => Some v | None => aget str_eqb k f end.

(* what follows the attributes of a rendered tag *)
Definition remainder (xml dangle paired : bool) (tag body : str) : str :=
  match body with
  | [] => if paired then lit "></" ++ tag ++ lit ">"
          else if xml then lit " />"
          else if dangle then lit ">"
          else lit "></" ++ tag ++ lit ">"
  | _ => lit ">" ++ body ++ lit "</" ++ tag ++ lit ">"
  end.
(* attribute k with value v is read back as text t *)
Definition shows (p : str * mv) (q : str * str) : Prop :=
  fst p = fst q /\ shown (snd p) = Some (snd q).
Definition control_keys : list string :=
  ["auto_name"; "auto_value"; "auto_domid"; "auto_for"; "auto_tabindex"; "auto_filter"]%string.

(* a format with exactly one %s and no other per cent sign *)
Definition one_hole (fmt pre post : str) : Prop :=
  fmt = pre ++ lit "%s" ++ post /\ ~ In (ch "%") pre /\ ~ In (ch "%") post.
(* attribute k, if present, is a text *)
Definition text_attr (k : string) (a : attrs) : Prop :=
  forall v, get k a = Some v -> exists t, value_is v t.

(* every setting the attribute transformers read is present *)
Definition has_settings (ctx : frame) : Prop :=
  forall k, In k control_keys -> exists v, get k ctx = Some v.
(* the attribute each switch fills in *)
Definition fills : list (string * string) :=
  [("auto_name", "name"); ("auto_value", "value"); ("auto_domid", "id");
   ("auto_for", "for"); ("auto_tabindex", "tabindex")]%string.

(* filters run in order, each on the output of the one before, skipping those
   declared for other tags *)
Inductive filtered (env : filters_env) (tag : str) (b : option belement)
  : list nat -> frame * attrs * mv -> frame * attrs * mv -> Prop :=
| fi_done s : filtered env tag b [] s s
| fi_skip f fs s s' : f_tags env f <> [] -> ~ In tag (f_tags env f) ->
    filtered env tag b fs s s' -> filtered env tag b (f :: fs) s s'
| fi_run f fs ctx a c ctx1 a1 c1 s' : (f_tags env f = [] \/ In tag (f_tags env f)) ->
    f_run env f tag a c ctx b = (ctx1, Ok (a1, c1)) ->
    filtered env tag b fs (ctx1, a1, c1) s' ->
    filtered env tag b (f :: fs) (ctx, a, c) s'.

(* the last of several assignments to the same (stripped) name wins *)
Fixpoint drop_tail_underscores (s : str) : str :=
  match s with
  | [] => []
  | c :: r => match drop_tail_underscores r with
              | [] => if N.eqb c 95 then [] else [c]
              | t => c :: t
              end
  end.
Definition keyword_name (kw : attrs) : attrs :=
  map (fun p => (drop_tail_underscores (fst p), snd p)) kw.

(* how Generator.set stores a value: switches are parsed to True/False/Maybe *)
Definition stored (p : str * mv) (q : str * mv) : Prop :=
  fst p = fst q /\
  ((exists r, fst p = lit "auto_" ++ r) ->
     (says_yes (snd p) -> snd q = MBool true) /\ (says_no (snd p) -> snd q = MBool false)
     /\ (says_nothing (snd p) -> snd q = MMaybe)) /\
  (~ (exists r, fst p = lit "auto_" ++ r) -> snd q = snd p).
Definition known (f : frame) (k : str) : Prop := In k (keys f).

(* tags open at a moment are distinct, filed under their own name and older
   than any tag still to come *)
Record registry_ok (r : registry) : Prop := {
  ok_names : forall nm t, In t (opened r nm) -> t_name t = nm;
  ok_old : forall nm t, In t (opened r nm) -> t_id t < r_next r;
  ok_distinct : forall nm, NoDup (map t_id (opened r nm)) }.

(* the rule shared by id= and for= *)
Definition domid_rule (key : string) (tags : list string) (pre post tag : str)
  (on forced : bool) (a : attrs) (b : option belement) (a' : attrs) : Prop :=
  forall raw, domid_of tag a b raw ->
  let applies := on = true /\ raw <> []
     /\ (forced = true \/ (~ given key a /\ tag_among tag tags)) in
  (applies -> get key a' = Some (MText (pre ++ raw ++ post)))
  /\ (~ applies -> get key a' = get key a).

(* nothing automatic applies to an unbound tag *)
Definition plain_ctx (ctx : frame) : Prop :=
  has_settings ctx /\ (exists v, get "filters" ctx = Some v)
  /\ (forall k, In k ["auto_domid"; "auto_tabindex"; "auto_filter"]%string ->
        exists v, get k ctx = Some v /\ says_no v).
(* keyword arguments with optional contents *)
Definition kwargs (kw : attrs) (body : str) : attrs :=
  match body with [] => kw | _ => (lit "contents", MText body) :: kw end.

(* the tags with a method of their own: name, empty in HTML, always paired
   (markup.py:79-178) *)
Definition named_tags : list (string * bool * bool) :=
  [("form", false, true); ("input", true, false); ("textarea", false, true); ("button", false, false);
   ("select", false, true); ("option", false, true); ("label", false, false)]%string.
(* settings that count as numbers *)
Inductive as_number : mv -> Z -> Prop :=
| as_int z : as_number (MInt z) z
| as_true : as_number (MBool true) 1
| as_false : as_number (MBool false) 0.
