(* Model of the tags of a Generator as objects: flatland/out/markup.py:79-303.
   A tag keeps the contents of its last opening and may be open; a generator
   finds open tags again.  Rendering of one tag is that of ModelMarkup. *)
From Verif Require Import PyBase ModelMarkup.

(* out/markup.py:12-37, 228-236: a generator, the registry of its open tags,
   the contents of its tags by identity (missing: None), and the tags the
   program was given, in order *)
Record tags := Tags {
  ts_gen : gen; ts_reg : registry; ts_contents : list (nat * str); ts_got : list tagobj }.
(* out/markup.py:15-37 Generator.__init__ *)
Definition new_tags (markup : str) (settings : attrs) : res tags :=
  rmap (fun g => Tags g (Registry 0 []) [] []) (gen_init markup settings).
(* out/markup.py:231-236, 269: tag.contents *)
Definition contents (s : tags) (t : tagobj) : option str := aget Nat.eqb (t_id t) (ts_contents s).

(* out/markup.py:257-280 Tag._open in detail: the settings afterwards, the
   contents if they were assigned (269), the partial opener.  Contents are
   assigned before the attributes are escaped.  The markup wrapper is Markup. *)
Definition opener (env : filters_env) (tag : str) (kw : attrs) (ctx : frame) (b : option belement)
  : frame * option str * res str :=
  let given := get_or "contents" kw MNone in
  let a := unicode_keyed (del "contents" kw) in
  match transform env tag a given ctx b with
  | (ctx, Err e) => (ctx, None, Err e)
  | (ctx, Ok (a, c)) =>
      match truth c with
      | Err e => (ctx, None, Err e)
      | Ok t =>
          (ctx, Some (if t then text_of c else []),
           bind (setting "ordered_attributes" ctx) (fun ov =>
           bind (truth ov) (fun o =>
           rmap (header tag) (escape_all (if o then sort_attrs a else a)))))
      end
  end.
(* out/markup.py:257-280 Tag._open of the tag [t] *)
Definition start_tag (env : filters_env) (s : tags) (t : tagobj) (kw : attrs) (b : option belement) : tags * res str :=
  match g_frames (ts_gen s) with
  | [] => (s, Err IndexErr)
  | top :: below =>
      let '(top, body, r) := opener env (t_name t) kw top b in
      (Tags (Gen (g_xml (ts_gen s)) (top :: below)) (ts_reg s)
            (match body with Some c => aset Nat.eqb (t_id t) c (ts_contents s) | None => ts_contents s end)
            (ts_got s), r)
  end.
(* out/markup.py:238-247 Tag.open: filed as open before anything is rendered *)
Definition open_tag (env : filters_env) (s : tags) (t : tagobj) (kw : attrs) (b : option belement) : tags * res str :=
  let '(s, r) := start_tag env (Tags (ts_gen s) (tag_open (ts_reg s) t) (ts_contents s) (ts_got s)) t kw b in
  (s, rmap (fun h => h ++ lit ">") r).
(* out/markup.py:249-255 Tag.close *)
Definition close_tag (s : tags) (t : tagobj) : tags * res str :=
  (Tags (ts_gen s) (tag_close (ts_reg s) t) (ts_contents s) (ts_got s), Ok (tag_close_ (t_name t))).
(* out/markup.py:288-303 Tag.__call__, and Tag.__html__ which calls it without
   arguments *)
Definition call_tag (env : filters_env) (s : tags) (t : tagobj) (kw : attrs) (b : option belement) : tags * res str :=
  let '(s, r) := start_tag env s t kw b in
  (s, rmap (fun h =>
        let body := match contents s t with Some c => c | None => [] end in
        let short := match body with [] => negb (t_paired t) | _ => false end in
        if short && g_xml (ts_gen s) then h ++ lit " />"
        else if short && t_dangle t then h ++ lit ">"
        else h ++ lit ">" ++ body ++ tag_close_ (t_name t)) r).
(* out/markup.py:205-208 _tag *)
Definition find_tag (s : tags) (nm : str) (dangle paired : bool) : tags * tagobj :=
  let '(r, t) := get_tag (ts_reg s) nm dangle paired in
  (Tags (ts_gen s) r (ts_contents s) (ts_got s), t).
(* out/markup.py:79-208: a tag returned to the program *)
Definition give (s : tags) (t : tagobj) : tags :=
  Tags (ts_gen s) (ts_reg s) (ts_contents s) (ts_got s ++ [t]).
(* out/markup.py:185-203 Generator.tag; names are ASCII *)
Definition generate (env : filters_env) (s : tags) (nm : str) (kw : attrs) (b : option belement)
  : tags * res (tagobj + str) :=
  let '(s, t) := find_tag s (lower nm) (fst generic_flags) (snd generic_flags) in
  match b, kw with
  | None, [] => (give s t, Ok (inl t))
  | _, _ => let '(s, r) := call_tag env s t kw b in (s, rmap inr r)
  end.
(* out/markup.py:39-77: begin(), end() and set() *)
Definition with_gen (env : filters_env) (s : tags) (o : gop) : tags * res str :=
  let '(g, r) := gen_step env (ts_gen s) o in (Tags g (ts_reg s) (ts_contents s) (ts_got s), r).

(* out/markup.py:39-303: what a program does with a generator.  Tags are named by
   the order in which they were obtained. *)
Inductive tag_op :=
| Get (nm : str) (dangle paired : bool)                    (* generator.<name> *)
| Generate (nm : str) (kw : attrs) (b : option belement)   (* generator.tag(name, ...) *)
| Open (i : nat) (kw : attrs) (b : option belement)
| Close (i : nat)
| Call (i : nat) (kw : attrs) (b : option belement)
| Begin (settings : attrs) | Finish | Assign (settings : attrs).
(* out/markup.py:39-303: one of them; an index of no tag is an IndexError *)
Definition tag_step (env : filters_env) (s : tags) (o : tag_op) : tags * res (tagobj + str) :=
  let on i (f : tagobj -> tags * res str) :=
    match nth_error (ts_got s) i with
    | Some t => let '(s, r) := f t in (s, rmap inr r)
    | None => (s, Err IndexErr)
    end in
  let text (p : tags * res str) := (fst p, rmap inr (snd p)) in
  match o with
  | Get nm dangle paired => let '(s, t) := find_tag s nm dangle paired in (give s t, Ok (inl t))
  | Generate nm kw b => generate env s nm kw b
  | Open i kw b => on i (fun t => open_tag env s t kw b)
  | Close i => on i (fun t => close_tag s t)
  | Call i kw b => on i (fun t => call_tag env s t kw b)
  | Begin settings => text (with_gen env s (OBegin settings))
  | Finish => text (with_gen env s OEnd)
  | Assign settings => text (with_gen env s (OSet settings))
  end.
(* any sequence of the calls of out/markup.py:39-303 *)
Fixpoint tag_run (env : filters_env) (s : tags) (os : list tag_op) : tags :=
  match os with
  | [] => s
  | o :: os => tag_run env (fst (tag_step env s o)) os
  end.
