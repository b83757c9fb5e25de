(* Model of the Genshi directives: flatland/out/genshi.py, on top of the
   transforms of flatland/out/generic.py (ModelMarkup).

   Genshi 0.6 is not part of the repository.  What is assumed of it: an event is
   a kind with its data (positions are left out); Attrs is a sequence of pairs;
   `attrs | pairs` replaces the value where the name occurs and appends
   otherwise; `attrs - name` removes the name; a SUB event holds directives and
   a stream, and is rendered by calling the first directive with the stream and
   the other directives, then rendering what it returns. *)
From Verif Require Import PyBase ModelMarkup.

(* imported at out/genshi.py:4; genshi.core.QName: compared by namespace and
   local name *)
Record qname := QName { q_ns : option str; q_local : str }.
(* used at out/genshi.py:338,347-349 *)
Definition qname_eqb (a b : qname) : bool :=
  name_eqb (q_ns a) (q_ns b) && str_eqb (q_local a) (q_local b).

(* genshi.py:104-113, 123-137: a piece of the value of a control attribute:
   literal text, or an expression with its value *)
Inductive piece := PText (s : str) | PExpr (v : mv).
(* out/genshi.py:101-241. Directives: form:bind with the element (None: the
   expression is absent or None), the control attributes form:auto-...,
   form:with and form:set with their settings, and those of other namespaces.
   *)
Inductive directive :=
| DBind (b : option belement)
| DControl (key : str) (raw : list piece)
| DWith (settings : attrs)
| DSet (settings : attrs)
| DForeign (n : nat).

(* kinds imported at out/genshi.py:4-8, met at 261-383. Events. [Text true]
   is text marked as HTML. An EXPR event is given by the value of its
   expression, the same at every evaluation: [Expr false s], a value without
   markup whose text is s; [Expr true s], one with __html__ returning s; [Iter
   l], an iterator over events. The value of an attribute is plain, or a
   stream. [Other] stands for the remaining kinds. *)
Inductive event :=
| Start (q : qname) (a : list (qname * (mv + list event)))
| End (q : qname)
| Text (html : bool) (s : str)
| Expr (html : bool) (s : str)
| Iter (l : list event)
| Sub (ds : list directive) (l : list event)
| Other (n : nat).
(* out/genshi.py:268,275: Attrs, pairs of name and value *)
Definition gattrs := list (qname * (mv + list event)).

(* for the loops at out/genshi.py:325-383: a measure of events, to bound
   recursion *)
Fixpoint esize (e : event) : nat :=
  match e with
  | Iter l | Sub _ l => S (S (list_sum (map esize l)))
  | _ => 1
  end.
(* for the loops at out/genshi.py:325-383: the measure of a stream *)
Definition esizes (l : list event) : nat := list_sum (map esize l).

(* ------------------------------------------------------------------ *)
(* genshi.py:360-383 _simplify_stream.  [done] are the events already passed,
   [parts] the parts collected (None: a list instead of text, with which join
   raises TypeError).  The events of an iterator take its place and the one at
   the same index is not looked at again. *)
Fixpoint join_parts (l : list (option str)) : res str :=
  match l with
  | [] => Ok []
  | None :: _ => Err TypeErr
  | Some s :: r => rmap (app s) (join_parts r)
  end.
(* out/genshi.py:360-383 _simplify_stream, the loop *)
Fixpoint simplify_loop (fuel : nat) (done : list event) (parts : list (option str)) (rest : list event)
  : res (str + list event) :=
  match fuel with
  | O => Err OutOfFuel
  | S fuel =>
      match rest with
      | [] => rmap inl (join_parts parts)
      | Text h s :: r => simplify_loop fuel (done ++ [Text h s]) (parts ++ [Some s]) r
      | Expr h s :: r => simplify_loop fuel (done ++ [Expr h s]) (parts ++ [Some s]) r
      | Iter l :: r =>
          bind (simplify_loop fuel [] [] l) (fun x =>
          match x with
          | inl t => simplify_loop fuel (done ++ [Text false t]) (parts ++ [Some t]) r
          | inr l' =>
              match l' ++ r with
              | [] => simplify_loop fuel done (parts ++ [None]) []
              | e :: r' => simplify_loop fuel (done ++ [e]) (parts ++ [None]) r'
              end
          end)
      | _ => Ok (inr (done ++ rest))
      end
  end.
(* out/genshi.py:360-383 _simplify_stream *)
Definition simplify (l : list event) : res (str + list event) := simplify_loop (S (esizes l)) [] [] l.

(* ------------------------------------------------------------------ *)
(* genshi.py:325-357 _bind_unbound_tags *)
Definition is_binding (d : directive) : bool := match d with DBind _ => true | _ => false end.
(* out/genshi.py:342-350: the events up to the end of the tag that was
   opened, and the rest *)
Fixpoint take_tag (q : qname) (stack : nat) (l : list event) : res (list event * list event) :=
  match stack with
  | O => Ok ([], l)
  | S n =>
      match l with
      | [] => Err IndexErr
      | e :: r =>
          rmap (fun p => (e :: fst p, snd p))
               (take_tag q (match e with
                            | Start q' _ => if qname_eqb q' q then S stack else stack
                            | End q' => if qname_eqb q' q then n else stack
                            | _ => stack
                            end) r)
      end
  end.
(* out/genshi.py:325-357 _bind_unbound_tags *)
Fixpoint bind_tags (fuel : nat) (q : qname) (b : belement) (l : list event) : res (list event) :=
  match fuel with
  | O => Err OutOfFuel
  | S fuel =>
      match l with
      | [] => Ok []
      | Sub ds sub :: r =>
          bind (if existsb is_binding ds then Ok sub else bind_tags fuel q b sub) (fun sub =>
          rmap (cons (Sub ds sub)) (bind_tags fuel q b r))
      | Start q' a :: r =>
          if negb (qname_eqb q' q) || memb qname_eqb q (map fst a)
          then rmap (cons (Start q' a)) (bind_tags fuel q b r)
          else bind (take_tag q 1 r) (fun p =>
               bind (bind_tags fuel q b (fst p)) (fun inner =>
               rmap (cons (Sub [DBind (Some b)] (Start q' a :: inner))) (bind_tags fuel q b (snd p))))
      | e :: r => rmap (cons e) (bind_tags fuel q b r)
      end
  end.
(* out/genshi.py:325-357 _bind_unbound_tags of a whole stream *)
Definition bind_unbound (q : qname) (b : belement) (l : list event) : res (list event) :=
  bind_tags (S (esizes l)) q b l.

(* ------------------------------------------------------------------ *)
(* genshi.py:27-30 _to_context *)
Definition control_names : list str :=
  map lit ["auto-name"; "auto-value"; "auto-domid"; "auto-for"; "auto-tabindex"; "auto-filter"; "domid-format"]%string.
(* out/genshi.py:137,197: _to_context.get(key, key) *)
Definition to_context (k : str) : str :=
  if memb str_eqb k control_names then replace1 (ch "-") (lit "_") k else k.
(* genshi.py:123-137 inject; only control attributes have it *)
Definition piece_text (p : piece) : str := match p with PText s => s | PExpr v => text_of v end.
(* out/genshi.py:123-137 inject *)
Definition inject (m : attrs) (d : directive) : res attrs :=
  match d with
  | DControl k raw => Ok (aset str_eqb (to_context k) (MText (List.concat (map piece_text raw))) m)
  | _ => Err AttributeErr
  end.
(* out/genshi.py:265-266 *)
Fixpoint inject_all (m : attrs) (ds : list directive) : res attrs :=
  match ds with
  | [] => Ok m
  | d :: r => bind (inject m d) (fun m => inject_all m r)
  end.

(* out/genshi.py:279,302-304: Attrs.__or__ with one pair, Attrs.__sub__ with
   one name *)
Definition attrs_or (a : gattrs) (q : qname) (v : mv + list event) : gattrs := aset qname_eqb q v a.
(* out/genshi.py:304: Attrs.__sub__ *)
Definition attrs_sub (a : gattrs) (q : qname) : gattrs := adel qname_eqb q a.

(* genshi.py:274-281: the loop over the attributes [l]; [a] the attributes as
   they are rewritten, [existing] the local names met, [m] the mapping for the
   transforms.  An attribute that does not reduce to text is not modelled. *)
Fixpoint read_attrs (l : gattrs) (a : gattrs) (existing : list (str * qname)) (m : attrs)
  : res (gattrs * list (str * qname) * attrs) :=
  match l with
  | [] => Ok (a, existing, m)
  | (q, v) :: r =>
      match q_ns q with
      | Some _ => read_attrs r a existing m
      | None =>
          bind (match v with
                | inl (MText s) => Ok (a, MText s)
                | inl (MHtml s) => Ok (a, MHtml s)
                | inl _ => Err NotImplErr
                | inr l => bind (simplify l) (fun x =>
                           match x with
                           | inl t => Ok (attrs_or a q (inl (MText t)), MText t)
                           | inr _ => Err NotImplErr
                           end)
                end) (fun p =>
          read_attrs r (fst p) (aset str_eqb (q_local q) q existing) (aset str_eqb (q_local q) (snd p) m))
      end
  end.
(* genshi.py:297-304: [pairs] are sorted.  A name without namespace is written
   as itself; names with braces are not modelled. *)
Fixpoint write_attrs (pairs : attrs) (a : gattrs) (existing : list (str * qname)) : gattrs :=
  match pairs with
  | [] => fold_left (fun a p => attrs_sub a (snd p)) existing a
  | (k, v) :: r =>
      match aget str_eqb k existing with
      | Some q => write_attrs r (attrs_or a q (inl v)) (adel str_eqb k existing)
      | None => write_attrs r (attrs_or a (QName None k) (inl v)) existing
      end
  end.

(* The render context is kept in the template context; None when it was not
   created yet (genshi.py:210-213, 283-286).  The current frame is the head. *)
Definition render_frames (rc : option (list frame)) : list frame :=
  match rc with Some fs => fs | None => [default_context] end.

(* out/genshi.py:288-294. Contents for the transforms: a list of events is an
   object they do not look into; what comes back is that object, text or None
   (anything else is not modelled). *)
Definition events_obj : mv := MObj (lit "events") true.
(* out/genshi.py:269-272,288: the contents handed to the transforms *)
Definition contents_of (c : option (str + list event)) : mv :=
  match c with None => MNone | Some (inl t) => MText t | Some (inr _) => events_obj end.
(* genshi.py:291-294 *)
Definition new_contents (c : option (str + list event)) (v : mv) : res (list event) :=
  match v with
  | MNone => Ok []
  | MText s => Ok [Text false s]
  | MHtml s => Ok [Text true s]
  | MObj _ _ => match c with Some (inr l) => Ok l | _ => Err NotImplErr end
  | _ => Err NotImplErr
  end.

(* genshi.py:261-315 _rewrite_stream of a stream that begins with the START
   event of [tag] and goes on with [rest].  Sorting is that of ModelMarkup:
   genshi.py:25,318-322 repeats markup.py:12,327-331. *)
Definition rewrite (env : filters_env) (controls : list directive) (rc : option (list frame))
           (tag : qname) (a : gattrs) (rest : list event) (b : option belement)
  : option (list frame) * res (list event) :=
  match bind (inject_all [] controls) (fun m =>
        bind (match rest with
              | [_] => Ok None
              | _ => rmap Some (simplify (removelast rest))
              end) (fun contents =>
        bind (read_attrs a a [] m) (fun p => Ok (contents, p)))) with
  | Err e => (rc, Err e)
  | Ok (contents, (a, existing, m)) =>
      match render_frames rc with
      | [] => (rc, Err IndexErr)
      | top :: below =>
          match transform env (q_local tag) m (contents_of contents) top b with
          | (top, Err e) => (Some (top :: below), Err e)
          | (top, Ok (m, c)) =>
              (Some (top :: below),
               bind (new_contents contents c) (fun l =>
               let a := write_attrs (sort_attrs m) a existing in
               bind (match l, b with
                     | _ :: _, Some el =>
                         if str_eqb (q_local tag) (lit "select")
                         then bind_unbound (QName (match q_ns tag with Some [] => None | n => n end) (lit "option")) el l
                         else Ok l
                     | _, _ => Ok l
                     end) (fun l =>
               Ok (Start tag a :: match l with
                                  | [] => rest
                                  | _ => l ++ match rest with [] => [] | e :: r => [last r e] end
                                  end))))
          end
      end
  end.

(* ------------------------------------------------------------------ *)
(* genshi.py:50-61 EvaluatedLast.__call__.  What is called in the end: the
   directives of other namespaces in the order in which they run (each hands
   the stream and the remaining directives on), then the process method of one
   of ours with the directives left. *)
Definition is_local (d : directive) : bool := match d with DForeign _ => false | _ => true end.
(* out/genshi.py:50-61 EvaluatedLast.__call__ *)
Fixpoint call_order (fuel : nat) (d : directive) (ds : list directive)
  : list directive * option (directive * list directive) :=
  match fuel with
  | O => ([], None)
  | S fuel =>
      if is_local d then
        let local := filter is_local ds in
        match filter (fun d => negb (is_local d)) ds with
        | f :: foreign => call_order fuel f (foreign ++ [d] ++ local)
        | [] => ([], Some (d, local))
        end
      else match ds with
           | [] => ([d], None)
           | d' :: ds' => let r := call_order fuel d' ds' in (d :: fst r, snd r)
           end
  end.
(* out/genshi.py:50-61, called for the first directive of a SUB event *)
Definition directive_order (ds : list directive) : list directive * option (directive * list directive) :=
  match ds with
  | [] => ([], None)
  | d :: ds' => call_order (S (S (List.length ds + List.length ds))) d ds'
  end.

(* genshi.py:193-202 RenderContextManipulator.__init__: the attributes of the
   tag, in order; a repeated key replaces *)
Fixpoint manipulator (l : list (str * str)) (m : attrs) : res attrs :=
  match l with
  | [] => Ok m
  | (k, v) :: r =>
      let k := to_context k in
      bind (if str_eqb k (lit "tabindex") then rmap MInt (py_int v) else Ok (MText v)) (fun v =>
      manipulator r (aset str_eqb k v m))
  end.

(* genshi.py:209-227 With.process up to the first event: the frames with the
   new one pushed.  [filters] evaluates the filters attribute. *)
Definition with_begin (filters : mv -> res mv) (settings : attrs) (fs : list frame)
  : list frame * res unit :=
  match fs with
  | [] => (fs, Err IndexErr)
  | top :: below =>
      match (match get "filters" settings with
             | None => Ok settings
             | Some v => rmap (fun v => set "filters" v settings) (filters v)
             end) with
      | Err e => (fs, Err e)
      | Ok settings =>
          match ctx_update top settings with
          | (f, None) => (f :: top :: below, Ok tt)
          | (f, Some e) => (f :: top :: below, Err e)
          end
      end
  end.
(* generic.py:42-45 pop *)
Definition ctx_pop (fs : list frame) : list frame * res unit :=
  match fs with
  | [] | [_] => (fs, Err RuntimeErr)
  | _ :: below => (below, Ok tt)
  end.
(* genshi.py:234-241 Set.process *)
Definition set_process (settings : attrs) (fs : list frame) : list frame * res unit :=
  match fs with
  | [] => (fs, Err IndexErr)
  | top :: below =>
      match ctx_update top settings with
      | (f, None) => (f :: below, Ok tt)
      | (f, Some e) => (f :: below, Err e)
      end
  end.

(* Genshi, for the streams of out/genshi.py:209-241,261-315. Rendering a
   stream: events in order, SUB events through their directives, expressions
   by their values. Directives of other namespaces are not modelled here
   (NotImplErr); START events are passed on as they are. *)
Definition output (e : event) (r : option (list frame) * res (list event)) : option (list frame) * res (list event) :=
  (fst r, rmap (cons e) (snd r)).
(* Genshi, for the streams of out/genshi.py:209-241,261-315: the second
   stream is rendered after the first *)
Definition after (r : option (list frame) * res (list event))
           (k : option (list frame) -> option (list frame) * res (list event)) : option (list frame) * res (list event) :=
  match r with
  | (rc, Err e) => (rc, Err e)
  | (rc, Ok l) => let r := k rc in (fst r, rmap (app l) (snd r))
  end.
(* out/genshi.py:50-61,115-121,180-187,209-241: a SUB event; [render] renders
   the streams *)
Definition render_sub (render : option (list frame) -> list event -> option (list frame) * res (list event))
           (env : filters_env) (filters : mv -> res mv) (rc : option (list frame))
           (ds : list directive) (sub : list event) : option (list frame) * res (list event) :=
  match directive_order ds with
  | ([], None) => render rc sub
  | ([], Some (DWith s, ds')) =>
      match with_begin filters s (render_frames rc) with
      | (fs, Err e) => (Some fs, Err e)
      | (fs, Ok _) =>
          match ds' with
          | _ :: _ => (Some fs, Err AssertErr)
          | [] =>
              match render (Some fs) sub with
              | (rc, Err e) => (rc, Err e)
              | (rc, Ok out) => let p := ctx_pop (render_frames rc) in
                                (Some (fst p), rmap (fun _ => out) (snd p))
              end
          end
      end
  | ([], Some (DSet s, ds')) =>
      match set_process s (render_frames rc) with
      | (fs, Err e) => (Some fs, Err e)
      | (fs, Ok _) => match ds' with
                      | _ :: _ => (Some fs, Err AssertErr)
                      | [] => render (Some fs) sub
                      end
      end
  | ([], Some (d, ds')) =>
      match sub with
      | Start q a :: rest =>
          (* genshi.py:179-186 (bind), 115-121 (a control attribute alone) *)
          match (match d with
                 | DBind b => rewrite env ds' rc q a rest b
                 | _ => rewrite env (d :: ds') rc q a rest None
                 end) with
          | (rc, Err e) => (rc, Err e)
          | (rc, Ok l) => render rc l
          end
      (* an event that is not START comes first: its directives are taken for
         the tag and its events for pairs (genshi.py:268,275) *)
      | [Sub _ (_ :: _)] =>
          (rc, Err (match inject_all [] (match d with DBind _ => ds' | _ => d :: ds' end) with
                    | Err e => e
                    | Ok _ => ValueErr
                    end))
      | _ => (rc, Err NotImplErr)
      end
  | (_ :: _, _) => (rc, Err NotImplErr)
  end.
(* Genshi, for the streams of out/genshi.py:209-241,261-315: a whole stream *)
Fixpoint render (fuel : nat) (env : filters_env) (filters : mv -> res mv) (rc : option (list frame))
         (l : list event) : option (list frame) * res (list event) :=
  match fuel with
  | O => (rc, Err OutOfFuel)
  | S fuel =>
      let render := render fuel env filters in
      match l with
      | [] => (rc, Ok [])
      | Sub ds sub :: r => after (render_sub render env filters rc ds sub) (fun rc => render rc r)
      | Expr h s :: r => output (Text h s) (render rc r)
      | Iter l :: r => render rc (l ++ r)
      | e :: r => output e (render rc r)
      end
  end.
