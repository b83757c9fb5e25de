(* C94, C95, C96: the tags of a generator as objects. *)
From Verif Require Import PyBase ModelMarkup ModelTag SpecTag ProofTag ProofTag2 ProofTag3.

(* ------------------------------------------------------------------ *)
(* C94: the halves of a tag and the whole of it *)
Theorem C94_halves : forall env s t kw b, g_frames (ts_gen s) <> [] ->
  let '(s1, r1) := open_tag env s t kw b in
  let '(s2, r2) := call_tag env s t kw b in
  ts_gen s1 = ts_gen s2 /\ ts_contents s1 = ts_contents s2 /\ ts_got s1 = ts_got s2
  /\ (forall e, r1 = Err e <-> r2 = Err e)
  /\ (forall op w, r1 = Ok op -> r2 = Ok w ->
       exists c s3 cl, contents s1 t = Some c /\ close_tag s1 t = (s3, Ok cl)
       /\ whole (g_xml (ts_gen s)) t op c cl w).
Proof. exact halves. Qed.
Print Assumptions C94_halves.
(* C94: a call is the call of ModelMarkup and leaves what is open *)
Theorem C94_call : forall env s t kw b, g_frames (ts_gen s) <> [] ->
  let '(s', r) := call_tag env s t kw b in
  gen_step env (ts_gen s) (OTag (t_dangle t) (t_paired t) (t_name t) kw b) = (ts_gen s', r)
  /\ ts_reg s' = ts_reg s /\ ts_got s' = ts_got s.
Proof. exact call_agrees. Qed.
Print Assumptions C94_call.
(* C94: opening and closing a tag that was not open leaves open what was open,
   rendered or not *)
Theorem C94_open_close : forall env s t kw b, g_frames (ts_gen s) <> [] ->
  ~ In (t_id t) (map t_id (opened (ts_reg s) (t_name t))) ->
  forall nm, opened (ts_reg (fst (close_tag (fst (open_tag env s t kw b)) t))) nm = opened (ts_reg s) nm.
Proof. exact open_then_close. Qed.
Print Assumptions C94_open_close.
(* C94: settings and texts of a whole program are those of the same program
   without tag objects *)
Theorem C94_settings : forall env s os, g_frames (ts_gen s) <> [] ->
  ts_gen (tag_run env s os) = gen_run env (ts_gen s) (all_plain env s os).
Proof. exact run_gen. Qed.
Print Assumptions C94_settings.
Theorem C94_texts : forall env s o p, g_frames (ts_gen s) <> [] -> plain_ops s o = [p] ->
  (forall i kw b, o <> Open i kw b) ->
  snd (tag_step env s o) = rmap inr (snd (gen_step env (ts_gen s) p)).
Proof. exact step_result. Qed.
Print Assumptions C94_texts.

Definition no_filters : filters_env := FEnv (fun _ => []) (fun _ _ a c ctx _ => (ctx, Ok (a, c))).
Definition fresh : tags :=
  match new_tags (lit "xml") [] with Ok s => s | Err _ => Tags (Gen true []) (Registry 0 []) [] [] end.
Definition field := Some (Bound (lit "field1") (lit "val") BOther).
Definition text_of_step (o : tag_op) (s : tags) : res str :=
  match snd (tag_step no_filters s o) with Ok (inr x) => Ok x | Ok (inl _) => Ok (lit "a tag") | Err e => Err e end.
Example C94_witness :
  let s := tag_run no_filters fresh [Get (lit "textarea") false true] in
  let s' := tag_run no_filters s [Open 0 [] field] in
  g_frames (ts_gen s) <> []
  /\ text_of_step (Open 0 [] field) s = Ok (lit "<textarea name=""field1"">")
  /\ option_map (contents s') (nth_error (ts_got s') 0) = Some (Some (lit "val"))
  /\ text_of_step (Close 0) s' = Ok (lit "</textarea>")
  /\ text_of_step (Call 0 [] field) s = Ok (lit "<textarea name=""field1"">val</textarea>")
  /\ text_of_step (Generate (lit "BR") [(lit "id", MText (lit "x"))] None) s = Ok (lit "<br id=""x"" />").
Proof. vm_compute. split; [discriminate|]. repeat split. Qed.

(* C94: an open() that raises is undone by nothing: the tag stays open *)
Theorem C94_failed_open_refuted : exists env s t kw b e, g_frames (ts_gen s) <> []
  /\ opened (ts_reg s) (t_name t) = []
  /\ snd (open_tag env s t kw b) = Err e
  /\ opened (ts_reg (fst (open_tag env s t kw b))) (t_name t) = [t].
Proof.
  exists no_filters, fresh, (TagObj 0 (lit "input") true false), [(lit "contents", MMaybe)], None, NotImplErr.
  vm_compute. split; [discriminate|]. repeat split.
Qed.
Print Assumptions C94_failed_open_refuted.

(* ------------------------------------------------------------------ *)
(* C95: tag.contents.  The rule of one step: [renders] is the tag it renders *)
Theorem C95_contents : forall env s o u, g_frames (ts_gen s) <> [] ->
  let '(s', r) := tag_step env s o in
  exists top below, g_frames (ts_gen s) = top :: below
  /\ match renders s o with
     | Some (t, kw, b) =>
         (t_id u <> t_id t -> contents s' u = contents s u)
         /\ (forall c, left_contents env top t kw b c -> contents s' t = Some c)
         /\ ((forall c, ~ left_contents env top t kw b c) -> contents s' t = contents s t)
     | None => contents s' u = contents s u
     end
  /\ (forall t kw b w, renders s o = Some (t, kw, b) -> r = Ok w -> exists c, left_contents env top t kw b c).
Proof. exact step_contents. Qed.
Print Assumptions C95_contents.
(* C95: a text given to an unbound tag is its contents, if nothing automatic
   applies *)
Theorem C95_given : forall env s top below t kw body, g_frames (ts_gen s) = top :: below ->
  SpecMarkup.plain_ctx top ->
  (forall k, In k ("contents" :: SpecMarkup.control_keys)%string -> ~ In (lit k) (keys (unicode_keyed kw))) ->
  ~ In (lit "contents") (keys kw) ->
  left_contents env top t (SpecMarkup.kwargs kw body) None body.
Proof. exact given_contents. Qed.
Print Assumptions C95_given.
(* C95: a later opening that fails before its contents are known leaves the
   earlier ones, one that fails after replaces them *)
Example C95_witness :
  let s := tag_run no_filters fresh [Get (lit "textarea") false true] in
  let s1 := tag_run no_filters s [Open 0 [] field] in
  let s2 := tag_run no_filters s1 [Call 0 [(lit "contents", MMaybe)] field] in
  let s3 := tag_run no_filters s1 [Call 0 [(lit "contents", MText (lit "new")); (lit "x", MInt 5)] field] in
  let c s := option_map (contents s) (nth_error (ts_got s) 0) in
  c s = Some None /\ c s1 = Some (Some (lit "val"))
  /\ text_of_step (Call 0 [(lit "contents", MMaybe)] field) s1 = Err NotImplErr /\ c s2 = c s1
  /\ text_of_step (Call 0 [(lit "contents", MText (lit "new")); (lit "x", MInt 5)] field) s1 = Err AttributeErr
  /\ c s3 = Some (Some (lit "new")).
Proof. vm_compute. repeat split. Qed.

(* ------------------------------------------------------------------ *)
(* C96: which tag a generator returns, after any program *)
Theorem C96_found : forall env markup settings s0 os nm d p, new_tags markup settings = Ok s0 ->
  let s := tag_run env s0 os in
  let tr := events env s0 [] os in
  let given := tags_in (outcomes env s0 os) in
  let '(s', r) := tag_step env s (Get nm d p) in
  exists t, r = Ok (inl t)
  /\ (innermost tr nm t
      \/ (none_open tr nm /\ t_name t = nm /\ t_dangle t = d /\ t_paired t = p
          /\ (forall u, In u given -> t_id u <> t_id t) /\ contents s' t = None)).
Proof. exact program_found. Qed.
Print Assumptions C96_found.
(* C96: there is at most one such open tag *)
Theorem C96_unique : forall tr nm t u, innermost tr nm t -> innermost tr nm u -> t = u.
Proof. exact innermost_unique. Qed.
Print Assumptions C96_unique.
(* C96: the tags a program holds are those returned to it, in order *)
Theorem C96_held : forall env markup settings s0 os, new_tags markup settings = Ok s0 ->
  ts_got (tag_run env s0 os) = tags_in (outcomes env s0 os)
  /\ (forall t u, In t (tags_in (outcomes env s0 os)) -> In u (tags_in (outcomes env s0 os)) ->
        t_id t = t_id u -> t = u)
  /\ gen_init markup settings = Ok (ts_gen s0)
  /\ g_frames (ts_gen (tag_run env s0 os)) <> [].
Proof. exact program_held. Qed.
Print Assumptions C96_held.
(* C96: generator.tag(name) looks up the lower case name; with arguments it
   calls the tag found *)
Theorem C96_generate : forall env s nm kw b,
  (b = None /\ kw = [] -> tag_step env s (Generate nm kw b) = tag_step env s (Get (lower nm) false false))
  /\ (~ (b = None /\ kw = []) ->
      exists s1 t, tag_step env s (Get (lower nm) false false) = (s1, Ok (inl t))
      /\ forall i, nth_error (ts_got s1) i = Some t ->
        let '(s2, r2) := tag_step env s (Generate nm kw b) in
        let '(s3, r3) := tag_step env s1 (Call i kw b) in
        r2 = r3 /\ ts_gen s2 = ts_gen s3 /\ ts_reg s2 = ts_reg s3 /\ ts_contents s2 = ts_contents s3).
Proof. exact generate_is_get. Qed.
Print Assumptions C96_generate.
(* C96: nested opens of two tags of one name: the inner is found until it is
   closed, then the outer, even if the outer was opened again meanwhile *)
Example C96_witness :
  let os := [Get (lit "div") false false; Get (lit "div") false false; Open 0 [] None; Open 1 [] None; Open 0 [] None] in
  let id_of o := match snd (tag_step no_filters (tag_run no_filters fresh o) (Get (lit "div") true true)) with
                 | Ok (inl t) => Some (t_id t) | _ => None end in
  id_of os = Some 1 /\ id_of (os ++ [Close 1]) = Some 0 /\ id_of (os ++ [Close 1; Close 0]) = Some 2
  /\ id_of (os ++ [Close 0]) = Some 1 /\ id_of (os ++ [Close 0; Open 0 [] None]) = Some 0.
Proof. vm_compute. repeat split. Qed.
