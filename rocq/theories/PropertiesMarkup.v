(* Properties of markup generation: C43-C46, C56, C57. *)
From Verif Require Import PyBase PyBaseFacts ModelMarkup SpecMarkup ProofMarkup ProofMarkup2 ProofMarkup3 ProofMarkup4 ProofMarkup5.
From Coq Require Import Permutation Sorted.

(* ------------------------------------------------------------------ *)
(* C43: attribute text: no quote or angle bracket survives, every '&' starts an
   entity, and decoding gives the text back. *)
Theorem C43_attribute : forall s,
  inert attr_table attr_bad (attribute_escape_text s)
  /\ decode attr_table attr_bad (attribute_escape_text s) = Some s.
Proof. exact attribute_escape_safe. Qed.
Print Assumptions C43_attribute.

(* C43: element content *)
Theorem C43_content : forall s,
  inert content_table content_bad (markup_escape_text s)
  /\ decode content_table content_bad (markup_escape_text s) = Some s.
Proof. exact markup_escape_safe. Qed.
Print Assumptions C43_content.

(* C43: Element.x *)
Theorem C43_element_x : forall s,
  inert content_table content_bad (el_x s) /\ decode content_table content_bad (el_x s) = Some s.
Proof. exact el_x_safe. Qed.
Print Assumptions C43_element_x.

(* C43: Element.xa: line breaks and tabs are entities too, so attribute value
   normalisation by an XML parser cannot lose them *)
Theorem C43_element_xa : forall s,
  inert xa_table xa_bad (el_xa s) /\ decode xa_table xa_bad (el_xa s) = Some s.
Proof. exact el_xa_safe. Qed.
Print Assumptions C43_element_xa.

(* C43: what happens to other values: every value with a display text (text, or
   any false value) becomes an escape of exactly that text *)
Theorem C43_values : forall v s, shown v = Some s ->
  exists e, attribute_escape v = Ok e /\ ~ In 34%N e /\ decode attr_table attr_bad e = Some s.
Proof. exact attribute_escape_shown. Qed.
Print Assumptions C43_values.

(* C43: markup passes through, anything else is refused *)
Theorem C43_other_values : forall v,
  (forall s, v = MHtml s -> attribute_escape v = Ok s /\ markup_escape v = Ok s)
  /\ ((forall s, v <> MHtml s) -> shown v = None ->
      (exists e, attribute_escape v = Err e) /\ (exists e, markup_escape v = Err e))
  /\ (forall s, shown v = Some s ->
        exists e, markup_escape v = Ok e /\ inert content_table content_bad e
          /\ decode content_table content_bad e = Some s).
Proof. exact other_values. Qed.
Print Assumptions C43_other_values.

Example C43_witness :
  attribute_escape_text (lit "a<b & ""c"">") = lit "a&lt;b &amp; &quot;c&quot;&gt;"
  /\ el_xa [ch "a"; 10%N; ch "<"] = lit "a&#10;&lt;"
  /\ attribute_escape (MInt 5) = Err AttributeErr.
Proof. repeat split; vm_compute; reflexivity. Qed.

(* ------------------------------------------------------------------ *)
(* C44: whatever the transformations and filters produced, the rendered tag
   parses back to the tag name, to exactly those attributes (in the documented
   order, or unchanged order when ordered_attributes is off), followed by the
   documented ending. *)
Theorem C44_rendering : forall env xml dangle paired tag kw ctx b ctx' out,
  tag_call env xml dangle paired tag kw ctx b = (ctx', Ok out) ->
  wf_name tag = true ->
  exists a c t,
    transform env tag (unicode_keyed (del "contents" kw)) (get_or "contents" kw MNone) ctx b
      = (ctx', Ok (a, c))
    /\ truth c = Ok t
    /\ (forall l, NoDup (keys a) -> Forall2 shows a l ->
          Forall (fun p => wf_name (fst p) = true) a ->
          exists l', parse_tag out
              = Some (tag, l', remainder xml dangle paired tag (if t then text_of c else []))
            /\ Permutation l' l
            /\ (forall v, get "ordered_attributes" ctx' = Some v -> truth v = Ok true ->
                StronglySorted ordered_before l')
            /\ (forall v, get "ordered_attributes" ctx' = Some v -> truth v = Ok false -> l' = l)).
Proof. exact tag_call_parses. Qed.
Print Assumptions C44_rendering.

(* C44: an unbound tag called on a generator whose optional features are off
   succeeds, leaves the generator as it was, and its output parses back to
   exactly the keyword arguments. *)
Theorem C44_plain_tag : forall env g top below dangle paired tag kw body l ov,
  g_frames g = top :: below -> plain_ctx top ->
  get "ordered_attributes" top = Some ov -> truth ov = Ok true ->
  wf_name tag = true -> NoDup (keys kw) ->
  (forall k, In k ("contents" :: control_keys)%string -> ~ In (lit k) (keys kw)) ->
  (forall k, In k (keys kw) -> wf_name k = true /\ drop_tail_underscores k = k) ->
  Forall2 shows kw l ->
  exists out l',
    gen_step env g (OTag dangle paired tag (kwargs kw body) None) = (g, Ok out)
    /\ parse_tag out = Some (tag, l', remainder (g_xml g) dangle paired tag body)
    /\ Permutation l' l /\ StronglySorted ordered_before l'.
Proof. exact tag_plain. Qed.
Print Assumptions C44_plain_tag.

(* C44: keyword names lose their trailing underscores; each name occurs once
   and the last argument wins. *)
Theorem C44_keyword_names : forall kw,
  NoDup (keys (unicode_keyed kw))
  /\ (forall k, aget str_eqb k (unicode_keyed kw) = aget str_eqb k (rev (keyword_name kw))).
Proof. intros kw. split; [exact (unicode_keyed_NoDup kw)|exact (unicode_keyed_get kw)]. Qed.
Print Assumptions C44_keyword_names.

Definition no_filters : filters_env := FEnv (fun _ => []) (fun _ _ a c ctx _ => (ctx, Ok (a, c))).
Definition a_gen : gen := match gen_init (lit "xhtml") [] with Ok g => g | Err _ => Gen true [] end.
Example C44_witness :
  gen_step no_filters a_gen (OTag true false (lit "input")
     [(lit "zeta", MText (lit "1")); (lit "value", MText (lit "<""&"));
      (lit "class_", MText (lit "c")); (lit "type", MText (lit "text"))] None)
  = (a_gen, Ok (lit "<input type=""text"" value=""&lt;&quot;&amp;"" class=""c"" zeta=""1"" />"))
  /\ parse_tag (lit "<input type=""text"" value=""&lt;&quot;&amp;"" class=""c"" zeta=""1"" />")
     = Some (lit "input", [(lit "type", lit "text"); (lit "value", lit "<""&");
                           (lit "class", lit "c"); (lit "zeta", lit "1")], lit " />").
Proof. split; vm_compute; reflexivity. Qed.
Example C44_hypotheses_met : exists top below, g_frames a_gen = top :: below /\ plain_ctx top
  /\ get "ordered_attributes" top = Some (MBool true).
Proof. exact plain_gen_init. Qed.

(* ------------------------------------------------------------------ *)
(* C45: begin with known settings opens a frame in which exactly those settings
   differ; with an unknown one it raises KeyError and nothing changes. *)
Theorem C45_begin : forall env g top below s,
  g_frames g = top :: below ->
  (Forall (fun p => known top (fst p)) s ->
     exists f, gen_step env g (OBegin s) = (Gen (g_xml g) (f :: top :: below), Ok [])
       /\ (forall k, aget str_eqb k f = assigned top s k) /\ keys f = keys top)
  /\ (Exists (fun p => ~ known top (fst p)) s -> gen_step env g (OBegin s) = (g, Err KeyErr)).
Proof. exact begin_spec. Qed.
Print Assumptions C45_begin.

(* C45: after a successful begin and any properly nested calls, whatever they
   returned or raised, end restores exactly the generator as it was. *)
Theorem C45_end_restores : forall env g s t1 g1 body g2,
  2 <= List.length (g_frames g) ->
  gen_step env g (OBegin s) = (g1, Ok t1) -> nested env g1 body g2 ->
  gen_step env g2 OEnd = (g, Ok []).
Proof. exact block_restores. Qed.
Print Assumptions C45_end_restores.

(* C45: end without begin raises and changes nothing; otherwise it drops
   exactly the innermost frame. *)
Theorem C45_end : forall env g, 1 <= List.length (g_frames g) ->
  (List.length (g_frames g) <= 2 -> gen_step env g OEnd = (g, Err RuntimeErr))
  /\ (forall top below, g_frames g = top :: below -> 2 <= List.length below ->
        gen_step env g OEnd = (Gen (g_xml g) below, Ok [])).
Proof. exact end_spec. Qed.
Print Assumptions C45_end.

(* C45: no sequence of calls, nested or not, touches the default settings. *)
Theorem C45_defaults_untouched : forall env g ops,
  2 <= List.length (g_frames g) ->
  2 <= List.length (g_frames (gen_run env g ops))
  /\ last (g_frames (gen_run env g ops)) [] = last (g_frames g) [].
Proof. exact run_base. Qed.
Print Assumptions C45_defaults_untouched.

(* C45: set assigns in place, parsing the switches; at an unknown setting it
   raises TypeError, keeping what was assigned before it. *)
Theorem C45_set : forall env g top below s,
  g_frames g = top :: below ->
  (Forall (fun p => known top (fst p)) s ->
     exists f qs, gen_step env g (OSet s) = (Gen (g_xml g) (f :: below), Ok [])
       /\ Forall2 stored s qs /\ (forall k, aget str_eqb k f = assigned top qs k) /\ keys f = keys top)
  /\ (forall pre p post, s = pre ++ p :: post -> Forall (fun p => known top (fst p)) pre ->
        ~ known top (fst p) ->
        exists f, gen_step env g (OSet s) = (Gen (g_xml g) (f :: below), Err TypeErr)
          /\ gen_step env g (OSet pre) = (Gen (g_xml g) (f :: below), Ok [])).
Proof. exact set_spec. Qed.
Print Assumptions C45_set.

(* C45: construction *)
Theorem C45_init : forall markup s,
  let base := set "ordered_attributes" (MBool true) default_context in
  (forall g, gen_init markup s = Ok g ->
     exists f, g_frames g = [f; base] /\ (forall k, aget str_eqb k f = assigned base s k)
       /\ keys f = keys base
       /\ (g_xml g = false <-> markup = lit "html") /\ In markup (map lit ["html"; "xhtml"; "xml"]%string))
  /\ (forall e, gen_init markup s = Err e ->
        (e = TypeErr /\ ~ In markup (map lit ["html"; "xhtml"; "xml"]%string))
        \/ (e = KeyErr /\ Exists (fun p => ~ known base (fst p)) s)).
Proof. exact init_spec. Qed.
Print Assumptions C45_init.

(* the documented defaults *)
Example C45_defaults : forall k v, In (k, v)
    [("auto_name", MBool true); ("auto_value", MBool true); ("auto_domid", MBool false);
     ("auto_for", MBool false); ("auto_tabindex", MBool false); ("auto_filter", MBool false);
     ("domid_format", MText (lit "f_%s")); ("tabindex", MInt 0); ("filters", MFilters []);
     ("ordered_attributes", MBool true)]%string ->
  exists top below, g_frames a_gen = top :: below /\ get k top = Some v.
Proof.
  intros k v H. eexists _, _. split; [vm_compute; reflexivity|].
  simpl in H. repeat (destruct H as [[= <- <-]|H]; [reflexivity|]). easy.
Qed.
Example C45_witness :
  exists g1 t g2,
    gen_step no_filters a_gen (OBegin [(lit "auto_domid", MBool true)]) = (g1, Ok t)
    /\ nested no_filters g1 [OSet [(lit "tabindex", MInt 7)]; OBegin [(lit "bogus", MNone)];
                             OBegin []; OTag true false (lit "input") [] None; OEnd] g2
    /\ gen_step no_filters g2 OEnd = (a_gen, Ok []).
Proof. exact nested_example. Qed.
(* a failing set is not atomic *)
Theorem C45_set_atomic_refuted : exists env g s,
  snd (gen_step env g (OSet s)) = Err TypeErr /\ fst (gen_step env g (OSet s)) <> g.
Proof.
  exists no_filters, a_gen, [(lit "auto_name", MBool false); (lit "bogus", MNone)].
  vm_compute. split; [reflexivity|discriminate].
Qed.
Print Assumptions C45_set_atomic_refuted.

(* ------------------------------------------------------------------ *)
(* C46: parse_trool says yes/no exactly for the documented words in any letter
   case *)
Theorem C46_switch_words : forall v,
  (parse_trool v = TTrue <-> says_yes v) /\ (parse_trool v = TFalse <-> says_no v).
Proof. exact parse_trool_spec. Qed.
Print Assumptions C46_switch_words.

(* C46: the automatic name *)
Theorem C46_name : forall tag a c ctx b cv,
  get "auto_name" ctx = Some cv ->
  exists on forced a',
    effective "auto_name" a ctx on forced
    /\ transform_name tag a c ctx b = Ok (a', c)
    /\ get "auto_name" a' = None
    /\ same_except ["auto_name"; "name"]%string a a'
    /\ let applies := on = true /\ (exists el, b = Some el /\ b_name el <> [])
         /\ (forced = true \/ (~ given "name" a
              /\ tag_among tag ["input"; "button"; "select"; "textarea"; "form"]%string)) in
       (applies -> forall el, b = Some el -> get "name" a' = Some (MText (b_name el)))
       /\ (~ applies -> get "name" a' = get "name" a).
Proof. exact transform_name_spec. Qed.
Print Assumptions C46_name.

(* C46: the automatic value, checked and selected attributes and contents, by
   the table [value_rule] *)
Theorem C46_value : forall tag a c ctx b cv,
  get "auto_value" ctx = Some cv ->
  exists on forced a' c',
    effective "auto_value" a ctx on forced
    /\ transform_value tag a c ctx b = Ok (a', c')
    /\ get "auto_value" a' = None
    /\ (on = false \/ b = None -> c' = c /\ same_except ["auto_value"]%string a a')
    /\ (on = true -> forall el, b = Some el -> value_rule tag forced el a c a' c').
Proof. exact transform_value_spec. Qed.
Print Assumptions C46_value.

(* C46: the automatic id *)
Theorem C46_id : forall tag a c ctx b cv fmt pre post,
  get "auto_domid" ctx = Some cv ->
  get "domid_format" ctx = Some (MText fmt) -> one_hole fmt pre post ->
  text_attr "value" a ->
  (b = None -> given "name" a -> exists v t, get "name" a = Some v /\ value_is v t) ->
  exists on forced a',
    effective "auto_domid" a ctx on forced
    /\ transform_domid tag a c ctx b = Ok (a', c)
    /\ get "auto_domid" a' = None
    /\ same_except ["auto_domid"; "id"]%string a a'
    /\ (exists raw, domid_of tag a b raw)
    /\ domid_rule "id" ["input"; "button"; "select"; "textarea"]%string pre post tag on forced a b a'.
Proof. exact transform_domid_full. Qed.
Print Assumptions C46_id.

(* C46: the automatic for= of a label *)
Theorem C46_for : forall tag a c ctx b cv fmt pre post,
  get "auto_for" ctx = Some cv ->
  get "domid_format" ctx = Some (MText fmt) -> one_hole fmt pre post ->
  text_attr "value" a ->
  exists on forced a',
    effective "auto_for" a ctx on forced
    /\ transform_for tag a c ctx b = Ok (a', c)
    /\ get "auto_for" a' = None
    /\ same_except ["auto_for"; "for"]%string a a'
    /\ (b = None -> get "for" a' = get "for" a)
    /\ (b <> None -> domid_rule "for" ["label"]%string pre post tag on forced a b a').
Proof. exact transform_for_spec. Qed.
Print Assumptions C46_for.

(* C46: a label's for= is the id given to the bound input, when both are
   automatic and the input is neither a radio button nor a checkbox *)
Theorem C46_label_matches_input : forall el a la c lc ctx fmt pre post v1 v2,
  get "auto_domid" ctx = Some v1 -> says_yes v1 ->
  get "auto_for" ctx = Some v2 -> says_yes v2 ->
  get "domid_format" ctx = Some (MText fmt) -> one_hole fmt pre post ->
  text_attr "value" a -> text_attr "value" la -> b_name el <> [] ->
  (forall k, In k ["auto_domid"; "id"]%string -> get k a = None) ->
  (forall k, In k ["auto_for"; "for"]%string -> get k la = None) ->
  ~ type_is a ["checkbox"; "radio"]%string ->
  exists a' la',
    transform_domid (lit "input") a c ctx (Some el) = Ok (a', c)
    /\ transform_for (lit "label") la lc ctx (Some el) = Ok (la', lc)
    /\ get "id" a' = Some (MText (pre ++ b_name el ++ post))
    /\ get "for" la' = get "id" a'.
Proof. exact label_matches. Qed.
Print Assumptions C46_label_matches_input.

(* C46: the automatic tab index and its counter *)
Theorem C46_tabindex : forall tag a c ctx cv tv z,
  get "auto_tabindex" ctx = Some cv -> get "tabindex" ctx = Some tv -> as_number tv z ->
  exists on forced a' ctx',
    effective "auto_tabindex" a ctx on forced
    /\ transform_tabindex tag a c ctx = (ctx', Ok (a', c))
    /\ get "auto_tabindex" a' = None
    /\ same_except ["auto_tabindex"; "tabindex"]%string a a'
    /\ same_except ["tabindex"]%string ctx ctx'
    /\ let applies := on = true /\ z <> 0%Z /\ (forced = true \/ (~ given "tabindex" a
            /\ tag_among tag ["input"; "button"; "select"; "textarea"]%string)) in
       (applies -> get "tabindex" a' = Some (MText (text_of tv))
          /\ get "tabindex" ctx' = Some (if (0 <? z)%Z then MInt (z + 1) else tv))
       /\ (~ applies -> get "tabindex" a' = get "tabindex" a /\ ctx' = ctx).
Proof. exact transform_tabindex_spec. Qed.
Print Assumptions C46_tabindex.
Theorem C46_tabindex_other : forall tag a c ctx cv tv,
  get "auto_tabindex" ctx = Some cv -> get "tabindex" ctx = Some tv -> (forall z, ~ as_number tv z) ->
  exists on forced,
    effective "auto_tabindex" a ctx on forced
    /\ let applies := on = true /\ (forced = true \/ (~ given "tabindex" a
            /\ tag_among tag ["input"; "button"; "select"; "textarea"]%string)) in
       (applies -> transform_tabindex tag a c ctx = (ctx, Err TypeErr))
       /\ (~ applies -> exists a', transform_tabindex tag a c ctx = (ctx, Ok (a', c))
            /\ get "auto_tabindex" a' = None /\ same_except ["auto_tabindex"]%string a a').
Proof. exact transform_tabindex_other. Qed.
Print Assumptions C46_tabindex_other.

(* C46: filters run exactly when switched on, in order, on the tags they
   declare *)
Theorem C46_filters : forall env tag a c ctx b cv fs ctx' a' c',
  get "auto_filter" ctx = Some cv -> get "filters" ctx = Some (MFilters fs) ->
  transform_filters env tag a c ctx b = (ctx', Ok (a', c')) <->
  exists on forced, effective "auto_filter" a ctx on forced
    /\ filtered env tag b (if on then fs else []) (ctx, del "auto_filter" a, c) (ctx', a', c').
Proof. exact transform_filters_spec. Qed.
Print Assumptions C46_filters.

(* C46: the meaning of a switch is unambiguous, and forced means the tag itself
   says yes *)
Theorem C46_switch_unique : forall key a ctx o1 f1 o2 f2,
  effective key a ctx o1 f1 -> effective key a ctx o2 f2 -> o1 = o2 /\ f1 = f2.
Proof. exact effective_unique. Qed.
Print Assumptions C46_switch_unique.
Theorem C46_forced : forall key a ctx o f,
  effective key a ctx o f -> (f = true <-> exists v, get key a = Some v /\ says_yes v).
Proof. exact effective_forced. Qed.
Print Assumptions C46_forced.

(* C46: the whole pipeline without user filters: no control attribute reaches
   the output, only the automatic attributes can change, and an attribute that
   was given changes only if its switch is forced on the tag. *)
Theorem C46_pipeline : forall env tag a c ctx b ctx' a' c',
  has_settings ctx -> get "filters" ctx = Some (MFilters []) ->
  transform env tag a c ctx b = (ctx', Ok (a', c')) ->
  (forall k, In k control_keys -> get k a' = None)
  /\ same_except (control_keys ++ ["name"; "value"; "checked"; "selected"; "id"; "for"; "tabindex"])%list%string a a'
  /\ same_except ["tabindex"]%string ctx ctx'
  /\ (forall sw k, In (sw, k) fills -> given k a ->
        ~ (exists v, get sw a = Some v /\ says_yes v) -> get k a' = get k a)
  /\ (c <> MNone -> ~ (exists v, get "auto_value" a = Some v /\ says_yes v) -> c' = c).
Proof. exact transform_frame. Qed.
Print Assumptions C46_pipeline.

Definition an_el : belement := Bound (lit "addr_zip") (lit "97201 <x>") BOther.
Definition top0 : frame := match g_frames a_gen with t :: _ => t | [] => [] end.
Example C46_witness :
  let ctx := set "auto_domid" (MText (lit "On")) (set "auto_tabindex" (MBool true) (set "tabindex" (MInt 3) top0)) in
  let r := transform no_filters (lit "input")
     [(lit "type", MText (lit "radio")); (lit "value", MText (lit "9 7"));
      (lit "auto_name", MText (lit "off"))] MNone ctx (Some an_el) in
  snd r = Ok ([(lit "type", MText (lit "radio")); (lit "value", MText (lit "9 7"));
               (lit "id", MText (lit "f_addr_zip_97")); (lit "tabindex", MText (lit "3"))], MNone)
  /\ get "tabindex" (fst r) = Some (MInt 4)
  /\ snd (transform no_filters (lit "textarea") [] MNone top0 (Some an_el))
     = Ok ([(lit "name", MText (lit "addr_zip"))], MHtml (lit "97201 &lt;x&gt;")).
Proof. repeat split; vm_compute; reflexivity. Qed.

(* "checked" and "selected" are automatic too, but an explicit one is replaced
   even when nothing is forced *)
Theorem C46_explicit_checked_refuted : exists env tag a c ctx el a' c' ctx',
  transform env tag a c ctx (Some el) = (ctx', Ok (a', c'))
  /\ given "checked" a /\ get "auto_value" a = None /\ get "checked" a' = None.
Proof.
  exists no_filters, (lit "input"), [(lit "type", MText (lit "checkbox")); (lit "checked", MText (lit "checked"));
     (lit "value", MText (lit "1"))], MNone, top0, an_el.
  eexists _, _, _. split; [vm_compute; reflexivity|].
  split; [eexists; split; [reflexivity|discriminate]|]. split; vm_compute; reflexivity.
Qed.
Print Assumptions C46_explicit_checked_refuted.

(* an explicit value of None on a check box makes id generation raise *)
Theorem C46_id_of_none_value_refuted : exists env tag a c ctx el e,
  get "value" a = Some MNone /\ snd (transform env tag a c ctx (Some el)) = Err e.
Proof.
  exists no_filters, (lit "input"), [(lit "type", MText (lit "checkbox")); (lit "value", MNone);
     (lit "auto_domid", MBool true)], MNone, top0, an_el, TypeErr.
  split; vm_compute; reflexivity.
Qed.
Print Assumptions C46_id_of_none_value_refuted.

(* What docs/source/markup.rst says of the automatic values and the code does
   not do. Under auto_value: an empty text omits the attribute *)
Theorem C46_doc_empty_value_refuted : exists env a ctx el a' c' ctx',
  transform env (lit "input") a MNone ctx (Some el) = (ctx', Ok (a', c'))
  /\ get "type" a = Some (MText (lit "text")) /\ b_u el = [] /\ get "value" a' = Some (MText []).
Proof.
  exists no_filters, [(lit "type", MText (lit "text"))], top0, (Bound (lit "n") [] BOther).
  eexists _, _, _. split; [vm_compute; reflexivity|]. repeat split; vm_compute; reflexivity.
Qed.
Print Assumptions C46_doc_empty_value_refuted.
(* an input of an unknown type receives no value unless forced *)
Theorem C46_doc_unknown_type_refuted : exists env a ctx el a' c' ctx',
  transform env (lit "input") a MNone ctx (Some el) = (ctx', Ok (a', c'))
  /\ get "type" a = Some (MText (lit "colour")) /\ get "auto_value" a = None
  /\ ~ given "value" a /\ get "value" a' = Some (MText (b_u el)).
Proof.
  exists no_filters, [(lit "type", MText (lit "colour"))], top0, an_el.
  eexists _, _, _. split; [vm_compute; reflexivity|]. repeat split; try (vm_compute; reflexivity).
  intros (v & E & _). vm_compute in E. discriminate.
Qed.
Print Assumptions C46_doc_unknown_type_refuted.
(* a radio button or check box without a value= is left alone: an empty element
   checks the radio button, and any other one clears an explicit checked= *)
Theorem C46_doc_no_value_refuted :
  (exists env a ctx el a' c' ctx',
     transform env (lit "input") a MNone ctx (Some el) = (ctx', Ok (a', c'))
     /\ get "type" a = Some (MText (lit "radio")) /\ ~ given "value" a
     /\ get "checked" a = None /\ get "checked" a' = Some (MText (lit "checked")))
  /\ forall type, In type ["radio"; "checkbox"]%string -> exists env a ctx el a' c' ctx',
     transform env (lit "input") a MNone ctx (Some el) = (ctx', Ok (a', c'))
     /\ get "type" a = Some (MText (lit type)) /\ ~ given "value" a
     /\ given "checked" a /\ get "checked" a' = None.
Proof.
  split.
  - exists no_filters, [(lit "type", MText (lit "radio"))], top0, (Bound (lit "n") [] BOther).
    eexists _, _, _. split; [vm_compute; reflexivity|]. repeat split; try (vm_compute; reflexivity).
    intros (v & E & _). vm_compute in E. discriminate.
  - intros type I.
    exists no_filters, [(lit "type", MText (lit type)); (lit "checked", MText (lit "checked"))], top0, an_el.
    destruct I as [<-|[<-|[]]]; eexists _, _, _; (split; [vm_compute; reflexivity|]); (split; [vm_compute; reflexivity|]);
      (split; [intros (v & E & _); vm_compute in E; discriminate|]);
      (split; [eexists; split; [vm_compute; reflexivity|discriminate]|vm_compute; reflexivity]).
Qed.
Print Assumptions C46_doc_no_value_refuted.
(* a button receives the text between its tags: it receives a value= *)
Theorem C46_doc_button_refuted : exists env ctx el a' ctx',
  transform env (lit "button") [] MNone ctx (Some el) = (ctx', Ok (a', MNone))
  /\ get "value" a' = Some (MText (b_u el)).
Proof.
  exists no_filters, top0, an_el. eexists _, _. split; vm_compute; reflexivity.
Qed.
Print Assumptions C46_doc_button_refuted.
(* auto_for is on by default, applies only along with auto_domid, and stops at
   an id=: it is off by default, and applies without auto_domid to a label that
   has an id= *)
Theorem C46_doc_for_refuted :
  (forall env el, exists a' ctx',
     transform env (lit "label") [] MNone top0 (Some el) = (ctx', Ok (a', MNone)) /\ get "for" a' = None)
  /\ exists env a ctx el a' c' ctx',
     transform env (lit "label") a MNone ctx (Some el) = (ctx', Ok (a', c'))
     /\ get "auto_domid" ctx = Some (MBool false) /\ get "auto_for" a = None /\ given "id" a
     /\ get "for" a' = Some (MText (lit "f_addr_zip")).
Proof.
  split.
  - intros env [n u k]. exists [], top0. split; [|reflexivity]. destruct n as [|x n]; reflexivity.
  - exists no_filters, [(lit "id", MText (lit "mine"))], (set "auto_for" (MBool true) top0), an_el.
    eexists _, _, _. split; [vm_compute; reflexivity|]. split; [vm_compute; reflexivity|]. split; [vm_compute; reflexivity|].
    split; [eexists; split; [vm_compute; reflexivity|discriminate]|vm_compute; reflexivity].
Qed.
Print Assumptions C46_doc_for_refuted.

(* ------------------------------------------------------------------ *)
(* C56: asking for a tag gives the innermost open one of that name, otherwise a
   new one with the requested flags that equals none before it *)
Theorem C56_lookup : forall r nm d p, registry_ok r ->
  let '(r', t) := get_tag r nm d p in
  t_name t = nm /\ registry_ok r' /\ (forall n, opened r' n = opened r n)
  /\ t_id t < r_next r'
  /\ (opened r nm = [] -> t_dangle t = d /\ t_paired t = p /\ r_next r <= t_id t)
  /\ (forall l x, opened r nm = l ++ [x] -> t = x).
Proof. exact get_tag_ok. Qed.
Print Assumptions C56_lookup.

(* C56: open then close restores the open tags; in between the tag is the one
   found; closing a tag that is not open changes nothing; other names are never
   affected. *)
Theorem C56_open_close : forall r t nm, ~ In (t_id t) (map t_id (opened r (t_name t))) ->
  opened (tag_close (tag_open r t) t) nm = opened r nm
  /\ opened (tag_close r t) nm = opened r nm
  /\ (forall d p, snd (get_tag (tag_open r t) (t_name t) d p) = t)
  /\ (nm <> t_name t -> opened (tag_open r t) nm = opened r nm).
Proof. exact open_close. Qed.
Print Assumptions C56_open_close.

(* C56: opening an open tag again changes nothing *)
Theorem C56_reopen : forall r t, In (t_id t) (map t_id (opened r (t_name t))) -> tag_open r t = r.
Proof. exact reopen. Qed.
Print Assumptions C56_reopen.

(* C56: the well-formedness of the registry is kept by every operation *)
Theorem C56_invariant : forall r t, registry_ok r ->
  (t_id t < r_next r -> registry_ok (tag_open r t)) /\ registry_ok (tag_close r t).
Proof. intros r t H. split; [exact (tag_open_ok r t H)|exact (tag_close_ok r t H)]. Qed.
Print Assumptions C56_invariant.

Example C56_witness :
  let r0 := Registry 0 [] in
  let '(r1, t1) := get_tag r0 (lit "form") false true in
  let r2 := tag_open r1 t1 in
  registry_ok r0 /\ opened r2 (lit "form") = [t1]
  /\ snd (get_tag r2 (lit "form") true false) = t1
  /\ opened (tag_close r2 t1) (lit "form") = [].
Proof. repeat split; try constructor; intros; easy. Qed.

(* ------------------------------------------------------------------ *)
(* C57: Generator.tag(name, ...) is documented as equivalent to the named
   method; it is not: an empty input renders differently *)
Theorem C57_tag_method_refuted : exists env g name d p kw b,
  named_flags name = Some (d, p)
  /\ gen_step env g (OTag d p (lit name) kw b)
     <> gen_step env g (OTag (fst generic_flags) (snd generic_flags) (lit name) kw b).
Proof.
  exists no_filters, (match gen_init (lit "html") [] with Ok g => g | Err _ => Gen true [] end),
    "input"%string, true, false, [], None.
  split; [reflexivity|]. vm_compute. discriminate.
Qed.
Print Assumptions C57_tag_method_refuted.

(* C57: they differ exactly on empty form, textarea, select and option in XML
   and on empty input in HTML *)
Theorem C57_tag_method : forall env g top below name d p kw b,
  g_frames g = top :: below -> named_flags name = Some (d, p) ->
  (gen_step env g (OTag d p (lit name) kw b)
   = gen_step env g (OTag (fst generic_flags) (snd generic_flags) (lit name) kw b)
   <-> ~ (exists ctx' h, tag_open_ env (lit name) kw top b = (ctx', Ok (h, []))
          /\ (g_xml g = true /\ In name ["form"; "textarea"; "select"; "option"]%string
              \/ g_xml g = false /\ name = "input"%string))).
Proof. exact tag_method. Qed.
Print Assumptions C57_tag_method.
Theorem C57_named_tags : forall name d p, named_flags name = Some (d, p) <-> In (name, d, p) named_tags.
Proof. exact named_flags_iff. Qed.
Print Assumptions C57_named_tags.

Example C57_witness :
  snd (gen_step no_filters a_gen (OTag false true (lit "textarea") [(lit "contents", MText (lit "x"))] None))
  = Ok (lit "<textarea>x</textarea>")
  /\ snd (gen_step no_filters a_gen (OTag false true (lit "textarea") [] None)) = Ok (lit "<textarea></textarea>")
  /\ snd (gen_step no_filters a_gen (OTag false false (lit "textarea") [] None)) = Ok (lit "<textarea />").
Proof. repeat split; vm_compute; reflexivity. Qed.
