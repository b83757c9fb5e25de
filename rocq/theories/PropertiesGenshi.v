(* C80 (rewritten tags), C81 (options of a bound select), C82 (directives and
   streams), C83 (settings in templates), C84 (text of streams), C85 (what a
   template shows). *)
From Verif Require Import PyBase PyBaseFacts ModelMarkup SpecMarkup ModelGenshi SpecGenshi
  ProofGenshi ProofGenshi2 ProofGenshi3 ProofGenshi4 ProofGenshi5 ProofGenshi6 ProofGenshi7 ProofGenshi8.
From Coq Require Import Sorting.Sorted.
Local Open Scope string_scope.
Local Open Scope list_scope.

(* samples: an element with name x and text a; tags and attribute names without
   namespace; filters that do nothing; a filter that returns no contents *)
Definition sample : belement := Bound (lit "x") (lit "a") BOther.
Definition tag (s : string) : qname := QName None (lit s).
Definition att (k v : string) : qname * (mv + list event) := (tag k, inl (MText (lit v))).
Definition text (s : string) : event := Text false (lit s).
Definition idle : filters_env := FEnv (fun _ => []) (fun _ _ a c ctx _ => (ctx, Ok (a, c))).
Definition clearing : filters_env := FEnv (fun _ => []) (fun _ _ a c ctx _ => (ctx, Ok (a, MNone))).
Definition with_filter : frame := set "auto_filter" (MBool true) (set "filters" (MFilters [0%nat]) default_context).
Lemma idle_keys : keeps_keys idle.
Proof. intros f t a c ctx b ctx' a' c' [= <- <- <-]. easy. Qed.
Lemma idle_contents : keeps_contents idle.
Proof. intros f t a c ctx b ctx' a' c' [= <- <- <-]. easy. Qed.

(* C80 *)

Theorem C80_rewritten : forall env controls rc tag a mid e b rc' out, keeps_keys env -> NoDup (map fst a) ->
  rewrite env controls rc tag a (mid ++ [e]) b = (rc', Ok out) ->
  exists pairs m c top below top' m' c' a' mid1 mid2,
    Forall2 control_says controls pairs /\ handed pairs a m /\ contents_in mid c
    /\ render_frames rc = top :: below /\ transform env (q_local tag) m c top b = (top', Ok (m', c')) /\ rc' = Some (top' :: below)
    /\ written a m' a' /\ contents_out mid c' mid1
    /\ (c' = MNone -> mid2 = mid) /\ (c' <> MNone -> options_bound tag b mid1 mid2)
    /\ out = Start tag a' :: mid2 ++ [e].
Proof. exact @rewrite_spec. Qed.
Print Assumptions C80_rewritten.

Theorem C80_works : forall env controls pairs rc tag a mid e b top below, NoDup (map fst a) ->
  Forall2 control_says controls pairs -> (forall k v, In (QName None k, v) a -> exists w, attr_reads v w) -> sound mid ->
  render_frames rc = top :: below ->
  exists m c, handed pairs a m /\ contents_in mid c /\ NoDup (keys m)
    /\ (forall top' x, transform env (q_local tag) m c top b = (top', Err x) ->
         rewrite env controls rc tag a (mid ++ [e]) b = (Some (top' :: below), Err x))
    /\ (forall top' m' c', transform env (q_local tag) m c top b = (top', Ok (m', c')) -> usable c c' ->
         b = None \/ q_local tag <> lit "select" \/ orderly (option_of tag) mid /\ (forall x, ~ In (Iter x) mid) ->
         exists out, rewrite env controls rc tag a (mid ++ [e]) b = (Some (top' :: below), Ok out)).
Proof. exact @rewrite_works. Qed.
Print Assumptions C80_works.

Theorem C80_only_controls : forall env controls rc tag a rest b, (exists d, In d controls /\ forall k raw, d <> DControl k raw) ->
  rewrite env controls rc tag a rest b = (rc, Err AttributeErr).
Proof. exact @rewrite_rejects. Qed.
Print Assumptions C80_only_controls.

Theorem C80_one_meaning : forall ds, forall p1 p2, Forall2 control_says ds p1 -> Forall2 control_says ds p2 -> p1 = p2.
Proof. exact @says_unique. Qed.
Print Assumptions C80_one_meaning.

(* class keeps its place and value, the namespaced attribute too, checked goes; the others follow in order *)
Example C80_case :
  rewrite idle [DControl (lit "auto-domid") [PText (lit "o"); PExpr (MText (lit "n"))]] None (tag "input")
    [(QName (Some (lit "ns")) (lit "z"), inl (MText (lit "1"))); att "checked" "checked"; (tag "value", inr [Expr false (lit "b")]); att "type" "checkbox"; att "class" "c"]
    [End (tag "input")] (Some sample)
  = (Some [default_context], Ok [Start (tag "input")
      [(QName (Some (lit "ns")) (lit "z"), inl (MText (lit "1"))); att "value" "b"; att "type" "checkbox"; att "class" "c"; att "name" "x"; att "id" "f_x_b"];
      End (tag "input")]).
Proof. reflexivity. Qed.
Example C80_hypotheses : keeps_keys idle
  /\ NoDup (map fst [(QName (Some (lit "ns")) (lit "z"), inl (MText (lit "1")) : mv + list event); att "checked" "checked"])
  /\ Forall2 control_says [DControl (lit "auto-domid") [PText (lit "o"); PExpr (MText (lit "n"))]] [(lit "auto_domid", MText (lit "on"))]
  /\ attr_reads (inr [Expr false (lit "b")]) (MText (lit "b")) /\ sound [text "t"; Iter [text "u"]].
Proof.
  split; [apply idle_keys|]. split; [repeat constructor; cbn; intuition discriminate|]. split; [|split].
  - constructor; [|constructor]. constructor; [apply (sn_listed "auto-domid" "auto_domid"); cbn; tauto|].
    apply (ps_text (lit "o") _ (lit "n")), (ps_expr (MText (lit "n")) [] []). constructor.
  - constructor. apply (rd_expr false (lit "b") [] []). constructor.
  - apply so_other; [easy|]. apply so_iter; [apply so_other; [easy|constructor]|now left|constructor].
Qed.
(* a filter that returns None does not clear the contents *)
Theorem C80_clear_refuted : exists env rc tag a mid e, rc = Some [with_filter] /\ f_tags env 0 = [] /\ mid <> []
  /\ (forall f t a c ctx b, exists ctx', f_run env f t a c ctx b = (ctx', Ok (a, MNone)))
  /\ rewrite env [] rc tag a (mid ++ [e]) None = (rc, Ok (Start tag a :: mid ++ [e])).
Proof.
  exists clearing, (Some [with_filter]), (tag "label"), [], [text "old"], (End (tag "label")). split; [easy|]. split; [reflexivity|]. split; [easy|].
  split; [|reflexivity]. intros f t a c ctx b. now exists ctx.
Qed.
Print Assumptions C80_clear_refuted.
(* markup that is the whole contents of a rewritten tag is taken for text *)
Theorem C80_markup_refuted : exists env rc tag a s e rc' a',
  rewrite env [] rc tag a ([Text true s] ++ [e]) None = (rc', Ok [Start tag a'; Text false s; e]) /\ s <> [].
Proof. exists idle, None, (tag "label"), [], (lit "<b/>"), (End (tag "label")), (Some [default_context]), []. split; [reflexivity|easy]. Qed.
Print Assumptions C80_markup_refuted.

(* C81 *)

Theorem C81_bound : forall q b l l', bind_unbound q b l = Ok l' <-> bound_to q b l l'.
Proof. exact @bind_unbound_iff. Qed.
Print Assumptions C81_bound.

Theorem C81_total : forall q b l, orderly q l -> exists l', bound_to q b l l'.
Proof. exact @bind_unbound_orderly. Qed.
Print Assumptions C81_total.

Theorem C81_errors : forall q b l e, bind_unbound q b l = Err e -> e = IndexErr.
Proof. exact @bind_unbound_errors. Qed.
Print Assumptions C81_errors.

Theorem C81_nothing_lost : forall q b l l', bound_to q b l l' -> shapes l' = shapes l.
Proof. exact @bound_to_shapes. Qed.
Print Assumptions C81_nothing_lost.

Theorem C81_once : forall q b b' l l', bound_to q b l l' -> bound_to q b' l' l'.
Proof. exact @bound_to_again. Qed.
Print Assumptions C81_once.

Theorem C81_controlled_option : forall (env : filters_env) (filters : mv -> res mv), forall rc ds0 el controls ds d more tag a ao inner post e rc' out, keeps_contents env ->
    splits ds0 [] (DBind (Some el) :: controls) -> q_local tag = lit "select" ->
    splits ds [] (d :: more) -> (forall b, ~ In (DBind b) ds) -> (forall s, d <> DWith s /\ d <> DSet s) ->
    ~ In (option_of tag) (map fst ao) -> closed (option_of tag) inner ->
    ~ renders env filters rc [Sub ds0 (Start tag a :: Sub ds (Start (option_of tag) ao :: inner ++ [End (option_of tag)]) :: post ++ [e])] rc' out.
Proof. exact @option_fails. Qed.
Print Assumptions C81_controlled_option.

(* nested options are bound each; one with a binding of its own, and what is in it, is left alone *)
Example C81_case :
  let o := tag "option" in let own := Sub [DForeign 0; DBind None] [Start o []; End o] in
  bind_unbound o sample [text " "; Start o []; Start o []; End o; End o; own; Start (tag "p") []; Sub [DForeign 1] [Start o []; End o]; End (tag "p")]
  = Ok [text " "; Sub [DBind (Some sample)] [Start o []; Sub [DBind (Some sample)] [Start o []; End o]; End o]; own;
        Start (tag "p") []; Sub [DForeign 1] [Sub [DBind (Some sample)] [Start o []; End o]]; End (tag "p")].
Proof. reflexivity. Qed.
Example C81_orderly : let o := tag "option" in orderly o [text " "; Start o []; Start o []; End o; End o; Sub [] [Start o []; End o]]
  /\ bind_unbound o sample [Start o []] = Err IndexErr.
Proof.
  split; [|reflexivity]. apply or_other; [easy|easy|].
  apply (or_tag (tag "option") [] [Start (tag "option") []; End (tag "option")] [Sub [] [Start (tag "option") []; End (tag "option")]]).
  - apply (cl_tag (tag "option") [] [] []); constructor.
  - apply (or_tag (tag "option") [] [] []); constructor.
  - apply or_sub; [apply (or_tag (tag "option") [] [] []); constructor|constructor].
Qed.
(* a select with an option that has a control attribute but no form:bind *)
Example C81_controlled_case :
  let o := tag "option" in
  let t := [Sub [DBind (Some sample)] [Start (tag "select") []; Sub [DControl (lit "auto-value") [PText (lit "off")]] [Start o []; End o]; End (tag "select")]] in
  render 9 idle (fun v => Ok v) None t = (Some [default_context], Err ValueErr).
Proof. reflexivity. Qed.
(* options that an expression produces after the first tag are not bound *)
Theorem C81_late_iterator_refuted : exists q b l, (exists x, In (Iter x) l /\ In (Start q []) x) /\ (forall t, ~ reads l t)
  /\ simplify l = Ok (inr l) /\ bind_unbound q b l = Ok l.
Proof.
  exists (tag "option"), sample, [Start (tag "p") []; End (tag "p"); Iter [Start (tag "option") []; End (tag "option")]].
  split; [eexists; split; [right; right; left; reflexivity|now left]|]. split; [intros t H; inversion H|]. split; reflexivity.
Qed.
Print Assumptions C81_late_iterator_refuted.

(* C82 *)

Theorem C82_order : forall ds f o, splits ds f o -> directive_order ds = (f, first_of o).
Proof. exact @directive_order_spec. Qed.
Print Assumptions C82_order.

Theorem C82_sequence : forall (env : filters_env) (filters : mv -> res mv), forall rc l1 l2 rc2 out, renders env filters rc (l1 ++ l2) rc2 out <->
    exists rc1 o1 o2, renders env filters rc l1 rc1 o1 /\ renders env filters rc1 l2 rc2 o2 /\ out = o1 ++ o2.
Proof. exact @renders_app. Qed.
Print Assumptions C82_sequence.

Theorem C82_empty : forall (env : filters_env) (filters : mv -> res mv), forall rc rc' out, renders env filters rc [] rc' out <-> rc' = rc /\ out = [].
Proof. exact @renders_nil. Qed.
Print Assumptions C82_empty.

Theorem C82_event : forall (env : filters_env) (filters : mv -> res mv), forall rc e e' rc' out, shown_as e = Some e' -> renders env filters rc [e] rc' out <-> rc' = rc /\ out = [e'].
Proof. exact @renders_one. Qed.
Print Assumptions C82_event.

Theorem C82_iterator : forall (env : filters_env) (filters : mv -> res mv), forall rc l rc' out, renders env filters rc [Iter l] rc' out <-> renders env filters rc l rc' out.
Proof. exact @renders_iter. Qed.
Print Assumptions C82_iterator.

Theorem C82_no_directives : forall (env : filters_env) (filters : mv -> res mv), forall rc l rc' out, renders env filters rc [Sub [] l] rc' out <-> renders env filters rc l rc' out.
Proof. exact @renders_bare. Qed.
Print Assumptions C82_no_directives.

Theorem C82_bound_tag : forall (env : filters_env) (filters : mv -> res mv), forall rc ds b controls q a rest rc' out, splits ds [] (DBind b :: controls) ->
    renders env filters rc [Sub ds (Start q a :: rest)] rc' out <->
    exists rc1 l, rewrite env controls rc q a rest b = (rc1, Ok l) /\ renders env filters rc1 l rc' out.
Proof. exact @renders_bound. Qed.
Print Assumptions C82_bound_tag.

Theorem C82_controlled_tag : forall (env : filters_env) (filters : mv -> res mv), forall rc ds k raw controls q a rest rc' out, splits ds [] (DControl k raw :: controls) ->
    renders env filters rc [Sub ds (Start q a :: rest)] rc' out <->
    exists rc1 l, rewrite env (DControl k raw :: controls) rc q a rest None = (rc1, Ok l) /\ renders env filters rc1 l rc' out.
Proof. exact @renders_control. Qed.
Print Assumptions C82_controlled_tag.

Theorem C82_one_result : forall (env : filters_env) (filters : mv -> res mv), forall rc l rc1 o1 rc2 o2, renders env filters rc l rc1 o1 -> renders env filters rc l rc2 o2 -> rc1 = rc2 /\ o1 = o2.
Proof. exact @renders_unique. Qed.
Print Assumptions C82_one_result.

Theorem C82_any_fuel : forall (env : filters_env) (filters : mv -> res mv), forall fuel fuel' rc l rc' r, render fuel env filters rc l = (rc', r) -> r <> Err OutOfFuel -> fuel <= fuel' ->
    render fuel' env filters rc l = (rc', r).
Proof. exact @render_more. Qed.
Print Assumptions C82_any_fuel.

Theorem C82_nested_first : forall (env : filters_env) (filters : mv -> res mv), forall rc ds d controls ds1 x l rc' out, splits ds [] (d :: controls) -> (forall s, d <> DWith s /\ d <> DSet s) ->
    ~ renders env filters rc [Sub ds [Sub ds1 (x :: l)]] rc' out.
Proof. exact @nested_fails. Qed.
Print Assumptions C82_nested_first.

Theorem C82_nested_error : forall (env : filters_env) (filters : mv -> res mv), forall fuel rc ds b controls pairs ds1 x l, splits ds [] (DBind b :: controls) \/ (splits ds [] controls /\ controls <> []) ->
    Forall2 control_says controls pairs ->
    render (S fuel) env filters rc [Sub ds [Sub ds1 (x :: l)]] = (rc, Err ValueErr).
Proof. exact @nested_error. Qed.
Print Assumptions C82_nested_error.

Theorem C82_ends : forall (env : filters_env) (filters : mv -> res mv), filters_end env -> (forall v, ends (filters v)) -> forall rc l, exists rc' r fuel, r <> Err OutOfFuel /\ forall more, render (fuel + more) env filters rc l = (rc', r).
Proof. exact @render_answers. Qed.
Print Assumptions C82_ends.

Example C82_case : directive_order [DControl (lit "a") []; DForeign 1; DBind None; DForeign 2]
  = ([DForeign 1; DForeign 2], Some (DControl (lit "a") [], [DBind None])).
Proof. reflexivity. Qed.
Example C82_filters_end : filters_end idle /\ (forall v : mv, ends ((fun v => Ok v : res mv) v)).
Proof. split; [intros f tag a c ctx b; cbn|intros v]; discriminate. Qed.
Example C82_splits : splits [DControl (lit "a") []; DForeign 1; DBind None; DForeign 2] [DForeign 1; DForeign 2] [DControl (lit "a") []; DBind None].
Proof. repeat (constructor; try easy). Qed.
(* a bound select: name on the select, the option whose text is that of the element is selected *)
Example C82_select :
  let o := tag "option" in
  renders idle (fun v => Ok v) None
    [text "("; Sub [DBind (Some sample)] [Start (tag "select") []; Start o [att "value" "a"]; End o; Start o []; text " b "; End o; End (tag "select")]; Expr false (lit ")")]
    (Some [default_context])
    [text "("; Start (tag "select") [att "name" "x"]; Start o [att "value" "a"; att "selected" "selected"]; End o; Start o []; text " b "; End o; End (tag "select"); text ")"].
Proof. exists 40%nat. reflexivity. Qed.

(* C83 *)

Theorem C83_options : forall l m m', manipulator l m = Ok m' ->
  exists pairs, Forall2 option_says l pairs
    /\ (forall k, aget str_eqb k m' = match aget str_eqb k (rev pairs) with Some v => Some v | None => aget str_eqb k m end)
    /\ (NoDup (keys m) -> NoDup (keys m')).
Proof. exact @manipulator_spec. Qed.
Print Assumptions C83_options.

Theorem C83_bad_tabindex : forall l m e, manipulator l m = Err e <-> exists l1 v l2, l = l1 ++ (lit "tabindex", v) :: l2 /\ py_int v = Err e
  /\ (forall v', In (lit "tabindex", v') l1 -> exists z, py_int v' = Ok z).
Proof. exact @manipulator_error. Qed.
Print Assumptions C83_bad_tabindex.

Theorem C83_with : forall (env : filters_env) (filters : mv -> res mv), forall rc ds s l rc' out top below, splits ds [] [DWith s] -> render_frames rc = top :: below -> NoDup (keys s) -> NoDup (keys top) ->
    renders env filters rc [Sub ds l] rc' out <->
    exists s' f f', evaluated filters s s' /\ updated top s' f
      /\ renders env filters (Some (f :: top :: below)) l (Some (f' :: top :: below)) out /\ rc' = Some (top :: below).
Proof. exact @renders_with. Qed.
Print Assumptions C83_with.

Theorem C83_set : forall (env : filters_env) (filters : mv -> res mv), forall rc ds s l rc' out top below, splits ds [] [DSet s] -> render_frames rc = top :: below -> NoDup (keys top) ->
    renders env filters rc [Sub ds l] rc' out <-> exists f, updated top s f /\ renders env filters (Some (f :: below)) l rc' out.
Proof. exact @renders_set. Qed.
Print Assumptions C83_set.

Theorem C83_enclosing : forall (env : filters_env) (filters : mv -> res mv), forall rc l rc' out, renders env filters rc l rc' out -> render_frames rc <> [] ->
    exists top', render_frames rc' = top' :: tl (render_frames rc).
Proof. exact @renders_frames. Qed.
Print Assumptions C83_enclosing.

Theorem C83_alone : forall (env : filters_env) (filters : mv -> res mv), forall rc ds s d more l rc' out, (splits ds [] (DWith s :: d :: more) \/ splits ds [] (DSet s :: d :: more)) ->
    ~ renders env filters rc [Sub ds l] rc' out.
Proof. exact @with_alone. Qed.
Print Assumptions C83_alone.

Theorem C83_unknown : forall (env : filters_env) (filters : mv -> res mv), forall fuel rc ds s s' l top below, splits ds [] [DWith s] -> render_frames rc = top :: below -> evaluated filters s s' -> NoDup (keys s) ->
    (exists k, In k (keys s) /\ ~ In k (keys top)) ->
    exists f, render (S fuel) env filters rc [Sub ds l] = (Some (f :: top :: below), Err KeyErr).
Proof. exact @with_unknown. Qed.
Print Assumptions C83_unknown.

Theorem C83_set_unknown : forall (env : filters_env) (filters : mv -> res mv), forall fuel rc ds s l top below, splits ds [] [DSet s] -> render_frames rc = top :: below ->
    (exists k, In k (keys s) /\ ~ In k (keys top)) ->
    exists f, render (S fuel) env filters rc [Sub ds l] = (Some (f :: below), Err KeyErr).
Proof. exact @set_unknown. Qed.
Print Assumptions C83_set_unknown.

Theorem C83_pop : forall fs, List.length fs <= 1 -> ctx_pop fs = (fs, Err RuntimeErr).
Proof. exact @pop_last. Qed.
Print Assumptions C83_pop.

Example C83_case :
  let input := [Start (tag "input") []; End (tag "input")] in
  let bound := [Sub [DBind (Some sample)] input] in
  manipulator [(lit "auto-name", lit "off"); (lit "tabindex", lit "7"); (lit "auto-tabindex", lit "on")] []
    = Ok [(lit "auto_name", MText (lit "off")); (lit "tabindex", MInt 7); (lit "auto_tabindex", MText (lit "on"))]
  /\ render 30 idle (fun v => Ok v) None (bound ++ [Sub [DWith [(lit "auto_name", MText (lit "off")); (lit "tabindex", MInt 7); (lit "auto_tabindex", MText (lit "on"))]] (bound ++ bound)] ++ bound)
     = (Some [default_context],
        Ok ([Start (tag "input") [att "name" "x"; att "value" "a"]; End (tag "input");
             Start (tag "input") [att "value" "a"; att "tabindex" "7"]; End (tag "input");
             Start (tag "input") [att "value" "a"; att "tabindex" "8"]; End (tag "input");
             Start (tag "input") [att "name" "x"; att "value" "a"]; End (tag "input")])).
Proof. split; reflexivity. Qed.
Example C83_hypotheses : NoDup (keys default_context) /\ evaluated (fun _ => Ok (MFilters [])) [(lit "filters", MText (lit "f"))] [(lit "filters", MFilters [])]
  /\ updated default_context [(lit "tabindex", MInt 7)] (set "tabindex" (MInt 7) default_context).
Proof.
  split; [|split].
  - unfold default_context. repeat (constructor; [cbn; intuition discriminate|]). constructor.
  - apply (ev_some _ _ (MText (lit "f")) (MFilters [])); try reflexivity. intros k Hk. cbn [aget]. destruct (str_eqb k (lit "filters")) eqn:E; [|easy].
    exfalso. apply Hk. left. symmetry. now apply str_eqb_eq.
  - split.
    + intros k [<-|[]]. cbn. tauto.
    + reflexivity.
    + intros k. unfold assigned, set. cbn [rev app aget]. rewrite (aget_aset _ str_eqb_eq). now destruct (str_eqb k (lit "tabindex")).
Qed.
(* a form:with that fails leaves its settings in effect *)
Theorem C83_restored_refuted : exists env filters rc rc' l e, render 9 env filters rc l = (rc', Err e) /\ render_frames rc' <> render_frames rc
  /\ List.length (render_frames rc') = S (List.length (render_frames rc)).
Proof.
  exists idle, (fun v => Ok v), None. eexists. exists [Sub [DWith [(lit "auto_name", MText (lit "off")); (lit "nonsense", MText [])]] []], KeyErr.
  split; [reflexivity|]. split; [discriminate|reflexivity].
Qed.
Print Assumptions C83_restored_refuted.
(* form:set does not evaluate filters, so that they cannot be run *)
Theorem C83_set_filters_refuted : exists env filters l, (forall v, exists fs, filters v = Ok (MFilters fs))
  /\ (forall fuel, exists rc, render (6 + fuel) env filters None l = (rc, Err TypeErr))
  /\ l = [Sub [DSet [(lit "filters", MText (lit "fs")); (lit "auto_filter", MText (lit "on"))]] []; Sub [DBind None] [Start (tag "p") []; End (tag "p")]].
Proof.
  exists idle, (fun _ => Ok (MFilters [])). eexists. split; [intros v; exists []; reflexivity|]. split; [|reflexivity]. intros fuel. eexists. reflexivity.
Qed.
Print Assumptions C83_set_filters_refuted.

(* C84 *)

Theorem C84_text : forall l t, simplify l = Ok (inl t) <-> reads l t.
Proof. exact @simplify_text. Qed.
Print Assumptions C84_text.

Theorem C84_events : forall l l', simplify l = Ok (inr l') -> splices l' = splices l /\ (forall t, ~ reads l t) /\ 1 <= tags_in l.
Proof. exact @simplify_events. Qed.
Print Assumptions C84_events.

Theorem C84_errors : forall l e, simplify l = Err e -> e = TypeErr /\ ~ sound l.
Proof. exact @simplify_error. Qed.
Print Assumptions C84_errors.

Theorem C84_cases : forall l, (tags_in l = 0 -> exists t, reads l t /\ simplify l = Ok (inl t))
  /\ (1 <= tags_in l -> (exists l', simplify l = Ok (inr l') /\ splices l' = splices l) \/ simplify l = Err TypeErr /\ ~ sound l).
Proof. exact @simplify_cases. Qed.
Print Assumptions C84_cases.

Example C84_case : simplify [text "a"; Expr true (lit "<b>"); Iter [text "c"; Iter []; Expr false (lit "d")]] = Ok (inl (lit "a<b>cd"))
  /\ simplify [Iter [text "a"; Start (tag "p") []; End (tag "p")]; text "b"] = Ok (inr [text "a"; Start (tag "p") []; End (tag "p"); text "b"]).
Proof. split; reflexivity. Qed.
(* an expression that yields a single event that is not text, first *)
Theorem C84_single_refuted : exists l, simplify l = Err TypeErr /\ ~ sound l /\ sound [Start (tag "p") []; Iter [Start (tag "p") []; End (tag "p")]].
Proof.
  exists [Iter [Other 0]]. split; [reflexivity|]. split.
  - intros H. inversion H as [|? ? ? [K|K] ?|? ? D ?]; subst; [discriminate|cbv in K; lia|now elim (D [Other 0])].
  - apply so_other; [easy|]. apply so_iter; [|right; cbv; lia|constructor]. repeat (apply so_other; [easy|]). constructor.
Qed.
Print Assumptions C84_single_refuted.

(* C85 *)

Theorem C85_shown : forall (env : filters_env) (filters : mv -> res mv), keeps_contents env -> forall rc l rc' out, renders env filters rc l rc' out -> no_textarea l -> shapes out = shapes l.
Proof. exact @renders_shapes. Qed.
Print Assumptions C85_shown.

Example C85_hypotheses : keeps_contents idle /\ no_textarea [Sub [DBind (Some sample)] [Start (tag "label") []; text "t"; End (tag "label")]].
Proof. split; [apply idle_contents|]. intros q [[= <-]|[H|[H|[]]]]; discriminate. Qed.
(* a textarea shows the text of its element instead of nothing *)
Theorem C85_textarea_refuted : exists env filters rc l rc' out, keeps_contents env /\ renders env filters rc l rc' out /\ shapes out <> shapes l.
Proof.
  exists idle, (fun v => Ok v), None, [Sub [DBind (Some sample)] [Start (tag "textarea") []; End (tag "textarea")]], (Some [default_context]).
  eexists. split; [apply idle_contents|]. split; [exists 9%nat; reflexivity|]. discriminate.
Qed.
Print Assumptions C85_textarea_refuted.
