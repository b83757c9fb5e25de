(* Specification for the Genshi directives: the text of a stream, what a stream
   shows, streams with their options bound, attribute order, scoping. *)
From Verif Require Import PyBase ModelMarkup SpecMarkup ModelGenshi.
From Coq Require Import Sorting.Sorted.

(* the text of a stream that holds nothing but text, to any depth *)
Inductive reads : list event -> str -> Prop :=
| rd_nil : reads [] []
| rd_text h s l t : reads l t -> reads (Text h s :: l) (s ++ t)
| rd_expr h s l t : reads l t -> reads (Expr h s :: l) (s ++ t)
| rd_iter l1 t1 l t : reads l1 t1 -> reads l t -> reads (Iter l1 :: l) (t1 ++ t).

(* the characters and the other events of a stream, in order *)
Fixpoint spliced (e : event) : list (N + event) :=
  match e with
  | Text _ s | Expr _ s => map inl s
  | Iter l => flat_map spliced l
  | _ => [inr e]
  end.
Definition splices (l : list event) : list (N + event) := flat_map spliced l.
Definition is_event (x : N + event) : bool := match x with inr _ => true | inl _ => false end.
Definition tags_in (l : list event) : nat := List.length (filter is_event (splices l)).
(* every iterator shows text only, or at least two events that are not text (as
   the start and the end of an element), at every depth *)
Inductive sound : list event -> Prop :=
| so_nil : sound []
| so_iter l1 l : sound l1 -> tags_in l1 = 0 \/ 2 <= tags_in l1 -> sound l -> sound (Iter l1 :: l)
| so_other e l : (forall l1, e <> Iter l1) -> sound l -> sound (e :: l).

(* what a stream shows: its tags, other events and characters, directives and
   attributes aside *)
Inductive tok := TStart (q : qname) | TEnd (q : qname) | TOther (n : nat) | TChar (c : N).
Fixpoint shape (e : event) : list tok :=
  match e with
  | Start q _ => [TStart q]
  | End q => [TEnd q]
  | Text _ s | Expr _ s => map TChar s
  | Iter l | Sub _ l => flat_map shape l
  | Other n => [TOther n]
  end.
Definition shapes (l : list event) : list tok := flat_map shape l.

(* streams in which every tag q that is opened is closed, and conversely; what
   is inside SUB events is apart *)
Definition touches (q : qname) (e : event) : Prop := (exists a, e = Start q a) \/ e = End q.
Inductive closed (q : qname) : list event -> Prop :=
| cl_nil : closed q []
| cl_other e l : ~ touches q e -> closed q l -> closed q (e :: l)
| cl_tag a l1 l2 : closed q l1 -> closed q l2 -> closed q (Start q a :: l1 ++ End q :: l2).
(* every tag q that is opened is closed, at every depth of SUB events *)
Inductive orderly (q : qname) : list event -> Prop :=
| or_nil : orderly q []
| or_sub ds l1 l : orderly q l1 -> orderly q l -> orderly q (Sub ds l1 :: l)
| or_other e l : (forall a, e <> Start q a) -> (forall ds l1, e <> Sub ds l1) -> orderly q l -> orderly q (e :: l)
| or_tag a l1 l2 : closed q l1 -> orderly q l1 -> orderly q l2 -> orderly q (Start q a :: l1 ++ End q :: l2).

(* l' is l with every tag q that has no binding of its own wrapped with b *)
Inductive bound_to (q : qname) (b : belement) : list event -> list event -> Prop :=
| bt_nil : bound_to q b [] []
| bt_tag a inner inner' l l' : ~ In q (map fst a) -> closed q inner -> bound_to q b inner inner' -> bound_to q b l l' ->
    bound_to q b (Start q a :: inner ++ End q :: l) (Sub [DBind (Some b)] (Start q a :: inner' ++ [End q]) :: l')
| bt_bound ds sub x l l' : In (DBind x) ds -> bound_to q b l l' -> bound_to q b (Sub ds sub :: l) (Sub ds sub :: l')
| bt_sub ds sub sub' l l' : (forall x, ~ In (DBind x) ds) -> bound_to q b sub sub' -> bound_to q b l l' ->
    bound_to q b (Sub ds sub :: l) (Sub ds sub' :: l')
| bt_same e l l' : (forall ds sub, e <> Sub ds sub) -> (forall a, e = Start q a -> In q (map fst a)) ->
    bound_to q b l l' -> bound_to q b (e :: l) (e :: l').

(* ---- attributes ---- *)
(* the value of an attribute as the transforms see it *)
Inductive attr_reads : mv + list event -> mv -> Prop :=
| ar_text s : attr_reads (inl (MText s)) (MText s)
| ar_html s : attr_reads (inl (MHtml s)) (MHtml s)
| ar_stream l t : reads l t -> attr_reads (inr l) (MText t).
(* the setting a control attribute stands for *)
Definition control_table : list (string * string) :=
  [("auto-name", "auto_name"); ("auto-value", "auto_value"); ("auto-domid", "auto_domid"); ("auto-for", "auto_for");
   ("auto-tabindex", "auto_tabindex"); ("auto-filter", "auto_filter"); ("domid-format", "domid_format")]%string.
Inductive setting_name : str -> str -> Prop :=
| sn_listed k k' : In (k, k') control_table -> setting_name (lit k) (lit k')
| sn_other k : (forall c, In c control_table -> k <> lit (fst c)) -> setting_name k k.
Inductive pieces_say : list piece -> str -> Prop :=
| ps_nil : pieces_say [] []
| ps_text s l t : pieces_say l t -> pieces_say (PText s :: l) (s ++ t)
| ps_expr v l t : pieces_say l t -> pieces_say (PExpr v :: l) (text_of v ++ t).
Inductive control_says : directive -> str * mv -> Prop :=
| cs_control k k' raw t : setting_name k k' -> pieces_say raw t -> control_says (DControl k raw) (k', MText t).
(* the mapping handed to the transforms: the attributes without namespace,
   otherwise the control attributes, the last one counting *)
Definition handed (pairs : attrs) (a : gattrs) (m : attrs) : Prop :=
  forall k, match aget qname_eqb (QName None k) a with
            | Some v => exists w, attr_reads v w /\ aget str_eqb k m = Some w
            | None => aget str_eqb k m = aget str_eqb k (rev pairs)
            end.
(* the attributes written: those with a namespace as they were, the others by
   the mapping; those that stay keep their places, new ones follow in order *)
Definition stays (m : attrs) (q : qname) : bool :=
  match q_ns q with Some _ => true | None => ahas str_eqb (q_local q) m end.
Record written (a : gattrs) (m : attrs) (a' : gattrs) : Prop := {
  wr_foreign : forall n k, aget qname_eqb (QName (Some n) k) a' = aget qname_eqb (QName (Some n) k) a;
  wr_local : forall k, aget qname_eqb (QName None k) a' = option_map inl (aget str_eqb k m);
  wr_order : exists new, map fst a' = filter (stays m) (map fst a) ++ map (QName None) new
     /\ (forall k, In k new <-> In k (keys m) /\ ~ In (QName None k) (map fst a))
     /\ StronglySorted (fun x y => ordered_before (x, tt) (y, tt)) new }.
(* filters leave mappings mappings *)
Definition keeps_keys (env : filters_env) : Prop :=
  forall f tag a c ctx b ctx' a' c', f_run env f tag a c ctx b = (ctx', Ok (a', c')) -> NoDup (keys a) -> NoDup (keys a').

(* ---- contents ---- *)
(* what the transforms are given for the events between the tags *)
Inductive contents_in : list event -> mv -> Prop :=
| ci_none : contents_in [] MNone
| ci_text mid t : mid <> [] -> reads mid t -> contents_in mid (MText t)
| ci_events mid : (forall t, ~ reads mid t) -> contents_in mid (MObj (lit "events") true).
(* what is between the tags afterwards, given what the transforms return *)
Inductive contents_out (mid : list event) : mv -> list event -> Prop :=
| co_none : contents_out mid MNone mid
| co_text s : contents_out mid (MText s) [Text false s]
| co_html s : contents_out mid (MHtml s) [Text true s]
| co_events s t l : splices l = splices mid -> (forall t, ~ reads mid t) -> ((forall x, ~ In (Iter x) mid) -> l = mid) ->
    contents_out mid (MObj s t) l.
(* a bound select hands its binding to its options *)
Definition option_of (tag : qname) : qname := QName (match q_ns tag with Some [] => None | n => n end) (lit "option").
Definition options_bound (tag : qname) (b : option belement) (l l' : list event) : Prop :=
  match b with
  | Some el => if str_eqb (q_local tag) (lit "select") then bound_to (option_of tag) el l l' else l' = l
  | None => l' = l
  end.
(* what a transform may return for the contents *)
Definition usable (c c' : mv) : Prop := c' = MNone \/ (exists s, c' = MText s \/ c' = MHtml s) \/ (c' = c /\ c = MObj (lit "events") true).

(* ---- directives ---- *)
(* the directives of other namespaces and ours, each in order *)
Inductive splits : list directive -> list directive -> list directive -> Prop :=
| sp_nil : splits [] [] []
| sp_foreign n ds f o : splits ds f o -> splits (DForeign n :: ds) (DForeign n :: f) o
| sp_ours d ds f o : (forall n, d <> DForeign n) -> splits ds f o -> splits (d :: ds) f (d :: o).
(* ours are called as the first with the others *)
Definition first_of (o : list directive) : option (directive * list directive) :=
  match o with [] => None | d :: r => Some (d, r) end.
(* the settings written as attributes of a form:with or form:set tag *)
Inductive option_says : str * str -> str * mv -> Prop :=
| os_tabindex v z : py_int v = Ok z -> option_says (lit "tabindex", v) (lit "tabindex", MInt z)
| os_text k k' v : setting_name k k' -> k' <> lit "tabindex" -> option_says (k, v) (k', MText v).
(* form:with evaluates the filters *)
Inductive evaluated (filters : mv -> res mv) (s : attrs) : attrs -> Prop :=
| ev_none : get "filters" s = None -> evaluated filters s s
| ev_some v w s' : get "filters" s = Some v -> filters v = Ok w -> get "filters" s' = Some w ->
    same_except ["filters"]%string s s' -> keys s' = keys s -> evaluated filters s s'.
(* rendering a stream from the settings rc succeeds with rc' and out *)
Definition renders (env : filters_env) (filters : mv -> res mv) (rc : option (list frame)) (l : list event)
           (rc' : option (list frame)) (out : list event) : Prop :=
  exists fuel, render fuel env filters rc l = (rc', Ok out).
(* events that are output as they are, expressions by their values *)
Definition shown_as (e : event) : option event :=
  match e with Start _ _ | End _ | Text _ _ | Other _ => Some e | Expr h s => Some (Text h s) | _ => None end.
(* f is the frame top with the settings s assigned, all of them known to it *)
Record updated (top : frame) (s : attrs) (f : frame) : Prop := {
  up_known : forall k, In k (keys s) -> In k (keys top);
  up_keys : keys f = keys top;
  up_get : forall k, aget str_eqb k f = assigned top s k }.
(* filters that leave contents alone *)
Definition keeps_contents (env : filters_env) : Prop :=
  forall f tag a c ctx b ctx' a' c', f_run env f tag a c ctx b = (ctx', Ok (a', c')) -> c' = c.
Definition no_textarea (l : list event) : Prop := forall q, In (TStart q) (shapes l) -> q_local q <> lit "textarea".

(* ---- rendering ends ---- *)
(* a computation that comes to an end, with a result or an exception *)
Definition ends {A} (x : res A) : Prop := x <> Err OutOfFuel.
(* so do the filters of the user *)
Definition filters_end (env : filters_env) : Prop := forall f tag a c ctx b, ends (snd (f_run env f tag a c ctx b)).
