(* What tags of a generator promise, over the whole of a program. *)
From Verif Require Import PyBase ModelMarkup ModelTag.

(* what the operations returned or raised, in order *)
Fixpoint outcomes (env : filters_env) (s : tags) (os : list tag_op) : list (res (tagobj + str)) :=
  match os with
  | [] => []
  | o :: os => let '(s', r) := tag_step env s o in r :: outcomes env s' os
  end.
(* the tags among them *)
Fixpoint tags_in (rs : list (res (tagobj + str))) : list tagobj :=
  match rs with
  | [] => []
  | Ok (inl t) :: rs => t :: tags_in rs
  | _ :: rs => tags_in rs
  end.

(* open() and close() calls so far; [given] are the tags returned so far *)
Inductive event := EOpen (t : tagobj) | EClose (t : tagobj).
Definition acts (given : list tagobj) (o : tag_op) : list event :=
  match o with
  | Open i _ _ => match nth_error given i with Some t => [EOpen t] | None => [] end
  | Close i => match nth_error given i with Some t => [EClose t] | None => [] end
  | _ => []
  end.
Fixpoint events (env : filters_env) (s : tags) (given : list tagobj) (os : list tag_op) : list event :=
  match os with
  | [] => []
  | o :: os => let '(s', r) := tag_step env s o in acts given o ++ events env s' (given ++ tags_in [r]) os
  end.
(* [t] is open, and has been since its open() at position [k]: it was not closed
   after that, and any earlier open() was closed before *)
Definition opened_at (tr : list event) (t : tagobj) (k : nat) : Prop :=
  nth_error tr k = Some (EOpen t)
  /\ (forall j, k < j -> nth_error tr j <> Some (EClose t))
  /\ (forall j, j < k -> nth_error tr j = Some (EOpen t) ->
        exists i, j < i < k /\ nth_error tr i = Some (EClose t)).
(* the open tag of that name which was opened last *)
Definition innermost (tr : list event) (nm : str) (t : tagobj) : Prop :=
  t_name t = nm /\ exists k, opened_at tr t k
  /\ forall t' k', t_name t' = nm -> opened_at tr t' k' -> k' <= k.
Definition none_open (tr : list event) (nm : str) : Prop :=
  forall t k, t_name t = nm -> ~ opened_at tr t k.

(* a complete tag made of the opening half, the contents and the closing half;
   without contents it may be shorter unless the tag is always paired *)
Inductive whole (xml : bool) (t : tagobj) : str -> str -> str -> str -> Prop :=
| wh_full op c cl : c <> [] \/ t_paired t = true \/ (xml = false /\ t_dangle t = false) ->
    whole xml t op c cl (op ++ c ++ cl)
| wh_xml h cl : xml = true -> t_paired t = false -> whole xml t (h ++ lit ">") [] cl (h ++ lit " />")
| wh_html op cl : xml = false -> t_paired t = false -> t_dangle t = true -> whole xml t op [] cl op.

(* what tag.contents becomes when the transforms of this opening leave [c] *)
Definition left_contents (env : filters_env) (ctx : frame) (t : tagobj) (kw : attrs) (b : option belement)
  (c : str) : Prop :=
  exists ctx' a v tr,
    transform env (t_name t) (unicode_keyed (del "contents" kw)) (get_or "contents" kw MNone) ctx b = (ctx', Ok (a, v))
    /\ truth v = Ok tr /\ ((tr = true /\ c = text_of v) \/ (tr = false /\ c = [])).

(* the tag an operation renders, with its arguments; generator.tag(name, ...)
   renders the tag that generator.tag(name) would return *)
Definition renders (s : tags) (o : tag_op) : option (tagobj * attrs * option belement) :=
  match o with
  | Open i kw b | Call i kw b => option_map (fun t => (t, kw, b)) (nth_error (ts_got s) i)
  | Generate nm kw b =>
      match b, kw with
      | None, [] => None
      | _, _ => Some (snd (find_tag s (lower nm) false false), kw, b)
      end
  | _ => None
  end.
(* the same operation on a generator without tag objects *)
Definition plain_ops (s : tags) (o : tag_op) : list gop :=
  match renders s o with
  | Some (t, kw, b) => [OTag (t_dangle t) (t_paired t) (t_name t) kw b]
  | None => match o with Begin l => [OBegin l] | Finish => [OEnd] | Assign l => [OSet l] | _ => [] end
  end.
Fixpoint all_plain (env : filters_env) (s : tags) (os : list tag_op) : list gop :=
  match os with
  | [] => []
  | o :: os => plain_ops s o ++ all_plain env (fst (tag_step env s o)) os
  end.
