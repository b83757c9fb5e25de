(* The assertions of tests/markup/test_transforms.py, test_context.py,
   test_generator.py, test_tag_forcing.py, test_tag_pairing.py,
   test_tag_context.py and test_tag_rendering.py, computed on the models. *)
From Verif Require Import PyBase ModelMarkup.
Local Open Scope string_scope.

Definition T (s : string) : mv := MText (lit s).
Definition pairs (l : list (string * mv)) : attrs := map (fun '(k, v) => (lit k, v)) l.
(* dicts are compared as mappings *)
Definition mv_eqb (a b : mv) : bool :=
  match a, b with
  | MNone, MNone => true | MBool x, MBool y => Bool.eqb x y | MMaybe, MMaybe => true
  | (MText s | MHtml s), (MText t | MHtml t) => str_eqb s t
  | MInt x, MInt y => (x =? y)%Z
  | MObj s _, MObj t _ => str_eqb s t
  | _, _ => false
  end.
Definition within (a b : attrs) : bool :=
  forallb (fun '(k, v) => match aget str_eqb k b with Some w => mv_eqb v w | None => false end) a.
Definition same (a b : attrs) : bool := within a b && within b a.
Definition unspecified : mv := MObj (lit "<object>") true.
Definition gives (r : tres) (expected : attrs) (contents : mv) : bool :=
  match r with Ok (a, c) => same a expected && mv_eqb c contents | Err _ => false end.

(* schema(123), Array.named('array').of(Integer), its first child, and the
   first child of an anonymous one *)
Definition number := Some (Bound (lit "number") (lit "123") BOther).
Definition array_has (v : mv) : bool := mv_is v (lit "123") || mv_is v (lit "456").
Definition array := Some (Bound (lit "array") (lit "[]") (BArray array_has)).
Definition partial_anon := Some (Bound (lit "array") (lit "123") BOther).
Definition full_anon := Some (Bound [] (lit "123") BOther).
Definition context (l : list (string * mv)) : frame := fst (ctx_update default_context (pairs l)).

(* _TestAttributeTransform, for one transform *)
Section Attribute.
Variable fn : str -> attrs -> mv -> frame -> option belement -> tres.
Variables (attribute control : string) (applied : mv) (tags : list str) (unbound : bool) (base : list (string * mv)).
Definition try (given expected : attrs) (over : list (string * mv)) (tag : str) (b : option belement) : bool :=
  gives (fn tag given unspecified (context (base ++ over)%list) b) expected unspecified.
Definition on := [(lit attribute, applied)].
Definition by_default := if default_toggle control then on else [].
Definition attribute_tests (tag : str) : bool :=
  try [] by_default [] tag number
  && try [] [] [] (lit "xyzzy") number
  && try [(lit attribute, T "existing")] [(lit attribute, T "existing")] [] (lit "xyzzy") number
  && try [(lit attribute, T "local")] [(lit attribute, T "local")] [] tag number
  && try [(lit attribute, T "local"); (lit control, T "on")] on [] tag number
  && try [] [] [(control, MBool false)] tag number
  && try [] on [(control, MBool true)] tag number
  && try [] [] [(control, MBool true)] (lit "xyzzy") number
  && try [] by_default [(control, T "auto")] tag number
  && try [(lit control, MBool false)] [] [] tag number
  && try [(lit control, MBool true)] on [(control, MBool false)] tag number
  && try [(lit control, T "auto")] on [(control, MBool true)] tag number
  && try [(lit control, T "auto")] [] [(control, MBool false)] tag number
  && try [(lit control, MBool true)] (if unbound then on else []) [] tag None.
Definition all_tags : bool := forallb attribute_tests tags.
End Attribute.
Example TestName : all_tags transform_name "name" "auto_name" (T "number") name_tags false [] = true.
Proof. vm_compute. reflexivity. Qed.
Example TestTextboxValue :
  all_tags transform_value "value" "auto_value" (T "123") (map lit ["input"; "button"]) false [] = true.
Proof. vm_compute. reflexivity. Qed.
Example TestDomID : all_tags transform_domid "id" "auto_domid" (T "f_number") id_tags false [] = true.
Proof. vm_compute. reflexivity. Qed.
Example TestFor : all_tags transform_for "for" "auto_for" (T "f_number") for_tags false [] = true.
Proof. vm_compute. reflexivity. Qed.
Definition tabindex_only (tag : str) (a : attrs) (c : mv) (ctx : frame) (_ : option belement) : tres :=
  snd (transform_tabindex tag a c ctx).
Example TestTabindex :
  all_tags tabindex_only "tabindex" "auto_tabindex" (T "5") tabindex_tags true [("tabindex", MInt 5)] = true.
Proof. vm_compute. reflexivity. Qed.

Definition runs (fn : str -> attrs -> mv -> frame -> option belement -> tres) (tag : string)
  (given expected : list (string * mv)) (ctx : frame) (b : option belement) (c c' : mv) : bool :=
  gives (fn (lit tag) (pairs given) c ctx b) (pairs expected) c'.
Definition plain := default_context.
Example test_name_anonymous_bind :
  runs transform_name "input" [] [("name", T "array")] plain partial_anon unspecified unspecified
  && runs transform_name "input" [] [] plain full_anon unspecified unspecified = true.
Proof. vm_compute. reflexivity. Qed.
Example test_contents_textarea :
  runs transform_value "textarea" [] [] plain number MNone (T "123")
  && forallb (fun given => runs transform_value "textarea" [] [] plain number given given)
       [T "existing_value"; T ""; MHtml (lit "xyzzy"); MObj (lit "[]") false] = true.
Proof. vm_compute. reflexivity. Qed.
Example test_value_checkable :
  forallb (fun b => forallb (fun type =>
    let go given expected := runs transform_value "input" (("type", T type) :: given) (("type", T type) :: expected) plain b
                               unspecified unspecified in
    go [("value", T "123")] [("value", T "123"); ("checked", T "checked")]
    && go [("value", T "999")] [("value", T "999")]
    && go [("value", T "999"); ("checked", T "checked")] [("value", T "999")]
    && go [("value", T "999"); ("checked", T "")] [("value", T "999")])
    ["checkbox"; "radio"]) [number; array] = true.
Proof. vm_compute. reflexivity. Qed.
Definition boolean (u : string) := Some (Bound (lit "bool") (lit u) (BBoolean (lit "1"))).
Example test_value_checkbox_boolean :
  let go b given expected := runs transform_value "input" (("type", T "checkbox") :: given)
                               (("type", T "checkbox") :: expected) plain b unspecified unspecified in
  go (boolean "1") [] [("value", T "1"); ("checked", T "checked")]
  && go (boolean "") [] [("value", T "1")]
  && go (boolean "1") [("value", T "2")] [("value", T "2")] = true.
Proof. vm_compute. reflexivity. Qed.
Example test_value_omitted :
  forallb (fun type =>
    let go given expected := runs transform_value "input" (("type", T type) :: given) (("type", T type) :: expected) plain
                               number unspecified unspecified in
    go [] [] && go [("value", T "999")] [("value", T "999")]
    && go [("auto_value", MBool true)] [("value", T "123")]
    && go [("auto_value", MBool true); ("value", T "999")] [("value", T "123")])
    ["password"; "file"; "image"] = true.
Proof. vm_compute. reflexivity. Qed.
Example test_value_option :
  forallb (fun b =>
    let go given expected c := runs transform_value "option" given expected plain b c c in
    go [("value", T "123")] [("value", T "123"); ("selected", T "selected")] unspecified
    && go [("value", T "999")] [("value", T "999")] unspecified
    && go [] [("selected", T "selected")] (T "123")
    && go [] [("selected", T "selected")] (T "    123     ")
    && go [] [] (T "999")
    && go [] [] MNone
    && go [] [] unspecified
    && go [("value", T "999")] [("value", T "999")] (T "123")
    && go [("value", T "999"); ("selected", T "selected")] [("value", T "999")] unspecified
    && go [("value", T "999"); ("selected", T "")] [("value", T "999")] unspecified)
    [number; array] = true.
Proof. vm_compute. reflexivity. Qed.
Definition dod : str := [0x1E10; 0x1ED9; 0x1ED9; 0x1E0F; 0x21]%N.
Example test_domid_checkable_array :
  let go given expected := runs transform_domid "input" (("type", T "radio") :: given) (("type", T "radio") :: expected)
                             (context [("auto_domid", MBool true)]) array unspecified unspecified in
  go [("value", T "xxx")] [("value", T "xxx"); ("id", T "f_array_xxx")]
  && go [] [("id", T "f_array")]
  && go [("value", MText dod)] [("value", MText dod); ("id", T "f_array")]
  && go [("value", MText (dod ++ lit " yo")%list)] [("value", MText (dod ++ lit " yo")%list); ("id", T "f_array_yo")] = true.
Proof. vm_compute. reflexivity. Qed.
Example test_domid_checkable_scalar :
  runs transform_domid "input" [("type", T "radio"); ("value", T "xxx")]
    [("type", T "radio"); ("value", T "xxx"); ("id", T "f_number_xxx")]
    (context [("auto_domid", MBool true)]) number unspecified unspecified = true.
Proof. vm_compute. reflexivity. Qed.
Example test_domid_anonymous_bind :
  runs transform_domid "input" [("auto_domid", MBool true)] [("id", T "f_array")] plain partial_anon unspecified unspecified
  && runs transform_domid "input" [("auto_domid", MBool true)] [] plain full_anon unspecified unspecified = true.
Proof. vm_compute. reflexivity. Qed.
Example test_domid_unbound_naming :
  runs transform_domid "input" [("name", T "unbound"); ("auto_domid", T "on")]
    [("id", T "f_unbound"); ("name", T "unbound")] plain None unspecified unspecified = true.
Proof. vm_compute. reflexivity. Qed.
Example test_domid_custom_formatting :
  runs transform_domid "input" [("auto_domid", T "on")] [("id", T "--number--")]
    (context [("domid_format", T "--%s--")]) number unspecified unspecified = true.
Proof. vm_compute. reflexivity. Qed.
Example test_for_anonymous_bind :
  runs transform_for "label" [("auto_for", MBool true)] [("for", T "f_array")] plain partial_anon unspecified unspecified
  && runs transform_for "label" [("auto_for", MBool true)] [] plain full_anon unspecified unspecified = true.
Proof. vm_compute. reflexivity. Qed.
Definition steps (given : list (string * mv)) (ctx : frame) (expected : list (string * mv)) (next : Z) : bool :=
  let '(ctx', r) := transform_tabindex (lit "input") (pairs given) unspecified ctx in
  gives r (pairs expected) unspecified
  && match get "tabindex" ctx' with Some (MInt z) => (z =? next)%Z | _ => false end.
Example test_tabindex_stop_numbers :
  steps [("auto_tabindex", T "on")] (context [("tabindex", MInt (-1))]) [("tabindex", T "-1")] (-1)
  && steps [("auto_tabindex", T "on")] (context [("tabindex", MInt (-2))]) [("tabindex", T "-2")] (-2) = true.
Proof. vm_compute. reflexivity. Qed.
Example test_tabindex_zero :
  steps [] (context [("auto_tabindex", MBool true); ("tabindex", MInt 0)]) [] 0 = true.
Proof. vm_compute. reflexivity. Qed.
Example test_tabindex_increment :
  steps [] (context [("auto_tabindex", MBool true); ("tabindex", MInt 1)]) [("tabindex", T "1")] 2
  && steps [] (context [("auto_tabindex", MBool true); ("tabindex", MInt 2)]) [("tabindex", T "2")] 3 = true.
Proof. vm_compute. reflexivity. Qed.
(* filter 1 sets an attribute, filter 2 returns the label, filter 3 is filter 1
   with tags, filter 4 is filter1 of test_tag_context.py *)
Definition env : filters_env := FEnv
  (fun f => if Nat.eqb f 3 then map lit ["div"; "input"] else [])
  (fun f tag a c ctx b =>
     (ctx, match f with
           | 2 => Ok (a, T "number")
           | 4 => Ok (set "class" (T "required") a, MText (text_of c ++ lit " *")%list)
           | _ => Ok (set "donut" (T "xyzzy") a, c)
           end)).
Definition filtered (fs : list nat) (tag : string) (expected : list (string * mv)) (c c' : mv) : bool :=
  gives (snd (transform_filters env (lit tag) [] c (context [("auto_filter", MBool true); ("filters", MFilters fs)]) number))
    (pairs expected) c'.
Example test_filter :
  filtered [1] "div" [("donut", T "xyzzy")] unspecified unspecified
  && filtered [2; 1] "div" [("donut", T "xyzzy")] (T "bbq") (T "number")
  && filtered [] "div" [] (T "bbq") (T "bbq") = true.
Proof. vm_compute. reflexivity. Qed.
Example test_filter_want :
  filtered [3] "div" [("donut", T "xyzzy")] unspecified unspecified
  && filtered [3] "input" [("donut", T "xyzzy")] unspecified unspecified
  && filtered [3] "horse" [] unspecified unspecified = true.
Proof. vm_compute. reflexivity. Qed.

(* test_context.py: _default_context.keys()[0] is auto_name, [1] auto_value *)
Definition nothing : mv := MObj (lit "Nothing") true.
Example test_read_write_known :
  match ctx_set default_context (lit "auto_name") nothing with
  | Ok f => setting "auto_name" f = Ok nothing
  | Err _ => False
  end.
Proof. reflexivity. Qed.
Example test_read_write_unknown :
  setting "xyzzy" default_context = Err KeyErr
  /\ ctx_set default_context (lit "xyzzy") nothing = Err KeyErr.
Proof. split; reflexivity. Qed.
Example test_update_known :
  let f := fst (ctx_update default_context (pairs [("auto_name", T "s0"); ("auto_value", T "s1")])) in
  setting "auto_name" f = Ok (T "s0") /\ setting "auto_value" f = Ok (T "s1").
Proof. split; reflexivity. Qed.
Example test_update_unknown : ctx_update default_context (pairs [("xyzzy", MInt 123)]) = (default_context, Some KeyErr).
Proof. reflexivity. Qed.

(* the generator: the outputs of a list of calls *)
Fixpoint outputs (g : gen) (ops : list gop) : list (res str) :=
  match ops with
  | [] => []
  | o :: ops' => let '(g', r) := gen_step env g o in r :: outputs g' ops'
  end.
Definition renders (markup : string) (ops : list gop) : list (res str) :=
  match gen_init (lit markup) [] with Ok g => outputs g ops | Err _ => [] end.
Definition call (tag : string) (b : option belement) (kw : list (string * mv)) : gop :=
  let '(dangle, paired) := match named_flags tag with Some f => f | None => generic_flags end in
  OTag dangle paired (lit tag) (pairs kw) b.
Definition begin (kw : list (string * mv)) : gop := OBegin (pairs kw).
Definition gset (kw : list (string * mv)) : gop := OSet (pairs kw).
Definition text (nm u : string) := Some (Bound (lit nm) (lit u) BOther).
Definition out (s : string) : res str := Ok (lit s).

Definition field1 := text "field1" "val".
Example test_input_html : renders "html" [call "input" field1 [("type", T "text")]]
                          = [out "<input type=""text"" name=""field1"" value=""val"">"].
Proof. vm_compute. reflexivity. Qed.
Example test_input_xml : renders "xml" [call "input" field1 [("type", T "text")]]
                         = [out "<input type=""text"" name=""field1"" value=""val"" />"].
Proof. vm_compute. reflexivity. Qed.
Example test_input_close : tag_close_ (lit "input") = lit "</input>".
Proof. reflexivity. Qed.
Example test_textarea_escaped :
  renders "xml" [call "textarea" (text "field1" """<quoted & escaped>""") []]
  = [out "<textarea name=""field1"">""&lt;quoted &amp; escaped&gt;""</textarea>"].
Proof. vm_compute. reflexivity. Qed.
Example test_markup_impl : renders "xml" [call "label" None [("contents", MHtml (lit "<x>"))]] = [out "<label><x></label>"].
Proof. vm_compute. reflexivity. Qed.

(* test_tag_forcing.py *)
Definition element := text "element" "val".
Definition div (b : option belement) kw := call "div" b kw.
Example value_bound : renders "html" [div element [("auto_value", MBool true)]] = [out "<div value=""val""></div>"].
Proof. vm_compute. reflexivity. Qed.
Example value_unbound : renders "html" [div None [("auto_value", MBool true)]] = [out "<div></div>"].
Proof. vm_compute. reflexivity. Qed.
Example name_bound : renders "html" [div element [("auto_name", MBool true)]] = [out "<div name=""element""></div>"].
Proof. vm_compute. reflexivity. Qed.
Example name_unbound : renders "html" [div None [("auto_name", MBool true)]] = [out "<div></div>"].
Proof. vm_compute. reflexivity. Qed.
Example domid_bound : renders "html" [div element [("auto_domid", MBool true)]] = [out "<div id=""f_element""></div>"].
Proof. vm_compute. reflexivity. Qed.
Example domid_unbound : renders "html" [div None [("auto_domid", MBool true)]] = [out "<div></div>"].
Proof. vm_compute. reflexivity. Qed.
Example for_bound : renders "html" [div element [("auto_for", MBool true)]] = [out "<div for=""f_element""></div>"].
Proof. vm_compute. reflexivity. Qed.
Example for_unbound : renders "html" [div None [("auto_for", MBool true)]] = [out "<div></div>"].
Proof. vm_compute. reflexivity. Qed.
Example tabindex_bound : renders "html" [gset [("tabindex", MInt 1)]; div element [("auto_tabindex", MBool true)]]
                         = [out ""; out "<div tabindex=""1""></div>"].
Proof. vm_compute. reflexivity. Qed.
Example tabindex_unbound : renders "html" [gset [("tabindex", MInt 1)]; div None [("auto_tabindex", MBool true)]]
                           = [out ""; out "<div tabindex=""1""></div>"].
Proof. vm_compute. reflexivity. Qed.
Example combo_unbound :
  renders "html" [gset [("tabindex", MInt 1)]; div None [("auto_tabindex", MBool true); ("auto_domid", MBool true)]]
  = [out ""; out "<div tabindex=""1""></div>"].
Proof. vm_compute. reflexivity. Qed.

(* test_tag_pairing.py *)
Definition valued := text "valued" "val".
Example input_value_html : renders "html" [call "input" valued []] = [out "<input name=""valued"" value=""val"">"].
Proof. vm_compute. reflexivity. Qed.
Example input_value_xhtml : renders "xhtml" [call "input" valued []] = [out "<input name=""valued"" value=""val"" />"].
Proof. vm_compute. reflexivity. Qed.
Example textarea_value : renders "xhtml" [call "textarea" valued []] = [out "<textarea name=""valued"">val</textarea>"].
Proof. vm_compute. reflexivity. Qed.
Example textarea_empty_value :
  renders "xhtml" [call "textarea" (text "empty" "") []] = [out "<textarea name=""empty""></textarea>"].
Proof. vm_compute. reflexivity. Qed.
Example textarea_explicit_value :
  renders "xhtml" [call "textarea" valued [("contents", T "override")]] = [out "<textarea name=""valued"">override</textarea>"].
Proof. vm_compute. reflexivity. Qed.
Example label_empty_html : renders "html" [call "label" valued []] = [out "<label></label>"].
Proof. vm_compute. reflexivity. Qed.

(* test_tag_context.py *)
Definition test_valued := text "test_valued" "val".
Definition form := text "test" "{}".
Example value_default : renders "xhtml" [call "input" test_valued []] = [out "<input name=""test_valued"" value=""val"" />"].
Proof. vm_compute. reflexivity. Qed.
Definition disabled := out "<input name=""test_valued"" />".
Example value_disabled :
  renders "xhtml" [begin [("auto_value", MBool false)]; call "input" test_valued []; OEnd] = [out ""; disabled; out ""]
  /\ renders "xhtml" [gset [("auto_value", MBool false)]; call "input" test_valued []] = [out ""; disabled]
  /\ renders "xhtml" [call "input" test_valued [("auto_value", MBool false)]] = [disabled]
  /\ renders "xhtml" [begin [("auto_value", MBool false)]; call "input" test_valued [("auto_value", T "auto")]; OEnd]
     = [out ""; disabled; out ""].
Proof. repeat split; vm_compute; reflexivity. Qed.
Example name_default : renders "xhtml" [call "form" form []] = [out "<form name=""test""></form>"].
Proof. vm_compute. reflexivity. Qed.
Example name_disabled :
  renders "xhtml" [begin [("auto_name", MBool false)]; call "form" form []; OEnd] = [out ""; out "<form></form>"; out ""]
  /\ renders "xhtml" [gset [("auto_name", MBool false)]; call "form" form []] = [out ""; out "<form></form>"]
  /\ renders "xhtml" [call "form" form [("auto_name", MBool false)]] = [out "<form></form>"]
  /\ renders "xhtml" [begin [("auto_name", MBool false)]; call "form" form [("auto_name", T "auto")]; OEnd]
     = [out ""; out "<form></form>"; out ""].
Proof. repeat split; vm_compute; reflexivity. Qed.
Example domid_default : renders "xhtml" [call "select" test_valued []] = [out "<select name=""test_valued""></select>"].
Proof. vm_compute. reflexivity. Qed.
Definition dashed := [("auto_domid", MBool true); ("domid_format", T "-%s-")].
Definition enabled := out "<select name=""test_valued"" id=""-test_valued-""></select>".
Example domid_enabled :
  renders "xhtml" [begin dashed; call "select" test_valued []; OEnd] = [out ""; enabled; out ""]
  /\ renders "xhtml" [gset dashed; call "select" test_valued []] = [out ""; enabled]
  /\ renders "xhtml" [gset [("domid_format", T "-%s-")]; call "select" test_valued [("auto_domid", MBool true)]]
     = [out ""; enabled]
  /\ renders "xhtml" [begin dashed; call "select" test_valued [("auto_domid", T "auto")]; OEnd] = [out ""; enabled; out ""].
Proof. repeat split; vm_compute; reflexivity. Qed.
Example filter_enabled :
  renders "xhtml" [begin [("auto_filter", MBool true); ("filters", MFilters [4])];
                   call "label" test_valued [("contents", T "field2")]; OEnd]
  = [out ""; out "<label class=""required"">field2 *</label>"; out ""].
Proof. vm_compute. reflexivity. Qed.

(* test_tag_rendering.py; the opening and closing halves are in TestsTag *)
Definition scalar := text "scalar" "abc".
Example select :
  renders "xhtml" [call "option" scalar [("value", T "abc")]; call "option" scalar [("value", T "def"); ("contents", T "DEF")];
                   call "option" scalar [("contents", T "abc")]; call "option" scalar [("value", T "abc"); ("contents", T "abc")]]
  = [out "<option value=""abc"" selected=""selected""></option>"; out "<option value=""def"">DEF</option>";
     out "<option selected=""selected"">abc</option>"; out "<option value=""abc"" selected=""selected"">abc</option>"].
Proof. vm_compute. reflexivity. Qed.
Definition multi := Some (Bound (lit "multi") (lit "[]") (BArray (fun v => mv_is v (lit "abc") || mv_is v (lit "xyz")))).
Example multiselect :
  renders "xhtml" [call "option" multi [("value", T "abc")]; call "option" multi [("value", T "def"); ("contents", T "DEF")];
                   call "option" multi [("contents", T "xyz")]]
  = [out "<option value=""abc"" selected=""selected""></option>"; out "<option value=""def"">DEF</option>";
     out "<option selected=""selected"">xyz</option>"].
Proof. vm_compute. reflexivity. Qed.
