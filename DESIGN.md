# Design

Formal model of flatland (mbr/flatland0, read from /repo as text) in Coq 8.16.1, logical name `Verif`: 112 properties, 819 theorems.

## Approach

* Shallow executable Gallina models that follow the Python functions branch by branch; exceptions are values (`res A = Ok a | Err e`), state is passed and returned, so a call that raises also returns the state it leaves behind.
* Text is `list N` (Unicode code points). Python 3.3 semantics (the newest listed in tox.ini) where 2.7 and 3.3 differ.
* `Model*.v` hold only definitions, each with the file and lines it follows; `Spec*.v` the independent specifications; `Proof*.v` the lemmas; `Properties*.v` only the property theorems, closed by `exact`, with `Print Assumptions` below and `Example`s showing that the hypotheses can be met. `Tests*.v` are the assertions of the project's own test suite and the doctests of its documentation, transcribed by hand and computed on the models, as a check of the models against the code.
* Loops over graphs and numbers that Coq cannot see to terminate take fuel and return `OutOfFuel` when it runs out. The theorems either hold for all fuel, or state that enough fuel exists and that the result does not depend on it.
* Threads (C37, C48, and the path cache of C35) are step functions driven by an arbitrary schedule; the theorems hold for every schedule, of any length and any number of threads.
* User code (validators, transforms, adapters of custom types, `maybe_translate`, IDNA, URL parsing, key functions) enters as a universally quantified function.

## Trusted base

* Coq's kernel. `Print Assumptions` under every property theorem answers *Closed under the global context*: no theorem uses any axiom, neither of the standard library nor own. No kernel check is switched off; there are no functors, module types, plugins or admitted proofs.
* That the model says what the Python code does: see the next two sections. The comment of each definition names the lines it follows, and states simplifications.
* The reading of Python itself: `str` methods, `int()`, `dict` and `list` methods, slices, MRO and attribute lookup, `repr` of text, exceptions. They are modelled in `PyBase.v`, `ModelUtil.v` and where they are used. Tables of Unicode (decimal digits, white space) are those of Unicode 6.1, the version of Python 3.3; `str.lower` is modelled for ASCII and left a parameter beyond where it matters.
* Regular expressions. The models read text with hand-written functions; C101 proves each of them equal to backtracking over the text of the pattern in the source. `SpecRegex.v` has the syntax of patterns (the part the code uses) and the backtracking; that it is what Python's `re` does is trusted.
* `str.isprintable` beyond ASCII is a parameter of the theorems on container texts (C73). Hash order of sets and dicts is a parameter (an arbitrary order) where it can be observed.

## What is modelled

| source | model | remarks |
|---|---|---|
| flatland/schema/base.py | ModelValidate.v, ModelRaise.v (validators that raise), ModelReport.v (validate() with validators that record messages), ModelCheck.v (validate() of the trees of ModelFlat.v), ModelAssign.v (validators and receivers that assign `.valid` and raise), ModelPaths.v (path, root, parents, fq_name, el), ModelFlat.v (flatten, set_flat), ModelMessage.v (add_error, add_warning), ModelDsl.v (named, using, validated_by, including_validators, with_properties) | the queue of validate() over an arbitrary graph of elements |
| flatland/schema/scalars.py | ModelScalar.v | values: None, bool, int, text, date, time, datetime and opaque objects; Float and Decimal as KNumber with an arbitrary conversion |
| flatland/schema/scalars.py (Float, Decimal) | ModelNumber.v | binary64 floats, decimals, float(), Decimal(), '%f'; bytes, exponents past 10^18 and the digits of a NaN are left out |
| flatland/schema/containers.py | ModelSeq.v (List, Array, MultiValue operations with identity and slots), ModelSelf.v (sequences and mappings as their own argument), ModelMap.v (Dict, SparseDict operations), ModelFlat.v, ModelNest.v (set, value, u, == of nested elements) | |
| flatland/schema/compound.py | ModelCompound.v, ModelCustom.v, ModelFlat.v (as parts of a tree) | class initialisation with its locks, DateYYYYMMDD, JoinedString; Compounds with any compose and explode |
| flatland/schema/forms.py | ModelDsl.v | |
| flatland/schema/paths.py | ModelPaths.v, ModelCache.v (the cache under threads) | tokenizer, parser, evaluation, cache |
| flatland/schema/properties.py | ModelProps.v | |
| flatland/signals.py, flatland/exc.py | none | constants and class statements |
| flatland/util/base.py | ModelUtil.v | luhn10, symbols, keyslice_pairs, to_pairs, threading helpers |
| flatland/util/base.py (descriptors), flatland/util/deferred.py, Element.label, default_value and __hash__ of flatland/schema/base.py | ModelDesc.v | |
| flatland/validation/*.py | ModelValidators.v, ModelNetwork.v, ModelMessage.v | |
| flatland/ext/creditcard.py | ModelNetwork.v | |
| flatland/out/generic.py, flatland/out/markup.py | ModelMarkup.v, ModelTag.v (tags as objects) | |
| flatland/out/util.py | ModelMarkup.v | |
| flatland/schema/scalars.py, Ref | ModelRef.v, ModelLink.v (paths resolved in the tree; also the fields of MapEqual), ModelEqual.v (UnisEqual and ValuesEqual in the trees of ModelCheck.v), ModelBounds.v (lengths, bounds, sizes, addresses and numbers in those trees) | |
| flatland/out/genshi.py | ModelGenshi.v, ModelAttach.v (making the directives) | the stream rewriting; Genshi's own template machinery is not |

## What is not modelled

* Abstract methods that only raise (`Element.set_default`, `EvaluatedLast.process`).
* `repr` of objects that are none of the values modelled (a parameter of C107), pickling of symbols (`__reduce__` is), docstrings.
* Python 2 only methods (`__getslice__`, `__setslice__`, `__delslice__`, `__unicode__`), and Python 2's comparison of unlike types.
* Genshi's parser, template compiler and serializer; the directive classes are modelled as functions on event streams.
* `blinker` itself: sending a signal is an event in the trace.
* Memory, recursion limits, `KeyboardInterrupt` and other asynchronous exceptions. Threads switch only between the atomic steps named in the models.
* Elements are trees (or, for validate, arbitrary graphs) of the modelled classes; user subclasses that override methods appear only where the model takes functions.

## Properties

The `_refuted` theorems prove the exceptions that the statements name, or findings beside them.

| id | property | theorems in | exceptions proved |
|---|---|---|---|
| C01 | validate() verdict is the conjunction of the verdicts it recorded | PropertiesValidate.v |  |
| C02 | validate() visits each element once down, breadth first, and once up in reverse | PropertiesValidate.v |  |
| C03 | A skipped branch is left untouched | PropertiesValidate.v |  |
| C04 | Validator chain protocol | PropertiesValidate.v |  |
| C05 | validate() terminates and is a function of its inputs | PropertiesValidate.v |  |
| C06 | validate(recurse=False) agrees with validate() on a childless element | PropertiesValidate.v | C06_flat_agrees_refuted |
| C07 | all_children enumerates each descendant once; all_valid summarises and sets | PropertiesValidate.v |  |
| C08 | Scalar set() contract | PropertiesScalar.v |  |
| C09 | Serialization round-trips | PropertiesScalar.v | C09_none_refuted, C09_none_integer_refuted, C09_datetime_in_date_refuted, C09_fraction_refuted |
| C10 | Integer text is parsed to exactly the number it denotes; unsigned fields never go negative | PropertiesScalar.v |  |
| C11 | Boolean recognises exactly its vocabulary | PropertiesScalar.v |  |
| C12 | Enum and Constrained never hold a forbidden value | PropertiesScalar.v |  |
| C13 | String normalisation | PropertiesScalar.v |  |
| C14 | Date/Time/DateTime accept exactly well-formed calendar text | PropertiesScalar.v |  |
| C15 | List members are always numbered by position | PropertiesSeq.v | C15_append_twice_refuted, C15_sort_raising_refuted, C15_imul_refuted |
| C16 | Sequences behave like Python lists of member values | PropertiesSeq.v | C16_iadd_refuted, C16_setitem_element_refuted |
| C17 | Sequences only ever hold elements that point back to them | PropertiesSeq.v | C17_setitem_element_refuted, C17_iadd_refuted |
| C18 | List defaults | PropertiesSeq.v |  |
| C19 | Dict keys are fixed by the schema | PropertiesMap.v |  |
| C20 | SparseDict keys stay within the schema and required fields stay present | PropertiesMap.v | C20_required_removable_refuted |
| C21 | Dict.set policies | PropertiesMap.v | C21_not_atomic_refuted |
| C22 | Key slicing | PropertiesMap.v, PropertiesUtil.v |  |
| C23 | set_by_object transfers exactly the selected attributes | PropertiesMap.v | C23_rename_omitted_refuted, C23_order_matters_refuted |
| C24 | flatten() / set_flat() round trip | PropertiesFlat.v | C24_unrestricted_refuted, C24_joined_refuted, C24_nameless_compounds_refuted |
| C25 | Irrelevant flat data is ignored | PropertiesFlat.v | C25_similar_name_refuted |
| C26 | set_flat cannot grow a List beyond its ceiling | PropertiesFlat.v | C26_negative_limit_refuted |
| C27 | Index semantics of List.set_flat | PropertiesFlat.v | C27_bare_index_refuted |
| C28 | set_flat does not depend on the order of a mapping's items | PropertiesFlat.v | C28_spellings_refuted |
| C29 | Flattened names are the path of names, and are distinct for unambiguous schemas | PropertiesFlat.v | C29_meeting_names_refuted |
| C30 | Fully qualified names resolve to their element | PropertiesPaths.v | C30_array_member_refuted, C30_separator_in_name_refuted |
| C31 | find() with escaped names addresses any element | PropertiesPaths.v | C31_backslash_refuted |
| C32 | Path canonicalisation does not change meaning | PropertiesPaths.v | C32_missing_refuted, C32_list_member_refuted, C32_false_container_refuted, C32_slice_up_refuted |
| C33 | Path slices are Python slices | PropertiesPaths.v | C33_stop_zero_refuted |
| C34 | find() modes agree | PropertiesPaths.v |  |
| C35 | The path cache is transparent | PropertiesPaths.v | C35_full_cache_refuted |
| C36 | Compound date agrees with its parts | PropertiesCompound.v | C36_reports_failure_refuted |
| C37 | Compound class initialisation runs once before any instance, under any thread interleaving | PropertiesCompound.v | C37_inherited_refuted, C37_inherited_failing_refuted, C37_recursive_refuted |
| C38 | JoinedString joins and splits consistently | PropertiesCompound.v | C38_separator_free_refuted, C38_normal_form_refuted |
| C39 | Property inheritance | PropertiesProps.v | C39_class_setdefault_refuted, C39_setdefault_deleted_refuted, C39_pop_deleted_refuted |
| C40 | Property isolation | PropertiesProps.v | C40_instance_pop_refuted, C40_shared_object_refuted |
| C41 | Schema DSL never mutates the class it is called on | PropertiesDsl.v |  |
| C42 | Form field collection | PropertiesDsl.v, PropertiesDsl2.v | C42_nearest_declaration_refuted |
| C43 | Attribute and content escaping is injection-free and lossless | PropertiesMarkup.v |  |
| C44 | Rendered tags parse back to the attributes given | PropertiesMarkup.v |  |
| C45 | Markup settings are scoped | PropertiesMarkup.v | C45_set_atomic_refuted |
| C46 | Automatic attributes never override explicit ones unless forced | PropertiesMarkup.v, PropertiesMarkup2.v | C46_explicit_checked_refuted, C46_id_of_none_value_refuted, C46_doc_empty_value_refuted, C46_doc_unknown_type_refuted, C46_doc_no_value_refuted, C46_doc_button_refuted, C46_doc_for_refuted |
| C47 | luhn10 is the Luhn check and catches single-digit errors | PropertiesUtil.v |  |
| C48 | Named symbols are process-wide singletons under threads | PropertiesUtil.v |  |
| C49 | Length and range validators draw their boundary exactly where documented | PropertiesValidators.v | C49_none_refuted |
| C50 | NotDuplicated marks exactly the repeats | PropertiesValidators.v |  |
| C51 | Phone normalisation | PropertiesValidators.v | C51_extension_refuted, C51_leading_zero_refuted |
| C52 | Email decision | PropertiesNetwork.v | C52_newline_refuted |
| C53 | Credit card numbers | PropertiesNetwork.v | C53_short_refuted, C53_sign_refuted, C53_short_visa_refuted, C53_blank_refuted, C53_type_raises_refuted |
| C54 | Maybe is Kleene's third truth value | PropertiesUtil.v |  |
| C55 | re_uescape produces a pattern that matches exactly the given text | PropertiesUtil.v |  |
| C56 | Open tags are found again until closed | PropertiesMarkup.v |  |
| C57 | Generator.tag(name) is equivalent to the named method | PropertiesMarkup.v | C57_tag_method_refuted |
| C58 | Emptiness and truth of scalars | PropertiesScalar.v | C58_midnight_refuted |
| C59 | Scalars read flat data, defaults and constructor values through set | PropertiesScalar.v |  |
| C60 | Mapping set_flat routes each pair to the fields it names | PropertiesMap.v | C60_set_flat_raises_refuted |
| C61 | Mapping defaults | PropertiesMap.v |  |
| C62 | SparseDict calls | PropertiesMap.v |  |
| C63 | Tree traversal | PropertiesFlat.v, PropertiesPaths.v |  |
| C64 | What set_flat gives each kind of element | PropertiesFlat.v | C64_other_key_refuted |
| C65 | Fields of messages are found in the first object that has them | PropertiesMessage.v |  |
| C66 | Translation and plural forms | PropertiesMessage.v |  |
| C67 | Recording messages | PropertiesMessage.v |  |
| C68 | Simple validators | PropertiesValidators.v | C68_npa_nxx_refuted |
| C69 | Equal fields | PropertiesValidators.v | C69_no_transform_refuted |
| C70 | URL validators | PropertiesNetwork.v | C70_http_scheme_refuted, C70_canonical_text_refuted |
| C71 | An element can be set to its own value | PropertiesNest.v | C71_unset_boolean_refuted, C71_unset_enum_refuted, C71_multivalue_refuted |
| C72 | Equality of elements | PropertiesNest.v | C72_order_refuted, C72_members_refuted |
| C73 | The text of containers | PropertiesNest.v | C73_multivalue_refuted |
| C74 | MultiValue as a scalar; truth and emptiness of containers | PropertiesNest.v |  |
| C75 | What set does to nested members | PropertiesNest.v |  |
| C76 | References read and write through | PropertiesRef.v | C76_stale_refuted |
| C77 | Computed attributes | PropertiesDesc.v | C77_renamed_refuted |
| C78 | Labels, default values and attribute views | PropertiesDesc.v | C78_adict_refuted |
| C79 | Modules loaded on first access | PropertiesDesc.v | C79_own_name_refuted |
| C80 | Genshi: the tag that is rewritten | PropertiesGenshi.v | C80_clear_refuted, C80_markup_refuted |
| C81 | Genshi: options of a bound select | PropertiesGenshi.v | C81_late_iterator_refuted |
| C82 | Genshi: order of directives, rendering in sequence | PropertiesGenshi.v |  |
| C83 | Genshi: form:with and form:set | PropertiesGenshi.v | C83_restored_refuted, C83_set_filters_refuted |
| C84 | Genshi: text of streams | PropertiesGenshi.v | C84_single_refuted |
| C85 | Genshi: what a template shows | PropertiesGenshi.v | C85_textarea_refuted |
| C86 | Float elements | PropertiesNumber.v | C86_value_again_refuted, C86_integers_refuted |
| C87 | Decimal elements | PropertiesNumber.v | C87_digits_refuted, C87_signaling_refuted, C87_unsigned_nan_refuted |
| C88 | Validators that raise | PropertiesRaise.v |  |
| C89 | Sequences as their own argument | PropertiesSelf.v | C89_failed_slice_refuted |
| C90 | Mappings as their own argument | PropertiesSelf.v |  |
| C91 | Validators and receivers that assign .valid | PropertiesAssign.v | C91_failure_refuted |
| C92 | Compounds with their own compose and explode | PropertiesCustom.v |  |
| C93 | Flattening Compounds | PropertiesCustom.v |  |
| C94 | The halves of a tag and the whole | PropertiesTag.v | C94_failed_open_refuted |
| C95 | What a tag remembers | PropertiesTag.v |  |
| C96 | Which tag a generator returns | PropertiesTag.v |  |
| C97 | Forms drawn from an element read back | PropertiesForm.v |  |
| C98 | Genshi: where directives may stand | PropertiesAttach.v |  |
| C99 | Paths looked up from several threads | PropertiesCache.v | C99_limit_refuted |
| C100 | Templates and generators agree | PropertiesAgree.v |  |
| C101 | Text is read as the regular expressions say | PropertiesRegex.v |  |
| C102 | What a validated form reports | PropertiesReport.v |  |
| C103 | Elements that name others by path | PropertiesLink.v |  |
| C104 | Forms drawn by a template read back | PropertiesPost.v |  |
| C105 | Submitting again what a form shows | PropertiesAgain.v | C105_blank_member_refuted, C105_boolean_refuted |
| C106 | Data through flat pairs and forms and back | PropertiesTrip.v | C106_unrestricted_refuted |
| C107 | What elements show | PropertiesRepr.v | C107_unrestricted_refuted |
| C108 | Flat data set again, replaced and in steps | PropertiesSteps.v | C108_raising_refuted, C108_list_refuted |
| C109 | Texts sent to a form, and what validate() makes of them | PropertiesCheck.v | C109_silent_refuted |
| C110 | validate() judges what an element holds, not how it came by it | PropertiesTwin.v | C110_messages_refuted |
| C111 | Fields of a form that must agree | PropertiesEqual.v | C111_sent_refuted |
| C112 | Conditions on the fields of a form | PropertiesBounds.v | C112_unread_refuted |

## Findings

Behaviour of the code, proved of the model, that differs from the documentation or from what one would expect:

* **Validation.** A failing validator of an element that another validator marked invalid after its descent does not count: validate() returns True (C91). `validate(recurse=False)` disagrees with `validate()` on an element without children when descent fails and ascent succeeds (C06). Length and range validators raise TypeError on a value that failed adaptation, None having no order (C49). `MapEqual` without transform, and `NANPnpa_nxx` always, raise instead of giving a verdict (C69, C68). HasAtLeast on a JoinedString counts the characters of its text (C109); UnisEqual compares the texts shown, not those sent (C111); a bound without Converted() before it raises TypeError out of validate() for a text that is not read (C112).
* **Numbers and cards.** `luhn10` does not terminate on negative numbers (C47). Card numbers of under fifteen digits or with a sign do not come back from their text; thirteen-digit Visa numbers are not recognised; blank text raises ValueError out of set(); a valid number of a refused type raises instead of giving a message (C53).
* **Phones, mail, URLs.** Keeping extensions in phone numbers always raises TypeError, and numbers in non-ASCII digits lose a leading zero (C51). IsEmail accepts a domain ending in a newline (C52). HTTPURLValidator never looks at the scheme, because of a misspelt key; URLCanonicalizer leaves the text with the parts it removed (C70).
* **Scalars.** None, a datetime in a Date and fractions of a second do not read back from their text (C09). A Time holding midnight is false though not empty (C58). An unset Boolean holds None, but set(None) makes it False; an unset Enum refuses its own value (C71).
* **Sequences.** `+=` on a List stores raw operands, `self[i] = element` does not copy the element's value, elements assigned so do not point back to the sequence (C16, C17). Appending one element twice, `*=` and a sort whose comparison raises break the numbering of members (C15). `extend` with itself never ends, `set` to itself empties, and `reversed()`, `copy()`, `+` and `*` of a List hand out the hidden slots (C89). `set` of a Dict to itself loses its values (C90).
* **Mappings.** An element marked optional on the instance can be deleted from a required key (C20). A set() that raises leaves the fields changed (C21). In set_by_object omit wins over rename against the docstring, and the result can depend on set order (C23).
* **Flat data.** Keys that merely start like a name empty a List or add a blank member to an Array (C25, C64); a key that stops at an index raises AttributeError (C27); `0` and `00` make the order of pairs matter (C28); a negative limit is no limit when pruning (C26); what flatten() makes of a List of nameless Compounds, such as List.of(DateYYYYMMDD), set_flat() refuses with AttributeError (C24); the text of a nested JoinedString is flattened together with the members it is made of (C29); None as key raises AttributeError (C60).
* **Paths.** `..` after a missing name goes unnoticed, from a List member it is the slot, from a part of a false container it stays where it is (C32). A slice with stop 0 is read as without stop (C33). With a full cache pathexpr returns the builtin `compile` (C35). Names ending in a backslash cannot be escaped (C31).
* **Properties.** Popping on an instance removes from the class; setdefault and pop can hand out the internal marker of deletion; class setdefault ignores inherited values (C39, C40).
* **Compounds.** set() of text that is no date reports success (C36). An initialiser that calls the inherited one lets elements be made before the class is ready; one that constructs its own class recurses (C37). JoinedString texts are not always fixed points (C38).
* **Equality.** SparseDicts with the same items in another order are unequal; a list of String(strip=False) differs from a list of String with equal members, because the text of the former shows as `uu'...'` (C72).
* **References and attributes.** A Ref remembers the element it found first, also after that element was replaced (C76). A lazy property under another name than its function is computed every time (C77). A submodule listed as its own member can never be loaded (C79).
* **Float, Decimal.** Setting a Decimal to sNaN raises ValueError out of set() and leaves the new value beside the old text; setting an unsigned Decimal to nan raises InvalidOperation (C87). The text of a Decimal goes through a float, so 9007199254740993 is shown as 9007199254740992.000000 (C87). The text of a Float set again need not give its value (C86). An unsigned Float takes nan and -0 (C86).
* **Genshi.** An option with control attributes but no form:bind in a bound select fails with ValueError; options an expression yields late are not bound (C81). A filter cannot clear contents, and contents that are one piece of markup are escaped (C80). After an exception inside form:with its settings stay; form:set does not evaluate filters, form:with does (C83). An expression that yields one event that is no text fails with TypeError (C84).
* **Markup.** A failing Context.set keeps the settings made before the unknown one (C45); explicit `checked` and `selected` are replaced even when nothing is forced (C46); docs/source/markup.rst says that an empty text omits `value=`, that input types unknown to flatland get no value, that boxes without a `value=` are left alone, that a button receives the text as contents, and that `for=` is on by default, needs auto_domid and stops at `id=`: the code does otherwise in each case (C46_doc_…); `Generator.tag('input')` renders an empty tag differently from `Generator.input` (C57).
