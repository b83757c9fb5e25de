{"id": "C01", "title": "validate() verdict is the conjunction of the verdicts it recorded", "statement": "element.validate() returns True exactly when every element it visited ends the call with a true .valid; a single failure at any depth, on the way down or up, forces False and a later success never overrides it.", "quantifier": "every finite element graph (trees, shared and even cyclic children), every assignment of validators, every validator outcome (True, False, None, Skip, SkipAll, SkipAllFalse), including validators that change state or mark other elements' data", "why_tests_cant": "verdict depends on the whole sequence of outcomes over an unbounded tree; tests only sample shapes and outcome vectors", "anchors": ["flatland/schema/base.py:Element.validate", "flatland/schema/base.py:validate_element", "flatland/schema/containers.py:Container._validate"]}
{"id": "C02", "title": "validate() visits each element once down, breadth first, and once up in reverse", "statement": "During validate() every element reachable without passing through a skipped branch is evaluated exactly once on the descent, in breadth-first order, and exactly once on the ascent in exactly the opposite order, so a container's ascending validators run only after those of everything below it that was visited; nothing else is evaluated.", "quantifier": "every finite element graph and every validator behaviour", "why_tests_cant": "orderings and 'exactly once' over arbitrary shapes (shared children, cycles) cannot be enumerated", "anchors": ["flatland/schema/base.py:Element.validate"]}
{"id": "C03", "title": "A skipped branch is left untouched", "statement": "If a descent validator answers SkipAll or SkipAllFalse, no element that is reachable only through that element has a validator run on it and none of them has its .valid changed.", "quantifier": "every finite element graph, every validator behaviour, every element outside the visited part", "why_tests_cant": "it is a frame property over all elements not visited", "anchors": ["flatland/schema/base.py:Element.validate", "flatland/schema/base.py:SkipAll", "flatland/schema/base.py:SkipAllFalse"]}
{"id": "C04", "title": "Validator chain protocol", "statement": "For one element: an empty optional element passes without any validator being called; with no validators the element passes iff it is not empty; otherwise validators run in order until the first that returns None, a false value, Skip or SkipAll; None and false fail, Skip passes, SkipAll passes and skips children, and if none stops the chain the element passes. When someone is subscribed to validator_validated, exactly one notification is sent per validator actually run, carrying its own result, plus one (sender NotEmpty) when the element has no validators; otherwise none is sent.", "quantifier": "every element, every validator list and every validator result and side effect", "why_tests_cant": "unbounded chain length and arbitrary results", "anchors": ["flatland/schema/base.py:validate_element", "flatland/signals.py:validator_validated"]}
{"id": "C05", "title": "validate() terminates and is a function of its inputs", "statement": "If validators do not create an unbounded supply of new elements, validate() terminates: the number of evaluated elements never exceeds the number of distinct reachable elements, even when children are shared or cyclic. If validators do not look at .valid, earlier markings have no influence on the verdict, the effects or the markings of visited elements; if in addition they and the receivers have no effects, validating again gives the same verdict, runs the same validators and changes no marking.", "quantifier": "every finite element graph, every validator behaviour that keeps children inside that graph", "why_tests_cant": "termination on all graphs is not testable", "anchors": ["flatland/schema/base.py:Element.validate"]}
{"id": "C06", "title": "validate(recurse=False) agrees with validate() on a childless element", "statement": "On an element without children validate(recurse=False) runs the same validators with the same effects as validate(), and its verdict and .valid are the same exactly unless the descent validators fail and the ascent validators pass (then it says valid, validate() invalid).", "quantifier": "every childless element, every pair of descent and ascent outcomes", "why_tests_cant": "needs all outcome pairs; the expectation is in fact violated when descent fails and ascent passes", "anchors": ["flatland/schema/base.py:Element.validate"]}
{"id": "C07", "title": "all_children enumerates each descendant once; all_valid summarises and sets", "statement": "all_children yields every element reachable from the element through children exactly once, in breadth-first order, never the element itself; reading all_valid is True iff the element and all of them are valid; assigning all_valid sets .valid on exactly those elements.", "quantifier": "every finite element graph", "why_tests_cant": "arbitrary sharing and depth", "anchors": ["flatland/schema/base.py:Element.all_children", "flatland/schema/base.py:Element.all_valid"]}
{"id": "C08", "title": "Scalar set() contract", "statement": "After set(v) on any scalar: if it returns True, .value is the adapted native value and .u is its serialization (u'' for None); if it returns False, .value is None and .u is the text of v (u'' for None). It never raises, whatever v is, as long as the number type and valid_value raise nothing but ValueError, TypeError, ArithmeticError or AdaptationError; if one does raise something else, .value and .u stay as they were. A class with its own adapt() gets what that returns as .value and its text as .u; set() on Scalar itself raises NotImplementedError. Previous contents of the element never influence the outcome.", "quantifier": "every scalar type modelled (String, Integer, Long, Boolean, Enum/Constrained, Date, Time, DateTime, subclasses with their own adapt), every option setting, every previous state, every input value", "why_tests_cant": "input space is all Python values", "anchors": ["flatland/schema/scalars.py:Scalar.set"]}
{"id": "C09", "title": "Serialization round-trips", "statement": "For a successful set to a value other than None, setting the resulting .u again succeeds and reproduces the same .value and the same .u: always for String, Integer, Long and Boolean (with distinguishable texts) and their Constrained and Enum wrappers; for Date, Time and DateTime when the value is of exactly that type and has no fraction of a second; for other number types when the formatted number parses back.", "quantifier": "every input accepted by set", "why_tests_cant": "infinitely many values", "anchors": ["flatland/schema/scalars.py:Number", "flatland/schema/scalars.py:Boolean", "flatland/schema/scalars.py:String", "flatland/schema/scalars.py:Temporal"]}
{"id": "C10", "title": "Integer text is parsed to exactly the number it denotes; unsigned fields never go negative", "statement": "Setting an Integer with text succeeds iff the whitespace-trimmed text is an optional sign followed by one or more decimal digits (any Unicode decimal digits) and then .value is the number denoted; with signed=False a negative number is always refused and .value is never negative.", "quantifier": "every text string and every integer", "why_tests_cant": "infinitely many strings", "anchors": ["flatland/schema/scalars.py:Number.adapt", "flatland/schema/scalars.py:Integer"]}
{"id": "C11", "title": "Boolean recognises exactly its vocabulary", "statement": "Setting a Boolean with text yields True for the canonical true text or a true synonym, False for the canonical false text or a false synonym and a failed conversion for all other text; non-text values convert by truthiness; the resulting .u is always the canonical text.", "quantifier": "every text and every configuration of canonical texts and synonyms", "why_tests_cant": "all strings and all configurations", "anchors": ["flatland/schema/scalars.py:Boolean"]}
{"id": "C12", "title": "Enum and Constrained never hold a forbidden value", "statement": "After any history of set calls a Constrained or Enum element's .value is None or satisfies the constraint (for Enum: is one of valid_values), and a permitted value is always accepted.", "quantifier": "every constraint, child type and set history", "why_tests_cant": "quantifies over histories and constraints", "anchors": ["flatland/schema/scalars.py:Constrained", "flatland/schema/scalars.py:Enum"]}
{"id": "C13", "title": "String normalisation", "statement": "With strip on, .value and .u have no leading or trailing whitespace, differ from the input text only by removed outer whitespace, and normalising again changes nothing; with strip off text is stored verbatim.", "quantifier": "every Unicode string", "why_tests_cant": "all strings", "anchors": ["flatland/schema/scalars.py:String"]}
{"id": "C14", "title": "Date/Time/DateTime accept exactly well-formed calendar text", "statement": "Setting Date, Time or DateTime with text succeeds iff the (stripped) text is in the fixed-width format and the fields denote a real calendar date (Gregorian leap rules, years 1-9999) and a real time of day; the value has those fields and .u is the zero-padded canonical text.", "quantifier": "every string", "why_tests_cant": "all strings and all dates", "anchors": ["flatland/schema/scalars.py:Temporal", "flatland/schema/scalars.py:Date", "flatland/schema/scalars.py:Time", "flatland/schema/scalars.py:DateTime"]}
{"id": "C15", "title": "List members are always numbered by position", "statement": "After any history of List operations (append, extend, insert, item and slice assignment, deletion, pop, remove, reverse, sort, set, set_flat, set_default), successful or raising, where an existing element is added only while it is not already in the list and sort comparisons do not raise, the i-th member sits in a slot named with the decimal text of i, whose parent is the list and which is the member's parent. Adding an element twice, a sort whose comparison raises, and *= break this.", "quantifier": "every sequence of operations, including failing ones, on every list", "why_tests_cant": "histories are unbounded", "anchors": ["flatland/schema/containers.py:List", "flatland/schema/containers.py:ListSlot", "flatland/schema/containers.py:List._renumber"]}
{"id": "C16", "title": "Sequences behave like Python lists of member values", "statement": "Every List/Array call except += and *= changes the sequence of member values exactly as the same operation changes a plain Python list of adapted values (List item assignment sets the member in place), raising IndexError/ValueError in the same cases and leaving the same members behind when it raises; reading by index, slice and iteration likewise.", "quantifier": "every sequence content and operation with any (negative, out of range, extended slice) argument", "why_tests_cant": "unbounded contents and index arguments", "anchors": ["flatland/schema/containers.py:Sequence", "flatland/schema/containers.py:List", "flatland/schema/containers.py:Array"]}
{"id": "C17", "title": "Sequences only ever hold elements that point back to them", "statement": "After any history of Sequence operations, except assigning an existing element to an Array item and += / *= , every member is an element whose parent is the sequence (for Lists: a slot of it). The excepted operations violate it; a slot popped from a List has no parent.", "quantifier": "every operation history", "why_tests_cant": "unbounded histories; violated by particular operations (item assignment of an element on Array, += and *=)", "anchors": ["flatland/schema/containers.py:Sequence.__setitem__", "flatland/schema/containers.py:Sequence.append"]}
{"id": "C18", "title": "List defaults", "statement": "With an integer default n, set_default leaves exactly max(n,0) members each holding the member schema's own default; with None or Unspecified the list is unchanged; otherwise it is set to the default. An Array with an integer default raises TypeError.", "quantifier": "every list, every default", "why_tests_cant": "all integers and member schemas", "anchors": ["flatland/schema/containers.py:List.set_default", "flatland/schema/containers.py:Sequence.set_default"]}
{"id": "C19", "title": "Dict keys are fixed by the schema", "statement": "After any history of Dict operations, successful or raising, the keys are exactly the schema's field names and the value under each key is an element of that field's schema whose parent is the Dict.", "quantifier": "every operation history", "why_tests_cant": "unbounded histories including exceptions part-way", "anchors": ["flatland/schema/containers.py:Mapping", "flatland/schema/containers.py:Dict"]}
{"id": "C20", "title": "SparseDict keys stay within the schema and required fields stay present", "statement": "After any history of SparseDict operations every key is a schema field name; with minimum_fields='required' every non-optional field is present, provided no element marked optional on the instance (or of an optional subclass) is ever stored under a required key.", "quantifier": "every operation history", "why_tests_cant": "unbounded histories including exceptions part-way", "anchors": ["flatland/schema/containers.py:SparseDict"]}
{"id": "C21", "title": "Dict.set policies", "statement": "Dict.set takes its pairs in order and stops at the first that raises. With policy 'subset' or 'strict' an unknown key raises KeyError; 'duck' skips it; 'strict' finally raises TypeError iff some field was not named; an unknown policy is an AssertionError and a non-iterable a TypeError. Each named field then holds a fresh element set from the values given under its name in turn, every other field is blank (SparseDict: absent unless required), and the result is True iff every conversion succeeded.", "quantifier": "every schema, previous content, key/value sequence and policy", "why_tests_cant": "all key sequences", "anchors": ["flatland/schema/containers.py:Dict.set"]}
{"id": "C22", "title": "Key slicing", "statement": "keyslice_pairs (and Dict.slice, update_object) emits, in order, the pairs whose (mapped) key is renamed (under the new name, regardless of include or omit), else is included when include is given, else is not omitted; both include and omit raises TypeError.", "quantifier": "every pair sequence and every combination of include, omit, rename, key", "why_tests_cant": "all sequences", "anchors": ["flatland/util/base.py:keyslice_pairs", "flatland/schema/containers.py:Dict.slice", "flatland/schema/containers.py:Dict.update_object"]}
{"id": "C23", "title": "set_by_object transfers exactly the selected attributes", "statement": "set_by_object sets each field from an attribute the object has that feeds it: a renamed attribute feeds the field of its last new name, any other the field of its own name if included (or nothing is), and an omitted attribute feeds nothing; fields no attribute feeds are blank (TypeError under policy 'strict'); nothing else is set; giving both include and omit raises TypeError and changes nothing.", "quantifier": "every schema, object and selection", "why_tests_cant": "all objects and selections; the documented 'renamed attributes are included regardless of omit' is violated", "anchors": ["flatland/schema/containers.py:Dict.set_by_object", "flatland/schema/containers.py:Dict.from_object"]}
{"id": "C24", "title": "flatten() / set_flat() round trip", "statement": "Setting a new element of the same schema from flatten() output never raises and yields an element with the same names, fields, members in the same order, values and texts. Provided that: the separator does not start with a digit; no name is empty, contains the first character of the separator or ends in a newline; field names of one mapping differ and the name of a field that a new SparseDict lacks does not start another's; Arrays hold scalars; Compounds in Lists have a name; the root is a Dict, a List or has a name; every scalar's text reads back as its value and every JoinedString's text splits into its members (a blank one under pruning is as new); Lists are within maximum_set_flat_members; every member of a pruning List or of an Array, the last member of any other List, and every field that a new mapping lacks, shows some (non-blank, when pruning) text.", "quantifier": "every schema of nested Dicts, SparseDicts, Lists, Arrays, Compounds, JoinedStrings and scalars and every content", "why_tests_cant": "arbitrary nesting; the unrestricted claim of the documentation is violated", "anchors": ["flatland/schema/base.py:Element.flatten", "flatland/schema/base.py:Element.set_flat", "flatland/schema/containers.py:List._set_flat", "flatland/schema/containers.py:Mapping._set_flat"]}
{"id": "C25", "title": "Irrelevant flat data is ignored", "statement": "Adding or removing, anywhere in the input, pairs whose key does not concern the element has no effect on set_flat: for a mapping the keys that do not start with its own name and separator (if it has a name) and a field's name, for a List those that are not its name, separator and digits (then the separator or the end), for an Array of scalars those that are not its name (then the separator or the end), for a scalar those other than its name. On a new element this holds all the way down: a key has no effect unless every element it passes is concerned, down to a member of a List or a field the new mapping lacks.", "quantifier": "every schema, element state and pair sequence", "why_tests_cant": "adversarial form posts are unbounded", "anchors": ["flatland/schema/containers.py:Mapping._set_flat", "flatland/schema/containers.py:List._set_flat"]}
{"id": "C26", "title": "set_flat cannot grow a List beyond its ceiling", "statement": "If maximum_set_flat_members is nowhere negative, then after set_flat every List, however deeply nested, holds at most maximum_set_flat_members members, whatever indexes the data names and even when set_flat raises, provided the Lists that were already there did; new elements do.", "quantifier": "every pair sequence and configuration", "why_tests_cant": "denial of service protection must hold for all inputs", "anchors": ["flatland/schema/containers.py:List._set_flat", "flatland/schema/containers.py:List.maximum_set_flat_members"]}
{"id": "C27", "title": "Index semantics of List.set_flat", "statement": "With pruning, the members of a List are the distinct indexes that carry a value other than '', in increasing numeric order, compacted, up to maximum_set_flat_members; without pruning member i is built from exactly the data of index i and there are 1 + highest index members (capped). A member is a new one set, by set_flat, from exactly the pairs of its index, in their original order, without name, separator, digits and separator; an index without pairs leaves it new. The indexes are decimal numerals in any script and with leading zeros. When a member raises, the List keeps the members up to that one.", "quantifier": "every pair sequence", "why_tests_cant": "all sequences and index spellings", "anchors": ["flatland/schema/containers.py:List._set_flat"]}
{"id": "C28", "title": "set_flat does not depend on the order of a mapping's items", "statement": "For pairs with distinct keys (as from a dict) whose numbers are written the plain way (ASCII, no leading zeros) and which do not end in the separator or a newline, the result of set_flat, including any exception, is independent of iteration order.", "quantifier": "every schema of Dicts, Lists and scalars, every permutation of the pairs", "why_tests_cant": "all permutations; violated when two spellings of one index collide", "anchors": ["flatland/schema/base.py:Element.set_flat", "flatland/schema/containers.py:List._set_flat"]}
{"id": "C29", "title": "Flattened names are the path of names, and are distinct for unambiguous schemas", "statement": "flatten() emits the element itself, if it is flattenable, and then its flattenable descendants breadth first, each once, keyed by the separator-joined non-None names from the root to that element (with the index of each List member). In a tree whose names are not empty, do not contain the first character of the separator or end in a newline, whose fields are named and differ, and whose Arrays hold scalars, no two elements share a key except members of one Array (or JoinedString) among each other and with it. What is flattenable is a scalar, with its text, a Compound, with the text that compose makes of its children, and a JoinedString, with the texts of its members joined; the members of a JoinedString are not flattened by its own flatten(), but are by that of an element around it.", "quantifier": "every tree", "why_tests_cant": "arbitrary nesting", "anchors": ["flatland/schema/base.py:Element.flattened_name", "flatland/schema/base.py:Element.flatten"]}
{"id": "C30", "title": "Fully qualified names resolve to their element", "statement": "In a tree whose names on the way to e are non-empty texts free of the separator and which is reached through Dicts, forms and Lists, e.fq_name() is the separator followed by the names and decimal indexes from the root, and x.el(e.fq_name()) is e from any element x. el(path) goes from the root when path starts with the separator and from x otherwise, taking one key or (possibly negative) index at a time, through Arrays too; a missing key or index raises KeyError, a name under a scalar NotImplementedError, a None name under a sequence TypeError. Exclusions shown: an Array member's fq_name uses the member's own name and does not resolve, nor does a name containing the separator; the slot of a List member is named as the List.", "quantifier": "every tree and every element of it", "why_tests_cant": "arbitrary nesting", "anchors": ["flatland/schema/base.py:Element.fq_name", "flatland/schema/base.py:Element.el"]}
{"id": "C31", "title": "find() with escaped names addresses any element", "statement": "The path made of the escaped names and bracketed indexes leading to an element finds exactly that element, single or not, strict or not, from the root with a leading / and from any ancestor without, for any non-empty names whatever characters they contain, except that a name that is not last must not end in a backslash (shown to fail otherwise). Brackets that hold no number belong to the name they follow.", "quantifier": "every tree and every name", "why_tests_cant": "all strings as names", "anchors": ["flatland/schema/paths.py:tokenize", "flatland/schema/paths.py:PathExpression.__call__", "flatland/schema/base.py:Element.find"]}
{"id": "C32", "title": "Path canonicalisation does not change meaning", "statement": "A path of names, indexes, '.' and '..' whose steps exist finds exactly the element reached by taking the steps one at a time ('..' to the container, staying at the root), when it is absolute or no container above the starting element is a List or false. Paths without '.' and '..' are not rewritten. Exclusions shown: a missing name before '..' goes unnoticed even when strict; '..' from a List member gives its slot; '..' from a part of a false container stays; a slice followed by '..' is dropped.", "quantifier": "every token sequence and element", "why_tests_cant": "all sequences; differs for missing names and at sequence slots", "anchors": ["flatland/schema/paths.py:_canonicalize"]}
{"id": "C33", "title": "Path slices are Python slices", "statement": "A [start:stop:step] step selects exactly the children that Python slicing with those numbers selects, in that order, and the rest of the path is applied to each; [-k] selects the k-th child from the end or nothing; a missing name or index selects nothing. An explicit stop of 0 is shown to select as if there were no stop.", "quantifier": "every child list and all numbers", "why_tests_cant": "unbounded; violated for an explicit stop of 0", "anchors": ["flatland/schema/paths.py:_parse_slice", "flatland/schema/paths.py:PathExpression.__call__"]}
{"id": "C34", "title": "find() modes agree", "statement": "find always ends. With strict on, find either raises LookupError or returns exactly what it returns with strict off; single returns None, the only match, the first of several, or raises LookupError for several when strict. A list holds exactly the elements reached by following the path; it raises exactly when some branch meets a missing name or index and strict is on (LookupError), a name under an element that has no children (NotImplementedError), a slice step of 0 or a malformed number (ValueError).", "quantifier": "every path and tree", "why_tests_cant": "all paths", "anchors": ["flatland/schema/base.py:Element.find", "flatland/schema/paths.py:PathExpression.__call__"]}
{"id": "C35", "title": "The path cache is transparent", "statement": "As long as fewer than 1024 distinct paths have been looked up, or the path was kept, find returns what it returns with nothing looked up before. With the cache full a new path is shown to raise TypeError.", "quantifier": "every history of lookups", "why_tests_cant": "history dependent; violated after 1024 distinct paths", "anchors": ["flatland/schema/paths.py:pathexpr", "flatland/schema/paths.py:expression_cache"]}
{"id": "C36", "title": "Compound date agrees with its parts", "statement": "A DateYYYYMMDD has a date value exactly when its year, month and day children hold the numbers of a real calendar date, and then .u is that date as YYYY-MM-DD; otherwise .value is None and .u empty (an exception escapes only from int() of a child's value that is neither number nor text). So setting a child updates the whole. set() of a date, a datetime or a date's text returns True and reads back as that date, the default children holding its numbers zero-padded to 4, 2 and 2 digits. set() of anything else but None also returns True and empties all three children; set(None) returns False and changes nothing. Fields given to the schema replace year, month, day from the front, more than three being refused.", "quantifier": "every child state and date", "why_tests_cant": "all dates and partial states", "anchors": ["flatland/schema/compound.py:DateYYYYMMDD", "flatland/schema/compound.py:Compound"]}
{"id": "C37", "title": "Compound class initialisation runs once before any instance, under any thread interleaving", "statement": "Let initialisers neither delegate to an inherited one nor construct, directly or through other compounds, their own class. However many threads construct instances of Compound classes concurrently: initialisations never overlap except by proper nesting in one thread, each class is initialised successfully at most once and never begun again after that, no instance is built before the initialisation of its class completed, a failing initialisation raises in the constructing thread and is retried by the next construction, and there is no deadlock: every construction can run to its end, making the instance or raising. Keyword arguments naming class attributes make a fresh initialised subclass, the others reach the instance. (Both provisos are needed: each has a counterexample.)", "quantifier": "every number of threads and every interleaving", "why_tests_cant": "schedules are unbounded", "anchors": ["flatland/schema/compound.py:_MetaCompound.__call__", "flatland/schema/compound.py:_wrap_compound_init"]}
{"id": "C38", "title": "JoinedString joins and splits consistently", "statement": "Setting text on a JoinedString gives one member per piece between separators, cut leftmost first (or per piece of the regex splitter), setting other iterables one member per item; pruning drops falsy ones; the result says whether all members adapted. Not iterable: TypeError, empty separator: ValueError, nothing changed; a member that raises leaves the members before it. .value is the separator-join of the members' texts. Text made by joining at least one member splits back into the same members when their texts share no character with the separator and read back themselves, and are not empty under pruning. set_flat takes the first pair with the element's name. (Members merely not containing a longer separator may not split back; .value may change when set again.)", "quantifier": "every text and every member list", "why_tests_cant": "all strings", "anchors": ["flatland/schema/compound.py:JoinedString"]}
{"id": "C39", "title": "Property inheritance", "statement": "When every Properties object is declared on one class: reading a key of Class.properties yields the value from the nearest class of the MRO that mentions it, up to the declaring class, KeyError if the nearest mention is a deletion or there is none. An instance sees its own settings first, then its class, unless a dict was assigned to instance.properties, which then behaves as that dict alone. Lookup, get, membership, iteration (no key twice) and truth agree. Assignment, update, deletion, clear and class-level pop change what is shown exactly as on a dict with the same contents; setdefault on a class looks only at what that class itself says.", "quantifier": "every class hierarchy and every history of property operations", "why_tests_cant": "unbounded hierarchies and histories", "anchors": ["flatland/schema/properties.py:_TypeLookup", "flatland/schema/properties.py:_InstanceLookup", "flatland/schema/properties.py:Properties", "flatland/schema/properties.py:DictLike"]}
{"id": "C40", "title": "Property isolation", "statement": "An operation on the properties of a class never changes what is shown by a class it is not in the MRO of, by a class with another Properties object, by a class mentioning the key itself, or by instances of those. An operation on the properties of an instance, other than pop of a key the instance does not hold itself, never changes what any class or other instance shows. The exception is real: popping an inherited key through an instance deletes it from the class and so from all its instances.", "quantifier": "every operation and every bystander", "why_tests_cant": "frame property over histories; violated by instance pop of an inherited key", "anchors": ["flatland/schema/properties.py:_InstanceLookup.pop", "flatland/schema/properties.py:_TypeLookup"]}
{"id": "C41", "title": "Schema DSL never mutates the class it is called on", "statement": "named, using, validated_by, including_validators, their descent counterparts, with_properties, of, valued and to each return a new class: a direct subclass of the one called on, carrying exactly the requested change, everything else being inherited (a copied Form keeps one field per name, the first; __module__ is the caller's). using refuses unknown attributes, validated_by refuses classes, of refuses instances and duplicate names. including_validators splices at the requested position, by default the end. After any chain of such calls and class statements, refused ones included, every class that existed before, and the properties of every instance, look as they did.", "quantifier": "every class hierarchy and every chain of DSL calls", "why_tests_cant": "unbounded chains", "anchors": ["flatland/util/base.py:class_cloner", "flatland/schema/base.py:Element.named", "flatland/schema/base.py:Element.using", "flatland/schema/base.py:Element.including_validators"]}
{"id": "C42", "title": "Form field collection", "statement": "A Form class has exactly one field per name: the element class declared under that name in the class body (itself if so named, else a renamed copy), else the last of that name in the body's field_schema, else the first of that name found in the direct bases, taken in order. No inherited name is lost; fields declared in the body are no attributes of the class; every other attribute and the properties are found along the MRO. The winner is not always the one declared nearest in the MRO: in a diamond the field of the common ancestor hides the override of the second base. Bases that no common order fits are a TypeError and make no class.", "quantifier": "every bases list and every declaration", "why_tests_cant": "unbounded inheritance graphs", "anchors": ["flatland/schema/forms.py:_MetaForm", "flatland/schema/forms.py:_ElementCollection", "flatland/schema/containers.py:Dict.of"]}
{"id": "C43", "title": "Attribute and content escaping is injection-free and lossless", "statement": "Escaped attribute text contains no quote, '<' or '>' and every '&' starts a produced entity; decoding the entities gives the original text; likewise for element content and Element.x / Element.xa.", "quantifier": "every Unicode string", "why_tests_cant": "all strings, adversarial", "anchors": ["flatland/out/markup.py:_attribute_escape", "flatland/out/generic.py:_markup_escape", "flatland/schema/base.py:Element.x", "flatland/schema/base.py:Element.xa"]}
{"id": "C44", "title": "Rendered tags parse back to the attributes given", "statement": "An HTML-attribute parser applied to the opening tag recovers the tag name and exactly the attribute name/value pairs, each once, in the documented order, for attribute values of any text.", "quantifier": "every attribute mapping with well-formed names and any text values", "why_tests_cant": "all strings", "anchors": ["flatland/out/markup.py:Tag._open", "flatland/out/markup.py:Tag.__call__", "flatland/out/markup.py:_attribute_sort_key"]}
{"id": "C45", "title": "Markup settings are scoped", "statement": "For any properly nested sequence of begin/set/tag/end calls, end restores exactly the settings in force at the matching begin; end without begin raises and changes nothing; unknown settings raise, and a begin that raises leaves the generator unchanged.", "quantifier": "every call sequence", "why_tests_cant": "unbounded nesting", "anchors": ["flatland/out/generic.py:Context", "flatland/out/markup.py:Generator"]}
{"id": "C46", "title": "Automatic attributes never override explicit ones unless forced", "statement": "Each automatic transformation (name, value, id, for, tabindex) is applied exactly when its toggle is effectively on and either the attribute is absent on a supported tag or the toggle is forced on the tag; the control attributes themselves never reach the output. An automatic id or for= is the element's name in domid_format, which must hold exactly one %s (TypeError otherwise); a setting that is missing is a KeyError.", "quantifier": "every tag, attribute set, settings and element", "why_tests_cant": "all combinations", "anchors": ["flatland/out/generic.py:_pop_toggle", "flatland/out/generic.py:transform_name", "flatland/out/generic.py:transform_value", "flatland/out/generic.py:transform_domid", "flatland/out/generic.py:transform_for", "flatland/out/generic.py:transform_tabindex"]}
{"id": "C47", "title": "luhn10 is the Luhn check and catches single-digit errors", "statement": "luhn10(n) is True iff the Luhn sum of n's decimal digits is a multiple of 10; changing any one digit of an accepted number makes it rejected.", "quantifier": "every natural number", "why_tests_cant": "infinitely many numbers; does not terminate for negatives", "anchors": ["flatland/util/base.py:luhn10", "flatland/validation/number.py:Luhn10"]}
{"id": "C48", "title": "Named symbols are process-wide singletons under threads", "statement": "Calls symbol(name) from any number of threads in any interleaving return the same object for the same name and different objects for different names.", "quantifier": "every interleaving", "why_tests_cant": "schedules", "anchors": ["flatland/util/base.py:symbol"]}
{"id": "C49", "title": "Length and range validators draw their boundary exactly where documented", "statement": "ShorterThan, LongerThan, LengthBetween, ValueLessThan, ValueAtMost, ValueGreaterThan, ValueAtLeast, ValueBetween, HasAtLeast, HasAtMost and HasBetween pass exactly on the documented interval (HasAtMost also passes every empty sequence), and when failing return False and record exactly the documented message, once. Values without an order between them (such as the None of a failed adaptation) raise TypeError; HasBetween refuses bounds other than 0 <= minimum <= maximum at construction.", "quantifier": "every bound, every value of the ordered types, every sequence, label and earlier errors, without translation or state", "why_tests_cant": "all integers", "anchors": ["flatland/validation/scalars.py", "flatland/validation/containers.py"]}
{"id": "C50", "title": "NotDuplicated marks exactly the repeats", "statement": "Applied to each member of a sequence, NotDuplicated passes a member iff no earlier member compares equal to it, and otherwise records its message with the member's position and the container's label; an element without a container raises TypeError.", "quantifier": "every sequence and every comparator that returns", "why_tests_cant": "all sequences", "anchors": ["flatland/validation/containers.py:NotDuplicated"]}
{"id": "C51", "title": "Phone normalisation", "statement": "NANPphone accepts text with exactly ten digits (or more, when extensions are stripped) and sets the element to (ddd) ddd-dddd with its first ten digits; normalising the result again changes nothing. Text with fewer digits, or more when no extension is allowed, fails with the documented message and leaves the element as it was. Digits other than ASCII are counted after dropping leading zeros, keeping extensions raises TypeError, and so does a value that is not text.", "quantifier": "every element state and string", "why_tests_cant": "all strings; the extension mode always raises", "anchors": ["flatland/validation/string.py:NANPphone"]}
{"id": "C52", "title": "Email decision", "statement": "IsEmail accepts an address iff it has exactly one '@', a local part with a non-whitespace character, and a domain whose IDNA form is at most 253 long, made of non-empty [A-Za-z0-9-] labels shorter than 64 characters, at least two of them when non_local. A newline after the domain is accepted too. Otherwise it returns False and records its message.", "quantifier": "every string and every IDNA encoder that raises nothing but UnicodeError", "why_tests_cant": "all strings", "anchors": ["flatland/validation/network.py:IsEmail"]}
{"id": "C53", "title": "Credit card numbers", "statement": "The displayed text of a card number consists of its digits in the documented groups and parses back to the same number exactly when it has thirteen or at least fifteen digits. Text is read iff it is at least fifteen characters of digits, blanks and hyphens. Type recognition matches the issuer prefixes and lengths (Visa: sixteen digits). Validating passes exactly numbers whose check digit is right and whose type is accepted; a blank, unreadable or mistyped number records exactly one message, and a good number of another type raises TypeError.", "quantifier": "every number, text and element state", "why_tests_cant": "all numbers; violated for short numbers and 13-digit Visa", "anchors": ["flatland/ext/creditcard.py:CreditCardNumber", "flatland/ext/creditcard.py:_card_type"]}
{"id": "C54", "title": "Maybe is Kleene's third truth value", "statement": "Combining True, False and Maybe with & and | gives the minimum and maximum in the order False < Maybe < True, Maybe.not_ reverses that order, Maybe.truth is False only for False, and any other operand is refused with TypeError.", "quantifier": "every pair of operands", "why_tests_cant": "the algebraic characterisation (min/max lattice) is a law, not a sample", "anchors": ["flatland/util/base.py:Maybe"]}
{"id": "C55", "title": "re_uescape produces a pattern that matches exactly the given text", "statement": "The escaped text contains no active regular expression syntax: read as a pattern it is a pure literal denoting exactly the original text.", "quantifier": "every Unicode string, including NUL and backslashes", "why_tests_cant": "all strings", "anchors": ["flatland/util/base.py:re_uescape"]}
{"id": "C56", "title": "Open tags are found again until closed", "statement": "A generator's tag method returns the innermost tag of that name that is open, or a fresh tag with the right flags when none is; opening makes the tag the one found, opening twice is the same as once, closing after opening restores the previous state exactly, closing a tag that is not open changes nothing, and tags of different names never interfere.", "quantifier": "every state of open tags, every tag and name", "why_tests_cant": "the open tags form an unbounded stack per name", "anchors": ["flatland/out/markup.py:Generator._tag", "flatland/out/markup.py:Tag.open", "flatland/out/markup.py:Tag.close"]}
{"id": "C57", "title": "Generator.tag(name) is equivalent to the named method", "statement": "Calling generator.tag(name, ...) gives the same output and the same state as calling the method of that name. The one exception, where they always differ, is empty contents of form, textarea, select and option in XML and of input in HTML.", "quantifier": "every named tag, arguments, bound element, settings and filters", "why_tests_cant": "holds exactly on a subset of tags and contents, which a sample cannot delimit", "anchors": ["flatland/out/markup.py:Generator.tag", "flatland/out/markup.py:Tag.__call__"]}
{"id": "C58", "title": "Emptiness and truth of scalars", "statement": "A scalar element is true exactly when .u is not empty and .value is true. is_empty is True exactly when .u is empty and .value is None (for String: false). After set(v): a String is empty iff v is None or consists of outer whitespace only (strip on) and is true otherwise; an Integer, Date, Time or DateTime is empty iff v is None or text-less and refused.", "quantifier": "every scalar state; every value set", "why_tests_cant": "infinitely many values", "anchors": ["flatland/schema/scalars.py:Scalar.__bool__", "flatland/schema/scalars.py:String.is_empty", "flatland/schema/base.py:Element.is_empty"]}
{"id": "C59", "title": "Scalars read flat data, defaults and constructor values through set", "statement": "set_flat on a scalar has exactly the effect of set with the value of the first pair whose key equals the element's name; without such a pair (always, for a nameless element) .value and .u are untouched and raw becomes Unset. set_default is set(default), or nothing when the default is unspecified. Constructing with a value is set on a blank element.", "quantifier": "every scalar type, every list of pairs, every previous state", "why_tests_cant": "infinitely many inputs", "anchors": ["flatland/schema/scalars.py:Scalar._set_flat", "flatland/schema/scalars.py:Scalar.set_default", "flatland/schema/base.py:Element.set_flat", "flatland/schema/base.py:Element.__init__"]}
{"id": "C60", "title": "Mapping set_flat routes each pair to the fields it names", "statement": "set_flat on a Dict or SparseDict calls set_flat once on each field, in schema order, with exactly the pairs whose key starts with the mapping's own name and separator followed by the field's name, stripped of the mapping's prefix and in their original order; a field with no such pairs is not touched, a missing SparseDict field is created when it has some, and nothing outside the schema changes.", "quantifier": "every schema with text names, every mapping state and every sequence of text-keyed pairs", "why_tests_cant": "all key sequences, including overlapping prefixes", "anchors": ["flatland/schema/containers.py:Mapping._set_flat"]}
{"id": "C61", "title": "Mapping defaults", "statement": "set_default on a Dict without its own default gives every field its default in place; with a default it is set(default). On a SparseDict it empties it, or with minimum_fields='required' leaves exactly the required fields each holding its own default; any other minimum_fields raises RuntimeError and changes nothing.", "quantifier": "every schema, state and default", "why_tests_cant": "all schemas and raising fields", "anchors": ["flatland/schema/containers.py:Mapping.set_default", "flatland/schema/containers.py:SparseDict.set_default"]}
{"id": "C62", "title": "SparseDict calls", "statement": "Assigning an element of the field's schema stores that element; any other value sets the present member in place or creates one, and a value that raises leaves the mapping unchanged when the key was absent; unknown keys raise TypeError. Deleting or popping a present key removes exactly it, unless it is required (TypeError); absent keys raise KeyError, or TypeError when unknown or required and deleted. setdefault returns the value of a non-empty member untouched and otherwise sets it. clear restores the required fields blank, popitem raises NotImplementedError, may_contain is membership in the schema, is_empty is having no keys.", "quantifier": "every schema and SparseDict state, every key and value", "why_tests_cant": "all states and values", "anchors": ["flatland/schema/containers.py:SparseDict.__setitem__", "flatland/schema/containers.py:SparseDict.__delitem__", "flatland/schema/containers.py:SparseDict.pop", "flatland/schema/containers.py:SparseDict.setdefault", "flatland/schema/containers.py:SparseDict.clear"]}
{"id": "C63", "title": "Tree traversal", "statement": "The parents of an element are its parent followed by the parents of that; path is the elements from the root down to it; root is the first of path. all_children lists the children, then the grandchildren, and so on (breadth first, left to right), each descendant exactly once, and nothing else, and always ends. A Dict, SparseDict, List or Array is true exactly when it has a member; a Compound when its text is not blank and its value is true; a JoinedString when its text is not blank.", "quantifier": "every tree and element", "why_tests_cant": "arbitrary nesting", "anchors": ["flatland/schema/base.py:Element.all_children", "flatland/schema/base.py:Element.parents", "flatland/schema/base.py:Element.path", "flatland/schema/base.py:Element.root"]}
{"id": "C64", "title": "What set_flat gives each kind of element", "statement": "set_flat on a scalar or JoinedString is set with the value of the first pair of its name, or nothing but unsetting raw. A Compound is set as the mapping of its children: the pair with its own name has no effect. On a mapping it calls set_flat once on each field with exactly the pairs below its own name that start with the field's name, creating the field if it is not there; fields without pairs and everything else stay as they are; at the first field that raises the rest stay as they are. On an Array of scalars it replaces the members by one for each pair keyed by the Array's name (and the members' name, if any), in order, except blank ones when pruning; a pair with another name below that of an Array of named members adds a blank member. On an Array of containers it empties it and raises AssertionError.", "quantifier": "every element state and sequence of text-keyed pairs", "why_tests_cant": "infinitely many inputs", "anchors": ["flatland/schema/scalars.py:Scalar._set_flat", "flatland/schema/containers.py:Mapping._set_flat", "flatland/schema/containers.py:Array._set_flat"]}
{"id": "C65", "title": "Fields of messages are found in the first object that has them", "statement": "A message is its template with each %(name)s replaced by the text of the first object that has that item or attribute, asking the keyword arguments, the state, the validator and the element in that order, translated when a translation function is in force; a name none of them has raises KeyError, and any other exception raised by a lookup passes through.", "quantifier": "every template, every set of objects, every translation function", "why_tests_cant": "all templates and lookups", "anchors": ["flatland/validation/base.py:Validator.expand_message", "flatland/validation/base.py:as_format_mapping", "flatland/validation/base.py:Validator.find_transformer"]}
{"id": "C66", "title": "Translation and plural forms", "statement": "The translation function used is the attribute of that name of the state, else the item of the state, else that of the nearest ancestor of the element that has one, else the builtin. A plural message uses the singular exactly when the count equals 1, through ungettext when there is one; a callable message is called and its result expanded.", "quantifier": "every combination of places a function may be defined in, every count", "why_tests_cant": "all combinations of present, absent and raising lookups", "anchors": ["flatland/validation/base.py:Validator.find_transformer", "flatland/validation/base.py:Validator.expand_message"]}
{"id": "C67", "title": "Recording messages", "statement": "note_error and note_warning return False and add the expansion of the given message, or else of the attribute named by the key, at the end of the element's list unless it is already there; an empty message adds nothing; if the expansion raises the list is unchanged. Constructing a validator with keywords overrides exactly these attributes, and an unknown keyword raises TypeError.", "quantifier": "every validator, message, element and list of earlier messages", "why_tests_cant": "all messages and lists", "anchors": ["flatland/validation/base.py:Validator.note_error", "flatland/validation/base.py:Validator.note_warning", "flatland/validation/base.py:Validator.__init__", "flatland/schema/base.py:Element.add_error"]}
{"id": "C68", "title": "Simple validators", "statement": "Present passes iff .u is not empty, IsTrue iff the value is true, IsFalse iff it is not, ValueIn iff the value equals one of the options, Converted iff the value is not None, Luhn10 iff the check digit is right; each returns False and records exactly its documented message otherwise. NANPnxx passes iff the number is at least 200 and not blocked. NANPnpa_nxx raises for every element.", "quantifier": "every value, label and list of earlier errors, without translation or state", "why_tests_cant": "infinitely many values", "anchors": ["flatland/validation/scalars.py:Present", "flatland/validation/scalars.py:ValueIn", "flatland/validation/scalars.py:Converted", "flatland/validation/scalars.py:IsTrue", "flatland/validation/number.py:Luhn10", "flatland/validation/number.py:NANPnxx"]}
{"id": "C69", "title": "Equal fields", "statement": "ValuesEqual and UnisEqual pass iff the values (texts) of all named fields equal the first one's, and record one message naming all labels otherwise; MapEqual compares the results of its transform; exceptions of lookups and of the transform pass through; construction needs at least two paths. MapEqual without a transform raises TypeError.", "quantifier": "every number of fields, values and transforms", "why_tests_cant": "all lists of fields", "anchors": ["flatland/validation/scalars.py:MapEqual", "flatland/validation/scalars.py:ValuesEqual", "flatland/validation/scalars.py:UnisEqual"]}
{"id": "C70", "title": "URL validators", "statement": "URLValidator accepts iff the parsed URL has a scheme, an allowed one, and all parts that are not allowed are empty. HTTPURLValidator accepts None and every URL each of whose parts is there when required and absent (or not one of the listed) when forbidden, and reports the first part that is not; by default it asks for a hostname and no user or password. URLCanonicalizer sets the value to the URL with exactly the listed parts emptied and leaves .u alone. Failures return False and record exactly one message.", "quantifier": "every URL parser result, every setting", "why_tests_cant": "all URLs and settings", "anchors": ["flatland/validation/network.py:URLValidator", "flatland/validation/network.py:HTTPURLValidator", "flatland/validation/network.py:URLCanonicalizer"]}
{"id": "C71", "title": "An element can be set to its own value", "statement": "For every schema of Dicts, SparseDicts (strict ones holding all their fields from the start), Lists and Arrays of the library's scalars that accept None (numbers of any type that keeps its own numbers), nested to any depth: after a set that returned True (and for a new element), setting any element of the schema to .value returns True and gives an element with the same values, texts and members. What an element held before a successful or refused set does not matter. Exceptions: an unset Boolean holds None but set(None) makes it False, an unset Enum refuses its own value None, and a MultiValue's value is that of its first member only.", "quantifier": "every schema, to any depth, and every data structure", "why_tests_cant": "unbounded nesting, all values", "anchors": ["flatland/schema/containers.py:Mapping.set", "flatland/schema/containers.py:Sequence.set", "flatland/schema/containers.py:Container.value", "flatland/schema/scalars.py:Scalar.set"]}
{"id": "C72", "title": "Equality of elements", "statement": "Elements are equal iff their values are equal and their texts are equal; == is reflexive, symmetric and transitive, != is its opposite, and no element equals a non-element. Lists and Arrays are equal iff their members are equal one by one, mappings iff their items are, in the same order; a scalar, a mapping and a sequence are never equal. So two SparseDicts filled in different orders are unequal though their values are equal; and inside containers the text of a String that keeps white space differs from an equal text of another scalar.", "quantifier": "every two elements of any nesting without MultiValues (for the member-wise part)", "why_tests_cant": "all pairs of nested elements", "anchors": ["flatland/schema/containers.py:Container.u", "flatland/schema/base.py:Element.__eq__", "flatland/schema/scalars.py:Scalar.__eq__"]}
{"id": "C73", "title": "The text of containers", "statement": "Two containers have the same .u iff they have the same names, positions and texts of scalars all the way down: the text of a container is unambiguous, whatever quotes, backslashes or control characters the members hold. It is the Python literal of a dict or list of them: every name and text is u (twice for the text of a String as its serialize() makes it; a missing name is uNone) and a string literal that Python reads back as that text, in double quotes only when that saves escaping, ordinary characters standing for themselves. (The text of a MultiValue is that of its first member.)", "quantifier": "every two nested containers without MultiValues, every set of printable characters", "why_tests_cant": "unbounded texts and nesting", "anchors": ["flatland/schema/containers.py:Mapping.u", "flatland/schema/containers.py:Sequence.u"]}
{"id": "C74", "title": "MultiValue as a scalar; truth and emptiness of containers", "statement": "A MultiValue has the value, text and equality of its first member, None and '' without members. Assigning .value or .u changes only that attribute of the first member, and appends a member set to None first when there is none. A sequence is empty iff it has no members; a Dict never is; a SparseDict is iff it has no members; containers are true iff they have members, scalars iff both text and value are true.", "quantifier": "every list of members, every assigned value", "why_tests_cant": "all members and values", "anchors": ["flatland/schema/containers.py:MultiValue.u", "flatland/schema/containers.py:MultiValue.value", "flatland/schema/base.py:Element.is_empty"]}
{"id": "C75", "title": "What set does to nested members", "statement": "Dict.set(data) starts from new members, sets the field of each pair in order up to the first exception and returns whether all sets did (the last pair for a name wins); unknown names raise KeyError unless the policy is 'duck', and a strict mapping raises TypeError when a field is missing. A list of pairs acts as the dict; a faulty pair raises when it is reached. Sequence.set makes one new member per item in order; a TypeError anywhere gives an empty sequence and False, any other exception propagates and leaves it empty. Values that are not iterable raise TypeError for mappings and return False for sequences; a text is set as its characters and a dict as its keys. This holds at every depth.", "quantifier": "every nested schema and every data structure of dicts, lists, texts and values", "why_tests_cant": "unbounded nesting and data", "anchors": ["flatland/schema/containers.py:Mapping.set", "flatland/schema/containers.py:SparseDict._reset", "flatland/schema/containers.py:List.set", "flatland/schema/containers.py:Array.set"]}
{"id": "C76", "title": "References read and write through", "statement": "A Ref has the value and text of the element its path leads to, through any chain of Refs. Setting it returns what the target's own set would; if every Ref on the way is writable the target's value and text become those of its own set (raw is kept by the Ref, not the target), if the first one that is not passes over in silence ('ignore', the default) nothing else changes, and if it forbids writing TypeError is raised. A path that fails raises its exception and is tried again next time; circular references raise RuntimeError; targets without adapt raise AttributeError. The target is looked up once: a Ref stays with the element it found first even when the tree changes.", "quantifier": "every heap of elements, every chain of references of any length, every value", "why_tests_cant": "unbounded chains and all values", "anchors": ["flatland/schema/scalars.py:Ref", "flatland/schema/scalars.py:Scalar.set", "flatland/util/base.py:lazy_property"]}
{"id": "C77", "title": "Computed attributes", "statement": "After any history of reads, assignments and deletions an assignable property reads as what was last assigned and not deleted since, else as computed anew; the function is called exactly on the reads that find nothing assigned. A lazy property calls its function on the first read only, keeps the result until deleted, and keeps nothing when the function raises. Methods of the schema DSL are invisible on instances unless assigned there. Deleting what was not assigned raises AttributeError; other attributes never change. (A lazy property bound to another name than its function's is computed every time.)", "quantifier": "every history of any length, functions that answer differently every time", "why_tests_cant": "unbounded histories", "anchors": ["flatland/util/base.py:assignable_property", "flatland/util/base.py:assignable_class_property", "flatland/util/base.py:lazy_property", "flatland/util/base.py:class_cloner"]}
{"id": "C78", "title": "Labels, default values and attribute views", "statement": "An element's label is the one assigned to it, else the one of the nearest class that has one, else the element's own name, else the class's; the label of a class likewise. A default factory takes precedence over the default. as_mapping(x) has item k iff x has attribute k, and gives its value, KeyError in place of AttributeError, and other exceptions unchanged. adict gives dict's own attributes, else its items, else AttributeError (so a key named like a method of dict cannot be read as an attribute).", "quantifier": "every class hierarchy, attribute lookup and key", "why_tests_cant": "all hierarchies and keys", "anchors": ["flatland/schema/base.py:Element.label", "flatland/schema/base.py:Element.default_value", "flatland/util/base.py:as_mapping", "flatland/util/base.py:adict"]}
{"id": "C79", "title": "Modules loaded on first access", "statement": "Whatever was read before, reading an attribute of a deferred module gives what it was created with, else the member of the last submodule that lists it, else the submodule of that name, else AttributeError. A submodule is loaded only when it or one of its members is read, and never again once loaded. dir() is sorted, without repetition, and lists exactly the submodules, members and attributes other than internal ones. This needs no submodule to be listed as a member, as in flatland's own two modules; otherwise the recursion limit is met.", "quantifier": "every table of submodules, every history of reads, any results of imports", "why_tests_cant": "unbounded histories and tables", "anchors": ["flatland/util/deferred.py:deferred_module", "flatland/__init__.py", "flatland/util/__init__.py"]}
{"id": "C80", "title": "Genshi: the tag that is rewritten", "statement": "A tag with form:bind or control attributes keeps its name, its namespaced attributes and their values. Its other attributes are given to the transformer together with the control attributes (an attribute written on the tag wins over a control attribute of the same name); afterwards exactly the attributes the transformer leaves have their place or, when new, follow in the fixed order, and those it removed are gone. The contents given are None for an empty tag, the text for contents that are all text, else the events; what comes back replaces them unless it is None. Nothing else of the settings changes than what the transformer changes. Directives other than control attributes in that place raise AttributeError. (So filters cannot clear contents, and contents that are one piece of markup come out as text.)", "quantifier": "every tag, attribute list, contents, control attributes, bound element and filters that leave attribute names unrepeated", "why_tests_cant": "all tags, attributes, contents and filters", "anchors": ["flatland/out/genshi.py:_rewrite_stream", "flatland/out/genshi.py:ControlAttribute.inject", "flatland/out/genshi.py:_attribute_sort_key"]}
{"id": "C81", "title": "Genshi: options of a bound select", "statement": "When a select is bound, every option tag in its contents, at any depth and also inside other directives, is bound to the same element, except those that have a form:bind of their own, which are left as they are with all that is in them; nothing else changes, no event is lost or reordered, and doing it twice changes nothing. It fails only for an option that is never closed. (An option with control attributes but without form:bind makes the rendering fail with ValueError, and options that an expression yields after the first tag stay unbound.)", "quantifier": "every stream of events of any nesting, every element", "why_tests_cant": "unbounded nesting of events and directives", "anchors": ["flatland/out/genshi.py:_bind_unbound_tags"]}
{"id": "C82", "title": "Genshi: order of directives, rendering in sequence", "statement": "Genshi's own directives are applied outside ours, keeping their order; among ours the first is called with the others. Rendering a stream renders its parts one after another, each with the settings the one before left; expressions come out as text, iterators as what they yield. A bound or controlled tag is rewritten first, and what comes out is rendered in its place. Rendering always ends, with a stream or an exception, as long as the filters do: options wrapped for a bound select are not wrapped again. The result is unique.", "quantifier": "every stream of events of any nesting, every evaluation and filters", "why_tests_cant": "unbounded nesting and all combinations of directives", "anchors": ["flatland/out/genshi.py:EvaluatedLast.__call__", "flatland/out/genshi.py:Binding.process", "flatland/out/genshi.py:ControlAttribute.process"]}
{"id": "C83", "title": "Genshi: form:with and form:set", "statement": "form:with evaluates its filters, pushes its settings over the current ones, renders its contents and restores the settings as they were; form:set changes the current settings, which stay for what follows up to the end of the enclosing form:with. Rendering any stream leaves the enclosing settings, all but the innermost, as they were. Unknown settings raise KeyError, a tabindex that is no integer ValueError when the template is made, and other directives on the same tag fail. (After an error the settings of form:with stay; form:set does not evaluate filters.)", "quantifier": "every stream of events, every nesting of form:with and form:set, all settings", "why_tests_cant": "unbounded nesting and histories", "anchors": ["flatland/out/genshi.py:With.process", "flatland/out/genshi.py:Set.process", "flatland/out/genshi.py:RenderContextManipulator.__init__"]}
{"id": "C84", "title": "Genshi: text of streams", "statement": "Streams of text, expressions and iterators of such give their text in order; any other stream gives a list of events that yields the same text and other events in the same order, iterators spelled out or not. The only failure is TypeError, and only for streams with an iterator that yields a single event that is no text.", "quantifier": "every stream of any nesting", "why_tests_cant": "unbounded nesting of iterators", "anchors": ["flatland/out/genshi.py:_simplify_stream"]}
{"id": "C85", "title": "Genshi: what a template shows", "statement": "If the filters leave contents alone and there is no textarea, rendering changes nothing but attributes: tags, texts and other events come out complete and in order.", "quantifier": "every stream of events of any nesting, every settings and bound elements", "why_tests_cant": "unbounded nesting and all combinations of directives", "anchors": ["flatland/out/genshi.py:_rewrite_stream", "flatland/out/genshi.py:_bind_unbound_tags"]}
{"id": "C86", "title": "Float elements", "statement": "A Float takes exactly the texts that, without outer white space, are a decimal numeral in digits of any script with at most one point, an optional sign and an optional exponent, or inf, infinity or nan in any case; integers, floats and decimals. Its value is the float nearest to the number (ties to even; past the largest float infinity, for an int a refusal), its text that value with six places, correctly rounded. An unsigned Float refuses exactly values below zero, so takes -0 and nan. None gives no value and the text ''; anything else is refused: set() is False, there is no value, and the text is what was set. Setting the text of a Float again is accepted and gives the same text, a value at most 10^-6 away, and the same value if that is a whole number of millionths. (Otherwise the value may change.) Setting a Float to its own value gives the same value and text.", "quantifier": "every text, integer, float, decimal and other object, signed or not, in any state", "why_tests_cant": "all real numbers, all texts, rounding at every boundary", "anchors": ["flatland/schema/scalars.py:Number.adapt", "flatland/schema/scalars.py:Number.serialize", "flatland/schema/scalars.py:Float", "flatland/schema/scalars.py:Scalar.set"]}
{"id": "C87", "title": "Decimal elements", "statement": "A Decimal takes exactly the texts a Float takes, also signaling NaN and NaN with digits, with the exact value and exponent written; integers and floats are taken exactly (floats with the fewest places). Its text is the float nearest to that value with six places. An unsigned Decimal refuses exactly values below zero. Setting the text again is accepted and gives the same text, and the value that text spells. What is refused leaves no value and the text that was set. Two kinds of values make set() itself fail: signaling NaN, with ValueError, the new value and the text before; and, for an unsigned Decimal, any NaN, with InvalidOperation, value and text as before. (The text can differ from the value before the point already, from 2^53 on.) Setting a Decimal to its own value gives the same value and text.", "quantifier": "every text, integer, float, decimal and other object, signed or not, in any state", "why_tests_cant": "all decimals, all texts, rounding at every boundary", "anchors": ["flatland/schema/scalars.py:Number.adapt", "flatland/schema/scalars.py:Number.serialize", "flatland/schema/scalars.py:Decimal", "flatland/schema/scalars.py:Scalar.set"]}
{"id": "C88", "title": "Validators that raise", "statement": "validate() does not catch the exceptions of validators, whether it recurses or not. Up to the exception everything happens as if the validator had returned instead: the same elements evaluated in the same order, the same validators called with the same effects, the same notifications. After it nothing is called and no signal sent; the elements evaluated so far keep the markings of their evaluations, the element in question and all others the markings they had before. Where no validator raises, the outcome is that of validate() as described before; the only other exception is the TypeError for a false object that is no number, right after its element was marked invalid.", "quantifier": "every graph of elements, every set of validators, raising anything at any call, any state", "why_tests_cant": "all graphs, all points at which an exception may occur", "anchors": ["flatland/schema/base.py:Element.validate", "flatland/schema/base.py:Element._validate", "flatland/schema/base.py:validate_element", "flatland/schema/containers.py:Container._validate"]}
{"id": "C89", "title": "Sequences as their own argument", "statement": "extend() of a List or Array with itself returns only if it is empty; otherwise it appends its members over and over, in order, without end. set() of a sequence to itself empties it and returns True: the members are gone before they are read. Assigning a sequence to a slice of itself acts as for Python lists, its members counted where they stand, also the ValueError for extended slices, and slots stay named by position; a whole slice keeps the members and their back references (a failed assignment does not keep those). set() given elements sets each new member to an element, not to its value. reversed(), copy(), + and * of a List, not overridden, hand out the hidden slots, none of which is a member, in the order of the members.", "quantifier": "every member schema, every List and Array, every slice, any number of steps", "why_tests_cant": "non-termination, all slices, identity of members", "anchors": ["flatland/schema/containers.py:Sequence.extend", "flatland/schema/containers.py:Sequence.set", "flatland/schema/containers.py:Sequence.__setitem__", "flatland/schema/containers.py:List.extend", "flatland/schema/containers.py:List.__setitem__", "flatland/schema/containers.py:List.__iter__"]}
{"id": "C90", "title": "Mappings as their own argument", "statement": "set() of a Dict to itself does not keep its values: every field gets a blank member which is set to itself, and the answer is True when all those were accepted. Of a SparseDict, the same happens to the required members if there are as many of these as it had members, otherwise RuntimeError leaves blank required members only. Strict policies, members that raise and unknown policies act as in any set(). update() of a Dict with itself sets each member to itself, stopping at the first that raises; of a SparseDict it changes nothing. Keys, classes and back references stay those of the schema.", "quantifier": "every schema with distinct names, all member classes, every reachable mapping, every policy", "why_tests_cant": "all schemas and member classes, aliasing of arguments", "anchors": ["flatland/schema/containers.py:Dict.set", "flatland/schema/containers.py:Mapping.update", "flatland/schema/containers.py:SparseDict._reset", "flatland/util/base.py:to_pairs"]}
{"id": "C91", "title": "Validators and receivers that assign .valid", "statement": "Whatever validators and receivers do, assign .valid of any element, change children or raise: each element that is visited is evaluated once on the way down, breadth first over the children it has then, and once on the way up in reverse order; every outcome on the way down is assigned to .valid, over whatever was there; on the way up a verdict is assigned exactly if .valid is true at that moment; validate() returns True exactly if it never assigned False itself. So the failure of an element that some other validator has marked invalid after its descent is not counted: validate() can return True although a validator failed and an element is marked invalid. With recurse=False the verdict on the way up is always assigned, and what .valid is then is returned. An exception of a validator or receiver ends validate() with nothing called or assigned after it. An element that only validate() assigns ends with the marking of its two evaluations. With validators that assign nothing everything is as described before. validate() ends when the elements that ever are children are finitely many.", "quantifier": "every graph of elements, arbitrary validators and receivers over an arbitrary state that includes .valid of all elements", "why_tests_cant": "arbitrary side effects of user code, all graphs and orders", "anchors": ["flatland/schema/base.py:Element.validate", "flatland/schema/base.py:Element._validate", "flatland/schema/base.py:validate_element", "flatland/schema/containers.py:Container._validate"]}
{"id": "C92", "title": "Compounds with their own compose and explode", "statement": "The text and value of a Compound are what its compose() gives for the children as they are now; what compose() raises passes to the reader. Assigning .value or .u calls explode(), whose result is dropped and whose exceptions pass. set() calls explode() and returns True if that returned None, else what it returned; any exception but NotImplementedError becomes False and NotImplementedError passes, the children keeping what explode() did to them. A new Compound has blank children and is then set to the value given, if any; without fields it raises TypeError. It is true exactly if text and value are; empty exactly if every child is. repr() never raises: it shows the value, or the exception in the way. set_default() sets the Compound's own default, else those of the children in turn. Compound itself raises NotImplementedError for reading, setting and assigning, and serialize() raises TypeError. DateYYYYMMDD is such a Compound.", "quantifier": "every compose and explode, every list of scalar children in any state, every value", "why_tests_cant": "arbitrary user code and states", "anchors": ["flatland/schema/compound.py:Compound.set", "flatland/schema/compound.py:Compound.u", "flatland/schema/compound.py:Compound.value", "flatland/schema/compound.py:Compound.__repr__", "flatland/schema/compound.py:Compound.is_empty", "flatland/schema/compound.py:Compound.serialize", "flatland/schema/scalars.py:Scalar.__bool__", "flatland/schema/containers.py:Mapping.set_default", "flatland/schema/containers.py:Mapping.__init__"]}
{"id": "C93", "title": "Flattening Compounds", "statement": "flatten() of a Compound gives its own key with its text, then the key of every child with the child's text, in order; what compose() raises passes. set_flat() sets each child in turn from the first pair that has exactly the child's key, stopping at one that raises; a child for which only longer keys exist just forgets its raw value and the others are untouched. The pair of the Compound's own key has no effect, wherever it stands. When every child reads its own text back, from_flat(flatten()) gives children with the same values and texts, and the same text and value if compose() looks at nothing else. A DateYYYYMMDD set to a date and sent through flatten() and from_flat() holds that date.", "quantifier": "every compose and explode, every list of scalar children with distinct names, every name and separator, every sequence of text-keyed pairs", "why_tests_cant": "all states, keys and separators", "anchors": ["flatland/schema/compound.py:Compound._set_flat", "flatland/schema/base.py:Element.flatten", "flatland/schema/base.py:Element.set_flat", "flatland/schema/containers.py:Mapping._set_flat", "flatland/schema/compound.py:DateYYYYMMDD.compose", "flatland/schema/compound.py:DateYYYYMMDD.explode"]}
{"id": "C94", "title": "The halves of a tag and the whole", "statement": "tag.open() and calling the tag with the same arguments in the same situation raise the same exception or render the same: the call returns the text of open(), then tag.contents, then the text of close(); only when there are no contents and the tag is not one that is always paired does the call return the opening half closed by ' />' (XML) or just the opening half (HTML, tags that may stand alone). Both leave the same settings behind and a call opens and closes nothing. open() followed by close() of a tag that was not open leaves open what was open. Over any program, settings and texts are those of the same program without tag objects. An open() that raises still counts: the tag is then open.", "quantifier": "every generator, tag, keyword arguments, bound element, filters, and every program of tag operations", "why_tests_cant": "all settings, attributes, filters and programs", "anchors": ["flatland/out/markup.py:Tag.open", "flatland/out/markup.py:Tag.close", "flatland/out/markup.py:Tag._open", "flatland/out/markup.py:Tag._close", "flatland/out/markup.py:Tag.__call__", "flatland/out/markup.py:Tag.__html__"]}
{"id": "C95", "title": "What a tag remembers", "statement": "tag.contents of a tag is None until it is first rendered. Each open(), each call and each generator.tag(name, ...) that renders the tag makes it what the transforms of that rendering left as contents, as text, or the empty text if they left nothing, even when rendering the attributes raises afterwards; if the transforms raise it keeps what it was. Nothing else changes it: not other tags, not close(), begin(), end() or set(). A text given to an unbound tag is its contents when nothing automatic applies.", "quantifier": "every generator, tag, operation and argument", "why_tests_cant": "all sequences of operations on several tags", "anchors": ["flatland/out/markup.py:Tag.__init__", "flatland/out/markup.py:Tag._open", "flatland/out/markup.py:Tag.__call__", "flatland/out/markup.py:Generator.tag"]}
{"id": "C96", "title": "Which tag a generator returns", "statement": "After any program, generator.<name> returns the tag of that name that is open and was opened last, counting for each tag its first open() since its last close(); if no tag of that name is open, a tag that none of the tags returned before is, with the requested flags and no contents. Repeated open() of an open tag does not move it inward; closing a tag makes the one around it current again whatever the order of closing; tags of other names do not matter. generator.tag(name) is the same for the lower case name; with arguments it calls the tag found.", "quantifier": "every generator, every program of tag operations on any number of tags", "why_tests_cant": "all interleavings of open and close", "anchors": ["flatland/out/markup.py:Generator._tag", "flatland/out/markup.py:Generator.tag", "flatland/out/markup.py:Tag.open", "flatland/out/markup.py:Tag.close"]}
{"id": "C97", "title": "Forms drawn from an element read back", "statement": "The markup of generator.input(bind=child) or generator.textarea(bind=child) has name= the flattened name of the child, and value= (or as contents) its text, whatever characters they contain. Of inputs of type radio or checkbox with given values, exactly those are checked whose value is the text of the child, or for an Array the text of a member; an input of type checkbox without value, for a Boolean, has as value the text of True and is checked if the child has that text. generator.select(bind=child) around the markup of some generator.option(bind=child) has name= the flattened name, and of the options exactly those are selected whose value, or whose contents if no value is given, is the text of the child or of a member of an Array. So reading name and value (or contents, or the values of the selected options: without multiple the last selected one, or the first option if none is selected) from the markup of controls of everything that is flattened of an element, in the order of flatten(), leaving out boxes that are not checked, gives exactly its flatten() pairs if each control has a place for its text (among the given values, exactly once unless it is a menu without multiple; for a checkbox without value, the text of True), and set_flat() of them on a new element gives the same names, fields, members, values and texts. Provided that: the automatic name and value are not switched off and there are no filters; further attributes do not give name, value, contents or switches, have names and values that can stand in a tag, and ask for no radio, checkbox, password, file or image, and those of a select tag not for multiple except through the kind of menu; contents of options, which the generator does not escape, have no tags, and where they stand for the value no entities and no space around them; and element and schema are as in C24 with the separator '_'. With automatic ids, tab indexes and filters off, as in a new generator, none of the calls raises.", "quantifier": "every such schema and element, every kind of element, every choice of inputs, textareas, groups of boxes and menus, their values and further attributes, every such settings, HTML and XML", "why_tests_cant": "all texts, names, structures and attributes together", "anchors": ["flatland/out/generic.py:transform_name", "flatland/out/generic.py:transform_value", "flatland/out/markup.py:Tag.__call__", "flatland/schema/base.py:Element.flatten", "flatland/schema/base.py:Element.flattened_name", "flatland/schema/base.py:Element.set_flat"]}
{"id": "C98", "title": "Genshi: where directives may stand", "statement": "When a template is made, form:with and form:set may only be tags, form:bind and the form:auto-... only attributes of tags; otherwise TemplateSyntaxError is raised, for other names of the namespace the error for directives that are not known, and for a tabindex that is no integer its exception. form:with and form:set get the settings written as attributes, form:bind the element its expression gives, the others their text with its expressions. The directives of a tag are applied in a fixed order whatever the order in which they are written: the binding first, and all control attributes reach it with what they say. setup() raises RuntimeError for templates without add_directives.", "quantifier": "every directive name, every way of writing it, every list of directives on a tag and every order of it", "why_tests_cant": "all orders and combinations", "anchors": ["flatland/out/genshi.py:setup", "flatland/out/genshi.py:TagOnly.attach", "flatland/out/genshi.py:AttributeOnly.attach", "flatland/out/genshi.py:ControlAttribute.__init__", "flatland/out/genshi.py:Binding.__init__", "flatland/out/genshi.py:RenderContextManipulator.__init__", "flatland/out/genshi.py:FlatlandElements"]}
{"id": "C99", "title": "Paths looked up from several threads", "statement": "However many threads look up paths at once, in whatever interleaving of their accesses to the shared cache: each lookup ends with what it gives alone in a new process, or with the exception the path itself raises, except that with 1024 paths or more kept a new path gets the builtin compile (C35); with fewer than 1024 distinct paths looked up that never happens. Lookups of equal paths return the same compiled object and of different paths different ones; once a lookup has returned it, the compiled object of a path is found at once by every later one. No lookup is lost or waits: each ends after at most four steps of its own thread. The limit of 1024 may be overrun, but by less than the number of threads.", "quantifier": "every number of threads, every list of paths for each, every interleaving", "why_tests_cant": "all interleavings", "anchors": ["flatland/schema/paths.py:pathexpr", "flatland/schema/paths.py:PathExpression.__init__"]}
{"id": "C100", "title": "Templates and generators agree", "statement": "A page of tags bound to elements (or to nothing), each with any of the auto-... switches, attributes and a text or no contents, of blocks with settings of their own and of changes of settings, without filters, may be written as a Genshi template (form:bind, form:auto-..., form:with, form:set) or as calls of a generator (bind=, auto_..., begin() and end(), set()). Starting from settings that mean the same, as they do in a new template and a new generator, either both succeed or neither. If they do, each tag the generator returns has the name, exactly the attributes and values, and the contents of the tag the template renders in its place: no contents, the text of the page (which the template will escape and the generator does not), or the text of the element escaped; and the settings mean the same afterwards. The order of the attributes may differ.", "quantifier": "every such page, however deep its blocks; every element, attribute, switch and setting; HTML and XML; all settings in step", "why_tests_cant": "all combinations of tags, switches, settings and nesting in both front ends", "anchors": ["flatland/out/genshi.py:_rewrite_stream", "flatland/out/genshi.py:With.process", "flatland/out/genshi.py:Set.process", "flatland/out/markup.py:Tag.__call__", "flatland/out/markup.py:Generator", "flatland/out/generic.py:transform"]}
{"id": "C101", "title": "Text is read as the regular expressions say", "statement": "With re.match(), findall() and sub() defined by backtracking over the text of the pattern (greedy and lazy repetition, alternatives in order, groups, looking around, VERBOSE, IGNORECASE on ASCII): the tokens of a path expression and their slices are what findall() gives for the verbose pattern of paths.py, and escapes are removed as sub() does; text is adapted to a Date, Time or DateTime exactly if the pattern matches, from the groups of the match; the type of a card and the digits of its text are decided by the patterns of creditcard.py; telephone numbers are cleaned and IsEmail accepts domains by theirs; characters are left out of ids as sub() does; and for any name and any separator, even ones with special characters, the keys of a List (index and rest) and of an Array (rest) are those its pattern, built from the escaped texts, matches.", "quantifier": "every text; every name and separator", "why_tests_cant": "all texts against backtracking over all ways to match", "anchors": ["flatland/schema/paths.py:tokenize", "flatland/schema/scalars.py:Temporal.adapt", "flatland/schema/containers.py:List._set_flat", "flatland/schema/containers.py:Array._set_flat", "flatland/ext/creditcard.py:_card_type", "flatland/ext/creditcard.py:_from_string", "flatland/validation/string.py:NANPphone.validate", "flatland/validation/network.py:IsEmail.validate", "flatland/out/generic.py:_sanitize_domid_suffix", "flatland/util/base.py:re_uescape"]}
{"id": "C102", "title": "What a validated form reports", "statement": "Let a form be validated by validate(), with validators of flatland that read the form and record messages (validators that return true or false, no receivers of the signal listening). Every element below the root, however it is reached and however often, is taken once on the way down and once on the way up: nothing if it has no validators for that way (for a container on the way down also if the list is empty); true without running any if it is empty and optional; without validators true if it is not empty; otherwise its validators in turn until one fails. Its errors are then those there were before followed by the message of the failing validator on the way down and that on the way up, each only if it is not yet among them; its .valid is Unevaluated, or false if either way failed and else true. Elements not below the root keep errors and .valid. validate() returns true exactly if nothing failed; then no message was added anywhere; if it returns false, some element is marked invalid and has the message, if any, of its validator. The verdict or exception depends on nothing but the form, not on earlier messages and markings; validating again gives the same verdict, errors and markings. It ends for every finite form, even with cycles; an exception is that of a validator after those before it on the same element passed: of its validate(), for want of the message it names, or from making the message. With recurse=False the same happens to the element alone, except that .valid, which is returned, is what the way up gives whenever it gives anything.", "quantifier": "every graph of elements, every choice of validators on both ways, every messages and markings before", "why_tests_cant": "all graphs, chains, verdicts and messages together", "anchors": ["flatland/schema/base.py:Element.validate", "flatland/schema/base.py:validate_element", "flatland/schema/base.py:Element.add_error", "flatland/schema/containers.py:Container._validate", "flatland/validation/base.py:Validator.__call__", "flatland/validation/base.py:Validator.note_error"]}
{"id": "C103", "title": "Elements that name others by path", "statement": "A Ref made with .to(path, sep) stands for the element one gets to from the root of its tree by the names of the path, wherever in the tree the Ref is and whether or not the path begins with the separator: for every element whose way from the root has non-empty names without the separator (indexes count as names), the path of these names, and if the way passes no Array its fq_name(), gives a Ref whose value and u are those of the element; if a name leads nowhere, the target raises KeyError. ValuesEqual and UnisEqual on an element, given paths with escaped names (C31) relative to it, pass exactly if the values (the texts) of the elements at these places are all equal to the first; otherwise they record the labels of just these elements. A path that finds nothing raises: what find() raises, or AttributeError when it is a slice that selects nothing.", "quantifier": "every tree, every place in it, every way, every separator of one character", "why_tests_cant": "all trees, places and paths", "anchors": ["flatland/schema/scalars.py:Ref.to", "flatland/schema/scalars.py:Ref.target", "flatland/schema/base.py:Element.el", "flatland/schema/base.py:Element._parse_element_path", "flatland/schema/base.py:Element.find", "flatland/validation/scalars.py:MapEqual.validate"]}
{"id": "C104", "title": "Forms drawn by a template read back", "statement": "A Genshi template with form:bind on input and textarea tags, on radio buttons or checkboxes (input tags with that type) for given values, on input tags of type checkbox without value for a Boolean, and on select tags with or without 'multiple' around option tags and text, renders tags that say what those of C97 say: reading name and value (for a textarea its contents: text is taken as it is, markup is decoded) from the rendered events, leaving out radio buttons and checkboxes that are not checked, and from a select the values, or contents where there is no value, of the selected options (without 'multiple' of the last one selected, or of the first option if none is), gives what each control is to send, in one way only. For one control for each scalar of an element, in the order of flatten(), each with a place for its text, these are exactly the flatten() pairs, and set_flat() of them on a new element gives the same names, fields, members, values and texts. The settings afterwards still are such that this holds for what follows. Provided that the automatic name and value are not switched off and there are no filters; the tags are in any namespace; further attributes are written once, with names that can stand in a tag and do not end in an underscore, and are as in C97, an option having none named 'option'; the contents of an option are text, without space around it where they are its value; element and schema are as in C24 with the separator '_'. With automatic ids, tab indexes and filters off, as in a new template, every such page renders.", "quantifier": "every such schema and element, every kind of element, every choice of inputs, textareas, groups of boxes and menus, their values and further attributes, every such settings", "why_tests_cant": "all texts, names, structures and attributes together", "anchors": ["flatland/out/genshi.py:Binding.process", "flatland/out/genshi.py:_rewrite_stream", "flatland/out/generic.py:transform_name", "flatland/out/generic.py:transform_value", "flatland/schema/base.py:Element.flatten", "flatland/schema/base.py:Element.set_flat"]}
{"id": "C105", "title": "Submitting again what a form shows", "statement": "Let an element be filled by set_flat() calls with texts, any pairs whatever, accepted or not, from a new element on. Then setting a new element from its flatten() pairs, or from what is read off a form that a generator (C97) or a template (C104) draws of it, does not raise and gives an element with the same names, fields, members in order and texts, so text that was not accepted is still there and still not accepted; values are the same wherever the text is not blank (an unset String then has the value ''). Provided that: schema and separator are as in C24 and maximum_set_flat_members are not negative; scalars are Strings, Integers, Dates, Times, DateTimes, Booleans whose text for False does not stand for True and that write blank what blank text stands for, or Constrained and Enum of these whose test does not raise; children of Compounds are not Strings or Booleans and compose looks at their values and texts only; JoinedStrings split into their members as in C24; and nothing would be dropped for being blank: every member of a pruning List or of an Array, the last member of any other List, and every field that a new mapping lacks, shows some text (not blank, when pruning).", "quantifier": "every such schema, every sequence of set_flat calls, every pairs of texts, every such form", "why_tests_cant": "all histories of submissions, accepted or not", "anchors": ["flatland/schema/base.py:Element.set_flat", "flatland/schema/base.py:Element.flatten", "flatland/schema/scalars.py:Scalar.set", "flatland/schema/containers.py:List._set_flat", "flatland/schema/containers.py:Mapping._set_flat"]}
{"id": "C106", "title": "Data through flat pairs and forms and back", "statement": "Setting data (dicts, lists and values) on a new element, flattening it, and setting a new element from the pairs gives an element whose value is the same data (dicts regardless of order), and so does reading the pairs off a form that a generator (C97) or a template (C104) draws of the element; set() returns true and stores the data, and nothing raises. Provided that: schema and separator are as in C24, without Compounds, JoinedStrings and MultiValues; a strict mapping holds all its fields from the start; the data has exactly the structure of the schema, with every field a new mapping holds (a SparseDict may lack others) and no unknown ones; each value is one its scalar takes unchanged and reads back from its text: for the scalars of C09 every value that they write without loss, None in numbers, dates and times, and None wherever blank texts are dropped; Lists have at most maximum_set_flat_members; every member of a pruning List or of an Array, the last member of any other List, and every field that a new mapping lacks, has some value that is written (with text that is not blank, when pruning).", "quantifier": "every such schema and all such data, to any depth; every such form", "why_tests_cant": "all schemas and data, including structure dropped for being blank", "anchors": ["flatland/schema/base.py:Element.set_flat", "flatland/schema/base.py:Element.flatten", "flatland/schema/containers.py:Mapping.set", "flatland/schema/containers.py:Sequence.set", "flatland/schema/containers.py:Mapping.value", "flatland/schema/containers.py:Sequence.value", "flatland/schema/scalars.py:Scalar.set"]}
{"id": "C107", "title": "What elements show", "statement": "repr() of a scalar, Ref, MultiValue or JoinedString shows the class, the name and the value, each name and text as a string literal that reads back as it, numbers in decimal, dates and times as calls of datetime.date, time and datetime with no arguments left out but zeros at the end after the minutes; a Compound shows the same, and if its value raises an Exception, the name of its class instead; Lists and Arrays show the members as a list, not their slots, mappings show keys and members as a dict. It raises exactly if the value of some element other than a Compound raises, and then what the first such raises. What is shown can be read in one way only: class, name, value or exception of every element and the structure are told by it, but not whether an element is a scalar or a Compound (provided that class names have no spaces, texts are Unicode and values are None, truth values, integers, texts, dates and times). The slots of a List, path expressions, properties and the settings of a generator show name and member, expression, and all pairs in the same way, which tells expressions and pairs. A strict find() that finds no child to go on with says so with the class and name of the element it was at (or that it has none), the child looked for and the expression: an element the path does lead to, and that has no such child; find(single=True) that matches several elements says so with the path; no other LookupError is raised.", "quantifier": "every structure of elements, every class names, names, values and exceptions", "why_tests_cant": "all texts, values and structures; that no two have the same display", "anchors": ["flatland/schema/scalars.py:Scalar.__repr__", "flatland/schema/compound.py:Compound.__repr__", "flatland/schema/containers.py:List.__repr__", "flatland/schema/containers.py:ListSlot.__repr__", "flatland/schema/paths.py:PathExpression.__repr__", "flatland/schema/paths.py:PathExpression.__call__", "flatland/schema/base.py:Element.find", "flatland/schema/properties.py:DictLike.__repr__", "flatland/out/generic.py:Context.__repr__"]}
{"id": "C108", "title": "Flat data set again, replaced and in steps", "statement": "Calling set_flat() again with the same pairs changes nothing and raises the same, whatever the pairs and the element. Whatever pairs are set, also when set_flat() raises, the element keeps the structure of its schema: mappings hold elements of their fields' schemas under their names, each once, and all those that a new mapping holds; Lists and Arrays hold members of their member schema. If the pairs of a later set_flat() have text keys that include all keys of an earlier one, and would be set without raising on the element as it was before the earlier one, then they are set without raising and the element has the values, texts, fields and members that it would have without the earlier one (also if that one raised half-way). Setting pairs with text keys in two steps gives the values, texts, fields and members that setting all of them at once gives, and does not raise if the steps do not, provided that no scalar and no JoinedString is named by both steps and that they do not both have keys that begin with the name of the same List or Array. Provided throughout that fields of mappings have distinct names that are not None.", "quantifier": "every schema of scalars, mappings, Compounds, Lists, Arrays and JoinedStrings, every element, every separator and pairs", "why_tests_cant": "all pairs, all structures and all states left by earlier calls", "anchors": ["flatland/schema/base.py:Element.set_flat", "flatland/schema/containers.py:Mapping._set_flat", "flatland/schema/containers.py:List._set_flat", "flatland/schema/containers.py:Array._set_flat", "flatland/schema/scalars.py:Scalar._set_flat"]}
{"id": "C109", "title": "Texts sent to a form, and what validate() makes of them", "statement": "validate() of an element of any structure whose elements have validators that, when they are asked, let the element pass or record a message on it (as those of flatland.validation do) ends, and every element below is then valid or invalid by itself: an element without a value that is optional is valid and its validators are not asked; an element without validators is valid if it has a value, and gets no message; an element with validators is valid if all let it pass, and otherwise gets the message of the first that does not (those after it are not asked, and may be such as would raise), once, after those it had; a container with descent_validators must pass these too, and gets their message before that of its validators, which are asked in any case. validate() returns True exactly if all these are valid; no other element changes. A String is without a value when it holds no text, another scalar when its value is None and its text empty, a Compound when all its fields are, a SparseDict without fields, a sequence without members; a Dict never is. For a new Dict without validators of scalar fields validated by Converted() that was set with set_flat() from pairs of texts: validate() returns True exactly if each field was sent a text that its type reads (the first pair under its key counts), or is optional and was sent nothing or an empty text; fields for which that is so have no message, each other field has the one message '<label> is not correct.' If nothing is optional, all scalars are validated by Converted() and the containers have no validators, validate() returns True exactly if every scalar has a value and no other element is without one. Present() and Converted() let every Dict, List and Array pass; Present() goes by the text of a JoinedString, which Converted() always lets pass; HasAtLeast() counts the members of a List or Array but the characters of the text of a JoinedString, and raises AssertionError for a scalar or a mapping. A List without validators of scalars that are not optional and validated by NotDuplicated() validates as True exactly if no member equals an earlier one (by the comparator) and it has members or is optional; each member that does equal an earlier one is invalid and gets '<label> may not be repeated within <label of the List>.'; validating by NotDuplicated() an element that is in no container raises TypeError. An invalid element may have no message at all: the empty List that is not optional and has no validators.", "quantifier": "every schema and element of scalars, Dicts, SparseDicts, Compounds, Lists, Arrays and JoinedStrings, every such validators, labels and settings of optional, all texts sent; validators decide from the element, its place and the tree it is in", "why_tests_cant": "all texts, all nestings and all assignments of validators", "anchors": ["flatland/schema/base.py:Element.validate", "flatland/validation/containers.py:NotDuplicated", "flatland/schema/base.py:validate_element", "flatland/schema/containers.py:Container._validate", "flatland/schema/scalars.py:Scalar._set_flat", "flatland/validation/scalars.py:Converted", "flatland/validation/scalars.py:Present", "flatland/validation/containers.py:HasAtLeast"]}
{"id": "C110", "title": "validate() judges what an element holds, not how it came by it", "statement": "Take two elements of the same schema with the same values, texts, fields and members (whatever .raw they have, and whatever the order in which mappings got their fields), and validators that go by these, as Present, Converted and HasAtLeast do, and that, when asked, let an element pass or record a message. validate() then returns the same for both; every element of one answers to one of the other, reached by the same fields and the same positions, and both get the same .valid and the same messages in addition to those they had. So an element that survives flattening (its names, separator and values meet the conditions of the round trip) is judged alike before it is flattened and after the pairs, or what is read off a form that a generator (C97) or a template (C104) draws of it, are set on a new element; and an element on which set_flat() is called again, with text keys that include all those of an earlier call, is judged like one on which only the later call was made. What validate() recorded earlier is not taken back: after a correction an element can be valid and still have the message of before in .errors. Provided that fields of mappings have distinct names that are not None.", "quantifier": "every schema and pair of elements of scalars, Dicts, SparseDicts, Compounds, Lists, Arrays and JoinedStrings, all such validators and settings of optional, all pairs sent, all messages and verdicts from before", "why_tests_cant": "all structures, all histories of an element and all orders of fields", "anchors": ["flatland/schema/base.py:Element.validate", "flatland/schema/base.py:validate_element", "flatland/schema/base.py:Element.set_flat", "flatland/schema/base.py:Element.flatten", "flatland/schema/base.py:Element.add_error"]}
{"id": "C111", "title": "Fields of a form that must agree", "statement": "UnisEqual(path, ...) and ValuesEqual(path, ...) validate an element anywhere in a tree: when each path leads by keys and positions (written with their escapes, keys not empty) to an element below it that has a text (or a value), the validated element passes exactly if all of these have the text (the value) of the first, and otherwise gets the message '<labels of all but the last, separated by commas> and <label of the last> do not match.' So for a new Dict of scalars, validated by UnisEqual(f, g) and its fields by Converted(), that was set with set_flat() from pairs of texts, validate() returns True exactly if the two fields then have the same text and each field was sent a text that its type reads or is optional and was sent nothing or an empty text; the Dict is valid exactly if the texts agree and has otherwise that one message; the fields have messages as without the UnisEqual. The same holds with any other validator of the Dict that lets it pass or records a message. The texts compared are those that the fields show: texts that were sent different may agree, such as two that differ in the spaces around them.", "quantifier": "every schema and element of scalars, Dicts, SparseDicts, Compounds, Lists, Arrays and JoinedStrings (fields of mappings named and distinct), every place in it, all such paths, all labels, all texts sent", "why_tests_cant": "all trees, paths and texts", "anchors": ["flatland/validation/scalars.py:MapEqual", "flatland/validation/scalars.py:UnisEqual", "flatland/validation/scalars.py:ValuesEqual", "flatland/schema/base.py:Element.find", "flatland/schema/base.py:Element.validate"]}
{"id": "C112", "title": "Conditions on the fields of a form", "statement": "Converted(), Present(), IsTrue(), IsFalse(), ShorterThan(n), LongerThan(n), LengthBetween(a, b), ValueLessThan(b), ValueAtMost(b), ValueGreaterThan(b), ValueAtLeast(b), ValueBetween(a, b), ValueIn(options), IsEmail(), URLValidator(), HTTPURLValidator() and Luhn10(), as validators of a scalar or a JoinedString anywhere in a tree, go by its value (the ones of lengths, Present() and IsEmail() by its text): they let it pass or record the message of C49, C52, C68 and C70 on it, with its label; HasAtMost(maximum=m) and HasBetween(minimum=a, maximum=b) go by the number of members of a List or an Array and raise AssertionError for scalars and mappings. So for a new Dict without validators, of scalar fields each with some of these validators (without ValueIn), that was set with set_flat() from pairs of texts: validate() returns True exactly if every field, with the first text sent under its key, is optional and without a value or passes all of its validators; such a field is valid and has no message, each other field is invalid and has one message, that of the first of its validators that does not let it pass. Validators after that one are not asked: Converted() before a bound keeps the bound from values it cannot be compared with; a bound alone raises TypeError out of validate() for a text that its type does not read. Elements that hold the same are judged alike by all these validators (C110), and by any others that look at their element only and go by what it holds, provided that what messages may mention is the same.", "quantifier": "every form of scalars with distinct names, any number of such validators per field in any order, all bounds, all texts sent, all labels; bounds and values that are asked about each other are of types that can be compared", "why_tests_cant": "The verdict depends on the reading of the texts, on the order of the validators, on optional and on which of several conditions is met; tests try a few validators one at a time, on elements without a form.", "anchors": ["flatland/validation/scalars.py:36-510", "flatland/validation/containers.py:193-289", "flatland/validation/network.py:64-284", "flatland/validation/number.py:74-87", "flatland/validation/base.py:30-36", "flatland/schema/base.py:768-833"]}
