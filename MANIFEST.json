{
 "claims": [
  {
   "property": "C01",
   "status": "proved",
   "theorems": [
    "C01_verdict",
    "C01_markings"
   ],
   "note": ""
  },
  {
   "property": "C02",
   "status": "proved",
   "theorems": [
    "C02_order",
    "C02_children_listed",
    "C02_visited",
    "C02_children_first"
   ],
   "note": ""
  },
  {
   "property": "C03",
   "status": "proved",
   "theorems": [
    "C03_untouched",
    "C03_skipped_branch"
   ],
   "note": ""
  },
  {
   "property": "C04",
   "status": "proved",
   "theorems": [
    "C04_protocol",
    "C04_direction"
   ],
   "note": ""
  },
  {
   "property": "C05",
   "status": "proved",
   "theorems": [
    "C05_terminates",
    "C05_bounded",
    "C05_errors",
    "C05_forgets",
    "C05_again"
   ],
   "note": ""
  },
  {
   "property": "C06",
   "status": "proved",
   "theorems": [
    "C06_flat_agrees_refuted",
    "C06_flat_agrees"
   ],
   "note": "C06_flat_agrees_refuted shows the excepted case, C06_flat_agrees that it is the only one."
  },
  {
   "property": "C07",
   "status": "proved",
   "theorems": [
    "C07_all_children",
    "C07_all_children_terminates",
    "C07_get_all_valid",
    "C07_set_all_valid"
   ],
   "note": ""
  },
  {
   "property": "C08",
   "status": "proved",
   "theorems": [
    "C08_contract",
    "C08_never_raises",
    "C08_builtin_tame",
    "C08_custom",
    "C08_abstract",
    "C08_independent"
   ],
   "note": ""
  },
  {
   "property": "C09",
   "status": "proved",
   "theorems": [
    "C09_roundtrip",
    "C09_roundtrip_exact",
    "C09_roundtrip_temporal_text",
    "C09_none_refuted",
    "C09_none_integer_refuted",
    "C09_datetime_in_date_refuted",
    "C09_fraction_refuted"
   ],
   "note": "The refuted theorems record findings outside the statement: None, a datetime in a Date and fractions of a second do not read back."
  },
  {
   "property": "C10",
   "status": "proved",
   "theorems": [
    "C10_integer_text",
    "C10_unambiguous",
    "C10_native",
    "C10_never_negative"
   ],
   "note": ""
  },
  {
   "property": "C11",
   "status": "proved",
   "theorems": [
    "C11_text",
    "C11_other",
    "C11_default"
   ],
   "note": ""
  },
  {
   "property": "C12",
   "status": "proved",
   "theorems": [
    "C12_constrained_history",
    "C12_enum_history",
    "C12_constrained_accept",
    "C12_constrained_refuse",
    "C12_enum_accept",
    "C12_enum_refuse",
    "C12_enum_string"
   ],
   "note": ""
  },
  {
   "property": "C13",
   "status": "proved",
   "theorems": [
    "C13_string",
    "C13_none",
    "C13_text",
    "C13_spaces",
    "C13_trimmed_unique",
    "C13_trimmed_idempotent"
   ],
   "note": ""
  },
  {
   "property": "C14",
   "status": "proved",
   "theorems": [
    "C14_text",
    "C14_native",
    "C14_none",
    "C14_canonical_unique"
   ],
   "note": ""
  },
  {
   "property": "C15",
   "status": "proved",
   "theorems": [
    "C15_list_numbering",
    "C15_list_step",
    "C15_append_twice_refuted",
    "C15_sort_raising_refuted",
    "C15_imul_refuted"
   ],
   "note": "The excluded cases of the statement are proved to break numbering (C15_*_refuted)."
  },
  {
   "property": "C16",
   "status": "proved",
   "theorems": [
    "C16_list_refines",
    "C16_list_reads",
    "C16_array_refines",
    "C16_iadd_refuted",
    "C16_setitem_element_refuted",
    "C16_python_getitem",
    "C16_python_setitem",
    "C16_python_delitem",
    "C16_python_pop",
    "C16_python_insert",
    "C16_python_slice_positions",
    "C16_python_getslice",
    "C16_python_setslice",
    "C16_python_delslice",
    "C16_python_search",
    "C16_python_sort"
   ],
   "note": "C16_iadd_refuted and C16_setitem_element_refuted record deviations outside the statement: += stores raw operands, self[i] = element does not copy the element's value."
  },
  {
   "property": "C17",
   "status": "proved",
   "theorems": [
    "C17_array_parents",
    "C17_list_parents",
    "C17_popped_slot",
    "C17_setitem_element_refuted",
    "C17_iadd_refuted"
   ],
   "note": "C17_*_refuted are the excepted operations named in the statement."
  },
  {
   "property": "C18",
   "status": "proved",
   "theorems": [
    "C18_list_default_int",
    "C18_default_none",
    "C18_list_default_iter",
    "C18_list_set",
    "C18_array_default"
   ],
   "note": ""
  },
  {
   "property": "C19",
   "status": "proved",
   "theorems": [
    "C19_dict_history",
    "C19_dict_assign",
    "C19_dict_refuses",
    "C19_update",
    "C19_update_keywords",
    "C19_update_many",
    "C19_no_fields",
    "C19_dict_of"
   ],
   "note": ""
  },
  {
   "property": "C20",
   "status": "proved",
   "theorems": [
    "C20_sparse_keys",
    "C20_sparse_required",
    "C20_required_removable_refuted"
   ],
   "note": "The refuted theorem records the documented guarantee failing when an element with an instance-level optional attribute is stored under a required key; the stated property excludes it."
  },
  {
   "property": "C21",
   "status": "proved",
   "theorems": [
    "C21_dict_set",
    "C21_sparse_set",
    "C21_bad_arguments",
    "C21_mapping_set",
    "C21_not_atomic_refuted"
   ],
   "note": "The refuted theorem records that a raising call is not atomic; the stated property describes the resulting contents exactly."
  },
  {
   "property": "C22",
   "status": "proved",
   "theorems": [
    "C22_dict_slice",
    "C22_update_object",
    "C22_keyslice_pairs"
   ],
   "note": ""
  },
  {
   "property": "C23",
   "status": "proved",
   "theorems": [
    "C23_selected_attributes",
    "C23_dict_contents",
    "C23_include_and_omit",
    "C23_nameless_attribute",
    "C23_attributes_read",
    "C23_rename_omitted_refuted",
    "C23_order_matters_refuted",
    "C23_sparse_from_object"
   ],
   "note": "The refuted theorems record that omit wins over rename (against the docstring) and that the outcome depends on set iteration order when two attributes feed one field; C23_sparse_from_object shows a SparseDict without minimum_fields receives nothing."
  },
  {
   "property": "C24",
   "status": "proved",
   "theorems": [
    "C24_round_trip",
    "C24_flatten_back",
    "C24_unrestricted_refuted",
    "C24_joined_refuted",
    "C24_nameless_compounds_refuted"
   ],
   "note": "The unrestricted round trip is false (C24_unrestricted_refuted: nameless root, unset String, blank or empty members, meeting names; C24_joined_refuted: a JoinedString with the separator in a member; C24_nameless_compounds_refuted: a List of nameless Compounds raises); the statement lists the exact restrictions."
  },
  {
   "property": "C25",
   "status": "proved",
   "theorems": [
    "C25_irrelevant",
    "C25_irrelevant_new",
    "C25_similar_name_refuted"
   ],
   "note": "C25_similar_name_refuted: on an element that is already filled, a key that merely starts like a field's name empties a List field of that name."
  },
  {
   "property": "C26",
   "status": "proved",
   "theorems": [
    "C26_bounded",
    "C26_new_bounded",
    "C26_negative_limit_refuted"
   ],
   "note": "C26_negative_limit_refuted: a negative maximum_set_flat_members is no limit when pruning."
  },
  {
   "property": "C27",
   "status": "proved",
   "theorems": [
    "C27_pruned",
    "C27_unpruned",
    "C27_bare_index_refuted"
   ],
   "note": "C27_bare_index_refuted: a key that stops at the index of a Dict member raises AttributeError."
  },
  {
   "property": "C28",
   "status": "proved",
   "theorems": [
    "C28_order",
    "C28_spellings_refuted"
   ],
   "note": "C28_spellings_refuted: two spellings of one index make the order matter."
  },
  {
   "property": "C29",
   "status": "proved",
   "theorems": [
    "C29_name",
    "C29_slot_name",
    "C29_flatten",
    "C29_element",
    "C29_texts",
    "C29_children_flattenable",
    "C29_nested_joined",
    "C29_distinct_nodes",
    "C29_distinct",
    "C29_clear_schema",
    "C29_meeting_names_refuted"
   ],
   "note": "C29_meeting_names_refuted: names that contain the separator can meet. flatten ignores children_flattenable of nested elements, as the theorem shows."
  },
  {
   "property": "C30",
   "status": "proved",
   "theorems": [
    "C30_fq_name",
    "C30_el_of_fq_name",
    "C30_el_of_address",
    "C30_addresses",
    "C30_el_text",
    "C30_el_names",
    "C30_el_missing",
    "C30_el_either",
    "C30_step",
    "C30_step_missing",
    "C30_path_parts",
    "C30_path_no_separator",
    "C30_slot_fq_name",
    "C30_array_member_fq_name",
    "C30_array_member_refuted",
    "C30_separator_in_name_refuted"
   ],
   "note": "Proved for every tree, element, separator character and element path. C30_array_member_refuted and C30_separator_in_name_refuted show the exclusions named in the statement."
  },
  {
   "property": "C31",
   "status": "proved",
   "theorems": [
    "C31_relative",
    "C31_absolute",
    "C31_every_location",
    "C31_root",
    "C31_bracketed_name",
    "C31_backslash_refuted"
   ],
   "note": "Proved for every tree and names of any characters. C31_backslash_refuted shows the excluded case (a name before the last ending in a backslash)."
  },
  {
   "property": "C32",
   "status": "proved",
   "theorems": [
    "C32_canonical",
    "C32_dotless",
    "C32_missing_refuted",
    "C32_list_member_refuted",
    "C32_false_container_refuted",
    "C32_slice_up_refuted"
   ],
   "note": "Proved. The four _refuted theorems show the exclusions named in the statement."
  },
  {
   "property": "C33",
   "status": "proved",
   "theorems": [
    "C33_selects",
    "C33_children",
    "C33_children_order",
    "C33_stop_zero_refuted"
   ],
   "note": "Proved. C33_stop_zero_refuted shows the excluded stop 0."
  },
  {
   "property": "C34",
   "status": "proved",
   "theorems": [
    "C34_strict",
    "C34_single",
    "C34_list",
    "C34_outcome"
   ],
   "note": "Proved for every path text and tree."
  },
  {
   "property": "C35",
   "status": "proved",
   "theorems": [
    "C35_transparent",
    "C35_cached_paths",
    "C35_full_cache",
    "C35_full_cache_refuted"
   ],
   "note": "Proved. C35_full_cache_refuted shows the exclusion: pathexpr returns the builtin compile when the cache is full."
  },
  {
   "property": "C36",
   "status": "proved",
   "theorems": [
    "C36_value",
    "C36_no_value",
    "C36_text",
    "C36_raises",
    "C36_set",
    "C36_set_default",
    "C36_set_other",
    "C36_set_none",
    "C36_child_raises",
    "C36_set_outcome",
    "C36_parts",
    "C36_empty",
    "C36_fields",
    "C36_too_many_fields",
    "C36_part_text",
    "C36_part_parse",
    "C36_reports_failure_refuted"
   ],
   "note": "All clauses proved. The refuted theorem records that set() of unusable text reports success."
  },
  {
   "property": "C37",
   "status": "proved",
   "theorems": [
    "C37_once",
    "C37_not_again",
    "C37_before_instances",
    "C37_exclusive",
    "C37_each_thread",
    "C37_no_deadlock",
    "C37_retry",
    "C37_plain_call",
    "C37_overriding_call",
    "C37_inherited_refuted",
    "C37_inherited_failing_refuted",
    "C37_recursive_refuted"
   ],
   "note": "All clauses proved for initialisers meeting the stated provisos; the three refuted theorems show that each proviso is needed."
  },
  {
   "property": "C38",
   "status": "proved",
   "theorems": [
    "C38_text",
    "C38_pieces",
    "C38_regex",
    "C38_items",
    "C38_refused",
    "C38_member_raises",
    "C38_value",
    "C38_round_trip",
    "C38_stable",
    "C38_flat",
    "C38_separator_free_refuted",
    "C38_normal_form_refuted"
   ],
   "note": "All clauses proved; the refuted theorems record the two counterexamples named in the statement."
  },
  {
   "property": "C39",
   "status": "proved",
   "theorems": [
    "C39_class_calls",
    "C39_class_shows",
    "C39_class_inherits",
    "C39_instance_calls",
    "C39_instance_shows",
    "C39_instance_pop_own",
    "C39_instance_pop_inherited",
    "C39_assigned_dict",
    "C39_assign",
    "C39_no_properties",
    "C39_histories",
    "C39_descriptor",
    "C39_class_setdefault_refuted",
    "C39_setdefault_deleted_refuted",
    "C39_pop_deleted_refuted"
   ],
   "note": "The refuted theorems record findings: class setdefault ignores inherited values, setdefault on a deleted key and instance pop of a locally deleted key hand out the internal deletion marker."
  },
  {
   "property": "C40",
   "status": "proved",
   "theorems": [
    "C40_class_calls",
    "C40_class_calls_instances",
    "C40_class_calls_shadowed",
    "C40_instance_own_shadows",
    "C40_instance_calls",
    "C40_assign",
    "C40_instance_pop_refuted",
    "C40_shared_object_refuted"
   ],
   "note": "The refuted theorems are the exception named in the statement and the case of one Properties object declared on two classes, which the statement of C39 excludes."
  },
  {
   "property": "C41",
   "status": "proved",
   "theorems": [
    "C41_histories",
    "C41_new_class",
    "C41_named",
    "C41_using",
    "C41_validated_by",
    "C41_including_validators",
    "C41_with_properties",
    "C41_dict_of",
    "C41_sequence_of",
    "C41_valued",
    "C41_to"
   ],
   "note": "text_of is str(); modules of callers are opaque; class_cloner methods of the core classes only. to's parsing of the path is C30_path_parts and C30_path_no_separator."
  },
  {
   "property": "C42",
   "status": "proved",
   "theorems": [
    "C42_form_declaration",
    "C42_nothing_lost",
    "C42_plain_declaration",
    "C42_mro",
    "C42_mro_one",
    "C42_nearest_declaration_refuted",
    "C42_mro_exists",
    "C42_plain_conflict",
    "C42_form_conflict",
    "C42_member_fails"
   ],
   "note": "C42_nearest_declaration_refuted records the diamond case stated in the property."
  },
  {
   "property": "C43",
   "status": "proved",
   "theorems": [
    "C43_attribute",
    "C43_content",
    "C43_element_x",
    "C43_element_xa",
    "C43_values",
    "C43_other_values"
   ],
   "note": ""
  },
  {
   "property": "C44",
   "status": "proved",
   "theorems": [
    "C44_rendering",
    "C44_plain_tag",
    "C44_keyword_names"
   ],
   "note": ""
  },
  {
   "property": "C45",
   "status": "proved",
   "theorems": [
    "C45_begin",
    "C45_end_restores",
    "C45_end",
    "C45_defaults_untouched",
    "C45_set",
    "C45_init",
    "C45_set_atomic_refuted"
   ],
   "note": "C45_set_atomic_refuted records a finding outside the statement: a failing set() keeps the settings assigned before the unknown one."
  },
  {
   "property": "C46",
   "status": "proved",
   "theorems": [
    "C46_switch_words",
    "C46_name",
    "C46_value",
    "C46_id",
    "C46_for",
    "C46_label_matches_input",
    "C46_tabindex",
    "C46_tabindex_other",
    "C46_filters",
    "C46_switch_unique",
    "C46_forced",
    "C46_pipeline",
    "C46_explicit_checked_refuted",
    "C46_id_of_none_value_refuted",
    "C46_doc_empty_value_refuted",
    "C46_doc_unknown_type_refuted",
    "C46_doc_no_value_refuted",
    "C46_doc_button_refuted",
    "C46_doc_for_refuted",
    "C46_id_formats",
    "C46_formatted_unique",
    "C46_missing_switch",
    "C46_missing_counter",
    "C46_missing_filters"
   ],
   "note": "The refuted theorems record findings outside the statement: explicit checked/selected are always recomputed, value=None on a check box makes id generation raise TypeError, and five places where docs/source/markup.rst describes something else (empty values, unknown input types, boxes without a value, buttons, labels)."
  },
  {
   "property": "C47",
   "status": "proved",
   "theorems": [
    "C47_luhn10_decides",
    "C47_digits_exist",
    "C47_luhn10_single_digit_error",
    "C47_luhn10_transposition",
    "C47_luhn10_negative_never_returns"
   ],
   "note": ""
  },
  {
   "property": "C48",
   "status": "proved",
   "theorems": [
    "C48_symbols_are_singletons",
    "C48_calls_accounted",
    "C48_no_deadlock"
   ],
   "note": ""
  },
  {
   "property": "C49",
   "status": "proved",
   "theorems": [
    "C49_shorter",
    "C49_longer",
    "C49_length_between",
    "C49_shorter_any",
    "C49_longer_any",
    "C49_length_between_any",
    "C49_lengths_given",
    "C49_lengths_unset",
    "C49_less",
    "C49_greater",
    "C49_at_most",
    "C49_at_least",
    "C49_between",
    "C49_less_any",
    "C49_greater_any",
    "C49_at_most_any",
    "C49_at_least_any",
    "C49_between_inclusive",
    "C49_between_exclusive",
    "C49_bounds_by_keyword",
    "C49_has_at_least",
    "C49_has_at_most",
    "C49_has_between",
    "C49_has_at_least_any",
    "C49_has_at_most_any",
    "C49_has_between_any",
    "C49_has_between_new",
    "C49_sizes_unset",
    "C49_has_at_least_none",
    "C49_has_at_most_none",
    "C49_has_between_none",
    "C49_no_schema",
    "C49_text_counted",
    "C49_number_uncounted",
    "C49_none_refuted"
   ],
   "note": "Exact boundaries for every value; C49_none_refuted: a value that failed adaptation raises TypeError instead of failing."
  },
  {
   "property": "C50",
   "status": "proved",
   "theorems": [
    "C50_each",
    "C50_all",
    "C50_message",
    "C50_raises",
    "C50_orphan",
    "C50_unlisted"
   ],
   "note": ""
  },
  {
   "property": "C51",
   "status": "proved",
   "theorems": [
    "C51_cases",
    "C51_string",
    "C51_messages",
    "C51_not_text",
    "C51_digits",
    "C51_digits_unique",
    "C51_extension_refuted",
    "C51_leading_zero_refuted"
   ],
   "note": "C51_extension_refuted: keeping extensions always raises TypeError. C51_leading_zero_refuted: leading zeros of numbers with non-ASCII digits are lost."
  },
  {
   "property": "C52",
   "status": "proved",
   "theorems": [
    "C52_default",
    "C52_any",
    "C52_domain",
    "C52_ascii_name",
    "C52_newline_refuted"
   ],
   "note": "C52_newline_refuted: a trailing newline is accepted."
  },
  {
   "property": "C53",
   "status": "proved",
   "theorems": [
    "C53_type",
    "C53_text",
    "C53_read",
    "C53_digits",
    "C53_set_text",
    "C53_set_other",
    "C53_round_trip",
    "C53_round_trip_text",
    "C53_accepted",
    "C53_accepted_number",
    "C53_invalid",
    "C53_validate",
    "C53_short_refuted",
    "C53_sign_refuted",
    "C53_short_visa_refuted",
    "C53_blank_refuted",
    "C53_type_raises_refuted"
   ],
   "note": "C53_*_refuted record the cases in which the simpler reading fails: short and negative numbers, 13-digit Visa, blank text raising, refused types raising."
  },
  {
   "property": "C54",
   "status": "proved",
   "theorems": [
    "C54_maybe_is_kleene",
    "C54_other_operands_refused"
   ],
   "note": ""
  },
  {
   "property": "C55",
   "status": "proved",
   "theorems": [
    "C55_re_uescape_literal"
   ],
   "note": ""
  },
  {
   "property": "C56",
   "status": "proved",
   "theorems": [
    "C56_lookup",
    "C56_open_close",
    "C56_reopen",
    "C56_invariant"
   ],
   "note": ""
  },
  {
   "property": "C57",
   "status": "proved",
   "theorems": [
    "C57_tag_method_refuted",
    "C57_tag_method",
    "C57_named_tags"
   ],
   "note": "C57_tag_method_refuted shows the excepted case, C57_tag_method that there is no other."
  },
  {
   "property": "C58",
   "status": "proved",
   "theorems": [
    "C58_truth",
    "C58_empty",
    "C58_empty_string",
    "C58_string_after_set",
    "C58_string_none",
    "C58_other_after_set",
    "C58_midnight_refuted"
   ],
   "note": "C58_midnight_refuted records a finding: a Time holding midnight is false (Python before 3.5)."
  },
  {
   "property": "C59",
   "status": "proved",
   "theorems": [
    "C59_flat_first_pair",
    "C59_flat_absent",
    "C59_default",
    "C59_new"
   ],
   "note": ""
  },
  {
   "property": "C60",
   "status": "proved",
   "theorems": [
    "C60_set_flat_routing",
    "C60_set_flat_raises_refuted"
   ],
   "note": "The refuted theorem records AttributeError for a None key and TypeError for a field named None."
  },
  {
   "property": "C61",
   "status": "proved",
   "theorems": [
    "C61_dict_default",
    "C61_given_default",
    "C61_sparse_default"
   ],
   "note": ""
  },
  {
   "property": "C62",
   "status": "proved",
   "theorems": [
    "C62_assign",
    "C62_delete",
    "C62_pop",
    "C62_setdefault",
    "C62_clear",
    "C62_steps",
    "C62_may_contain",
    "C62_is_empty"
   ],
   "note": ""
  },
  {
   "property": "C63",
   "status": "proved",
   "theorems": [
    "C63_truth_text",
    "C63_truth",
    "C63_parents",
    "C63_path",
    "C63_root",
    "C63_breadth_first",
    "C63_descendants"
   ],
   "note": ""
  },
  {
   "property": "C64",
   "status": "proved",
   "theorems": [
    "C64_scalar",
    "C64_mapping",
    "C64_own_key",
    "C64_joined",
    "C64_array",
    "C64_array_of_containers",
    "C64_none_key",
    "C64_other_key_refuted"
   ],
   "note": "C64_other_key_refuted records the blank member that a pair with another name adds."
  },
  {
   "property": "C65",
   "status": "proved",
   "theorems": [
    "C65_template",
    "C65_first_object",
    "C65_field",
    "C65_contains",
    "C65_missing",
    "C65_lookup_raises",
    "C65_translation_raises",
    "C65_objects",
    "C65_message",
    "C65_missing_field",
    "C65_not_text"
   ],
   "note": ""
  },
  {
   "property": "C66",
   "status": "proved",
   "theorems": [
    "C66_translator",
    "C66_translator_raises",
    "C66_plural",
    "C66_callable"
   ],
   "note": ""
  },
  {
   "property": "C67",
   "status": "proved",
   "theorems": [
    "C67_records",
    "C67_silent",
    "C67_raises",
    "C67_unknown_key",
    "C67_once",
    "C67_new",
    "C67_new_refused"
   ],
   "note": ""
  },
  {
   "property": "C68",
   "status": "proved",
   "theorems": [
    "C68_present",
    "C68_is_true",
    "C68_is_false",
    "C68_value_in",
    "C68_converted",
    "C68_luhn",
    "C68_luhn_other",
    "C68_nxx",
    "C68_nxx_silent",
    "C68_nxx_none",
    "C68_nxx_other",
    "C68_npa_nxx",
    "C68_npa_nxx_refuted"
   ],
   "note": "C68_npa_nxx_refuted: NANPnpa_nxx never gives a verdict."
  },
  {
   "property": "C69",
   "status": "proved",
   "theorems": [
    "C69_values_and_texts",
    "C69_transform",
    "C69_message",
    "C69_find_raises",
    "C69_transform_raises",
    "C69_new",
    "C69_no_transform_refuted"
   ],
   "note": "C69_no_transform_refuted: without a transform MapEqual raises TypeError."
  },
  {
   "property": "C70",
   "status": "proved",
   "theorems": [
    "C70_url",
    "C70_url_bad",
    "C70_url_message",
    "C70_http_entry",
    "C70_http_pass",
    "C70_http_first_failure",
    "C70_http_default",
    "C70_http_schema",
    "C70_http_message",
    "C70_canonical",
    "C70_canonical_message",
    "C70_http_scheme_refuted",
    "C70_canonical_text_refuted"
   ],
   "note": "C70_http_scheme_refuted: the scheme is never checked (key typo). C70_canonical_text_refuted: .u keeps the parts that were removed."
  },
  {
   "property": "C71",
   "status": "proved",
   "theorems": [
    "C71_own_value",
    "C71_success_settles",
    "C71_new_settled",
    "C71_set_again",
    "C71_library_scalars",
    "C71_integers",
    "C71_forgets",
    "C71_unset_boolean_refuted",
    "C71_unset_enum_refuted",
    "C71_multivalue_refuted"
   ],
   "note": "The _refuted theorems are the exceptions the statement names."
  },
  {
   "property": "C72",
   "status": "proved",
   "theorems": [
    "C72_reflexive",
    "C72_symmetric",
    "C72_transitive",
    "C72_value_and_text",
    "C72_equal_values",
    "C72_equal_dicts",
    "C72_not_an_element",
    "C72_not_equal",
    "C72_scalars",
    "C72_sequences",
    "C72_mappings",
    "C72_kinds_differ",
    "C72_order_refuted",
    "C72_members_refuted"
   ],
   "note": "The _refuted theorems are the two surprises the statement names."
  },
  {
   "property": "C73",
   "status": "proved",
   "theorems": [
    "C73_unambiguous",
    "C73_denotes",
    "C73_repr_reads_back",
    "C73_multivalue_refuted"
   ],
   "note": "The _refuted theorem is the MultiValue exception the statement names."
  },
  {
   "property": "C74",
   "status": "proved",
   "theorems": [
    "C74_first",
    "C74_none",
    "C74_assign_value",
    "C74_assign_u",
    "C74_assign_absent",
    "C74_emptiness"
   ],
   "note": ""
  },
  {
   "property": "C75",
   "status": "proved",
   "theorems": [
    "C75_dict",
    "C75_last_wins",
    "C75_pairs",
    "C75_faulty_pair",
    "C75_sequence",
    "C75_not_iterable",
    "C75_characters_and_keys",
    "C75_scalar",
    "C75_scalar_raises",
    "C75_scalar_object",
    "C75_new"
   ],
   "note": ""
  },
  {
   "property": "C76",
   "status": "proved",
   "theorems": [
    "C76_reads",
    "C76_remembers",
    "C76_sets",
    "C76_assigns",
    "C76_raw",
    "C76_set_container",
    "C76_missing",
    "C76_set_missing",
    "C76_adapts",
    "C76_circular",
    "C76_assign_circular",
    "C76_stale_refuted"
   ],
   "note": "C76_stale_refuted is the last sentence of the statement."
  },
  {
   "property": "C77",
   "status": "proved",
   "theorems": [
    "C77_assignable",
    "C77_calls",
    "C77_cloner",
    "C77_lazy_first",
    "C77_lazy_once",
    "C77_lazy_assigned",
    "C77_delete_present",
    "C77_delete_absent",
    "C77_others",
    "C77_renamed_refuted"
   ],
   "note": "C77_renamed_refuted is the exception the statement names."
  },
  {
   "property": "C78",
   "status": "proved",
   "theorems": [
    "C78_label",
    "C78_class_label",
    "C78_nearest",
    "C78_default",
    "C78_view",
    "C78_adict",
    "C78_adict_refuted"
   ],
   "note": "C78_adict_refuted is the exception the statement names."
  },
  {
   "property": "C79",
   "status": "proved",
   "theorems": [
    "C79_reads",
    "C79_start",
    "C79_dir",
    "C79_all",
    "C79_own_name_refuted"
   ],
   "note": "C79_own_name_refuted is the exception the statement names."
  },
  {
   "property": "C80",
   "status": "proved",
   "theorems": [
    "C80_rewritten",
    "C80_works",
    "C80_only_controls",
    "C80_one_meaning",
    "C80_clear_refuted",
    "C80_markup_refuted"
   ],
   "note": "the exceptions named in the statement are proved as C80_clear_refuted and C80_markup_refuted"
  },
  {
   "property": "C81",
   "status": "proved",
   "theorems": [
    "C81_bound",
    "C81_total",
    "C81_errors",
    "C81_nothing_lost",
    "C81_once",
    "C81_controlled_option",
    "C81_late_iterator_refuted"
   ],
   "note": "the exceptions named in the statement are C81_controlled_option and C81_late_iterator_refuted"
  },
  {
   "property": "C82",
   "status": "proved",
   "theorems": [
    "C82_order",
    "C82_sequence",
    "C82_empty",
    "C82_event",
    "C82_iterator",
    "C82_no_directives",
    "C82_bound_tag",
    "C82_controlled_tag",
    "C82_one_result",
    "C82_any_fuel",
    "C82_nested_first",
    "C82_nested_error",
    "C82_ends"
   ],
   "note": ""
  },
  {
   "property": "C83",
   "status": "proved",
   "theorems": [
    "C83_options",
    "C83_bad_tabindex",
    "C83_with",
    "C83_set",
    "C83_enclosing",
    "C83_alone",
    "C83_unknown",
    "C83_set_unknown",
    "C83_pop",
    "C83_restored_refuted",
    "C83_set_filters_refuted"
   ],
   "note": "the exceptions named in the statement are C83_restored_refuted and C83_set_filters_refuted"
  },
  {
   "property": "C84",
   "status": "proved",
   "theorems": [
    "C84_text",
    "C84_events",
    "C84_errors",
    "C84_cases",
    "C84_single_refuted"
   ],
   "note": "the failing case named in the statement has a witness in C84_single_refuted"
  },
  {
   "property": "C85",
   "status": "proved",
   "theorems": [
    "C85_shown",
    "C85_textarea_refuted"
   ],
   "note": "that textareas do change is shown by C85_textarea_refuted"
  },
  {
   "property": "C86",
   "status": "proved",
   "theorems": [
    "C86_set",
    "C86_one_number",
    "C86_one_float",
    "C86_rounded_once",
    "C86_rounded",
    "C86_decimal_float",
    "C86_text",
    "C86_one_text",
    "C86_again",
    "C86_again_near",
    "C86_own_value",
    "C86_value_again_refuted",
    "C86_integers_refuted"
   ],
   "note": "Proved; floats are IEEE 754 binary64, with the conversions of Python 3.3."
  },
  {
   "property": "C87",
   "status": "proved",
   "theorems": [
    "C87_set",
    "C87_one_decimal",
    "C87_again",
    "C87_own_value",
    "C87_digits_refuted",
    "C87_signaling_refuted",
    "C87_unsigned_nan_refuted"
   ],
   "note": "Proved; exponents past 10^18, which Decimal limits, are left out. The failures of set() are stated in the claim and shown by refuted theorems."
  },
  {
   "property": "C88",
   "status": "proved",
   "theorems": [
    "C88_as_before",
    "C88_as_before_flat",
    "C88_until_then",
    "C88_until_then_flat",
    "C88_markings",
    "C88_exceptions",
    "C88_ends"
   ],
   "note": "validation with the exceptions of validators; the state left behind, the events up to then, the markings; receivers of signals do not raise"
  },
  {
   "property": "C89",
   "status": "proved",
   "theorems": [
    "C89_list_extend",
    "C89_list_extend_empty",
    "C89_array_extend",
    "C89_array_extend_empty",
    "C89_list_set",
    "C89_array_set",
    "C89_list_set_elements",
    "C89_array_set_elements",
    "C89_list_slice",
    "C89_list_whole_slice",
    "C89_array_slice",
    "C89_list_hidden",
    "C89_failed_slice_refuted"
   ],
   "note": "The refuted theorem is the exception named in the statement: a failed slice assignment does not keep back references."
  },
  {
   "property": "C90",
   "status": "proved",
   "theorems": [
    "C90_dict_set",
    "C90_sparse_set",
    "C90_bad_policy",
    "C90_dict_update",
    "C90_sparse_update"
   ],
   "note": ""
  },
  {
   "property": "C91",
   "status": "proved",
   "theorems": [
    "C91_as_before",
    "C91_as_before_flat",
    "C91_history",
    "C91_verdict",
    "C91_order",
    "C91_children",
    "C91_chain",
    "C91_direction",
    "C91_spared",
    "C91_flat",
    "C91_ends",
    "C91_failure_refuted"
   ],
   "note": "The exception the statement names (a failure that is not counted) is C91_failure_refuted."
  },
  {
   "property": "C92",
   "status": "proved",
   "theorems": [
    "C92_set",
    "C92_set_raises",
    "C92_assign",
    "C92_read",
    "C92_new",
    "C92_truth",
    "C92_repr",
    "C92_default",
    "C92_empty",
    "C92_abstract",
    "C92_date"
   ],
   "note": ""
  },
  {
   "property": "C93",
   "status": "proved",
   "theorems": [
    "C93_flatten",
    "C93_set_flat",
    "C93_round_trip",
    "C93_date_round_trip",
    "C93_own_pair"
   ],
   "note": ""
  },
  {
   "property": "C94",
   "status": "proved",
   "theorems": [
    "C94_halves",
    "C94_call",
    "C94_open_close",
    "C94_settings",
    "C94_texts",
    "C94_failed_open_refuted"
   ],
   "note": "C94_failed_open_refuted is the finding named last in the statement: open() is not undone when rendering raises."
  },
  {
   "property": "C95",
   "status": "proved",
   "theorems": [
    "C95_contents",
    "C95_given"
   ],
   "note": ""
  },
  {
   "property": "C96",
   "status": "proved",
   "theorems": [
    "C96_found",
    "C96_unique",
    "C96_held",
    "C96_generate"
   ],
   "note": ""
  },
  {
   "property": "C97",
   "status": "proved",
   "theorems": [
    "C97_control",
    "C97_form",
    "C97_draws"
   ],
   "note": "Read with the parser of SpecMarkup.v, not with a browser: a browser drops a newline at the start of a textarea, does not send disabled options and collapses space in an option text. The kinds of control the restrictions leave out are covered one by one in C46."
  },
  {
   "property": "C98",
   "status": "proved",
   "theorems": [
    "C98_made",
    "C98_refused",
    "C98_directives",
    "C98_any_order",
    "C98_template_refused",
    "C98_bound_tag",
    "C98_setup"
   ],
   "note": ""
  },
  {
   "property": "C99",
   "status": "proved",
   "theorems": [
    "C99_finds",
    "C99_returns",
    "C99_one_object",
    "C99_kept",
    "C99_few_paths",
    "C99_bounded",
    "C99_accounted",
    "C99_finishes",
    "C99_limit_refuted"
   ],
   "note": "All clauses proved. C99_limit_refuted shows the overrun of the limit that the statement names. Steps are the accesses to the shared dict, each atomic."
  },
  {
   "property": "C100",
   "status": "proved",
   "theorems": [
    "C100_agree",
    "C100_both",
    "C100_start"
   ],
   "note": "Filters are left out (each front end hands them contents of its own type); contents are text. The template is the rendered stream of events; that Genshi escapes text and attributes on output is outside the model. C97 and C80 give what each front end writes."
  },
  {
   "property": "C101",
   "status": "proved",
   "theorems": [
    "C101_temporals",
    "C101_card_types",
    "C101_card_text",
    "C101_phones",
    "C101_domains",
    "C101_domids",
    "C101_paths",
    "C101_list_keys",
    "C101_array_keys"
   ],
   "note": "Each hand-written matcher of the models equals backtracking over the text of the pattern in the source; every pattern is shown to parse. IGNORECASE and the classes of domain names are those of ASCII text, which is all that reaches them."
  },
  {
   "property": "C102",
   "status": "proved",
   "theorems": [
    "C102_report",
    "C102_one_account",
    "C102_passed",
    "C102_failed",
    "C102_again",
    "C102_fresh",
    "C102_raises",
    "C102_ends",
    "C102_alone"
   ],
   "note": "Elements, validators and messages together: ModelReport runs validate() of ModelRaise with validators that report as in ModelValidators. Validators that also change the element are outside (C68-C72 one by one)."
  },
  {
   "property": "C103",
   "status": "proved",
   "theorems": [
    "C103_target",
    "C103_fq_name",
    "C103_way",
    "C103_missing",
    "C103_reads",
    "C103_fields",
    "C103_field_missing",
    "C103_field_nothing"
   ],
   "note": "Joins C76 and C69, which leave the path lookups open, with those of C30 and C31."
  },
  {
   "property": "C104",
   "status": "proved",
   "theorems": [
    "C104_controls",
    "C104_form",
    "C104_renders",
    "C104_one_reading"
   ],
   "note": "Follows from C97 and C100, and for options from the rewriting of the stream (C81), through an event reader of its own (SpecPost). Options with contents other than one text, and groups of options, are not included."
  },
  {
   "property": "C105",
   "status": "proved",
   "theorems": [
    "C105_again",
    "C105_form",
    "C105_page",
    "C105_kinds",
    "C105_compound_kinds",
    "C105_blank_member_refuted",
    "C105_boolean_refuted"
   ],
   "note": "C105_blank_member_refuted: a member of a pruning List set to space is there, blank, and gone the next time. C105_boolean_refuted: an unset Boolean with its own text for False but the usual synonyms has that text the next time. Float and Decimal keep the text but not the value (C86_value_again_refuted); other kinds may be used if they are steady in the sense of SpecAgain."
  },
  {
   "property": "C106",
   "status": "proved",
   "theorems": [
    "C106_trip",
    "C106_one",
    "C106_form",
    "C106_page",
    "C106_values",
    "C106_unrestricted_refuted"
   ],
   "note": "The refuted theorem records what does not come back: None in a String, a blank member of a pruning List, an empty last member, an empty List in a SparseDict, more members than maximum_set_flat_members."
  },
  {
   "property": "C107",
   "status": "proved",
   "theorems": [
    "C107_display",
    "C107_raises",
    "C107_readable",
    "C107_slot",
    "C107_path",
    "C107_settings",
    "C107_message",
    "C107_find",
    "C107_unrestricted_refuted"
   ],
   "note": "A scalar and a Compound of the same class name, name and value show the same (C107_unrestricted_refuted)."
  },
  {
   "property": "C108",
   "status": "proved",
   "theorems": [
    "C108_again",
    "C108_shape",
    "C108_replace",
    "C108_steps",
    "C108_raising_refuted",
    "C108_list_refuted"
   ],
   "note": "C108_raising_refuted and C108_list_refuted show what fails without the provisos: a replacement that raises keeps what the earlier call left, and a List both steps have pairs for keeps the second only."
  },
  {
   "property": "C109",
   "status": "proved",
   "theorems": [
    "C109_elements",
    "C109_answered",
    "C109_places",
    "C109_one_account",
    "C109_present",
    "C109_converted",
    "C109_has_at_least",
    "C109_containers",
    "C109_present_joined",
    "C109_converted_joined",
    "C109_has_at_least_joined",
    "C109_has_at_least_others",
    "C109_not_duplicated",
    "C109_not_duplicated_alone",
    "C109_sent",
    "C109_complete",
    "C109_unique",
    "C109_silent_refuted"
   ],
   "note": "C109_silent_refuted proves the exception the statement names: an invalid form without any message."
  },
  {
   "property": "C110",
   "status": "proved",
   "theorems": [
    "C110_alike",
    "C110_places",
    "C110_known",
    "C110_sent_back",
    "C110_drawn",
    "C110_rendered",
    "C110_corrected",
    "C110_messages_refuted"
   ],
   "note": "C110_messages_refuted proves the exception the statement names: messages of an earlier validate() stay after a correction."
  },
  {
   "property": "C111",
   "status": "proved",
   "theorems": [
    "C111_compared",
    "C111_form",
    "C111_checked",
    "C111_sent_refuted"
   ],
   "note": "C111_sent_refuted proves the exception the statement names: the texts shown are compared, not those sent."
  },
  {
   "property": "C112",
   "status": "proved",
   "theorems": [
    "C112_one",
    "C112_made",
    "C112_value_in",
    "C112_has_at_most",
    "C112_has_between",
    "C112_sizes_others",
    "C112_sent",
    "C112_impartial",
    "C112_own",
    "C112_unread_refuted"
   ],
   "note": "C112_unread_refuted proves the exception the statement names: a bound without Converted() before it raises for a text that is not read. Validators of texts and values are modelled for scalars and JoinedStrings; for Compounds, Dicts, Lists and Arrays an error stands in (except Present and Converted, C109)."
  }
 ]
}