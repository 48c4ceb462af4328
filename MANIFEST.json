{
 "claims": [
  {
   "property": "C01",
   "status": "proved",
   "theorems": [
    "C01_camelcase_shape",
    "C01_pascalcase_shape",
    "C01_snakecase_shape",
    "C01_lispcase_shape",
    "C01_camelcase_idempotent",
    "C01_pascalcase_idempotent",
    "C01_snakecase_idempotent",
    "C01_lispcase_idempotent",
    "C01_fixpoints"
   ],
   "note": ""
  },
  {
   "property": "C02",
   "status": "proved",
   "theorems": [
    "C02_camelcase_fails_iff",
    "C02_pascalcase_fails_iff",
    "C02_snakecase_fails_iff",
    "C02_lispcase_fails_iff",
    "C02_results_nonempty"
   ],
   "note": ""
  },
  {
   "property": "C03",
   "status": "proved",
   "theorems": [
    "C03_snake_of_camel",
    "C03_snake_of_pascal",
    "C03_snake_of_lisp",
    "C03_camel_of_words",
    "C03_camel_keys_distinct",
    "C03_single_letter_words_refuted",
    "C03_digit_words_refuted",
    "C03_keys_collide_refuted"
   ],
   "note": "Exact boundary proved for words of letters; violations outside it are the _refuted theorems."
  },
  {
   "property": "C04",
   "status": "proved",
   "theorems": [
    "C04_snake_of_lisp",
    "C04_lisp_of_snake",
    "C04_camel_of_pascal",
    "C04_pascal_of_camel",
    "C04_camel_pascal_first_char",
    "C04_snake_lisp_separator"
   ],
   "note": ""
  },
  {
   "property": "C05",
   "status": "proved",
   "theorems": [
    "C05_offset_round_trip",
    "C05_quarter_hour_refuted",
    "C05_named_utc_refuted"
   ],
   "note": ""
  },
  {
   "property": "C06",
   "status": "proved",
   "theorems": [
    "C06_utc_text",
    "C06_utc_load",
    "C06_small_year_refuted"
   ],
   "note": ""
  },
  {
   "property": "C07",
   "status": "proved",
   "theorems": [
    "C07_naive_text",
    "C07_naive_load"
   ],
   "note": ""
  },
  {
   "property": "C08",
   "status": "proved",
   "theorems": [
    "C08_fraction_utc",
    "C08_fraction_offset"
   ],
   "note": ""
  },
  {
   "property": "C09",
   "status": "proved",
   "theorems": [
    "C09_date_round_trip",
    "C09_time_round_trip",
    "C09_time_with_microseconds_raises",
    "C09_texts"
   ],
   "note": ""
  },
  {
   "property": "C10",
   "status": "proved",
   "theorems": [
    "C10_arbitrary_text",
    "C10_arbitrary_date_text",
    "C10_arbitrary_time_text"
   ],
   "note": ""
  },
  {
   "property": "C11",
   "status": "proved",
   "theorems": [
    "C11_parallel_is_sequential",
    "C11_always_completes",
    "C11_bounded_work",
    "C11_schedule_independent"
   ],
   "note": ""
  },
  {
   "property": "C12",
   "status": "proved",
   "theorems": [
    "C12_slices_partition",
    "C12_slices_defined",
    "C12_each_element_once",
    "C12_no_element_twice"
   ],
   "note": ""
  },
  {
   "property": "C13",
   "status": "proved",
   "theorems": [
    "C13_failed_slots",
    "C13_no_error_reported",
    "C13_empty_list_crashes",
    "C13_invalid_tasks"
   ],
   "note": ""
  },
  {
   "property": "C14",
   "status": "proved",
   "theorems": [
    "C14_lookup_is_specified",
    "C14_last_registration_wins"
   ],
   "note": ""
  },
  {
   "property": "C15",
   "status": "proved",
   "theorems": [
    "C15_first_matching_ancestor",
    "C15_no_ancestor",
    "C15_priority_order"
   ],
   "note": ""
  },
  {
   "property": "C16",
   "status": "proved",
   "theorems": [
    "C16_other_names_unaffected",
    "C16_case_collision"
   ],
   "note": ""
  },
  {
   "property": "C17",
   "status": "proved",
   "theorems": [
    "C17_isolation",
    "C17_fresh_fork_copies",
    "C17_fork_is_separate",
    "C17_subclass_is_not"
   ],
   "note": ""
  },
  {
   "property": "C18",
   "status": "proved",
   "theorems": [
    "C18_validators_shared",
    "C18_announced_shared",
    "C18_announce_takes_effect",
    "C18_validator_isolation_refuted",
    "C18_reannounce_refuted"
   ],
   "note": ""
  },
  {
   "property": "C19",
   "status": "proved",
   "theorems": [
    "C19_cache_transparent",
    "C19_calls_leave_cache_empty",
    "C19_direct_lookup_after_call",
    "C19_direct_get_refuted",
    "C19_failed_load_refuted",
    "C19_skipped_load_refuted"
   ],
   "note": ""
  },
  {
   "property": "C20",
   "status": "proved",
   "theorems": [
    "C20_exact",
    "C20_isolation",
    "C20_suppress_all",
    "C20_suppress_code",
    "C20_fresh_fork",
    "C20_subclass_leak_refuted"
   ],
   "note": ""
  },
  {
   "property": "C21",
   "status": "proved",
   "theorems": [
    "C21_dump_only_json",
    "C21_dump_only_json_if_copied_is",
    "C21_foreign_refuted"
   ],
   "note": ""
  },
  {
   "property": "C22",
   "status": "proved",
   "theorems": [
    "C22_dump_fails_with_serialization_error"
   ],
   "note": ""
  },
  {
   "property": "C23",
   "status": "proved",
   "theorems": [
    "C23_no_null_entries",
    "C23_removes_nothing_else",
    "C23_named_tuple_refuted"
   ],
   "note": ""
  },
  {
   "property": "C24",
   "status": "proved",
   "theorems": [
    "C24_attributes_of_instance",
    "C24_attributes_of_class_when_strict",
    "C24_strip_attr_as_list_fails"
   ],
   "note": ""
  },
  {
   "property": "C25",
   "status": "proved",
   "theorems": [
    "C25_failing_attribute_truncates",
    "C25_unreadable_attribute_aborts"
   ],
   "note": ""
  },
  {
   "property": "C26",
   "status": "proved",
   "theorems": [
    "C26_key_transformer_rewrites"
   ],
   "note": ""
  },
  {
   "property": "C27",
   "status": "proved",
   "theorems": [
    "C27_identity_on_documents",
    "C27_dumps_are_documents",
    "C27_dump_twice",
    "C27_str_enum_refuted"
   ],
   "note": "Idempotence excludes classes whose enums derive from str or int: C27_str_enum_refuted."
  },
  {
   "property": "C28",
   "status": "proved",
   "theorems": [
    "C28_round_trip",
    "C28_union_refuted"
   ],
   "note": "For unions the value belongs to the first alternative besides None; beyond that C28_union_refuted."
  },
  {
   "property": "C29",
   "status": "proved",
   "theorems": [
    "C29_load_fails_with_jsons_error",
    "C29_meta_without_classes",
    "C29_always_jsons_error_refuted"
   ],
   "note": ""
  },
  {
   "property": "C30",
   "status": "proved",
   "theorems": [
    "C30_loaded_values_conform",
    "C30_lists",
    "C30_unions",
    "C30_tuples",
    "C30_dicts",
    "C30_primitives",
    "C30_classes",
    "C30_without_plain_input_refuted"
   ],
   "note": ""
  },
  {
   "property": "C31",
   "status": "proved",
   "theorems": [
    "C31_explicit_class_wins",
    "C31_list_elements_overridden",
    "C31_attributes_overridden"
   ],
   "note": ""
  },
  {
   "property": "C32",
   "status": "proved",
   "theorems": [
    "C32_strict_unknown_key_rejected",
    "C32_strict_keys_known",
    "C32_extra_keys_become_attributes"
   ],
   "note": ""
  },
  {
   "property": "C33",
   "status": "proved",
   "theorems": [
    "C33_loads_object_iff_constructs",
    "C33_first_unfulfilled_reported",
    "C33_constructor_called_once"
   ],
   "note": ""
  },
  {
   "property": "C34",
   "status": "proved",
   "theorems": [
    "C34_none_rejected",
    "C34_none_accepted",
    "C34_none_loads_as_none",
    "C34_none_as_object_refuted",
    "C34_odd_name_type_error"
   ],
   "note": ""
  },
  {
   "property": "C35",
   "status": "proved",
   "theorems": [
    "C35_dump_first_alternative",
    "C35_dump_fails_if_all_fail",
    "C35_load_union_first_success",
    "C35_load_union_all_fail"
   ],
   "note": ""
  },
  {
   "property": "C36",
   "status": "proved",
   "theorems": [
    "C36_returned_value_accepted",
    "C36_untyped_value_accepted",
    "C36_nested_values_accepted",
    "C36_given_value_rejected",
    "C36_any_rejected",
    "C36_flat_rejected",
    "C36_custom_rejected",
    "C36_list_rejected",
    "C36_object_rejected",
    "C36_defaults_validated_refuted"
   ],
   "note": ""
  },
  {
   "property": "C37",
   "status": "proved",
   "theorems": [
    "C37_list_elementwise",
    "C37_first_failing_index",
    "C37_warn_drops_failing",
    "C37_warn_drops_only_failing",
    "C37_validation_error_aborts"
   ],
   "note": ""
  },
  {
   "property": "C38",
   "status": "proved",
   "theorems": [
    "C38_explicit_str_unchanged",
    "C38_untyped_str",
    "C38_untyped_document"
   ],
   "note": ""
  },
  {
   "property": "C39",
   "status": "proved",
   "theorems": [
    "C39_dumped_by_name_or_value",
    "C39_name_loads_as_member",
    "C39_value_loads_as_member",
    "C39_value_by_default",
    "C39_unhashable_value_fails",
    "C39_default_load_of_value_refuted"
   ],
   "note": ""
  },
  {
   "property": "C40",
   "status": "proved",
   "theorems": [
    "C40_round_trip",
    "C40_section_loads",
    "C40_clash_loses",
    "C40_untyped_rejected",
    "C40_strip_nulls_refuted",
    "C40_text_keys_refuted"
   ],
   "note": "For every hash function. Values may not be lost only under the stated conditions: strip_nulls and keys dumped as text beside hashed keys are the _refuted theorems."
  },
  {
   "property": "C41",
   "status": "proved",
   "theorems": [
    "C41_section_is_emptied",
    "C41_any_order",
    "C41_failure_leaves_the_rest",
    "C41_nothing_else_changes",
    "C41_untouched",
    "C41_second_load",
    "C41_same_load_twice_refuted"
   ],
   "note": "State of the caller's section modelled in HashedKeysModel; sections of nested documents are not followed."
  },
  {
   "property": "C42",
   "status": "proved",
   "theorems": [
    "C42_namedtuple_fields",
    "C42_missing_field_unfulfilled",
    "C42_round_trip",
    "C42_none_not_optional_is_lost",
    "C42_none_input_unfulfilled"
   ],
   "note": ""
  },
  {
   "property": "C43",
   "status": "proved",
   "theorems": [
    "C43_tuple_elementwise",
    "C43_too_many_elements",
    "C43_tuple_ellipsis"
   ],
   "note": ""
  },
  {
   "property": "C44",
   "status": "proved",
   "theorems": [
    "C44_dump_uses_its_fork_only",
    "C44_load_uses_its_fork_only",
    "C44_load_uses_two_forks",
    "C44_load_own_fork_suffices_refuted"
   ],
   "note": "dump and load with one task. The deserializers of timezones and complex numbers use the default fork whatever fork is given (refuted theorem); the load theorems say so."
  },
  {
   "property": "C45",
   "status": "proved",
   "theorems": [
    "C45_strict_list_uses_class_of_first",
    "C45_lenient_list_uses_own_classes",
    "C45_typed_list_uses_its_type",
    "C45_homogeneous_scalars_unaffected",
    "C45_strict_tuple_uses_type_of_first",
    "C45_strict_typed_tuple",
    "C45_strict_tuple_of_one_type",
    "C45_lenient_tuple_uses_own_classes"
   ],
   "note": ""
  },
  {
   "property": "C46",
   "status": "proved",
   "theorems": [
    "C46_transform_done",
    "C46_transform_fails",
    "C46_transform_effects",
    "C46_transform_stops",
    "C46_to_own_type",
    "C46_to_similar_class",
    "C46_result_type",
    "C46_dump_args_refuted"
   ],
   "note": ""
  },
  {
   "property": "C47",
   "status": "proved",
   "theorems": [
    "C47_document",
    "C47_round_trip",
    "C47_own_names",
    "C47_dump_time_only",
    "C47_clash_refuted",
    "C47_list_refuted",
    "C47_leak_refuted",
    "C47_dict_refuted"
   ],
   "note": "Objects in attributes of objects at any depth. The round trip needs no_clash: without it, and for objects in lists and dicts, the claim is false of the code (the _refuted theorems)."
  },
  {
   "property": "C48",
   "status": "proved",
   "theorems": [
    "C48_call_returns",
    "C48_call_fails",
    "C48_annotations",
    "C48_arguments_fail",
    "C48_too_many_arguments",
    "C48_called_once",
    "C48_not_called",
    "C48_sync",
    "C48_async",
    "C48_decorate_function",
    "C48_decorate_static",
    "C48_decorate_class",
    "C48_loaders",
    "C48_dumpers",
    "C48_classmethods_rejected_refuted",
    "C48_loaded_documents"
   ],
   "note": ""
  },
  {
   "property": "C49",
   "status": "proved",
   "theorems": [
    "C49_round_trip",
    "C49_plain_text_iff",
    "C49_decorated_text",
    "C49_only_literals",
    "C49_other_text_fails",
    "C49_only_hex_digits_refuted"
   ],
   "note": ""
  },
  {
   "property": "C50",
   "status": "proved",
   "theorems": [
    "C50_loads_json",
    "C50_loads_malformed",
    "C50_loads_done",
    "C50_text_unambiguous",
    "C50_loads_no_text",
    "C50_dumps_succeeds",
    "C50_dumps_fails",
    "C50_dumps_effects",
    "C50_dumps_writes_json",
    "C50_dumps_ascii",
    "C50_loads_dumps",
    "C50_loads_dumps_data",
    "C50_text_round_trip",
    "C50_bytes_round_trip",
    "C50_keys_refuted",
    "C50_dumpb",
    "C50_dumpb_fails",
    "C50_loadb_dumpb",
    "C50_loadb_json",
    "C50_loadb_malformed",
    "C50_loadb_invalid",
    "C50_loadb_no_bytes",
    "C50_always_jsons_error_refuted"
   ],
   "note": ""
  },
  {
   "property": "C51",
   "status": "proved",
   "theorems": [
    "C51_timedelta_round_trip",
    "C51_timedelta_of_integers",
    "C51_timedelta_refuted",
    "C51_timezone_round_trip",
    "C51_timezone_range",
    "C51_typed_timezone_refuted"
   ],
   "note": ""
  },
  {
   "property": "C52",
   "status": "proved",
   "theorems": [
    "C52_getters_determine_attributes",
    "C52_getter_calls"
   ],
   "note": ""
  },
  {
   "property": "C53",
   "status": "proved",
   "theorems": [
    "C53_json",
    "C53_from_json",
    "C53_str",
    "C53_dump",
    "C53_load",
    "C53_texts",
    "C53_from_texts",
    "C53_no_other_fork",
    "C53_round_trip"
   ],
   "note": ""
  },
  {
   "property": "C54",
   "status": "proved",
   "theorems": [
    "C54_dump",
    "C54_load",
    "C54_with_dump",
    "C54_with_load",
    "C54_with_dump_others",
    "C54_with_load_others",
    "C54_other_method",
    "C54_fork_leaves_existing",
    "C54_fork_dump",
    "C54_fork_load",
    "C54_inherited",
    "C54_kept",
    "C54_cls_refused",
    "C54_result",
    "C54_documented_example_refuted",
    "C54_own_serializers_refuted",
    "C54_texts_refuted",
    "C54_loads_refuted"
   ],
   "note": ""
  },
  {
   "property": "C55",
   "status": "proved",
   "theorems": [
    "C55_registries",
    "C55_set",
    "C55_set_fork",
    "C55_set_fork_others",
    "C55_with_registers_nothing",
    "C55_registered_is_called",
    "C55_global_refuted"
   ],
   "note": ""
  },
  {
   "property": "C56",
   "status": "proved",
   "theorems": [
    "C56_verbose",
    "C56_silent",
    "C56_asks_once",
    "C56_flag_bits"
   ],
   "note": ""
  },
  {
   "property": "C57",
   "status": "proved",
   "theorems": [
    "C57_keyword_order",
    "C57_dump_cls",
    "C57_load_cls",
    "C57_dumps_cls",
    "C57_dump_too_many",
    "C57_load_too_many",
    "C57_loads_extra",
    "C57_loadb_extra",
    "C57_loads_extra_refuted",
    "C57_plain_calls"
   ],
   "note": ""
  },
  {
   "property": "C58",
   "status": "proved",
   "theorems": [
    "C58_round_trip",
    "C58_library_names",
    "C58_library_fields",
    "C58_tuples_refuted",
    "C58_named_tuples_refuted"
   ],
   "note": ""
  },
  {
   "property": "C59",
   "status": "proved",
   "theorems": [
    "C59_one_task",
    "C59_same_result",
    "C59_any_schedule",
    "C59_fair_schedules",
    "C59_lists",
    "C59_no_tasks",
    "C59_empty_lists_refuted",
    "C59_sets_refuted",
    "C59_forks_refuted",
    "C59_warn_on_fail_refuted",
    "C59_unions_refuted"
   ],
   "note": "For tidy documents in the default fork; everything else is a _refuted theorem. Elements that fail: C59_lists."
  },
  {
   "property": "C60",
   "status": "proved",
   "theorems": [
    "C60_names",
    "C60_generic_names",
    "C60_nested_brackets_refuted",
    "C60_recursive",
    "C60_class_names",
    "C60_announced_types",
    "C60_dump_announces",
    "C60_dump_needs_no_names",
    "C60_same_process",
    "C60_other_process",
    "C60_base_class_refuted",
    "C60_nested_class_refuted",
    "C60_last_dumped_refuted",
    "C60_errors_refuted"
   ],
   "note": "Names, announcements and both round trips; where names are ambiguous or annotated with base classes the claim is false (the _refuted theorems)."
  },
  {
   "property": "C61",
   "status": "proved",
   "theorems": [
    "C61_annotations",
    "C61_class",
    "C61_fallback",
    "C61_unknown_names",
    "C61_spelling",
    "C61_bare_subclass",
    "C61_no_constructor",
    "C61_record",
    "C61_round_trip",
    "C61_dump_fallback_refuted",
    "C61_attribute_error_refuted",
    "C61_abstract_refuted"
   ],
   "note": "CPython 3.10. Strings that are no identifiers are evaluated by an oracle. Abstract classes, AttributeErrors and names of other modules on dump are the _refuted theorems."
  },
  {
   "property": "C62",
   "status": "proved",
   "theorems": [
    "C62_dump_sees_all",
    "C62_load_after_calls",
    "C62_load_recovers",
    "C62_while_loading",
    "C62_load_any_history",
    "C62_interrupted_dump_refuted"
   ],
   "note": "Evictions while load runs are followed for the annotations (C62_while_loading), not inside of a load after an interrupted call."
  },
  {
   "property": "C63",
   "status": "proved",
   "theorems": [
    "C63_dump_terminates",
    "C63_dump_always_ends",
    "C63_load_terminates",
    "C63_load_terminates_flat",
    "C63_property_refuted",
    "C63_class_variable_refuted",
    "C63_meta_refuted",
    "C63_recursion_limit_refuted",
    "C63_namedtuple_refuted",
    "C63_namedtuple_tower_refuted"
   ],
   "note": "Endless cases are refuted separately; the recursion limit is modelled as an exception at a depth of calls of load, not of Python frames."
  },
  {
   "property": "C64",
   "status": "proved",
   "theorems": [
    "C64_key_order",
    "C64_same_value",
    "C64_both_end",
    "C64_list_refuted",
    "C64_int_keys_refuted",
    "C64_key_transformer_refuted",
    "C64_warn_on_fail_refuted"
   ],
   "note": "For types that read by key (by_key); the cases where the order does matter are the _refuted theorems."
  },
  {
   "property": "C65",
   "status": "proved",
   "theorems": [
    "C65_same_load",
    "C65_source_and_target",
    "C65_explained",
    "C65_union",
    "C65_element",
    "C65_source_is_a_part_refuted",
    "C65_target_of_dict_refuted",
    "C65_element_kind_refuted"
   ],
   "note": "The second part assumes that user code and Python functions do not raise DeserializationErrors themselves (polite)."
  },
  {
   "property": "C66",
   "status": "proved",
   "theorems": [
    "C66_default",
    "C66_effects",
    "C66_loads",
    "C66_layouts_agree",
    "C66_injective",
    "C66_round_trip",
    "C66_typed_injective",
    "C66_sorted_load",
    "C66_bytes",
    "C66_any_encoding",
    "C66_writes_json",
    "C66_succeeds",
    "C66_fails",
    "C66_mixed_keys",
    "C66_finite",
    "C66_any_layout_refuted",
    "C66_sorted_text",
    "C66_one_line",
    "C66_ascii",
    "C66_plain_strings"
   ],
   "note": "json.dumps is modelled with these arguments; for default see C84, cls and check_circular are not modelled. The text is written with sort_keys by insertion sort."
  },
  {
   "property": "C67",
   "status": "proved",
   "theorems": [
    "C67_value",
    "C67_loads",
    "C67_fails",
    "C67_not_an_int",
    "C67_int_of_text",
    "C67_text_of_int",
    "C67_float_of_int",
    "C67_float_of_int_refuted",
    "C67_options",
    "C67_bool_of_text_refuted",
    "C67_int_of_bool_refuted",
    "C67_text_of_list_refuted",
    "C67_newtype_refuted",
    "C67_newtype_str_refuted"
   ],
   "note": "float(text) and str of floats, lists and dicts are oracles; texts are byte strings (ASCII digits and white space); no limit on the number of digits. That load(True, int) is True, that load(\"false\", bool) is True, that lists are accepted as str and that NewTypes of int, float and bool cannot be loaded is proved with the suffix _refuted."
  },
  {
   "property": "C68",
   "status": "proved",
   "theorems": [
    "C68_one_task",
    "C68_same_result",
    "C68_any_schedule",
    "C68_fair_schedules",
    "C68_nothing_shared",
    "C68_iterables",
    "C68_empty_refuted",
    "C68_strict_refuted",
    "C68_attributes_refuted"
   ],
   "note": "A task is a sequence of calls and writes, interleaved arbitrarily; effects inside of the tasks (warnings, announced classes) and pickling are not modelled. That empty iterables fail, that strict=True is lost and that attributes become zeros is proved with the suffix _refuted."
  },
  {
   "property": "C69",
   "status": "proved",
   "theorems": [
    "C69_dump_complete_or_reported",
    "C69_strict_dump",
    "C69_dump_errors",
    "C69_too_deep",
    "C69_lenient_refuted",
    "C69_union_refuted",
    "C69_load_complete_or_fails",
    "C69_load_errors",
    "C69_load_ends",
    "C69_load_too_deep",
    "C69_load_union_refuted",
    "C69_load_string_refuted",
    "C69_load_elements_refuted",
    "C69_load_elements_at_the_limit"
   ],
   "note": "A call is stopped at its beginning. The top call of load is not stopped. That lenient dumps are truncated and that Unions, untyped strings and warn_on_fail lose data is proved with the suffix _refuted."
  },
  {
   "property": "C70",
   "status": "proved",
   "theorems": [
    "C70_argument_unchanged",
    "C70_result_is_new",
    "C70_no_document_without_end",
    "C70_errors",
    "C70_objects_without_end_refuted",
    "C70_enum_values_refuted",
    "C70_registered_serializers_refuted"
   ],
   "note": "For the default serializers, and objects whose attributes called name, value, real, imag or key are no containers (these are copied when a class argument asks for an enum, a complex number or a ZoneInfo). What properties and unmodelled attributes return is taken to be new. The exceptions are proved with the suffix _refuted."
  },
  {
   "property": "C71",
   "status": "proved",
   "theorems": [
    "C71_dump_of_the_tree",
    "C71_dump_with_a_limit",
    "C71_sharing_is_not_seen",
    "C71_document_is_unshared",
    "C71_enum_values_refuted"
   ],
   "note": "For the default serializers; properties, other attributes of builtins and class attributes are atoms or agree with the heap (plain_env, agree_env), and enum members have atoms as values; beyond the latter C71_enum_values_refuted."
  },
  {
   "property": "C72",
   "status": "proved",
   "theorems": [
    "C72_datetime",
    "C72_offset",
    "C72_no_datetime",
    "C72_one_meaning",
    "C72_untyped",
    "C72_date",
    "C72_time",
    "C72_offsets_refuted"
   ],
   "note": "Exact in both directions for datetimes, dates and times; C72_offsets_refuted shows offsets that RFC 3339 does not allow. Digits are ASCII digits: other Unicode digits, which strptime also takes, are not modelled."
  },
  {
   "property": "C73",
   "status": "proved",
   "theorems": [
    "C73_document_unchanged",
    "C73_document_without_sections",
    "C73_strict_result_is_new",
    "C73_untyped_load_copies",
    "C73_lenient_same_object",
    "C73_lenient_result_is_new_refuted",
    "C73_document_unchanged_refuted"
   ],
   "note": "Model with a heap (HeapLoadModel.v), function by function as EngineDeser.v. C73_lenient_result_is_new_refuted and C73_document_unchanged_refuted record where the code does not behave so. Assumption in all: constructors, setattr, getters and registered deserializers do not write to what exists (quiet)."
  },
  {
   "property": "C74",
   "status": "proved",
   "theorems": [
    "C74_load_is_load_of_the_tree",
    "C74_sharing_does_not_matter",
    "C74_loading_again",
    "C74_shared_sections_refuted"
   ],
   "note": "Refinement: the model with a heap (HeapLoadModel.v) against the model of trees (EngineDeser.v), function by function. C74_shared_sections_refuted records the case in which sharing matters. Assumptions: quiet, agree_lenv and agree_opts (registered code does the same on both sides)."
  },
  {
   "property": "C75",
   "status": "proved",
   "theorems": [
    "C75_documents_without_end",
    "C75_warn_on_fail_gives_the_empty_list",
    "C75_typed_documents_without_end_refuted"
   ],
   "note": "Model: HeapCycleModel.v (nested calls of load with a heap, cut short at the recursion limit or anywhere), specification HeapCycleSpec.v. C75_typed_documents_without_end_refuted records that typed loads can return something that depends on the limit."
  },
  {
   "property": "C76",
   "status": "proved",
   "theorems": [
    "C76_none",
    "C76_optional",
    "C76_none_is_null_refuted",
    "C76_attributes_lost_refuted",
    "C76_cast_value",
    "C76_cast_dumps",
    "C76_cast_fails",
    "C76_cast_loses_refuted",
    "C76_any_refuted",
    "C76_bare_tuple_refuted"
   ],
   "note": "Specification MisfitSpec.v (the annotations under which None is null, and what is written under the others). The refuted parts are theorems of their own."
  },
  {
   "property": "C77",
   "status": "proved",
   "theorems": [
    "C77_misfits_fail",
    "C77_loaded_fits",
    "C77_collections",
    "C77_union_of_list_and_text_refuted",
    "C77_object_from_dict_refuted"
   ],
   "note": "Specification ShapeSpec.v (`fits`: which kinds of documents each type accepts). The model raises a plain DeserializationError for misfits; for objects the code may raise its subclass UnfulfilledArgumentError. The refuted parts are theorems of their own."
  },
  {
   "property": "C78",
   "status": "proved",
   "theorems": [
    "C78_load",
    "C78_dump",
    "C78_set_deserializer",
    "C78_set_validator",
    "C78_set_serializer",
    "C78_datetime_refuted",
    "C78_named_class_refuted"
   ],
   "note": "Specification FrameSpec.v (`involves`, `affected`, `nameless`) and `visits` of DumpSpec.v. The refuted parts are theorems of their own; they show that the conditions on datetime and on class names in documents are needed."
  },
  {
   "property": "C79",
   "status": "proved",
   "theorems": [
    "C79_dump_isolated",
    "C79_load_isolated",
    "C79_load_isolated_own",
    "C79_new_fork_dumps",
    "C79_new_fork_loads",
    "C79_load_unconcerned",
    "C79_dump_unconcerned",
    "C79_load_serializers",
    "C79_dump_deserializers",
    "C79_validators_isolated_refuted",
    "C79_dump_before_load_refuted",
    "C79_subclass_isolated_refuted"
   ],
   "note": "Model HistoryModel.v (the environment of dump and load after a history of the registry model), specification HistorySpec.v. Lookups are those without the cache (C19). The refuted parts are theorems of their own."
  },
  {
   "property": "C80",
   "status": "proved",
   "theorems": [
    "C80_round_trip",
    "C80_untyped_round_trip",
    "C80_dict_values_refuted",
    "C80_tuples_refuted",
    "C80_undeclared_refuted"
   ],
   "note": "Specification StrictTripSpec.v (`strictly`: the values, with what a strict dump knows of the type of each part). Tuples without their type are left out, because typish decides about them. The refuted parts are theorems of their own."
  },
  {
   "property": "C81",
   "status": "proved",
   "theorems": [
    "C81_objects_were_constructed",
    "C81_no_more_than_places",
    "C81_exactly_once",
    "C81_choice_refuted",
    "C81_discarded_refuted"
   ],
   "note": "Specification InitSpec.v (`constructed`, `objects`, `places`). Constructor calls are events of the run. The upper bound also asks that parameters have distinct names and that key transformers make no documents of keys. The refuted parts are theorems of their own."
  },
  {
   "property": "C82",
   "status": "proved",
   "theorems": [
    "C82_order",
    "C82_same_document",
    "C82_both_end",
    "C82_sorted_text",
    "C82_list_refuted",
    "C82_key_transformer_refuted",
    "C82_hash_refuted"
   ],
   "note": "Specification OrderDumpSpec.v (`orderless`: which values are read by key and by name; `fair_properties`, `keys_kept_apart`, `orderless_options`) and `same` of OrderSpec.v. Sets are outside: `same` does not reorder them. Strict dumps of tuples are covered for Tuple types with as many arguments as elements and for Tuple[T, ...]; of deques, only if not strict. Verbose class information and the argument types are left out. The refuted parts are theorems of their own."
  },
  {
   "property": "C83",
   "status": "proved",
   "theorems": [
    "C83_trees",
    "C83_hooks",
    "C83_bytes",
    "C83_malformed",
    "C83_done",
    "C83_fails",
    "C83_neutral",
    "C83_neutral_bytes",
    "C83_default",
    "C83_pairs_first",
    "C83_other_types",
    "C83_decimal_refuted",
    "C83_ordered_refuted",
    "C83_exceptions_refuted"
   ],
   "note": "Model HookModel.v (json.loads with hooks), specification HookSpec.v (`tree_document`: the grammar of JSON with trees for values; `made`: what hooks make of a tree). The arguments cls and strict of json.loads are not modelled, nor StopIteration raised by a hook. The refuted parts are theorems of their own."
  },
  {
   "property": "C84",
   "status": "proved",
   "theorems": [
    "C84_replaced",
    "C84_written",
    "C84_bound",
    "C84_loads",
    "C84_bytes",
    "C84_no_default",
    "C84_only_given",
    "C84_given_foreign",
    "C84_unused",
    "C84_default_serializers",
    "C84_answers",
    "C84_fails",
    "C84_keys_refuted",
    "C84_exceptions_refuted",
    "C84_identity_refuted"
   ],
   "note": "Model FallbackModel.v (json.dumps with default), specification FallbackSpec.v (`foreign`, `replaced`, `given`). The bound m is on calls of the function within each other; a call that does not end is no exception of the model (in Python: RecursionError or ValueError). The refuted parts are theorems of their own."
  },
  {
   "property": "C85",
   "status": "proved",
   "theorems": [
    "C85_iff",
    "C85_raised",
    "C85_position",
    "C85_exact",
    "C85_one_place",
    "C85_loads_bytes",
    "C85_loadb",
    "C85_loadb_iff",
    "C85_longest_refuted",
    "C85_bytes_refuted"
   ],
   "note": "Model PositionModel.v (the scanner of json.loads with positions; erasing them gives the scanner of JsonTextModel.v), specification PositionSpec.v (`wrong_document`, a grammar of texts that go wrong). Messages are not modelled, and hooks (C83) are not combined with positions. The refuted parts are theorems of their own."
  },
  {
   "property": "C86",
   "status": "proved",
   "theorems": [
    "C86_cut",
    "C86_cut_bytes",
    "C86_joined",
    "C86_spaces",
    "C86_lines",
    "C86_line_feed",
    "C86_indented_refuted",
    "C86_numbers_refuted",
    "C86_cut_integer",
    "C86_joined_integers"
   ],
   "note": "No new model: LayoutModel.v, JsonTextModel.v and PositionModel.v; specification TruncSpec.v. Assumes, like C50 and C66, that the texts of floats are read back. The refuted parts are theorems of their own."
  },
  {
   "property": "C87",
   "status": "proved",
   "theorems": [
    "C87_spelled",
    "C87_spelling",
    "C87_document",
    "C87_malformed",
    "C87_agrees",
    "C87_no_control",
    "C87_loadb",
    "C87_loadb_malformed",
    "C87_accepts_more"
   ],
   "note": "Model LenientModel.v (json.loads with strict=False), specification LenientSpec.v (`spelled`). Not combined with hooks (C83) and positions (C85)."
  }
 ]
}