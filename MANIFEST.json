{
 "claims": [
  {
   "property": "C01",
   "status": "proved",
   "theorems": [
    "chainmap_first_map_wins",
    "chainmap_new_child"
   ],
   "note": ""
  },
  {
   "property": "C02",
   "status": "proved",
   "theorems": [
    "chainmap_iter_keys_once",
    "chainmap_iter_order",
    "chainmap_reversed_keys_permutation",
    "chainmap_merged"
   ],
   "note": ""
  },
  {
   "property": "C03",
   "status": "proved",
   "theorems": [
    "chainmap_flatten_lookup",
    "context_flattened_fresh",
    "context_flattened_stale_refuted"
   ],
   "note": ""
  },
  {
   "property": "C04",
   "status": "proved",
   "theorems": [
    "context_child_lookup",
    "context_frame",
    "context_child_no_args_is_self",
    "context_prepend_append_lookup"
   ],
   "note": ""
  },
  {
   "property": "C05",
   "status": "proved",
   "theorems": [
    "keymap_refines_map",
    "keymap_one_entry_per_key",
    "keymap_init_is_sets",
    "keymap_variants_share_entry",
    "case_insensitive_iterated_found",
    "case_insensitive_entries"
   ],
   "note": ""
  },
  {
   "property": "C06",
   "status": "proved",
   "theorems": [
    "registry_register_propagates",
    "registry_unregister_iff",
    "registry_holds_last_registration",
    "registry_unregister_diamond_refuted"
   ],
   "note": ""
  },
  {
   "property": "C07",
   "status": "proved",
   "theorems": [
    "mro_is_c3_linearisation",
    "mro_terminates",
    "mro_fails_iff_inconsistent",
    "mro_c3_unique",
    "mro_of_one_class"
   ],
   "note": ""
  },
  {
   "property": "C08",
   "status": "proved",
   "theorems": [
    "gcs_first_common"
   ],
   "note": ""
  },
  {
   "property": "C09",
   "status": "proved",
   "theorems": [
    "topological_sort_layers",
    "topological_sort_yields",
    "topological_sort_detects_cycles",
    "topological_sort_terminates"
   ],
   "note": ""
  },
  {
   "property": "C10",
   "status": "proved",
   "theorems": [
    "grouper_concat",
    "grouper_page_sizes",
    "grouper_nonpositive"
   ],
   "note": ""
  },
  {
   "property": "C11",
   "status": "proved",
   "theorems": [
    "bracket_kinds_distinct",
    "bracket_kind_of_char",
    "bracket_kind_total",
    "bracket_content",
    "bracket_accepted",
    "bracket_refused",
    "find_brackets_exact",
    "find_brackets_raises_iff",
    "brackets_nested_or_disjoint",
    "find_closing_bracket_first",
    "find_closing_bracket_raises_iff",
    "bracket_is_in_means_before"
   ],
   "note": ""
  },
  {
   "property": "C12",
   "status": "proved",
   "theorems": [
    "counter_values_consecutive",
    "counter_values_distinct",
    "counter_thread_increasing",
    "counter_mutual_exclusion",
    "counter_no_deadlock"
   ],
   "note": ""
  },
  {
   "property": "C13",
   "status": "proved",
   "theorems": [
    "get_descendant_follows_path",
    "get_descendant_total",
    "get_descendant_missing_none_refuted",
    "split_path_components",
    "split_path_list_index_refuted"
   ],
   "note": ""
  },
  {
   "property": "C14",
   "status": "proved",
   "theorems": [
    "nested_dict_iter_leaves",
    "nested_dict_iter_order",
    "nested_dict_iter_default_names",
    "nested_dict_iter_names_unique"
   ],
   "note": ""
  },
  {
   "property": "C15",
   "status": "proved",
   "theorems": [
    "filter_collection_but",
    "filter_collection_nothing",
    "filter_collection_only_keeps_all",
    "filter_collection_only_refuted",
    "filter_collection_sequence_raises",
    "filter_collection_recursive_refuted"
   ],
   "note": "object identity is modelled by the Same/Fresh tag of the result"
  },
  {
   "property": "C16",
   "status": "proved",
   "theorems": [
    "to_list_gives_list",
    "to_list_elements",
    "to_list_idempotent",
    "to_none_single_list_cases",
    "to_list_roundtrip"
   ],
   "note": ""
  },
  {
   "property": "C17",
   "status": "proved",
   "theorems": [
    "rreplace_from_right",
    "rreplace_empty_raises",
    "rreplace_last",
    "shorten_short_unchanged",
    "shorten_long_truncated",
    "multiple_replace_single_pass",
    "multiple_replace_reading_unique",
    "multiple_replace_identity",
    "multiple_replace_empty_table_raises",
    "split_string_pieces",
    "split_string_stripped",
    "split_string_no_delimiter",
    "strip_removes_white_space",
    "inline_newlines",
    "inline_one_line",
    "rreplace_negative_all"
   ],
   "note": ""
  },
  {
   "property": "C18",
   "status": "proved",
   "theorems": [
    "filter_exclude_partition",
    "filter_selects",
    "filter_distinct",
    "filter_history_refuted"
   ],
   "note": "when an operator name is also a child name of a mapping the filter rewrites its own criterion: refuted for that case"
  },
  {
   "property": "C19",
   "status": "proved",
   "theorems": [
    "filter_all_of_iff",
    "filter_any_of_iff",
    "filter_any_of_missing_refuted",
    "operator_names_child",
    "operator_on_mapping_refuted"
   ],
   "note": "operators are an arbitrary function in the theorems; std_op models the ones without regular expressions"
  },
  {
   "property": "C20",
   "status": "proved",
   "theorems": [
    "criteria_split",
    "criteria_components",
    "criteria_round_trip",
    "criteria_operator_name_refuted"
   ],
   "note": ""
  },
  {
   "property": "C21",
   "status": "proved",
   "theorems": [
    "query_reads",
    "query_reads_generator",
    "query_get_single",
    "query_get_after_iteration_refuted",
    "query_reverse_refuted",
    "query_order_by_refuted"
   ],
   "note": "slices are not modelled"
  },
  {
   "property": "C22",
   "status": "proved",
   "theorems": [
    "query_union",
    "query_intersection",
    "query_difference",
    "query_union_receiver_refuted"
   ],
   "note": ""
  },
  {
   "property": "C23",
   "status": "proved",
   "theorems": [
    "array_deserialize_pads",
    "array_deserialize_items",
    "array_deserialize_single",
    "array_deserialize_idempotent",
    "array_deserialize_idempotent_single_refuted",
    "array_deserialize_falsy_default",
    "array_string_round_trip",
    "array_split_join_stable"
   ],
   "note": ""
  },
  {
   "property": "C24",
   "status": "proved",
   "theorems": [
    "array_validate_ignores_sizes",
    "array_size_unchecked_refuted"
   ],
   "note": "the property fails of the code; the theorems say exactly what validation does check"
  },
  {
   "property": "C25",
   "status": "proved",
   "theorems": [
    "enum_member_unchanged",
    "enum_index",
    "enum_result_member",
    "enum_index_too_large",
    "enum_index_size_refuted",
    "enum_unknown_word"
   ],
   "note": ""
  },
  {
   "property": "C26",
   "status": "proved",
   "theorems": [
    "boolean_convert_iff",
    "boolean_convert_fails",
    "boolean_convert_idempotent"
   ],
   "note": ""
  },
  {
   "property": "C27",
   "status": "proved",
   "theorems": [
    "call_order_complete",
    "call_order_dependencies",
    "call_order_cycle",
    "call_order_required_first_refuted",
    "call_order_leaks_inputs_refuted",
    "call_order_keeps_dependencies",
    "call_order_required",
    "object_order",
    "object_order_cycle"
   ],
   "note": ""
  },
  {
   "property": "C28",
   "status": "proved",
   "theorems": [
    "object_validate_iff",
    "object_validate_refuses"
   ],
   "note": ""
  },
  {
   "property": "C29",
   "status": "proved",
   "theorems": [
    "alias_deserialize_iff",
    "alias_deserialize_fails",
    "alias_round_trip",
    "alias_item_round_trip",
    "negated_alias_item_refuted",
    "alias_type_refuted",
    "other_items",
    "missing_item",
    "alias_of_negated",
    "alias_serialize_iff"
   ],
   "note": "a negated alias read through an item or attribute gives the opposite sign: refuted for that case"
  },
  {
   "property": "C30",
   "status": "proved",
   "theorems": [
    "read_coherent",
    "read_again_same",
    "read_after_failed_assignment_refuted",
    "read_after_mutation_refuted",
    "read_twice_refuted",
    "assign_none_default_refuted",
    "additional_expression_refuted",
    "mutate_changes"
   ],
   "note": "getters, setters and additional properties are outside the positive theorem; the refuted theorems show where the code departs"
  },
  {
   "property": "C31",
   "status": "proved",
   "theorems": [
    "assign_invalidates",
    "assign_same_keeps_cache",
    "assign_cycle_fails",
    "equal_assignment_refuted"
   ],
   "note": ""
  },
  {
   "property": "C32",
   "status": "proved",
   "theorems": [
    "read_only_assignment_refused",
    "read_only_kept",
    "read_only_delete_refuted"
   ],
   "note": "holds for assignments; a deletion does remove a read-only property"
  },
  {
   "property": "C33",
   "status": "proved",
   "theorems": [
    "required_delete_refused",
    "required_survives",
    "optional_delete",
    "required_item_delete_refuted",
    "additional_delete_refuted"
   ],
   "note": ""
  },
  {
   "property": "C34",
   "status": "proved",
   "theorems": [
    "inherit_constraints",
    "inherit_properties",
    "inherit_aliases",
    "inherit_properties_keys",
    "inherit_dependencies",
    "inherit_primary_keys",
    "allowed_names",
    "redefined_default_refuted",
    "diamond_refuted",
    "attribute_required_hidden_refuted"
   ],
   "note": "the order followed is depth-first over the bases, not the Python resolution order"
  },
  {
   "property": "C35",
   "status": "proved",
   "theorems": [
    "print_order_keys",
    "print_order_once",
    "print_order_independent",
    "print_order_leak_refuted"
   ],
   "note": ""
  },
  {
   "property": "C36",
   "status": "proved",
   "theorems": [
    "registry_first_wins",
    "ns_by_cname_longest",
    "ns_by_cname_documents",
    "ns_by_cname_none",
    "ns_by_cname_documents_refuted",
    "set_current_longest",
    "set_current_refuted",
    "register_ns_keeps",
    "add_ns_registers",
    "add_ns_fragment"
   ],
   "note": "among loaded documents (used when no registered namespace contains the name) the first one wins, not the longest: refuted for that case"
  },
  {
   "property": "C37",
   "status": "proved",
   "theorems": [
    "ns_by_uri_prefix",
    "ns_by_uri_document",
    "ns_by_uri_specific_refuted",
    "uri_norm_exact"
   ],
   "note": ""
  },
  {
   "property": "C38",
   "status": "proved",
   "theorems": [
    "fragment_transparent",
    "name_id_round_trip",
    "manager_round_trip",
    "relative_name",
    "absolute_name",
    "uri_cname_dot_refuted",
    "relative_name_refuted",
    "current_round_trip_refuted",
    "memoised_name_refuted",
    "name_id_guessed",
    "urlparse_full",
    "uri_cname_words",
    "uri_cname_domain",
    "namespace_name",
    "name_nowhere"
   ],
   "note": ""
  },
  {
   "property": "C39",
   "status": "proved",
   "theorems": [
    "clean_chars",
    "clean_after_colon",
    "clean_idempotent",
    "clean_identity",
    "clean_word_by_word",
    "clean_for_uri_chars",
    "clean_brackets_refuted",
    "clean_for_uri_exact"
   ],
   "note": ""
  },
  {
   "property": "C40",
   "status": "proved",
   "theorems": [
    "fragment_resolves",
    "fragment_resolves_iff",
    "fragment_fails_iff",
    "fragment_errors",
    "fragment_empty",
    "fragment_key",
    "fragment_negative_refuted",
    "fragment_empty_key_refuted"
   ],
   "note": "byte strings; a pointer whose first token is empty and a negative position are the two refuted cases"
  },
  {
   "property": "C41",
   "status": "proved",
   "theorems": [
    "scope_plain",
    "scope_own_document",
    "scope_bare_fragment",
    "scope_extra_dropped",
    "scope_idempotent"
   ],
   "note": ""
  },
  {
   "property": "C42",
   "status": "proved",
   "theorems": [
    "resolve_first_current",
    "resolve_sticks",
    "resolve_was_registered",
    "resolve_current_refuted",
    "lru_transparent"
   ],
   "note": "documents are values: mutation in place of a registered document is not modelled"
  },
  {
   "property": "C43",
   "status": "proved",
   "theorems": [
    "type_build_terminates",
    "type_load_terminates",
    "type_built_once",
    "type_under_construction",
    "type_proxies_resolve",
    "type_failed_for_ever",
    "type_recursion_untyped_refuted",
    "type_overwritten_refuted",
    "type_boolean_refuted",
    "type_define_boolean"
   ],
   "note": "the refuted theorems record an untyped recursive schema (KeyError), two ids with the same underscored form, and boolean schemas"
  },
  {
   "property": "C44",
   "status": "proved",
   "theorems": [
    "mro_ancestors",
    "mro_order",
    "mro_terminates_iff",
    "mro_cycle",
    "mro_acyclic",
    "expand_refuted",
    "expand_body_spec"
   ],
   "note": "through the builder expand always raises TypeError (expand_refuted); expand_body_spec is about its body given the ancestors"
  },
  {
   "property": "C45",
   "status": "proved",
   "theorems": [
    "maker_named",
    "maker_option",
    "maker_info",
    "maker_succeeds",
    "maker_history",
    "maker_creation_neutral",
    "maker_fails"
   ],
   "note": ""
  },
  {
   "property": "C46",
   "status": "proved",
   "theorems": [
    "scoped_same",
    "scoped_options_error",
    "scoped_distinct",
    "scoped_removed",
    "scoped_configure",
    "scoped_configure_refuted"
   ],
   "note": ""
  },
  {
   "property": "C47",
   "status": "proved",
   "theorems": [
    "repo_one_per_identity",
    "repo_last_committed",
    "repo_fresh_keys",
    "repo_failed_commit",
    "repo_commit_succeeds",
    "repo_stale_refuted",
    "repo_single_refuted",
    "repo_commit_fails"
   ],
   "note": ""
  },
  {
   "property": "C48",
   "status": "proved",
   "theorems": [
    "fkey_no_reference",
    "fkey_instance_single",
    "fkey_instance_composite",
    "fkey_idempotent_composite",
    "fkey_idempotent_single",
    "fkey_idempotent_refuted",
    "fkey_arity_refuted",
    "fkey_resolves",
    "fkey_zero_refuted",
    "session_resolve_first",
    "fkey_resolve_first_refuted",
    "fkey_serialize_scalar",
    "fkey_resolve_bool",
    "fkey_resolve_unhashable",
    "fkey_resolve_nowhere"
   ],
   "note": ""
  },
  {
   "property": "C49",
   "status": "proved",
   "theorems": [
    "save_stores",
    "save_same_untouched",
    "save_idempotent",
    "save_every_point",
    "append_adds",
    "save_history",
    "save_lost_refuted",
    "save_charset_refuted",
    "save_binary_refuted",
    "read_refused",
    "append_refused"
   ],
   "note": "save_every_point ranges over every intermediate state of a save"
  },
  {
   "property": "C50",
   "status": "proved",
   "theorems": [
    "parse_document",
    "repeated_children_listed",
    "xml_round_trip",
    "pretty_reads_the_same",
    "one_root_only",
    "root_list_refused",
    "lone_tail_refuted",
    "text_and_tail_refuted",
    "pretty_tail_refuted",
    "none_becomes_empty_text",
    "text_only_dictionary_collapses",
    "short_lists_refuted",
    "xml_serialize_refuted",
    "attributes_written",
    "namespaces_written",
    "pretty_layout",
    "text_must_be_text",
    "only_force_list_refused"
   ],
   "note": "Conversion is between dictionaries and the events exchanged with the XML library, which is taken to carry them faithfully and to join adjacent character data. The refuted theorems give the forms that do not come back, and the serializer class, which always raises TypeError."
  },
  {
   "property": "C51",
   "status": "proved",
   "theorems": [
    "take_scalar",
    "take_each",
    "take_pairs",
    "take_mismatch",
    "take_stops",
    "take_flatten",
    "take_single_refuted",
    "take_method_refuted"
   ],
   "note": ""
  },
  {
   "property": "C52",
   "status": "proved",
   "theorems": [
    "memo_once",
    "memo_isolated",
    "memo_reset",
    "memo_failure",
    "memo_read_only_refuted",
    "method_transparent",
    "method_first_call",
    "method_super_refuted"
   ],
   "note": ""
  },
  {
   "property": "C53",
   "status": "proved",
   "theorems": [
    "directory_restored",
    "directory_missing",
    "directory_nesting",
    "cast_restored",
    "cast_inside",
    "cast_exception_refuted"
   ],
   "note": ""
  },
  {
   "property": "C54",
   "status": "proved",
   "theorems": [
    "parent_is_nearest_object",
    "parent_instance_is_nearest",
    "canonical_name_is_path",
    "canonical_name_of_top",
    "canonical_name_of_child",
    "canonical_names_distinct",
    "canonical_names_distinct_refuted",
    "canonical_name_defined",
    "root_is_topmost",
    "root_is_topmost_refuted",
    "split_cname_absolute",
    "split_cname_relative_refuted",
    "dotted_get",
    "dotted_get_else",
    "dotted_set",
    "dotted_set_sound",
    "dotted_set_error",
    "dotted_position_refuted",
    "search_by_name",
    "resolve_cname_ignores_argument_refuted",
    "plain_get",
    "bad_index"
   ],
   "note": ""
  },
  {
   "property": "C55",
   "status": "proved",
   "theorems": [
    "operator_means",
    "operator_undefined",
    "size_gives_length",
    "item_from_start",
    "item_from_end",
    "filter_by_test",
    "iendswith_refuted",
    "iendswith_is_ieq",
    "ieq_newline_refuted",
    "regex_at_start"
   ],
   "note": "Regular expressions proper are an oracle. Equality and order of booleans, integers, texts, lists, tuples and dictionaries are those of Python (Cmp_Spec.v)."
  },
  {
   "property": "C56",
   "status": "proved",
   "theorems": [
    "array_is_a_list",
    "lazy_array_is_a_list",
    "accepted_operations_step",
    "array_copy_same",
    "lazy_assignment_ignored_refuted",
    "lazy_reverse_ignored_refuted",
    "insert_out_of_range_refuted",
    "negative_insert_unchecked_refuted",
    "rejected_insert_stays_refuted",
    "rejected_assignment",
    "index_error_truncates_refuted",
    "lazy_slice_none_refuted",
    "lazy_slice_assignment_refuted",
    "empty_copy_refuted",
    "short_copy_refuted",
    "unique_append_refuted"
   ],
   "note": "Refinement of a relational list specification (Arr_Spec.v) for every history; the deviations are proved in general form. One item type for all the positions; validation after changes checks nothing in the source (C24)."
  },
  {
   "property": "C57",
   "status": "proved",
   "theorems": [
    "checked_argument",
    "unchecked_call",
    "flag_true_ignored",
    "all_arguments_checked",
    "false_instance_shifts_refuted",
    "unknown_name_refuted",
    "position_zero_checks_last_refuted",
    "flag_reaches_one_decorator_refuted"
   ],
   "note": "Argc_*.v. Python's argument binding is modelled; the checker is any partial function on values. Four _refuted theorems record where the decorator does not do what it says."
  },
  {
   "property": "C58",
   "status": "proved",
   "theorems": [
    "evaluation_sound",
    "literal_evaluation",
    "default_evaluation",
    "evaluation_idempotent",
    "expression_evaluation",
    "template_evaluation",
    "schema_verdict",
    "failing_expression_kept_refuted",
    "raw_literals_unchecked_refuted",
    "boolean_integer_refuted",
    "schema_type_refuted",
    "fractional_expression_refuted",
    "allof_failure_refuted"
   ],
   "note": "Scal_*.v. Parsing and printing of numbers, eval and jinja2 are arbitrary functions; schema keywords have an inductive meaning over rationals."
  },
  {
   "property": "C59",
   "status": "proved",
   "theorems": [
    "id_shape",
    "id_references",
    "id_convert_idempotent",
    "id_serialize_round_trip",
    "id_written_locally_refuted",
    "canonical_round_trip",
    "id_check_accepts",
    "id_check_document_refuted",
    "id_check_no_context_refuted",
    "id_plain_document_refuted",
    "id_second_hash_refuted",
    "id_newline_refuted",
    "id_check_type_error"
   ],
   "note": "On top of the namespace manager of C35-C38; the _refuted theorems state the deviations of the statement's last sentence."
  },
  {
   "property": "C60",
   "status": "proved",
   "theorems": [
    "symbol_found",
    "symbol_not_found",
    "symbol_decided",
    "symbol_accepted",
    "symbol_idempotent",
    "module_round_trip",
    "object_round_trip",
    "symbol_falsy_refuted",
    "symbol_submodule_refuted",
    "symbol_builtin_refuted",
    "symbol_string_refuted",
    "symbol_builtin_string_refuted"
   ],
   "note": "The interpreter is a record of functions the theorems quantify over; expressions and templates in place of names are C58's subject."
  },
  {
   "property": "C61",
   "status": "proved",
   "theorems": [
    "date_convert_iff",
    "time_convert_iff",
    "datetime_convert_iff",
    "dates_idempotent",
    "dates_round_trip",
    "date_error_refuted",
    "time_error_refuted",
    "datetime_date_text_refuted",
    "date_format_refuted",
    "dates_formatted"
   ],
   "note": "The arrow library is a record of functions the theorems quantify over; time zones are part of the time of day; expressions and templates are C58's subject."
  },
  {
   "property": "C62",
   "status": "proved",
   "theorems": [
    "object_session",
    "nested_session",
    "session_kept",
    "sessions_good",
    "entity_lookup",
    "array_session_shared_refuted",
    "array_default_session_refuted",
    "entity_without_session_refuted"
   ],
   "note": "The maps of a context are C54's subject; assigning the attribute _session directly is outside the model."
  },
  {
   "property": "C63",
   "status": "proved",
   "theorems": [
    "schema_uri_iff",
    "load_registers",
    "load_fails",
    "folder_loaded",
    "folder_loaded_user",
    "bad_files_ignored",
    "order_irrelevant",
    "find_in_module",
    "find_everywhere",
    "find_backslash",
    "folder_registered",
    "title_without_id_refuted",
    "file_id_ignored_refuted",
    "find_hidden_refuted",
    "unreadable_file"
   ],
   "note": "Listing and reading files, URI normalisation and inflection.parameterize are arbitrary functions; PathList.pick_first of the library ngofile is modelled as the first folder that has the file."
  },
  {
   "property": "C64",
   "status": "proved",
   "theorems": [
    "walk_replaces",
    "scope_refs_leaves",
    "scope_refs_total",
    "scope_refs_stable",
    "list_reference_unscoped_refuted",
    "top_reference_unscoped_refuted",
    "walk_deletion_misses_refuted"
   ],
   "note": "Collections are trees: a container that occurs twice is outside the model."
  },
  {
   "property": "C65",
   "status": "proved",
   "theorems": [
    "shown_written",
    "written_shown",
    "left_out_everywhere",
    "not_serialized_below",
    "only_shown_matters",
    "typed_written",
    "root_as_nested",
    "root_members",
    "entity_by_keys",
    "nested_reference_refuted",
    "extra_items_refuted",
    "untyped_class_refuted",
    "declared_class",
    "null_object_refuted",
    "same_name_refuted",
    "entity_keys_missing",
    "wrong_kind",
    "keys_added",
    "root_reference"
   ],
   "note": ""
  },
  {
   "property": "C66",
   "status": "proved",
   "theorems": [
    "expression_inputs",
    "inputs_suffice",
    "expression_read",
    "template_names",
    "inputs_by_kind",
    "builtin_name_refuted",
    "literal_words_refuted",
    "template_operands_refuted",
    "template_blocks_refuted",
    "filter_arguments_refuted",
    "template_brackets_refuted",
    "name_mangled_refuted",
    "raw_no_inputs"
   ],
   "note": "The lexer of jinja2 is an arbitrary function to tokens; evaluation of an expression is an arbitrary compositional function of the values of its names. The link with reading (expression_read) is for names without dots."
  },
  {
   "property": "C67",
   "status": "proved",
   "theorems": [
    "evaluate_iff",
    "evaluate_limit",
    "evaluate_fails",
    "evaluated_valid",
    "evaluate_idempotent",
    "scalar_evaluated",
    "scalar_origin",
    "containers_checked",
    "undeclared_refused",
    "too_many_items_refused",
    "missing_required_refuted",
    "not_a_mapping_refused",
    "not_a_sequence_refused",
    "tuple_refuted",
    "text_as_array_refuted",
    "recursive_array_refuted",
    "keyword_members_refuted",
    "default_conversion_refuted",
    "keyword_items_refuted",
    "evaluate_type_error"
   ],
   "note": "Scalar types and whole-value keyword checks are arbitrary functions. The refuted theorems record where the code departs from what a user expects: missing required properties are added as null, tuples with items cannot be evaluated, text is taken for an array of characters, members named as keywords are not validated, nested defaults are not converted."
  },
  {
   "property": "C68",
   "status": "proved",
   "theorems": [
    "equality_means",
    "equality_equivalence",
    "array_equality",
    "object_equality_refuted",
    "equal_share_objects",
    "contains_equal",
    "index_first",
    "object_membership",
    "index_missing"
   ],
   "note": "object_equality_refuted is the finding: distinct objects with members are never equal, whatever their members, so copies differ from their originals and an object is found in an array only as the instance it is."
  },
  {
   "property": "C69",
   "status": "proved",
   "theorems": [
    "load_reaches",
    "relationships_listed",
    "relationships_kept",
    "failed_class_refuted",
    "back_population_refuted",
    "back_population_error",
    "one_to_many_refuted",
    "pointer_made",
    "pointer_read_refuted",
    "descriptor_round_trip",
    "relationship_twice_refuted",
    "missing_parts"
   ],
   "note": "Rel_Model models the two builders together as far as relationships are concerned. The _refuted theorems state the deviations of the statement's last sentence."
  },
  {
   "property": "C70",
   "status": "proved",
   "theorems": [
    "load_many",
    "load_text",
    "load_one",
    "load_raw",
    "call_refuted",
    "repository_many",
    "commit_effect",
    "repository_one",
    "repository_mapping_refuted",
    "repository_membership",
    "dump_load",
    "transform_twice",
    "transform_refuted",
    "save_steps",
    "repository_text_membership",
    "resolve_steps"
   ],
   "note": "The deserialiser, the serialiser, the class and the iteration of objects are parameters of the theorems."
  },
  {
   "property": "C71",
   "status": "proved",
   "theorems": [
    "make_plain",
    "make_own_schema",
    "make_schema",
    "make_unknown_schema",
    "make_instance_refuted",
    "make_again_refuted",
    "make_keywords",
    "make_value_refuted",
    "make_reserved_refuted",
    "entity_by_key",
    "entity_no_session",
    "entity_subclass_refuted",
    "entity_composite_refuted",
    "entity_falsy_refuted",
    "make_keywords_data",
    "make_keywords_last",
    "make_schema_not_text",
    "make_entity_keywords"
   ],
   "note": "Subclassing, Id.convert, the loading of classes and dict() of values that are not mappings are parameters; sub_refl says a class is a subclass of itself."
  },
  {
   "property": "C72",
   "status": "proved",
   "theorems": [
    "human_nearest",
    "human_large_refuted",
    "human_bytes",
    "human_monotone",
    "human_rounds_up_refuted",
    "sha1_whole",
    "sha1_content",
    "sha1_no_file_refuted"
   ],
   "note": "Floating point divisions by 1024 are exact below 2^53; that updating a hash object twice is updating it with both parts is a hypothesis about hashlib."
  },
  {
   "property": "C73",
   "status": "proved",
   "theorems": [
    "documents_kept",
    "documents_added",
    "empty_store_refuted",
    "private_resolver_stable",
    "own_schema_found",
    "registered_found",
    "spelling_refuted",
    "own_fragment_refuted",
    "shared_resolver_follows",
    "registered_resolver_shared",
    "shared_resolver_stale_refuted",
    "uri_registered",
    "uri_unknown_refuted",
    "uri_download"
   ],
   "note": "jsonschema's RefResolver (resolve, resolve_from_url, resolve_remote with cache_remote) is part of the model; urljoin, the download and the key normalisation are arbitrary functions (idempotent normalisation for the two findings on spelling)."
  },
  {
   "property": "C74",
   "status": "proved",
   "theorems": [
    "new_members",
    "new_accepted",
    "new_errors",
    "new_again",
    "keywords_are_items",
    "keywords_ignored_refuted",
    "reserved_keyword_refuted",
    "objects_independent",
    "common_default_refuted"
   ],
   "note": "Independence is false for classes without properties: common_default_refuted."
  },
  {
   "property": "C75",
   "status": "proved",
   "theorems": [
    "repr_shows",
    "str_shows",
    "printed_again",
    "hidden_history",
    "repr_hides",
    "hidden_elsewhere_refuted",
    "serialized_spec",
    "text_kept_refuted",
    "assigned_shows",
    "value_shown",
    "read_keeps"
   ],
   "note": "two parts are false of the code and refuted in general form; values are literals or objects, equality with the default is a function of the class"
  },
  {
   "property": "C76",
   "status": "proved",
   "theorems": [
    "first_lookup",
    "lookup_origin",
    "lookup_agreed",
    "lookup_stable",
    "base_decides_refuted",
    "derived_decides_refuted",
    "answer_changes_refuted"
   ],
   "note": "The unconditional claim is refuted in general circumstances (base_decides_refuted) and by witnesses; the agreement and single-inheritance conditions under which it holds are proved sufficient for every history."
  },
  {
   "property": "C77",
   "status": "proved",
   "theorems": [
    "item_type_declared",
    "item_type_unknown",
    "property_first",
    "proxy_calls",
    "alias_type_refuted",
    "redefined_type_refuted",
    "negated_stand_in_refuted",
    "extension_lost_refuted"
   ],
   "note": "The order in which the set of patterns is gone through is that of the list in the model. A name that a negated alias means is covered when its type is no stand-in: otherwise negated_stand_in_refuted."
  },
  {
   "property": "C78",
   "status": "proved",
   "theorems": [
    "is_type_known",
    "is_type_unknown",
    "register_type_only",
    "detect_first",
    "detect_refuted",
    "null_refuted"
   ],
   "note": "The checks of dates, symbols and identifiers are arbitrary here (C59-C61 model them). Sets and floats are opaque values. The refuted theorems: every value is detected as the type named true; None is not of the type null."
  },
  {
   "property": "C79",
   "status": "proved",
   "theorems": [
    "untype_keeps",
    "untype_adds_nothing",
    "untype_plain",
    "untype_no_types",
    "listed_types_refuted",
    "instance_default_refuted",
    "untype_not_mapping"
   ],
   "note": "Types within lists stay (listed_types_refuted)."
  },
  {
   "property": "C80",
   "status": "proved",
   "theorems": [
    "cast_parents_only",
    "cast_refused",
    "cast_public",
    "cast_own",
    "cast_private",
    "cast_mixin_refuted",
    "class_property_read",
    "class_property_set",
    "class_property_lost_refuted",
    "undefined_get"
   ],
   "note": "Refuted: private names with a class mixed in behind the parent; assigning a class property through the class replaces it."
  },
  {
   "property": "C81",
   "status": "proved",
   "theorems": [
    "property_attribute",
    "method_lost_refuted",
    "protocol_hides_refuted",
    "definition_hides_refuted",
    "attribute_is_item",
    "last_assignment",
    "negated_attribute_refuted",
    "additional_attribute",
    "undeclared_attribute",
    "private_attribute",
    "hidden_attribute_refuted",
    "missing_attribute",
    "own_attribute_kept",
    "method_above_hides_refuted",
    "value_above_kept"
   ],
   "note": "One base per class; no relationships, accessors or read-only properties; values are those stored (evaluation is C24)."
  },
  {
   "property": "C82",
   "status": "proved",
   "theorems": [
    "logged_call",
    "logged_init_call",
    "no_logger_no_trace",
    "logged_transparent",
    "logged_init_transparent",
    "journal_of_call",
    "journal_of_init",
    "tuple_argument_refuted",
    "no_argument_refuted",
    "unprintable_refuted",
    "exception_lost_refuted",
    "init_without_logger_refuted"
   ],
   "note": "State-passing model with arbitrary repr, str and function. logged_call and logged_init_call describe every call without any hypothesis on printing; the transparency theorems hold up to any equivalence of states that printing keeps. Four defects of the code are stated as refuted theorems."
  },
  {
   "property": "C83",
   "status": "proved",
   "theorems": [
    "first_read",
    "later_read",
    "first_root_decides",
    "same_roots_independent",
    "empty_read_keeps",
    "tag_never_changes",
    "written_then_read",
    "default_content",
    "read_depends_on_history_refuted"
   ],
   "note": "The events exchanged with the XML library are the input; the text of the document is not modelled (see C50)."
  },
  {
   "property": "C84",
   "status": "proved",
   "theorems": [
    "value_becomes_default",
    "wrong_value_refused",
    "counted_defaults",
    "own_accessors",
    "other_accessors_inherited",
    "line_types",
    "line_accessors",
    "overridden_accessor_refuted",
    "extended_accessor_refuted",
    "keyword_becomes_default_refuted",
    "own_value_lost_refuted"
   ],
   "note": "Property names are assumed to have different attribute names, none like an accessor. Shared ancestors (diamonds) and the dependencies declared on accessors are not modelled."
  },
  {
   "property": "C85",
   "status": "proved",
   "theorems": [
    "loaded_keywords",
    "loaded_default",
    "loaded_stable",
    "reference_same",
    "load_succeeds",
    "plain_read",
    "refined_read_refuted",
    "narrowed_default_refuted",
    "false_default_refuted",
    "extends_refused_refuted",
    "enum_type_refuted",
    "unknown_type_refused"
   ],
   "note": "Schemas without extends for the positive part; no identifier is the underscored form of another. Cycles of references run out of fuel in the model (RecursionError in the code). The validation of schemas is a parameter."
  },
  {
   "property": "C86",
   "status": "proved",
   "theorems": [
    "parse_namespaces",
    "accepted_iff_means",
    "declared_where_made",
    "declarations_lost_refuted",
    "moved_declaration_refuted",
    "prefixes_only_rename",
    "namespaces_round_trip",
    "unmapped_namespace_refuted",
    "unmapped_attribute_refuted",
    "one_root_with_namespaces"
   ],
   "note": "The namespace processing of expat is modelled (Xn_Model.scan), one-character separator. The round trip asks for an attribute on the root (otherwise declarations are lost, see the finding) and the default separator."
  },
  {
   "property": "C87",
   "status": "proved",
   "theorems": [
    "validate_exact",
    "validate_standard",
    "validate_refuses",
    "validate_invalid",
    "all_of_refuted",
    "report_names",
    "keyword_order",
    "references_refuted",
    "any_of_types_refuted",
    "one_of_types_refuted",
    "not_type_refuted",
    "definitions_refuted",
    "text_items_refuted",
    "boolean_bounds_refuted",
    "left_out_by_name"
   ],
   "note": "Jv_Model: the keywords of jsonschema as registered, the paths of the errors and their joining; Jv_Spec gives the meaning of the keywords without errors or paths, in the reading of the standard and in that of the program. Integers only, no recursive references, messages left out. The _refuted theorems state the deviations for every value."
  },
  {
   "property": "C88",
   "status": "proved",
   "theorems": [
    "class_validate_exact",
    "class_validate_refuses",
    "substitutable",
    "python_base_inherited",
    "extended_keywords_refuted",
    "closed_lost_refuted",
    "members_unchecked_refuted",
    "skipped_keyword_refuted"
   ],
   "note": "Vi_Model: classes built in order, filtering of bases that extend each other, unions along ancestors, ChainMap of keywords; validation with items=False as classes do. The _refuted theorems give the general circumstances in which a restriction of a schema is lost."
  },
  {
   "property": "C89",
   "status": "proved",
   "theorems": [
    "relative_url_exact",
    "relative_url_anywhere",
    "relative_url_hosts",
    "relative_url_back",
    "relative_url_slash_refuted",
    "trailing_slash_refuted",
    "working_directory_refuted"
   ],
   "note": "Ru_Model has posixpath.dirname, abspath/normpath, relpath and the path part of urljoin on character lists."
  },
  {
   "property": "C90",
   "status": "proved",
   "theorems": [
    "log_list_exact",
    "log_map_exact",
    "log_text_tells",
    "log_text_exact",
    "repr_literal",
    "log_bounded",
    "log_defined",
    "log_set_refuted",
    "log_deep_refuted",
    "log_tuple_refuted",
    "log_limit_refuted",
    "lazy_first",
    "lazy_again_refuted",
    "log_deep_shown"
   ],
   "note": "repr of texts is modelled for the first 256 characters and shown to be a python literal of the text. The wrapped output of the printer, never reached by log_format on these values, is one outcome of the model."
  },
  {
   "property": "C91",
   "status": "proved",
   "theorems": [
    "made_exact",
    "bound_listed",
    "session_argument_refuted",
    "get_existing",
    "asked_again_refuted",
    "default_finds",
    "short_names_refuted",
    "class_names_refuted",
    "loads_accumulate",
    "nothing_removed"
   ],
   "note": "default_finds: the default session does find what it made when a class is registered under its own name."
  },
  {
   "property": "C92",
   "status": "proved",
   "theorems": [
    "stream_exact",
    "stream_stops",
    "stream_no_depth",
    "stream_clean",
    "stream_counts",
    "text_leaks_refuted",
    "text_untrimmed_refuted",
    "attributes_lost_refuted"
   ],
   "note": "stream_clean: with no text above the elements, each is given with its own content only."
  },
  {
   "property": "C93",
   "status": "proved",
   "theorems": [
    "declared_key",
    "primary_keys_refuted",
    "unknown_key",
    "unknown_schema",
    "circular_key",
    "instance_declared",
    "circular_text_refuted",
    "circular_several_refuted",
    "any_object_refuted",
    "early_use_refuted",
    "early_use_then",
    "made_key",
    "made_key_refuted",
    "key_without_schema"
   ],
   "note": "early_use_then: used once before and once after the class is there, the key gets the primary keys by default, unlike in the other cases."
  },
  {
   "property": "C94",
   "status": "proved",
   "theorems": [
    "first_print",
    "print_after_reading",
    "lazy_print_raw",
    "print_changes_nothing",
    "printed_forever_refuted",
    "undeclared_items_unprinted_refuted"
   ],
   "note": "Ap_Model on top of Arr_Model and Pp_Model. The text of one item is a function of its value. That a printed array shows its current items is refuted: the text is kept and never refreshed."
  },
  {
   "property": "C95",
   "status": "proved",
   "theorems": [
    "checks_independent",
    "check_exact",
    "anything_accepted_refuted",
    "no_type_checker_refuted"
   ],
   "note": "Ms_Model holds the meta-schema of the library and an evaluator of its keywords with recursive references and scopes. check_exact is about enough nested calls; the limit of Python on calls is a parameter."
  },
  {
   "property": "C96",
   "status": "proved",
   "theorems": [
    "names_exact",
    "long_decorator_refuted",
    "async_scope_refuted"
   ],
   "note": "names_exact: the name of each line, for sources where no two definitions share a line and decorators are followed by a line. The two _refuted theorems say where the naming is not what Python gives. This path runs only for objects without __qualname__."
  },
  {
   "property": "C97",
   "status": "proved",
   "theorems": [
    "commands_listed",
    "listed_name_leads_back",
    "camel_case_names",
    "listed_commands_run",
    "listed_but_missing_refuted",
    "capital_names",
    "shouted_names",
    "acronym_names",
    "module_without_command"
   ],
   "note": "commands_listed: sorted, and a permutation of the commands of the files (Cli_Spec). listed_name_leads_back is an equivalence. listed_but_missing_refuted: listed, but None when looked up, unless another file has the name that is looked up."
  },
  {
   "property": "C98",
   "status": "proved",
   "theorems": [
    "namespaces_listed",
    "namespaces_sorted",
    "definitions_listed",
    "definitions_of_name_refuted"
   ],
   "note": "The last theorem refutes the expected reading of get_cname_definitions: the call in its first line goes from identifiers to names although it is given a name."
  },
  {
   "property": "C99",
   "status": "proved",
   "theorems": [
    "scalar_shown",
    "array_shown",
    "object_shown",
    "built_shown",
    "type_first",
    "clean_shown",
    "instance_property_refuted",
    "object_property_refuted",
    "array_property_refuted",
    "bare_items_refuted"
   ],
   "note": "The _refuted theorems state in general what is lost because repr_schema is a class method and because array.py tests instances only. Pattern properties are left out."
  },
  {
   "property": "C100",
   "status": "proved",
   "theorems": [
    "instance_text_current",
    "instance_text_after_change",
    "text_after_rename_around_refuted",
    "canonical_name_after_change",
    "canonical_name_after_rename_around_refuted",
    "identity_keys_current",
    "identity_keys_given_refuted",
    "entity_text_after_reading",
    "entity_text_after_change_refuted",
    "expression_text_refuted",
    "empty_value_text_refuted",
    "unnamed_around_refuted",
    "texts_separated"
   ],
   "note": "Values are texts; the theorems on current values are for plain texts, expressions are in expression_text_refuted."
  },
  {
   "property": "C101",
   "status": "proved",
   "theorems": [
    "log_defaults_kept",
    "log_sections",
    "log_section_merged_refuted",
    "empty_log_file_refuted",
    "log_change_made"
   ],
   "note": ""
  },
  {
   "property": "C102",
   "status": "proved",
   "theorems": [
    "file_commit_refuted",
    "file_commit_name_error",
    "file_commit_writes_nothing",
    "file_commit_retried_refuted",
    "file_commit_replaces_refuted",
    "file_commit_failed_save",
    "file_commit_directories",
    "prefixes_are_beginnings",
    "file_commit_no_path"
   ],
   "note": ""
  },
  {
   "property": "C103",
   "status": "proved",
   "theorems": [
    "reduce_plain_dictionary",
    "reduce_nested_lists_refuted",
    "reduce_blank_dictionary_refuted",
    "reduce_blank_list_refuted",
    "reduce_emptied_stays_refuted",
    "reduce_raises_nothing"
   ],
   "note": ""
  }
 ]
}