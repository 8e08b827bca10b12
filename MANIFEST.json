{
 "claims": [
  {
   "property": "C01",
   "status": "proved",
   "theorems": [
    "C01_groups_are_mutual_call_classes"
   ],
   "note": "All call graphs, all map iteration orders; includes termination and absence of index panics."
  },
  {
   "property": "C02",
   "status": "proved",
   "theorems": [
    "C02_group_graph_is_acyclic_quotient"
   ],
   "note": "All call graphs, all map iteration orders."
  },
  {
   "property": "C03",
   "status": "proved",
   "theorems": [
    "C03_condensation_depends_only_on_edge_set"
   ],
   "note": "Equality of the whole result from equality of edge sets."
  },
  {
   "property": "C04",
   "status": "proved",
   "theorems": [
    "C04_reach_answers_exact"
   ],
   "note": "For every history of queries; the cache key must stand for one predicate."
  },
  {
   "property": "C05",
   "status": "proved",
   "theorems": [
    "C05_kept_iff_leads_to_match",
    "C05_every_path_to_a_match_survives"
   ],
   "note": "Over an abstract expansion relation (plan children per identity), any finite closed identity set."
  },
  {
   "property": "C06",
   "status": "proved",
   "theorems": [
    "C06_route_hint_exact",
    "C06_ordering_is_stable_partition"
   ],
   "note": "The hint is exact on stripped keys; ordering is a stable partition for every classifier."
  },
  {
   "property": "C07",
   "status": "partial",
   "theorems": [
    "C07_no_dangling_refs_partial",
    "C07_discriminator_mapping_refuted",
    "C07_encoding_header_refuted"
   ],
   "note": "Proved for every reference the listed positions can hold; discriminator mappings and encoding headers are refuted."
  },
  {
   "property": "C08",
   "status": "proved",
   "theorems": [
    "C08_repair_is_conservative",
    "C08_report_is_exact",
    "C08_repair_is_idempotent",
    "C08_repair_ignores_map_order",
    "C08_go_type_is_unambiguous"
   ],
   "note": "All documents, all map orders."
  },
  {
   "property": "C09",
   "status": "proved",
   "theorems": [
    "C09_primary_first_then_new",
    "C09_merge_is_idempotent",
    "C09_rest_of_the_merge",
    "C09_secondary_view_is_the_scoped_part"
   ],
   "note": "All configurations whose strings contain no NUL byte (the separator); idempotence needs no such hypothesis. Covers every merged list, the request-context union, the implicit status and the secondary view."
  },
  {
   "property": "C10",
   "status": "partial",
   "theorems": [
    "C10_new_identity_is_kept_partial",
    "C10_exact_receiver_dropped_refuted",
    "C10_caller_filter_dropped_refuted",
    "C10_what_a_pattern_matches"
   ],
   "note": "False as stated: request, response and mount identities omit the exact receiver type, and no identity includes the caller/callee filters; two witnesses. Proved part: an entry whose identity fields are new is kept. Also what a pattern's filters select, and that merged entries keep their order."
  },
  {
   "property": "C11",
   "status": "partial",
   "theorems": [
    "C11_round_trip",
    "C11_dotted_round_trip",
    "C11_dotted_injective",
    "C11_parse_total",
    "C11_opaque_verbatim",
    "C11_text_kept",
    "C11_information_lost_refuted",
    "C11_empty_list_lost_refuted",
    "C11_opaque_given_package_refuted"
   ],
   "note": "Round trip proved for every well-formed type of any depth in all three encodings (dotted shows everything, internal drops argument packages, simple drops all), dotted spelling injective, recursion bound never reached, texts without an argument list given back verbatim, all other texts without the arrow keep every non-blank character unless an argument list has no last argument. Refuted: empty argument lists and legacy arguments next to bracketed ones are lost; an opaque func type mentioning a qualified type is given a package."
  },
  {
   "property": "C12",
   "status": "partial",
   "theorems": [
    "C12_segment_by_segment",
    "C12_wildcards_stay_in_their_segment",
    "C12_literal_matches_itself",
    "C12_no_slash_matches_at_any_depth",
    "C12_double_star_matches_everything",
    "C12_trailing_slash_with_slash",
    "C12_trailing_slash_any_depth",
    "C12_bang_inverts",
    "C12_empty_matches_nothing",
    "C12_leading_slash_of_the_path_is_ignored",
    "C12_leading_slash_of_the_pattern_is_ignored",
    "C12_rooted_literal_refuted",
    "C12_repeated_double_star_refuted",
    "C12_newline_refuted"
   ],
   "note": "Proved for patterns without bracket classes whose double stars are whole segments, on one-line paths. Refuted: a leading slash does not anchor, a pattern ending in two double-star segments misses paths, directory names with a line break are not matched. Bracket classes are an oracle (not modelled)."
  },
  {
   "property": "C13",
   "status": "proved",
   "theorems": [
    "C13_filter_is_the_selection",
    "C13_filter_idempotent"
   ],
   "note": "Proved for every pattern list; holds for any answer of the regexp engine on bracket classes."
  },
  {
   "property": "C14",
   "status": "proved",
   "theorems": [
    "C14_regex_answer",
    "C14_match_answer",
    "C14_invalid_never_matches",
    "C14_exclusive",
    "C14_compiled_once",
    "C14_entries_kept",
    "C14_no_deadlock",
    "C14_terminates"
   ],
   "note": "Small-step interleaving model of any number of goroutines with both read-write locks; also proved: mutual exclusion of writers, no deadlock, termination."
  },
  {
   "property": "C15",
   "status": "proved",
   "theorems": [
    "C15_index_resolves_forever",
    "C15_index_shared_exactly_by_equal_strings",
    "C15_contents_are_first_requests",
    "C15_reload_invisible",
    "C15_out_of_range_is_empty",
    "C15_nil_pool_answers_minus_one"
   ],
   "note": "All histories of pool operations."
  },
  {
   "property": "C16",
   "status": "proved",
   "theorems": [
    "C16_dropped_iff_subsumed",
    "C16_every_route_is_covered",
    "C16_survivors_are_incomparable",
    "C16_dropping_again_changes_nothing",
    "C16_types_survive"
   ],
   "note": "All route lists."
  },
  {
   "property": "C17",
   "status": "proved",
   "theorems": [
    "C17_one_slash_at_the_seam",
    "C17_leading_slash",
    "C17_join_is_associative",
    "C17_join_appends_segments",
    "C17_segments_are_the_parts"
   ],
   "note": "All strings; associativity holds unconditionally."
  },
  {
   "property": "C18",
   "status": "partial",
   "theorems": [
    "C18_each_placeholder_declared_once_partial",
    "C18_handler_parameter_kept",
    "C18_synthesised_parameters_carry_the_constraint",
    "C18_repeated_placeholder_refuted",
    "C18_hyphenated_placeholder_refuted",
    "C18_exported_name_refuted",
    "C18_shared_component_refuted"
   ],
   "note": "Proved for handler parameters that are inline, path parameters required, dynamic segment names that start in lower case, and distinct placeholders; refuted for repeated, hyphenated and capitalised ones."
  },
  {
   "property": "C19",
   "status": "partial",
   "theorems": [
    "C19_conversion_partial",
    "C19_idempotent_partial",
    "C19_plain_unchanged",
    "C19_constraints_remembered",
    "C19_literals_unchanged_refuted",
    "C19_idempotent_refuted"
   ],
   "note": "Proved for all paths made of literals, :name and {name:constraint} with balanced braces; refuted for literal colons and unbalanced braces."
  },
  {
   "property": "C20",
   "status": "proved",
   "theorems": [
    "C20_last_route_wins",
    "C20_paths_are_registered",
    "C20_operation_fields"
   ],
   "note": "Operation identifiers and texts are abstract."
  },
  {
   "property": "C21",
   "status": "partial",
   "theorems": [
    "C21_known_statuses_documented",
    "C21_nothing_else",
    "C21_default_entry",
    "C21_unknown_statuses_partial",
    "C21_never_empty",
    "C21_order_independent",
    "C21_all_bodies_represented_refuted"
   ],
   "note": "Bodies with unknown status collapse to one default entry (refuted part)."
  },
  {
   "property": "C22",
   "status": "partial",
   "theorems": [
    "C22_order_independent",
    "C22_pairing_exact",
    "C22_status_used_once",
    "C22_left_over_bodies",
    "C22_no_implicit_after_unreadable",
    "C22_unknown_statuses_kept_apart",
    "C22_shared_statement_order_refuted",
    "C22_known_bodies_are_represented"
   ],
   "note": "All candidate lists. Order independence needs distinct source positions and no 0x1f byte in identities/type names; a statement shared by two frames has one position and is order dependent (witness). Every body of known status is represented in its status entry."
  },
  {
   "property": "C23",
   "status": "proved",
   "theorems": [
    "C23_candidate_key_injective",
    "C23_frame_chain_is_the_enclosing_frames",
    "C23_frame_chain_injective"
   ],
   "note": "All frame lists and strings."
  },
  {
   "property": "C24",
   "status": "partial",
   "theorems": [
    "C24_best_response",
    "C24_response_order_irrelevant",
    "C24_response_choice_algebra",
    "C24_request_choice_partial",
    "C24_request_order_refuted",
    "C24_resolved_alternatives_lost_refuted"
   ],
   "note": "Responses in full; requests only for concreteness and algebra (order independence refuted); oneOf bodies treated as uninformative (refuted)."
  },
  {
   "property": "C25",
   "status": "partial",
   "theorems": [
    "C25_no_used_type_is_lost",
    "C25_response_slots_kept",
    "C25_params_and_tags_of_the_first",
    "C25_identity_kept",
    "C25_own_security_wins_partial",
    "C25_public_marker_refuted"
   ],
   "note": "Used types, response slots and own security proved; the public marker is refuted."
  },
  {
   "property": "C26",
   "status": "partial",
   "theorems": [
    "C26_accepted_iff_all_satisfied_partial",
    "C26_alternatives_suffice_partial",
    "C26_unmapped_is_reported",
    "C26_public_iff",
    "C26_alternatives_weaken_refuted",
    "C26_later_mapping_wins_refuted",
    "C26_user_skip_does_not_win_refuted",
    "C26_wrapper_weakens_refuted",
    "C26_route_never_demands_less_partial",
    "C26_mapping_applies_iff",
    "C26_requirements_listed_once_partial",
    "C26_requirements_listed_once_refuted"
   ],
   "note": "Proved for mappings without alternatives whose requirements agree on scopes, including exactly when a mapping applies and that each requirement is listed once (scopes without commas); five refutations show where the full claim fails."
  },
  {
   "property": "C27",
   "status": "partial",
   "theorems": [
    "C27_every_defined_reference_is_declared",
    "C27_nothing_altered_nothing_else",
    "C27_undeclared_is_reported",
    "C27_order_independent",
    "C27_undefined_scheme_refuted",
    "C27_documents_are_self_contained",
    "C27_library_is_self_contained"
   ],
   "note": "Full claim holds when user-written requirements name declared schemes; refutation: an undefined name is only logged."
  },
  {
   "property": "C28",
   "status": "proved",
   "theorems": [
    "C28_appended_after_user",
    "C28_no_imports_no_change",
    "C28_applied_once",
    "C28_sequence",
    "C28_import_order"
   ],
   "note": ""
  },
  {
   "property": "C29",
   "status": "partial",
   "theorems": [
    "C29_highest_priority_wins_partial",
    "C29_only_real_extractions_partial",
    "C29_any_extractor_suffices_refuted",
    "C29_priority_order_refuted",
    "C29_mount_selection"
   ],
   "note": "Refuted in general; proved when every accepting matcher extracts. Mount selection in full."
  },
  {
   "property": "C30",
   "status": "partial",
   "theorems": [
    "C30_mounts_accumulate_partial",
    "C30_repeated_prefix_refuted"
   ],
   "note": "Refuted for a prefix that textually ends the joined outer prefixes; proved otherwise."
  },
  {
   "property": "C31",
   "status": "partial",
   "theorems": [
    "C31_terminates",
    "C31_nothing_invented",
    "C31_first_lookup_exact",
    "C31_exact_without_recursion_partial",
    "C31_recursion_loses_middleware_refuted",
    "C31_methods_looked_through"
   ],
   "note": "Exact on first lookup and on non-recursive wrappers; with recursion a later lookup can lose a middleware (refuted)."
  },
  {
   "property": "C32",
   "status": "partial",
   "theorems": [
    "C32_one_route_per_verb",
    "C32_no_verb",
    "C32_responses",
    "C32_request",
    "C32_rest",
    "C32_split_names",
    "C32_explicit_stays",
    "C32_only_dispatching",
    "C32_expand",
    "C32_expand_single",
    "C32_expand_names",
    "C32_file_of_position",
    "C32_shared_helper_refuted"
   ],
   "note": "splitMethodDispatchRoutes, methodDispatchFor, splitRouteByMethodBranches, fileOfPosition and expandMultiVerbRoutes; findFunctionByName and the text of the operation id before its suffix are parameters. Refuted part: a response written in the same file but outside the handler is dropped from every verb."
  },
  {
   "property": "C33",
   "status": "partial",
   "theorems": [
    "C33_copies_bounded",
    "C33_nodes_bounded",
    "C33_same_answer_again",
    "C33_expanding_twice_is_once",
    "C33_never_below_itself",
    "C33_children_bounded",
    "C33_listed_below_itself_refuted",
    "C33_copies_by_position_refuted",
    "C33_wiring_exact",
    "C33_wiring_bounded",
    "C33_wiring_refused",
    "C33_copies_in_numbers"
   ],
   "note": "Proved: copies reported below the nodes of one scope stay within the cap, the whole tree is bounded over any history, answers never change, nothing hangs below itself. Refuted: the children a client walks can repeat a function below a chained call (the chained child's parent skips the call it is chained to), and counted by where nodes hang the cap can be exceeded by calls chained to arguments."
  },
  {
   "property": "C34",
   "status": "partial",
   "theorems": [
    "C34_own_counter_only",
    "C34_counter_exact",
    "C34_other_routes_do_not_matter_partial",
    "C34_route_size",
    "C34_other_routes_do_not_matter_refuted",
    "C34_route_in_numbers"
   ],
   "note": "Proved: counters are exact and moved only by their own route, the wiring counter is never moved below a route, a node shows the same children whatever was expanded below other routes unless a copy was refused, and a route exceeds its budget by at most one node's children. Refuted without the proviso: copies are counted by the key of the nearest argument, so two mounts of one registration share the allowance and one can drop calls of the other."
  },
  {
   "property": "C35",
   "status": "partial",
   "theorems": [
    "C35_type_lookup",
    "C35_function_lookup",
    "C35_file_names",
    "C35_type_names",
    "C35_anywhere_partial",
    "C35_package_names_partial",
    "C35_replacement_refuted",
    "C35_anywhere_refuted",
    "C35_package_names_refuted"
   ],
   "note": "SortedFileNames, SortedTypeNames, TypeInPackage, FunctionInPackage, SortedPackageNames and FunctionAnywhere with their caches. For every history of growth and lookups the package-level lookups equal the least-file scan of the current metadata. The whole-program ones are proved when the metadata is complete before the first of them (_partial) and refuted otherwise; a replacement that keeps the counts is refuted for all. Each lookup is one atomic step (its lock); ImplementersOf is not modelled."
  },
  {
   "property": "C36",
   "status": "partial",
   "theorems": [
    "C36_complete_save",
    "C36_what_a_stop_leaves",
    "C36_mixtures_partial",
    "C36_mixture_refuted",
    "C36_empty_part_refuted",
    "C36_different_bases",
    "C36_base_path"
   ],
   "note": "WriteYAML, WriteSplitMetadata and LoadSplitMetadata over a file-system map, the process stopping after any system call; YAML is any codec that reads back what it writes. Proved: what every stop leaves on disk, a complete save loads back, different base paths are independent. The all-or-nothing claim is refuted for every codec: stopping between two files loads a mixture, and an opened file loads as an empty part. Crashes that lose or reorder completed writes (no fsync) are not modelled."
  },
  {
   "property": "C37",
   "status": "partial",
   "theorems": [
    "C37_strip_refuted",
    "C37_strip_gives_base_partial",
    "C37_grouped_iff_same_function_partial",
    "C37_dotted_package_collision_refuted",
    "C37_identity_independent_of_map_order"
   ],
   "note": "Full statement refuted for generic receivers and for packages with a dotted last element; proved for ordinary, conventionally named calls."
  },
  {
   "property": "C38",
   "status": "proved",
   "theorems": [
    "C38_first_seen_order",
    "C38_answer_is_unique",
    "C38_fallback",
    "C38_never_empty",
    "C38_any_registry",
    "C38_documented_markers"
   ],
   "note": "Proved for the real registry and for any registry with non-empty quote-free markers, over interpreted and raw import literals and unparseable files. Collecting the files from disk is not modelled."
  },
  {
   "property": "C39",
   "status": "partial",
   "theorems": [
    "C39_closure_partial",
    "C39_same_packages_partial",
    "C39_project_part_is_fixed",
    "C39_direct_imports_always",
    "C39_map_order_refuted"
   ],
   "note": "Refuted at the default depth limit of 3: whether a package at the fourth level is collected depends on map order. Proved when the limit exceeds the number of packages, and unconditionally for the direct/dependent part and first-level imports."
  },
  {
   "property": "C40",
   "status": "proved",
   "theorems": [
    "C40_transitive_dependency"
   ],
   "note": "Terminates and is exact on every finite import graph, cyclic ones included."
  },
  {
   "property": "C41",
   "status": "partial",
   "theorems": [
    "C41_integers",
    "C41_quoted_text_partial",
    "C41_floats",
    "C41_floats_exponent",
    "C41_quoted_refuted",
    "C41_based_integer_refuted"
   ],
   "note": "determineLiteralType with the grammars of strconv.ParseInt/ParseUint/ParseFloat; whether a float is in range is a parameter. Refuted for quoted text that reads as a number or bool, and for 0x/0b/0o integers."
  },
  {
   "property": "C42",
   "status": "partial",
   "theorems": [
    "C42_only_named",
    "C42_has_override",
    "C42_nothing_else",
    "C42_summary",
    "C42_summary_kept",
    "C42_tags",
    "C42_tags_kept",
    "C42_body_type_recorded_partial",
    "C42_responses_never_change",
    "C42_response_override_refuted",
    "C42_description_never_used"
   ],
   "note": "ApplyOverrides, HasOverride and the documented summary, tags and responses. Summary and tags: last override wins. Refuted: response type and status overrides never show in the document; descriptions are never used."
  },
  {
   "property": "C43",
   "status": "partial",
   "theorems": [
    "C43_sorted_and_unique",
    "C43_order_does_not_matter",
    "C43_text_constants",
    "C43_integer_constants",
    "C43_long_text_refuted",
    "C43_escaped_text_refuted",
    "C43_blank_constant_refuted",
    "C43_unrelated_constant_refuted",
    "C43_converted_constant_refuted",
    "C43_namesake_type_refuted",
    "C43_blank_variable_refuted"
   ],
   "note": "processVariables, typeMatches, detectEnumFromConstants, extractEnumValues and extractConstantValue with strconv.Quote and go/constant's text cut; sort.Slice is any sort by text. Exact for text and int64 constants of a plainly declared type; refuted for long or escaped text, blank constants, untyped block mates, converted constants and same-named types."
  },
  {
   "property": "C44",
   "status": "proved",
   "theorems": [
    "C44_every_element",
    "C44_all_or_nothing",
    "C44_one_reading",
    "C44_split_only_verbs",
    "C44_no_verb_unchanged",
    "C44_other_words_kept"
   ],
   "note": "verbsFromArg (over the constant value of the argument) and splitMethodFromPath; case folding and white space are ASCII"
  },
  {
   "property": "C45",
   "status": "proved",
   "theorems": [
    "C45_words",
    "C45_letters_kept",
    "C45_leading_word",
    "C45_any_word",
    "C45_no_word_default",
    "C45_total"
   ],
   "note": "methodFromFunctionName and splitNameWords literally, bubble sort included, over arbitrary Unicode classification tables"
  },
  {
   "property": "C46",
   "status": "partial",
   "theorems": [
    "C46_fields_rejoin",
    "C46_fields_split_at_top",
    "C46_nested_text_has_items",
    "C46_struct_body",
    "C46_args_rejoin",
    "C46_args_split_at_top",
    "C46_args_split_in_quotes_refuted",
    "C46_exact_text_refuted",
    "C46_dive"
   ],
   "note": "splitTopLevel: pieces always rejoin up to the blanks trimmed around each, and well-nested text (brackets, quotes with escapes) is cut exactly at top-level separators; anonStructBody returns the whole body; splitArgs cuts exactly at commas outside [] and () and drops a blank last piece; splitOnDive cuts at the first dive rule. Refuted literally: blanks are not given back; a comma inside braces or a quoted struct tag of a type argument is cut."
  },
  {
   "property": "C47",
   "status": "proved",
   "theorems": [
    "C47_links_fixed",
    "C47_order_fixed",
    "C47_every_assignment_linked",
    "C47_links_come_from",
    "C47_main_linked"
   ],
   "note": "BuildAssignmentRelationships and sortedAssignmentRelationships; every map iteration has an order of its own and the sort may be unstable."
  },
  {
   "property": "C48",
   "status": "proved",
   "theorems": [
    "C48_depth_is_distance"
   ],
   "note": "All call graphs."
  },
  {
   "property": "C49",
   "status": "partial",
   "theorems": [
    "C49_position_round_trip_partial",
    "C49_module_cache_file_refuted"
   ],
   "note": "Round trip for file names without '@'; false for module-cache files (witness). Files named '' and column 0 are also outside the theorem; valid go/token positions of files never have them."
  },
  {
   "property": "C50",
   "status": "partial",
   "theorems": [
    "C50_exact_mapping_wins",
    "C50_short_mapping_next",
    "C50_no_mapping",
    "C50_wrapped_needs_exact",
    "C50_configured_type_is_the_users",
    "C50_configured_component",
    "C50_first_component_refuted",
    "C50_short_external_type_refuted",
    "C50_registry_then_facts",
    "C50_component",
    "C50_namesake_refuted"
   ],
   "note": "lookupConfigSchema, configHasExternalType, resolveExternalType, and the component generateSchemas gives a type that is not in the metadata. Refuted for externalTypes: duplicates use the last entry, short names are not applied; a project type with a known short name is documented as the library's."
  },
  {
   "property": "C51",
   "status": "partial",
   "theorems": [
    "C51_fold_only_into_covering_routes_refuted",
    "C51_untouched_without_dropped_copies_partial"
   ],
   "note": "Refuted: dropped copies are folded into every survivor of the endpoint."
  },
  {
   "property": "C52",
   "status": "partial",
   "theorems": [
    "C52_no_internal_location_left",
    "C52_other_parameters_kept",
    "C52_form_body",
    "C52_query_fallback",
    "C52_every_value_documented_refuted"
   ],
   "note": "Files read next to a decoded body or on a bodyless method are documented nowhere (refuted part)."
  },
  {
   "property": "C53",
   "status": "partial",
   "theorems": [
    "C53_method_and_path_partial",
    "C53_plain_path",
    "C53_normalized",
    "C53_host_refuted"
   ],
   "note": "Hosts become part of the path (refuted part)."
  },
  {
   "property": "C54",
   "status": "partial",
   "theorems": [
    "C54_strongest_framework_wins_partial",
    "C54_outranks_strict",
    "C54_map_order_irrelevant",
    "C54_raw_import_refuted"
   ],
   "note": "Proved for packages whose imports are double-quoted; refuted for raw (back-quoted) import literals, which keep their quotes and match no prefix."
  },
  {
   "property": "C55",
   "status": "proved",
   "theorems": [
    "C55_direct_entries",
    "C55_dependent_entries",
    "C55_listed_once"
   ],
   "note": "Assumes loaded packages have distinct paths."
  },
  {
   "property": "C56",
   "status": "proved",
   "theorems": [
    "C56_root_order_irrelevant",
    "C56_everything_is_below_the_root",
    "C56_root_is_lowest",
    "C56_root_is_no_host",
    "C56_module_decides"
   ],
   "note": "Also proved: with a module path membership is exactly segment-wise containment minus mock and external packages."
  },
  {
   "property": "C57",
   "status": "proved",
   "theorems": [
    "C57_key_of_qualified",
    "C57_key_of_unqualified",
    "C57_key_unchanged",
    "C57_idempotent"
   ],
   "note": "Proved for every well-formed type term; for ill-formed texts only the examples of C11 apply."
  },
  {
   "property": "C58",
   "status": "partial",
   "theorems": [
    "C58_arms_documented_exactly_partial",
    "C58_shared_check_refuted",
    "C58_only_verbs",
    "C58_small_letters_refuted"
   ],
   "note": "detectMethodDispatch on a statement language of sites, nesting, chains and switches, composed with the split. Proved for responses inside an arm of a handler whose tests compare with capital verbs, are not repeated and not nested, one site a line. Missing: responses outside the arms, refuted (a check before the switch is documented under no verb); constants in small letters, refuted. return is not modelled."
  },
  {
   "property": "C60",
   "status": "partial",
   "theorems": [
    "C60_same_name",
    "C60_properties_are_the_keys_partial",
    "C60_domain",
    "C60_tag_text",
    "C60_field_list",
    "C60_embedded_refuted",
    "C60_namesake_key_refuted",
    "C60_space_refuted",
    "C60_dash_refuted",
    "C60_invalid_name_refuted",
    "C60_interpreted_literal_refuted",
    "C60_same_key_refuted"
   ],
   "note": "Proved for structs without embedded fields whose tags follow the tag convention (no key ending in json other than json, no escapes, usable json name) and whose keys differ; the set of keys also when they do not differ. Seven refutations show where the full claim fails."
  },
  {
   "property": "C62",
   "status": "partial",
   "theorems": [
    "C62_same_package",
    "C62_across_packages_partial",
    "C62_instances_partial",
    "C62_no_separators",
    "C62_reference_reaches_its_type_partial",
    "C62_valid_key_partial",
    "C62_paths_refuted",
    "C62_instance_refuted",
    "C62_namesake_arguments_refuted",
    "C62_reference_refuted",
    "C62_valid_key_refuted"
   ],
   "note": "Proved: distinct identifiers of one package never collide; across packages when the differing part of the paths has letters, digits and slashes only; instances on plain arguments; no name has a dot, slash, space or bracket; valid keys for declared types; references resolve when names do not collide. Five refutations."
  },
  {
   "property": "C63",
   "status": "partial",
   "theorems": [
    "C63_substitution_partial",
    "C63_qualification_partial",
    "C63_instance_field_partial",
    "C63_containers_refuted",
    "C63_argument_package_refuted",
    "C63_empty_struct_refuted",
    "C63_field_arguments_refuted"
   ],
   "note": "Proved for well-formed types: substitution and qualification of the text equal those of the type; for instances whose arguments are basic or of the generic type's own package, with the parameter bare or below pointers and slices. Four refutations."
  },
  {
   "property": "C61",
   "status": "partial",
   "theorems": [
    "C61_sound_partial",
    "C61_exact_partial",
    "C61_required",
    "C61_out_of_range",
    "C61_enum_place",
    "C61_len_number_refuted",
    "C61_later_key_refuted",
    "C61_later_name_refuted",
    "C61_oneof_number_refuted",
    "C61_zero_bound_refuted",
    "C61_repeated_refuted",
    "C61_required_empty_refuted",
    "C61_omitempty_refuted",
    "C61_quoted_refuted",
    "C61_alternatives_refuted",
    "C61_other_key_refuted",
    "C61_multibyte_refuted"
   ],
   "note": "Text of the tag to constraints to accepted values, both directions, for rules without patterns; refutations for later keys, oneof on numbers, quoted values, alternatives, zero bounds, repeated rules, omitempty, required, key names inside other keys."
  },
  {
   "property": "C59",
   "status": "partial",
   "theorems": [
    "C59_sound_partial",
    "C59_precise_partial",
    "C59_fields_partial",
    "C59_null_never_admitted",
    "C59_nil_refuted",
    "C59_byte_array_refuted",
    "C59_any_refuted",
    "C59_range_refuted",
    "C59_empty_array_refuted",
    "C59_int_keys_refuted",
    "C59_fields_refuted",
    "C59_declared_sound_partial",
    "C59_reference",
    "C59_pointer_pointer_refuted",
    "C59_untyped",
    "C59_synthetic_inline",
    "C59_promoted"
   ],
   "note": "Both directions proved for types over scalars nested to any depth, alone and as fields; refuted for nil, arrays of byte, any, integer ranges, empty arrays, non-string keys, and for a repeated field of a nested array type. Declared types are not covered."
  },
  {
   "property": "C64",
   "status": "partial",
   "theorems": [
    "C64_shown_is_right",
    "C64_cut_short_iff",
    "C64_limits",
    "C64_complete",
    "C64_figures",
    "C64_paths_listed",
    "C64_paths_counted_partial",
    "C64_paths_counted_refuted",
    "C64_exactly_the_limit_refuted",
    "C64_labels_distinct_refuted",
    "C64_builtin_name_refuted",
    "C64_grade_monotone",
    "C64_diagram",
    "C64_nodes_reproducible",
    "C64_edges_reproducible_refuted"
   ],
   "note": "The walk, its limits, figures, path list, grade and diagram are proved for all graphs and limits. The path count is proved where no function reaches itself through others, and refuted otherwise. Refuted as findings: exact limit flagged, builtin names, equal labels, edge order."
  },
  {
   "property": "C65",
   "status": "partial",
   "theorems": [
    "C65_depth",
    "C65_pages",
    "C65_pages_cover",
    "C65_has_more_partial",
    "C65_branch_order",
    "C65_reorder_partial",
    "C65_cache_key_partial",
    "C65_cache_right_partial",
    "C65_has_more_at_end_refuted",
    "C65_no_more_refuted",
    "C65_asked",
    "C65_page_overflow_refuted",
    "C65_cycle_hidden_refuted",
    "C65_edge_on_no_page_refuted",
    "C65_cache_key_refuted",
    "C65_stale_page_refuted",
    "C65_receiver_filter_refuted",
    "C65_reorder_refuted"
   ],
   "note": "Proved: depths, pages as slices of one listing of exactly the nodes asked for, page contents and edges, enclosing functions, branch order, stability of the order with one main node, distinct keys and right answers for plain requests without project changes. Refuted with witnesses: HasMore on last pages and with enclosing functions, overflow of the page number, hidden cycles, edges between pages, shared cache keys, stale pages, receiver filter, order with two main nodes."
  },
  {
   "property": "C66",
   "status": "partial",
   "theorems": [
    "C66_unique_ids",
    "C66_nodes",
    "C66_one_node",
    "C66_arrows_are_calls",
    "C66_calls_drawn",
    "C66_all_calls_drawn_partial",
    "C66_parent_is_node",
    "C66_literal_inside_partial",
    "C66_node_text",
    "C66_all_calls_drawn_refuted",
    "C66_literal_inside_refuted",
    "C66_enclosing_marked_refuted",
    "C66_call_sites_listed_refuted"
   ],
   "note": "Unique IDs, nodes, arrows and exactly which calls are drawn are proved for every call graph. That every call is drawn holds when enclosing functions come before their literals and is refuted otherwise; literals are inside a node of the right name and package, not always the right receiver."
  },
  {
   "property": "C67",
   "status": "partial",
   "theorems": [
    "C67_package_rule",
    "C67_file_rule",
    "C67_analysed",
    "C67_own_tree_partial",
    "C67_skipped",
    "C67_functions_and_types_ignored",
    "C67_config_file_ignored",
    "C67_own_tree_refuted",
    "C67_left_out_by_name_refuted",
    "C67_tests_at_root_refuted",
    "C67_config_file_refuted"
   ],
   "note": "Which files are analysed is characterised exactly; that the tree analysed under a file's name is its own, that only tests, mocks and C code are left out automatically, and that a configuration file filters the analysis are refuted."
  },
  {
   "property": "C68",
   "status": "partial",
   "theorems": [
    "C68_members_decide",
    "C68_rerun_partial",
    "C68_wrappers_idempotent",
    "C68_wrappers_added",
    "C68_wrappers_present",
    "C68_rerun_refuted",
    "C68_other_project_refuted",
    "C68_title_stays",
    "C68_filters_grow"
   ],
   "note": "A second run analyses the same files unless framework packages are included automatically (the default), for which this is refuted; derived patterns are proved idempotent and additive."
  },
  {
   "property": "C69",
   "status": "partial",
   "theorems": [
    "C69_traced",
    "C69_only_traced",
    "C69_search_ends",
    "C69_dropped",
    "C69_others_dropped",
    "C69_any_argument",
    "C69_writer_kept_partial",
    "C69_field_value_refuted",
    "C69_reassigned_refuted",
    "C69_field_selected_refuted",
    "C69_only_writer_refuted",
    "C69_callee_scope_refuted",
    "C69_caller_scope"
   ],
   "note": "Search over argument trees proved equal to an inductive relation (given distinct IDs) and to end; dropped values characterised. Keeping every value that holds the writer is proved without keyed literals and reassigned parameters; refuted for field values, reassigned parameters, selected fields, keys of a writer type, and variables of the function called that hide the caller's."
  },
  {
   "property": "C70",
   "status": "partial",
   "theorems": [
    "C70_source",
    "C70_search_ends",
    "C70_only_request",
    "C70_from_body_partial",
    "C70_reader_lost_refuted",
    "C70_receiver",
    "C70_method_refuted"
   ],
   "note": "Source check proved equal to an inductive relation and to end; what is accepted has a request's body accessor. Completeness proved without parentheses and readers around the body; refuted for io.LimitReader, io.ReadAll, parentheses, and decoders kept in variables of methods."
  },
  {
   "property": "C71",
   "status": "partial",
   "theorems": [
    "C71_rooted_exact",
    "C71_tree_roots",
    "C71_reached_in_a_closure_refuted",
    "C71_registered_in_a_closure_refuted"
   ],
   "note": "Refuted for closures: C71_reached_in_a_closure_refuted, C71_registered_in_a_closure_refuted; otherwise exact."
  },
  {
   "property": "C72",
   "status": "proved",
   "theorems": [
    "C72_entrypoint_exact",
    "C72_presets_exact",
    "C72_presets_idempotent",
    "C72_table_constrains_types",
    "C72_registration_exact"
   ],
   "note": "Exact for every pattern table; regular expressions are an oracle."
  },
  {
   "property": "C73",
   "status": "partial",
   "theorems": [
    "C73_keyed_literal",
    "C73_positional_literal",
    "C73_ends_partial",
    "C73_codes_sorted",
    "C73_listed_is_answered",
    "C73_complete_without_residue",
    "C73_residue_is_for_something",
    "C73_open_is_reported",
    "C73_answer_unique",
    "C73_ends_refuted",
    "C73_lost_branch_is_reported_refuted"
   ],
   "note": "Ending is proved without circular assignments and refuted with them; branches that cannot be followed are dropped silently (refuted)."
  },
  {
   "property": "C74",
   "status": "partial",
   "theorems": [
    "C74_traced",
    "C74_position",
    "C74_forwarded",
    "C74_made_up_value_refuted",
    "C74_namesake_refuted"
   ],
   "note": "Exact characterisation of the trace. Two statements refuted: a field named like a parameter counts, assignments of a namesake function count."
  },
  {
   "property": "C75",
   "status": "partial",
   "theorems": [
    "C75_roles",
    "C75_found_exact",
    "C75_recorded",
    "C75_direct",
    "C75_earlier_call_refuted",
    "C75_other_module_refuted",
    "C75_long_chain_refuted"
   ],
   "note": "Found methods, roles and the first-call rule are exact. Refuted: a forwarding method is complete; only the module counts; chains of any length."
  },
  {
   "property": "C76",
   "status": "partial",
   "theorems": [
    "C76_groups_exact",
    "C76_determined",
    "C76_report_refuted"
   ],
   "note": "Groups exact and independent of map order but for the Via report (refuted)."
  },
  {
   "property": "C77",
   "status": "partial",
   "theorems": [
    "C77_mounts_exact",
    "C77_mounts_determined",
    "C77_value_receiver_refuted",
    "C77_second_function_refuted",
    "C77_name_only_refuted"
   ],
   "note": "Exactness and determinism proved; three stronger readings refuted."
  },
  {
   "property": "C78",
   "status": "partial",
   "theorems": [
    "C78_applied",
    "C78_idempotent",
    "C78_second_run_refuted"
   ],
   "note": "Application proved; stability of a second detection refuted."
  },
  {
   "property": "C79",
   "status": "partial",
   "theorems": [
    "C79_sound",
    "C79_direct",
    "C79_listed",
    "C79_call_order_refuted",
    "C79_early_stop_refuted",
    "C79_second_role_refuted",
    "C79_map_order_refuted"
   ],
   "note": "Soundness and the direct level proved; order independence and the deeper levels refuted."
  },
  {
   "property": "C80",
   "status": "partial",
   "theorems": [
    "C80_embedding",
    "C80_deep_refuted"
   ],
   "note": "Exact up to four embeddings; deeper chains refuted."
  },
  {
   "property": "C81",
   "status": "partial",
   "theorems": [
    "C81_walk_exact",
    "C81_only_known",
    "C81_instance_exact",
    "C81_index",
    "C81_order",
    "C81_call",
    "C81_deep_refuted",
    "C81_method_refuted",
    "C81_map_literal_refuted"
   ],
   "note": "Walk, instances and index exact; three refuted forms show what is not found: thirteen levels down, assignments in methods, elements of map literals."
  },
  {
   "property": "C82",
   "status": "partial",
   "theorems": [
    "C82_value_exact",
    "C82_rendered_exact",
    "C82_alias_refuted",
    "C82_field_guess_refuted",
    "C82_qualified",
    "C82_element",
    "C82_array_keys_refuted"
   ],
   "note": "Values and rendered names resolve exactly as specified; refuted: a selected field is taken for a package function, an import path tail wins over an alias, array keys of maps."
  },
  {
   "property": "C83",
   "status": "partial",
   "theorems": [
    "C83_callees",
    "C83_reaches",
    "C83_compose",
    "C83_same_lists",
    "C83_ids",
    "C83_identity",
    "C83_id_refuted"
   ],
   "note": "full for reachability, callees, IDs and order; refuted: an ID names one function"
  },
  {
   "property": "C84",
   "status": "partial",
   "theorems": [
    "C84_bindings",
    "C84_overrides",
    "C84_type",
    "C84_overlay_sound",
    "C84_overlay_exact",
    "C84_order",
    "C84_omitted_refuted",
    "C84_order_refuted",
    "C84_concrete_refuted"
   ],
   "note": "exact; refuted: omitted fields, map order with a shared JSON name, concrete types"
  },
  {
   "property": "C85",
   "status": "partial",
   "theorems": [
    "C85_no_panic",
    "C85_variable",
    "C85_helper_sound",
    "C85_helper_complete_partial",
    "C85_negative_refuted",
    "C85_hidden_refuted",
    "C85_first_refuted"
   ],
   "note": "exact for variables, sound for helpers; refuted: negative positions, hidden returns, first assignment"
  },
  {
   "property": "C86",
   "status": "partial",
   "theorems": [
    "C86_exact",
    "C86_read",
    "C86_plain",
    "C86_constant_refuted"
   ],
   "note": "exact; refuted: back-quoted and empty keys"
  },
  {
   "property": "C87",
   "status": "partial",
   "theorems": [
    "C87_exact",
    "C87_nothing_new",
    "C87_key_split",
    "C87_method_key_split",
    "C87_handler_keys",
    "C87_qualifiers",
    "C87_signature_partial",
    "C87_results_refuted",
    "C87_packages_refuted",
    "C87_embedded_refuted",
    "C87_embedded_only",
    "C87_embedded_only_refuted",
    "C87_kind_refuted",
    "C87_cycle_refuted"
   ],
   "note": "Function types with type parameters are not modelled; signatures are compared as text."
  },
  {
   "property": "C88",
   "status": "partial",
   "theorems": [
    "C88_operands",
    "C88_nothing_lost",
    "C88_other_operator",
    "C88_callers_agree",
    "C88_value_partial",
    "C88_field",
    "C88_raw_refuted",
    "C88_computed_refuted",
    "C88_uninitialised_refuted",
    "C88_variable_refuted",
    "C88_hidden_refuted",
    "C88_named_constant_refuted",
    "C88_scope_refuted",
    "C88_parent_refuted",
    "C88_promoted_refuted",
    "C88_duplicate_refuted",
    "C88_paren_refuted"
   ],
   "note": "GetArgumentInfo (a path that is neither a sum nor a call) is arbitrary here."
  },
  {
   "property": "C89",
   "status": "partial",
   "theorems": [
    "C89_layer_partial",
    "C89_no_guess",
    "C89_handler_partial",
    "C89_shape",
    "C89_adapter_refuted",
    "C89_nested_guess_refuted",
    "C89_deep_refuted"
   ],
   "note": "Proved for up to eight layers; three refutations."
  },
  {
   "property": "C90",
   "status": "partial",
   "theorems": [
    "C90_walk",
    "C90_request",
    "C90_own_body",
    "C90_same_registration",
    "C90_lateral_blocked",
    "C90_wrapped_refuted",
    "C90_same_name_refuted",
    "C90_chain_refuted",
    "C90_components_refuted",
    "C90_house_router_refuted"
   ],
   "note": "Walk, gate and completion proved exact against the steps as the code decides them; five refutations where those steps are not the program's."
  },
  {
   "property": "C91",
   "status": "partial",
   "theorems": [
    "C91_calls_partial",
    "C91_assigned_partial",
    "C91_kept",
    "C91_ends_refuted",
    "C91_conversion_refuted",
    "C91_pending_refuted",
    "C91_first_name_refuted",
    "C91_inner_assigned_refuted",
    "C91_package_variable_refuted",
    "C91_same_method_refuted"
   ],
   "note": "Distinct instance IDs and chains on recorded calls assumed; false without them (refutations)."
  },
  {
   "property": "C92",
   "status": "partial",
   "theorems": [
    "C92_callees",
    "C92_arguments",
    "C92_toward_routes",
    "C92_somewhere",
    "C92_reached",
    "C92_reassigned_refuted",
    "C92_second_router_refuted",
    "C92_closure_refuted",
    "C92_generics_refuted",
    "C92_same_id_refuted"
   ],
   "note": "Which calls are listed is proved as an iff; that all calls of a function are in the tree is false in general (refutations) and proved for ordered claims."
  },
  {
   "property": "C93",
   "status": "partial",
   "theorems": [
    "C93_verb_named",
    "C93_precedence",
    "C93_path",
    "C93_completes",
    "C93_kept_iff",
    "C93_package",
    "C93_chain_refuted",
    "C93_verbs_refuted",
    "C93_path_verb_refuted",
    "C93_default_refuted"
   ],
   "note": "Name mapping, path resolution, handler peeling and variable tracing are parameters; the full claims about chains, verb lists and explicit verbs are refuted."
  },
  {
   "property": "C94",
   "status": "partial",
   "theorems": [
    "C94_nearest",
    "C94_bound",
    "C94_hangs_iff",
    "C94_meaning",
    "C94_request",
    "C94_same_name_refuted",
    "C94_swap_refuted",
    "C94_composite_refuted",
    "C94_response_refuted"
   ],
   "note": "The full claim, that every path is followed to the meaning of the name, is refuted; proved for paths whose names are bound once."
  },
  {
   "property": "C95",
   "status": "partial",
   "theorems": [
    "C95_set",
    "C95_narrow_iff",
    "C95_binding",
    "C95_request_source",
    "C95_response_source",
    "C95_alternatives",
    "C95_other_package_refuted",
    "C95_unknown_refuted",
    "C95_address_refuted"
   ],
   "note": "Lookups of types, functions, fields and type parameters are given; that a narrowed type is the only one the variable can hold is refuted."
  },
  {
   "property": "C96",
   "status": "partial",
   "theorems": [
    "C96_origins_iff",
    "C96_match_iff",
    "C96_forms",
    "C96_param",
    "C96_none_iff",
    "C96_multipart_iff",
    "C96_later_refuted",
    "C96_alias_refuted",
    "C96_nameless_refuted"
   ],
   "note": "Origins, matching and extraction characterised exactly; later assignment, alias of alias and missing name refuted. Recording of assignments is C47."
  },
  {
   "property": "C97",
   "status": "partial",
   "theorems": [
    "C97_text_iff",
    "C97_named_range",
    "C97_range_refuted",
    "C97_variable_iff",
    "C97_constructor_iff",
    "C97_branches"
   ],
   "note": "The text of an argument, function lookup and parameter binding are parameters of the model (C35, C88)."
  },
  {
   "property": "C98",
   "status": "partial",
   "theorems": [
    "C98_responses_iff",
    "C98_none_iff",
    "C98_order_irrelevant",
    "C98_stated",
    "C98_once_refuted",
    "C98_same_refuted",
    "C98_range_refuted",
    "C98_minus_one_refuted",
    "C98_passed_refuted"
   ],
   "note": "Content type and schema are not modelled; the body type of an argument and mapper statuses are parameters (C73, C84-C86, C95)."
  },
  {
   "property": "C99",
   "status": "partial",
   "theorems": [
    "C99_placeholders",
    "C99_params_iff",
    "C99_reach_iff",
    "C99_keys_iff",
    "C99_reports",
    "C99_complete",
    "C99_mount_refuted",
    "C99_reassigned_refuted",
    "C99_bare"
   ],
   "note": "Regular expressions and the function found by name are given."
  },
  {
   "property": "C100",
   "status": "partial",
   "theorems": [
    "C100_pruned",
    "C100_literal_iff",
    "C100_none_iff",
    "C100_enclosing_iff",
    "C100_parent_iff",
    "C100_parentless_refuted"
   ],
   "note": "Signatures are not modelled; the text of a position is given."
  },
  {
   "property": "C101",
   "status": "partial",
   "theorems": [
    "C101_function_iff",
    "C101_method_iff",
    "C101_edge_iff",
    "C101_order",
    "C101_returns_iff",
    "C101_return_vars",
    "C101_var_refuted",
    "C101_tuple_var_refuted",
    "C101_compound_refuted"
   ],
   "note": "Text, type and callee of an expression and the function a position is in are given."
  },
  {
   "property": "C102",
   "status": "partial",
   "theorems": [
    "C102_visible_iff",
    "C102_method_iff",
    "C102_same_refuted",
    "C102_latest_refuted",
    "C102_method_refuted"
   ],
   "note": "Functions and methods are given in sorted order."
  },
  {
   "property": "C103",
   "status": "partial",
   "theorems": [
    "C103_library",
    "C103_injective",
    "C103_columnless_refuted",
    "C103_index",
    "C103_text",
    "C103_same_index",
    "C103_other_set_refuted",
    "C103_checkout",
    "C103_distinct",
    "C103_cache",
    "C103_elsewhere",
    "C103_collision_refuted",
    "C103_dots_refuted"
   ],
   "note": "Positions, indices and closure names proved over all histories of one file set and all clean paths; four refutations. Paths with volume names or backslashes are not modelled."
  },
  {
   "property": "C104",
   "status": "partial",
   "theorems": [
    "C104_params_iff",
    "C104_params_distinct",
    "C104_nothing",
    "C104_explicit_iff",
    "C104_receiver_iff",
    "C104_inferred_iff",
    "C104_no_instance",
    "C104_resolved",
    "C104_edge",
    "C104_partly_refuted",
    "C104_paren_refuted",
    "C104_variadic_refuted",
    "C104_unnamed_refuted",
    "C104_method_expression_refuted",
    "C104_inner_refuted",
    "C104_plain_refuted"
   ],
   "note": "Proved for all calls, signatures and argument trees; seven refutations. The type checker's answers are given."
  },
  {
   "property": "C105",
   "status": "partial",
   "theorems": [
    "C105_refs",
    "C105_issue_iff",
    "C105_order",
    "C105_broken_iff",
    "C105_full_iff",
    "C105_states",
    "C105_score",
    "C105_body_iff",
    "C105_bucket",
    "C105_bodies",
    "C105_counts",
    "C105_methods",
    "C105_coverage",
    "C105_tags",
    "C105_protected_iff",
    "C105_classes",
    "C105_interfaces",
    "C105_functions",
    "C105_transitive_refuted",
    "C105_missing_body_refuted",
    "C105_score_refuted",
    "C105_order_refuted",
    "C105_nil_refuted",
    "C105_design_refuted",
    "C105_label_refuted",
    "C105_functions_refuted"
   ],
   "note": "Partial: the issues, states, score, body counts, tallies, security classes and interface counts of the report are proved for all documents; schemas are finite trees, and eight claims are refuted with witnesses."
  },
  {
   "property": "C106",
   "status": "partial",
   "theorems": [
    "C106_identity_iff",
    "C106_lookup",
    "C106_extract_iff",
    "C106_wrapper_iff",
    "C106_found",
    "C106_all_found",
    "C106_definite",
    "C106_latest",
    "C106_unrecorded",
    "C106_speculative",
    "C106_callers",
    "C106_router_refuted",
    "C106_before_refuted",
    "C106_helper_refuted",
    "C106_caller_refuted",
    "C106_revisit_refuted",
    "C106_nested_refuted",
    "C106_variable_refuted",
    "C106_alias_refuted",
    "C106_function_refuted",
    "C106_literal_refuted",
    "C106_closure"
   ],
   "note": "Partial: identity, variables, arguments and the way middleware is carried down the tree to routes are proved for all finite trees; the jumps to assigned or passed routers are not modelled, completeness needs distinct visit texts, and ten claims are refuted."
  },
  {
   "property": "C107",
   "status": "partial",
   "theorems": [
    "C107_swaggo",
    "C107_layout",
    "C107_words",
    "C107_function",
    "C107_method",
    "C107_field",
    "C107_value",
    "C107_interface",
    "C107_field_interface",
    "C107_doc",
    "C107_type_package_refuted",
    "C107_same_name_refuted",
    "C107_lead_refuted",
    "C107_separators"
   ],
   "note": "the comment, the summary and the description proved; three limits refuted"
  },
  {
   "property": "C108",
   "status": "partial",
   "theorems": [
    "C108_origin",
    "C108_sound",
    "C108_terminates",
    "C108_history",
    "C108_keys",
    "C108_closed",
    "C108_shadow_refuted",
    "C108_method_file_refuted",
    "C108_receiver_refuted",
    "C108_call_order_refuted",
    "C108_address_refuted",
    "C108_circle_refuted"
   ],
   "note": "origin, soundness, end and independence of earlier traces proved for distinct keys; six limits refuted"
  },
  {
   "property": "C109",
   "status": "partial",
   "theorems": [
    "C109_used",
    "C109_recorded",
    "C109_order",
    "C109_order_refuted",
    "C109_double_pointer_refuted",
    "C109_no_self",
    "C109_proper",
    "C109_placeholder",
    "C109_component",
    "C109_pointer_refuted",
    "C109_dash_refuted"
   ],
   "note": "used types, components, placeholders and absence of self-references proved; four limits refuted"
  },
  {
   "property": "C110",
   "status": "partial",
   "theorems": [
    "C110_imports",
    "C110_recorded",
    "C110_declaration",
    "C110_resolve",
    "C110_unresolved",
    "C110_field",
    "C110_field_named",
    "C110_field_kept",
    "C110_target",
    "C110_container",
    "C110_target_package_refuted",
    "C110_own_package_refuted",
    "C110_array_refuted",
    "C110_pointer_slice_refuted",
    "C110_inner_refuted",
    "C110_paren_refuted",
    "C110_map_refuted",
    "C110_forms"
   ],
   "note": ""
  },
  {
   "property": "C111",
   "status": "partial",
   "theorems": [
    "C111_found",
    "C111_absent",
    "C111_ends",
    "C111_bound",
    "C111_selector",
    "C111_constant",
    "C111_same_package_refuted",
    "C111_depth_refuted",
    "C111_nested_refuted",
    "C111_generic_refuted"
   ],
   "note": "The search, selectors and constants are proved; four cases where Go's field is missed are refuted."
  },
  {
   "property": "C112",
   "status": "partial",
   "theorems": [
    "C112_order",
    "C112_unique",
    "C112_route",
    "C112_complete",
    "C112_target",
    "C112_no_target",
    "C112_security_refuted",
    "C112_extracted_iff"
   ],
   "note": "Uniqueness, order, contents and completeness are proved; that repeated visits are identical is refuted for their middleware."
  },
  {
   "property": "C113",
   "status": "partial",
   "theorems": [
    "C113_recorded",
    "C113_only",
    "C113_kept",
    "C113_fields",
    "C113_documented",
    "C113_order",
    "C113_namesake_refuted",
    "C113_short_name_refuted",
    "C113_prefix_refuted",
    "C113_standard_refuted",
    "C113_alias_refuted",
    "C113_argument_refuted"
   ],
   "note": "What is recorded, in which order and how it is used are proved; namesakes, path prefixes, aliases and type arguments are refuted."
  },
  {
   "property": "C114",
   "status": "partial",
   "theorems": [
    "C114_key",
    "C114_positions",
    "C114_directory",
    "C114_bytes",
    "C114_marked",
    "C114_order",
    "C114_registered",
    "C114_collision_refuted"
   ],
   "note": "The keys and their registration are proved; that keys of different packages never coincide is refuted."
  },
  {
   "property": "C115",
   "status": "partial",
   "theorems": [
    "C115_field",
    "C115_embedded",
    "C115_fields",
    "C115_properties_iff",
    "C115_tagged_refuted",
    "C115_generic_refuted",
    "C115_map_refuted"
   ],
   "note": "Round trip and exact properties proved for all well-nested field lists; three claims refuted with witnesses. strconv.Unquote and ast.IsExported are given."
  },
  {
   "property": "C116",
   "status": "partial",
   "theorems": [
    "C116_matches_iff",
    "C116_priority",
    "C116_assignment_iff",
    "C116_order",
    "C116_extract_iff",
    "C116_target_iff",
    "C116_wrapped_refuted",
    "C116_given_refuted",
    "C116_value_refuted",
    "C116_panic_refuted"
   ],
   "note": "Matching, extraction, assignment search and tree search proved; four claims refuted with witnesses. Regular expressions are given."
  },
  {
   "property": "C117",
   "status": "partial",
   "theorems": [
    "C117_order",
    "C117_position",
    "C117_function",
    "C117_method",
    "C117_imported",
    "C117_call",
    "C117_params",
    "C117_edge",
    "C117_kept",
    "C117_stale_refuted",
    "C117_leaf",
    "C117_around",
    "C117_variable",
    "C117_distinct_refuted",
    "C117_position_refuted"
   ],
   "note": "identifiers are stale after later changes, not distinct without positions, and ambiguous with an at sign in positions"
  },
  {
   "property": "C118",
   "status": "partial",
   "theorems": [
    "C118_types",
    "C118_items",
    "C118_none",
    "C118_call",
    "C118_argument",
    "C118_kept_iff",
    "C118_calls_iff",
    "C118_bound_refuted",
    "C118_unbound_refuted",
    "C118_names_refuted",
    "C118_slice_refuted",
    "C118_comma_refuted"
   ],
   "note": "the filter on instances runs the wrong way, and types with brackets or commas are misread"
  },
  {
   "property": "C119",
   "status": "partial",
   "theorems": [
    "C119_registered_iff",
    "C119_answers",
    "C119_loaded",
    "C119_qualified_refuted",
    "C119_struct_refuted",
    "C119_two_refuted",
    "C119_name_refuted"
   ],
   "note": "plain structs are registered, other packages' implementations are not, the last literal wins, and the field's name is the key"
  },
  {
   "property": "C120",
   "status": "partial",
   "theorems": [
    "C120_split",
    "C120_direct",
    "C120_candidate_iff",
    "C120_same_file_iff",
    "C120_literal_iff",
    "C120_found",
    "C120_only",
    "C120_interface",
    "C120_factory",
    "C120_interface_factory",
    "C120_order_refuted",
    "C120_other_literal_refuted",
    "C120_dotted_refuted"
   ],
   "note": "map order decides between two types with a method of the name, another method's literal may be taken, and dotted last path elements are cut"
  }
 ]
}