{
 "claims": [
  {
   "property": "C01",
   "status": "proved",
   "theorems": [
    "times_counts",
    "times_messages"
   ],
   "note": ""
  },
  {
   "property": "C02",
   "status": "proved",
   "theorems": [
    "times_accepts_exact",
    "times_accepts_release",
    "times_accepts_iff_satisfiable",
    "empty_times_accepted_refuted",
    "times_to_zero_breaks_dispatch_refuted",
    "full_times_overflow_refuted",
    "number_and_range_setters"
   ],
   "note": "the exceptions named in the statement are proved by the refutations"
  },
  {
   "property": "C03",
   "status": "proved",
   "theorems": [
    "sole_expectation_answers",
    "sole_expectation_budget"
   ],
   "note": ""
  },
  {
   "property": "C04",
   "status": "proved",
   "theorems": [
    "dying_expectation"
   ],
   "note": ""
  },
  {
   "property": "C05",
   "status": "proved",
   "theorems": [
    "never_alone",
    "never_among_others"
   ],
   "note": ""
  },
  {
   "property": "C06",
   "status": "proved",
   "theorems": [
    "fifo_dispatch"
   ],
   "note": ""
  },
  {
   "property": "C07",
   "status": "proved",
   "theorems": [
    "unmatched_call"
   ],
   "note": ""
  },
  {
   "property": "C08",
   "status": "proved",
   "theorems": [
    "saturated_hand_over",
    "owner_meaning"
   ],
   "note": ""
  },
  {
   "property": "C09",
   "status": "proved",
   "theorems": [
    "history_refines_greedy_assignment"
   ],
   "note": ""
  },
  {
   "property": "C10",
   "status": "proved",
   "theorems": [
    "with_meaning",
    "withf_meaning",
    "no_matcher_accepts_everything"
   ],
   "note": ""
  },
  {
   "property": "C11",
   "status": "proved",
   "theorems": [
    "matchers_consulted_once_in_order",
    "all_predicates_evaluated"
   ],
   "note": ""
  },
  {
   "property": "C12",
   "status": "proved",
   "theorems": [
    "fresh_expectation"
   ],
   "note": ""
  },
  {
   "property": "C13",
   "status": "proved",
   "theorems": [
    "answered_call_runs_one_closure",
    "call_runs_at_most_one_closure"
   ],
   "note": ""
  },
  {
   "property": "C14",
   "status": "proved",
   "theorems": [
    "return_const_constant"
   ],
   "note": ""
  },
  {
   "property": "C15",
   "status": "proved",
   "theorems": [
    "return_once_at_most_once",
    "return_once_answers"
   ],
   "note": ""
  },
  {
   "property": "C16",
   "status": "proved",
   "theorems": [
    "no_return_action"
   ],
   "note": ""
  },
  {
   "property": "C17",
   "status": "proved",
   "theorems": [
    "return_var_keeps_writes",
    "returning_mut_is_fresh"
   ],
   "note": ""
  },
  {
   "property": "C18",
   "status": "proved",
   "theorems": [
    "last_setter_wins",
    "setters_commute"
   ],
   "note": ""
  },
  {
   "property": "C19",
   "status": "proved",
   "theorems": [
    "st_like_ordinary_on_own_thread",
    "st_closures_stay_on_their_thread",
    "st_action_refuses_other_threads",
    "st_matcher_refuses_other_threads"
   ],
   "note": ""
  },
  {
   "property": "C20",
   "status": "proved",
   "theorems": [
    "sequence_safety",
    "sequence_safety_any_chain_refuted"
   ],
   "note": "holds for tests that change no call count after in_sequence; refuted without that"
  },
  {
   "property": "C21",
   "status": "proved",
   "theorems": [
    "sequence_acceptance",
    "zero_count_member_blocks_sequence"
   ],
   "note": ""
  },
  {
   "property": "C22",
   "status": "proved",
   "theorems": [
    "in_sequence_needs_exact_count",
    "sequenced_is_exact_refuted"
   ],
   "note": "the bypass named in the statement is proved too"
  },
  {
   "property": "C23",
   "status": "proved",
   "theorems": [
    "only_members_move_a_sequence",
    "unrelated_sequences"
   ],
   "note": ""
  },
  {
   "property": "C24",
   "status": "proved",
   "theorems": [
    "out_of_turn_call_still_counts",
    "call_over_maximum_still_counts"
   ],
   "note": ""
  },
  {
   "property": "C25",
   "status": "proved",
   "theorems": [
    "context_checkpoint_validates_and_forgets",
    "method_checkpoint",
    "complaint_meaning"
   ],
   "note": ""
  },
  {
   "property": "C26",
   "status": "proved",
   "theorems": [
    "object_checkpoint_covers_its_methods",
    "object_has_exactly_the_nonstatic_methods"
   ],
   "note": ""
  },
  {
   "property": "C27",
   "status": "proved",
   "theorems": [
    "validation_never_aborts",
    "no_panic_while_unwinding"
   ],
   "note": ""
  },
  {
   "property": "C28",
   "status": "proved",
   "theorems": [
    "drop_validates_every_method"
   ],
   "note": ""
  },
  {
   "property": "C29",
   "status": "proved",
   "theorems": [
    "checkpointed_mock_is_new"
   ],
   "note": ""
  },
  {
   "property": "C30",
   "status": "proved",
   "theorems": [
    "generic_method_is_a_family",
    "other_type_parameters_untouched"
   ],
   "note": ""
  },
  {
   "property": "C31",
   "status": "proved",
   "theorems": [
    "hash_order_is_irrelevant",
    "context_checkpoint_validates_and_forgets",
    "object_checkpoint_covers_its_methods"
   ],
   "note": "the latter two state the clearing for all type parameters"
  },
  {
   "property": "C32",
   "status": "proved",
   "theorems": [
    "context_drop_outcomes"
   ],
   "note": ""
  },
  {
   "property": "C33",
   "status": "proved",
   "theorems": [
    "unmatched_static_call_is_harmless",
    "dispatch_panic_poisons",
    "builder_panic_poisons",
    "poison_lasts_until_unwinding_drop",
    "context_checkpoint_validates_and_forgets"
   ],
   "note": "the last one covers the failed checkpoint"
  },
  {
   "property": "C34",
   "status": "proved",
   "theorems": [
    "static_method_is_one_method",
    "context_expect_appends",
    "other_statics_untouched",
    "context_drop_outcomes"
   ],
   "note": ""
  },
  {
   "property": "C35",
   "status": "proved",
   "theorems": [
    "module_checkpoint_covers_every_function"
   ],
   "note": ""
  },
  {
   "property": "C36",
   "status": "proved",
   "theorems": [
    "count_under_every_schedule",
    "budget_under_every_schedule"
   ],
   "note": "sequentially consistent atomics"
  },
  {
   "property": "C37",
   "status": "proved",
   "theorems": [
    "return_once_under_every_schedule"
   ],
   "note": ""
  },
  {
   "property": "C38",
   "status": "proved",
   "theorems": [
    "static_calls_linearizable"
   ],
   "note": "all instances of the function share its mutex"
  },
  {
   "property": "C39",
   "status": "proved",
   "theorems": [
    "object_calls_linearizable_refuted",
    "object_sequence_linearizable_refuted",
    "violations_tell_level_and_place"
   ],
   "note": "witness schedules; the positive claim is false; what a call that finds its sequence has moved is told, under every schedule"
  },
  {
   "property": "C40",
   "status": "proved",
   "theorems": [
    "sequence_under_every_schedule"
   ],
   "note": "up to the first sequence violation"
  },
  {
   "property": "C41",
   "status": "proved",
   "theorems": [
    "panicking_return_closure_never_runs_again",
    "disabled_expectation_panics",
    "other_expectations_unaffected",
    "panicking_matcher",
    "poisoned_matcher_stops_calls",
    "older_expectations_unaffected",
    "panicking_mut_closure_disabled_refuted"
   ],
   "note": "the exception for &mut methods is proved by the refutation"
  },
  {
   "property": "C42",
   "status": "proved",
   "theorems": [
    "visibility_means_the_same",
    "visibility_means_the_same_for_all_refuted",
    "self_visibility_is_rejected"
   ],
   "note": "the exception named in the statement is proved by the refutation"
  },
  {
   "property": "C43",
   "status": "proved",
   "theorems": [
    "paths_mean_the_same",
    "generics_mean_the_same",
    "paths_in_inner_arguments_refuted",
    "paths_from_self_super_refuted",
    "shadowed_names_refuted"
   ],
   "note": "the exceptions named in the statement are proved by the refutations"
  },
  {
   "property": "C44",
   "status": "proved",
   "theorems": [
    "self_is_replaced",
    "no_self_is_left",
    "other_types_keep_their_text",
    "self_in_function_types_refuted"
   ],
   "note": ""
  },
  {
   "property": "C45",
   "status": "proved",
   "theorems": [
    "anonymous_lifetimes_become_static",
    "no_anonymous_lifetime_is_left",
    "named_lifetimes_are_unchanged",
    "nested_anonymous_lifetimes_refuted"
   ],
   "note": "the exception named in the statement is proved by the refutation"
  },
  {
   "property": "C46",
   "status": "proved",
   "theorems": [
    "double_binds_the_same_names",
    "double_refuses",
    "double_of_self_refuted",
    "double_of_alias"
   ],
   "note": ""
  },
  {
   "property": "C47",
   "status": "proved",
   "theorems": [
    "double_agrees_on_types",
    "double_agrees_on_modules",
    "mock_names_are_distinct",
    "mock_module_names_are_distinct",
    "imported_mock_names_are_distinct",
    "double_disagrees_on_other_types_refuted",
    "double_disagrees_on_other_modules_refuted"
   ],
   "note": ""
  },
  {
   "property": "C48",
   "status": "proved",
   "theorems": [
    "generics_are_split",
    "used_lifetimes_are_in_one_group",
    "unused_lifetimes_refuted",
    "const_parameters_refuted",
    "where_clause_is_dropped_refuted",
    "lifetimes_in_function_types_refuted"
   ],
   "note": "the losses named in the statement are proved by the refutations"
  },
  {
   "property": "C49",
   "status": "proved",
   "theorems": [
    "merged_parameters",
    "merged_bounds_are_of_both",
    "merged_where_bounds_are_of_both",
    "merging_empty_generics",
    "merging_into_empty_generics_refuted",
    "merged_lifetime_bounds_refuted"
   ],
   "note": "the exceptions named in the statement are proved by the refutations"
  },
  {
   "property": "C50",
   "status": "proved",
   "theorems": [
    "attributes_are_filtered",
    "copied_attributes_are_a_subsequence",
    "cfg_attr_is_dropped_refuted",
    "attributes_of_mocks",
    "attributes_of_automocks"
   ],
   "note": "the exception named in the statement is proved by the refutation"
  },
  {
   "property": "C51",
   "status": "proved",
   "theorems": [
    "methods_have_their_own_expectations",
    "methods_have_their_own_expectations_refuted"
   ],
   "note": "the exceptions named in the statement are proved by the refutations"
  },
  {
   "property": "C52",
   "status": "proved",
   "theorems": [
    "new_is_generated"
   ],
   "note": "the documentation only mentions methods of the struct"
  },
  {
   "property": "C53",
   "status": "proved",
   "theorems": [
    "expectations_store_the_owned_output",
    "expectations_store_boxed_objects",
    "expectation_kinds",
    "static_functions_cannot_borrow",
    "other_unsized_paths_refuted",
    "parenthesised_objects_refuted"
   ],
   "note": "the exceptions named in the statement are proved by the refutations"
  },
  {
   "property": "C54",
   "status": "proved",
   "theorems": [
    "closure_arguments_are_boxed",
    "closure_arguments_are_passed",
    "closure_parameters_are_removed",
    "two_closure_bounds_are_refused",
    "other_closure_bounds_refuted",
    "closures_inside_types_refuted"
   ],
   "note": "the exceptions named in the statement are proved by the refutations"
  },
  {
   "property": "C55",
   "status": "proved",
   "theorems": [
    "associated_types_are_replaced",
    "last_declared_type_counts",
    "no_associated_type_is_left",
    "types_without_associated_types_are_unchanged",
    "generic_associated_types_refuted",
    "associated_types_in_bounds_refuted",
    "associated_types_in_declarations_refuted",
    "associated_types_in_constraints_refuted"
   ],
   "note": "the exceptions named in the statement are proved by the refutations"
  },
  {
   "property": "C56",
   "status": "proved",
   "theorems": [
    "closures_do_not_overlap"
   ],
   "note": ""
  },
  {
   "property": "C57",
   "status": "proved",
   "theorems": [
    "calls_never_deadlock"
   ],
   "note": ""
  },
  {
   "property": "C58",
   "status": "proved",
   "theorems": [
    "default_initialises_the_fields",
    "every_parameter_is_used"
   ],
   "note": ""
  },
  {
   "property": "C59",
   "status": "proved",
   "theorems": [
    "checkpoint_covers_every_method",
    "checkpoint_covers_only_methods",
    "expectations_of_calls_exist_refuted"
   ],
   "note": "the exceptions named in the statement are proved by the refutations"
  },
  {
   "property": "C60",
   "status": "proved",
   "theorems": [
    "expectations_are_set_where_calls_look",
    "expectations_of_calls_exist",
    "expectations_of_calls_exist_refuted"
   ],
   "note": "the exceptions named in the statement are proved by the refutations"
  },
  {
   "property": "C61",
   "status": "proved",
   "theorems": [
    "methods_are_compiled_conditionally",
    "default_initialises_the_fields",
    "trait_methods_are_compiled_conditionally",
    "substructures_are_compiled_conditionally",
    "structures_are_compiled_conditionally_refuted"
   ],
   "note": "the exceptions named in the statement are proved by the refutations"
  },
  {
   "property": "C62",
   "status": "proved",
   "theorems": [
    "arguments_are_handed_over",
    "mock_functions_keep_their_arguments",
    "predicates_get_references",
    "arguments_are_handed_over_refuted"
   ],
   "note": "the exceptions named in the statement are proved by the refutations"
  },
  {
   "property": "C63",
   "status": "proved",
   "theorems": [
    "concretized_functions_are_not_generic",
    "concretized_inner_types_refuted"
   ],
   "note": "the exceptions named in the statement are proved by the refutations"
  },
  {
   "property": "C64",
   "status": "proved",
   "theorems": [
    "signatures_are_adapted",
    "lifetimes_are_declared_once_refuted",
    "raw_names_of_objects_are_refused"
   ],
   "note": "the exceptions named in the statement are proved by the refutations"
  },
  {
   "property": "C65",
   "status": "proved",
   "theorems": [
    "automock_of_a_trait",
    "automock_of_an_inherent_impl",
    "automock_of_a_trait_impl",
    "mock_of_a_declaration"
   ],
   "note": ""
  },
  {
   "property": "C66",
   "status": "proved",
   "theorems": [
    "automock_of_a_module",
    "unsupported_items_are_refused"
   ],
   "note": ""
  },
  {
   "property": "C67",
   "status": "proved",
   "theorems": [
    "expectations_have_their_types",
    "trait_expectations_have_their_types",
    "generic_returned_lifetimes_refuted",
    "trait_lifetimes_refuted"
   ],
   "note": "the refutations show that the documented restrictions are needed"
  },
  {
   "property": "C68",
   "status": "proved",
   "theorems": [
    "methods_call_their_expectations",
    "functions_call_their_expectations"
   ],
   "note": ""
  },
  {
   "property": "C69",
   "status": "proved",
   "theorems": [
    "unsupported_traits_are_refused",
    "unsupported_impls_are_refused",
    "unsupported_declarations_are_refused",
    "unsupported_modules_are_refused",
    "ordinary_traits_are_accepted",
    "ordinary_impls_are_accepted",
    "ordinary_declarations_are_accepted",
    "ordinary_modules_are_accepted",
    "module_impl_arguments_refuted"
   ],
   "note": "the exceptions named in the statement are proved by the refutations"
  },
  {
   "property": "C70",
   "status": "proved",
   "theorems": [
    "separate_calls_are_sequential",
    "one_thread_is_sequential"
   ],
   "note": ""
  },
  {
   "property": "C71",
   "status": "proved",
   "theorems": [
    "nested_calls_run",
    "call_of_own_expectation_hangs",
    "call_of_own_store_hangs",
    "plain_calls_are_single_calls"
   ],
   "note": ""
  },
  {
   "property": "C72",
   "status": "proved",
   "theorems": [
    "nested_closures_do_not_overlap",
    "ordered_calls_finish",
    "crossed_calls_deadlock_refuted"
   ],
   "note": "the exceptions named in the statement are proved by the refutations"
  },
  {
   "property": "C73",
   "status": "proved",
   "theorems": [
    "count_with_relaxed_loads",
    "budget_with_relaxed_loads",
    "return_once_with_relaxed_loads",
    "closures_do_not_overlap_with_relaxed_loads",
    "relaxed_calls_never_deadlock",
    "sequence_with_relaxed_loads",
    "static_calls_are_consistent",
    "relaxed_static_calls_linearizable",
    "handed_over_calls_are_sequential",
    "separate_calls_are_sequential_refuted",
    "separate_sequence_calls_refuted",
    "relaxed_includes_consistent"
   ],
   "note": "the exceptions named in the statement are proved by the refutations"
  },
  {
   "property": "C74",
   "status": "proved",
   "theorems": [
    "generated_code_runs_like_the_model",
    "undeclared_names_do_not_compile",
    "generated_mock_counts_calls",
    "generated_mock_refuses_surplus_calls",
    "generated_code_hides_hash_order",
    "clear_names_are_distinct",
    "distinct_names_refuted",
    "marker_names_refuted",
    "clear_functions_are_distinct",
    "checkpoint_methods_refuted",
    "methods_of_two_traits_refuted",
    "generated_static_methods_count_calls"
   ],
   "note": "the exceptions named in the statement are proved by the refutations"
  },
  {
   "property": "C75",
   "status": "proved",
   "theorems": [
    "generated_module_runs_like_the_model",
    "undeclared_functions_do_not_compile",
    "generated_module_counts_calls",
    "generated_module_refuses_surplus_calls",
    "generated_module_hides_hash_order",
    "clear_modules_are_distinct",
    "checkpoint_functions_refuted",
    "context_functions_refuted"
   ],
   "note": "the exceptions named in the statement are proved by the refutations"
  },
  {
   "property": "C76",
   "status": "proved",
   "theorems": [
    "generated_parameters_are_declared",
    "generated_trait_parameters_are_declared",
    "generated_module_parameters_are_declared",
    "ref_mut_lifetimes_refuted",
    "generic_argument_lifetimes_refuted",
    "concretized_lifetimes_refuted",
    "shared_lifetimes_refuted",
    "static_lifetimes_refuted",
    "bound_lifetimes_refuted",
    "nested_closures_refuted",
    "impl_parameters_refuted"
   ],
   "note": "the exceptions named in the statement are proved by the refutations"
  },
  {
   "property": "C77",
   "status": "proved",
   "theorems": [
    "context_operations_are_atomic",
    "context_operations_are_those_of_the_model",
    "context_drop_is_atomic_refuted"
   ],
   "note": "the exceptions named in the statement are proved by the refutations"
  },
  {
   "property": "C78",
   "status": "proved",
   "theorems": [
    "synchronised_tests_are_isolated",
    "unsynchronised_tests_are_isolated_refuted",
    "caught_panics_are_isolated_refuted"
   ],
   "note": "the exceptions named in the statement are proved by the refutations"
  },
  {
   "property": "C79",
   "status": "proved",
   "theorems": [
    "context_operations_never_deadlock",
    "synchronised_tests_can_end",
    "unbracketed_programs_never_deadlock_refuted"
   ],
   "note": "the exceptions named in the statement are proved by the refutations"
  },
  {
   "property": "C80",
   "status": "proved",
   "theorems": [
    "messages_tell_failures",
    "failure_messages_tell_what_failed",
    "poison_errors_follow_panics",
    "too_many_messages_are_true_refuted"
   ],
   "note": "the exceptions named in the statement are proved by the refutations"
  },
  {
   "property": "C81",
   "status": "proved",
   "theorems": [
    "single_threaded_tests_are_unaffected",
    "closures_at_home_are_unaffected",
    "strangers_never_die_quietly",
    "drops_elsewhere",
    "once_st_elsewhere_aborts",
    "drops_while_panicking_are_quiet_refuted",
    "right_counts_suffice_refuted",
    "contexts_only_drop_their_own_refuted"
   ],
   "note": "the exceptions named in the statement are proved by the refutations"
  },
  {
   "property": "C82",
   "status": "proved",
   "theorems": [
    "failures_point_to_the_expectation",
    "generated_failures_point_to_the_expectation",
    "generated_module_failures_point_to_the_expectation",
    "generated_messages_tell_failures",
    "names_in_messages_are_unique_refuted"
   ],
   "note": "the exceptions named in the statement are proved by the refutations"
  },
  {
   "property": "C83",
   "status": "proved",
   "theorems": [
    "mocks_are_as_safe_as_what_they_lend",
    "mocks_that_lend_nothing_are_send_and_sync",
    "mocks_are_always_send_refuted",
    "statics_are_sync",
    "generic_expectations_are_send_and_sync",
    "contexts_move_and_guards_stay"
   ],
   "note": "the exceptions named in the statement are proved by the refutations"
  },
  {
   "property": "C84",
   "status": "proved",
   "theorems": [
    "accepted_macros_make_working_mocks",
    "automocked_names_are_distinct"
   ],
   "note": "the exceptions named in the statement are proved by the refutations"
  },
  {
   "property": "C85",
   "status": "proved",
   "theorems": [
    "predicates_that_call_nothing",
    "predicate_is_worth_its_verdict",
    "predicates_do_not_overlap",
    "own_predicate_waits_for_ever",
    "own_store_waits_for_ever",
    "predicate_that_calls_its_own_method",
    "ordered_predicates_finish",
    "crossed_predicates_deadlock_refuted"
   ],
   "note": "the exceptions named in the statement are proved by the refutations"
  },
  {
   "property": "C86",
   "status": "proved",
   "theorems": [
    "mock_reads_its_grammar",
    "bodies_do_not_matter",
    "automock_keeps_the_item",
    "types_are_for_traits",
    "accepted_text_is_what_is_mocked"
   ],
   "note": "the exceptions named in the statement are proved by the refutations"
  },
  {
   "property": "C87",
   "status": "proved",
   "theorems": [
    "automocked_traits_can_be_written_out",
    "automocked_impls_can_be_written_out"
   ],
   "note": "the exceptions named in the statement are proved by the refutations"
  },
  {
   "property": "C88",
   "status": "proved",
   "theorems": [
    "guards_keep_others_out",
    "a_guard_is_one_builder",
    "using_the_function_under_a_guard_waits_for_ever",
    "the_holder_of_a_guard_never_waits",
    "tidy_guards_never_deadlock",
    "chains_are_short_guards"
   ],
   "note": "the exceptions named in the statement are proved by the refutations"
  },
  {
   "property": "C89",
   "status": "proved",
   "theorems": [
    "unseen_printing_changes_nothing",
    "arguments_are_printed_first",
    "calls_print_their_arguments_twice",
    "the_second_printing_comes_before_the_count",
    "failing_calls_print_predicates",
    "drops_print_predicates",
    "context_drops_print_predicates",
    "printing_matters_only_for_messages_refuted"
   ],
   "note": "the exceptions named in the statement are proved by the refutations"
  },
  {
   "property": "C90",
   "status": "proved",
   "theorems": [
    "watching_destructors_changes_nothing",
    "what_is_handed_over_is_held_or_dropped",
    "dropped_mocks_leak_nothing",
    "dropping_a_mock_drops_what_it_holds",
    "checkpoints_drop_what_they_check",
    "dropping_a_context_drops_what_its_method_holds",
    "contexts_drop_what_their_methods_hold_refuted",
    "calls_drop_only_the_closure_they_run",
    "chains_keep_their_last_closures",
    "chains_hand_over_until_they_panic"
   ],
   "note": "the exceptions named in the statement are proved by the refutations"
  },
  {
   "property": "C91",
   "status": "proved",
   "theorems": [
    "destructors_that_return_run_in_order",
    "destructors_without_effects_change_nothing",
    "the_first_panic_goes_through",
    "the_first_panic_goes_through_contexts",
    "polite_destructors_never_abort",
    "mocks_owned_by_closures_are_checked",
    "mocks_are_polite",
    "setters_whose_old_closures_panic",
    "static_setters_whose_old_closures_panic",
    "checkpoints_stop_at_the_first_panic",
    "module_checkpoints_stop_at_the_first_panic",
    "context_checkpoints_stop_at_the_first_panic"
   ],
   "note": "the exceptions named in the statement are proved by the refutations"
  },
  {
   "property": "C92",
   "status": "proved",
   "theorems": [
    "guards_of_several_functions_are_atomic",
    "guards_are_chains",
    "guards_with_sequences_are_atomic_refuted",
    "guards_keep_their_function",
    "threads_wait_for_guards_only",
    "waiting_in_a_circle_is_for_ever",
    "crossed_guards_never_deadlock_refuted",
    "ordered_guards_never_deadlock",
    "module_checkpoints_take_one_lock_after_the_other"
   ],
   "note": "the exceptions named in the statement are proved by the refutations"
  },
  {
   "property": "C93",
   "status": "proved",
   "theorems": [
    "user_state_moves_only_by_user_code",
    "only_calls_run_user_code",
    "mocks_that_call_mocks",
    "calls_passed_on",
    "mocks_in_closures_run_like_tests",
    "failures_in_closures_point_to_the_expectation"
   ],
   "note": "the exceptions named in the statement are proved by the refutations"
  }
 ]
}