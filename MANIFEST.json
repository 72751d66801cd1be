{
 "claims": [
  {
   "property": "C01",
   "status": "proved",
   "theorems": [
    "C01_stored_roots_are_rounded"
   ],
   "note": ""
  },
  {
   "property": "C02",
   "status": "proved",
   "theorems": [
    "C02_no_duplicates",
    "C02_multiplicity_ignored_refuted",
    "C02_values_distinct_if_orders_determined"
   ],
   "note": "The literal claim (no numerically equal values) is refuted: the same value may be stored with two orders; proved: no duplicate (value, order) pair, and distinct values when the order is a function of the value."
  },
  {
   "property": "C03",
   "status": "proved",
   "theorems": [
    "C03_exact_contents",
    "C03_precision",
    "C03_precision_functional"
   ],
   "note": ""
  },
  {
   "property": "C04",
   "status": "proved",
   "theorems": [
    "C04_getters_parallel",
    "C04_plain_getters_parallel"
   ],
   "note": ""
  },
  {
   "property": "C05",
   "status": "proved",
   "theorems": [
    "C05_accepted_add",
    "C05_rejected_add_changes_nothing",
    "C05_add_raises_only_if_a_filter_raises",
    "C05_consistency_refuted",
    "C05_consistent_if_filters_fixed_first"
   ],
   "note": "Later filter changes do not re-filter stored roots (refuted); consistency proved when filters are fixed before the adds."
  },
  {
   "property": "C06",
   "status": "proved",
   "theorems": [
    "C06_removeRoot"
   ],
   "note": ""
  },
  {
   "property": "C07",
   "status": "proved",
   "theorems": [
    "C07_log_level_irrelevant"
   ],
   "note": ""
  },
  {
   "property": "C08",
   "status": "proved",
   "theorems": [
    "C08_rounding",
    "C08_rounding_nearest",
    "C08_roundRoot",
    "C08_meaning"
   ],
   "note": ""
  },
  {
   "property": "C09",
   "status": "proved",
   "theorems": [
    "C09_plain_container_is_fifo",
    "C09_unsupported_operations"
   ],
   "note": ""
  },
  {
   "property": "C10",
   "status": "proved",
   "theorems": [
    "C10_zero_in_bounds",
    "C10_func_value_zero",
    "C10_setRootFilter_replaces",
    "C10_default_filters",
    "C10_context_threshold_irrelevant"
   ],
   "note": ""
  },
  {
   "property": "C11",
   "status": "proved",
   "theorems": [
    "C11_desymmetrize_exact",
    "C11_desymmetrize_contains_request",
    "C11_desymmetrize_order_irrelevant",
    "C11_desymmetrize_never_centred",
    "C11_search_context",
    "C11_drain_context"
   ],
   "note": ""
  },
  {
   "property": "C12",
   "status": "proved",
   "theorems": [
    "C12_same_precision_accumulates",
    "C12_every_root_is_old_or_reported",
    "C12_new_precision_restarts",
    "C12_nothing_accepted_keeps_old_results"
   ],
   "note": ""
  },
  {
   "property": "C13",
   "status": "proved",
   "theorems": [
    "C13_filtered_roots_near_request"
   ],
   "note": ""
  },
  {
   "property": "C14",
   "status": "proved",
   "theorems": [
    "C14_interruption",
    "C14_interrupt_during_a_check"
   ],
   "note": ""
  },
  {
   "property": "C15",
   "status": "proved",
   "theorems": [
    "C15_jobs_cover",
    "C15_jobs_inside",
    "C15_jobs_disjoint",
    "C15_jobs_number_and_size",
    "C15_jobs_layout"
   ],
   "note": ""
  },
  {
   "property": "C16",
   "status": "proved",
   "theorems": [
    "C16_schedule_independent",
    "C16_worker_exception_leaves_results_untouched"
   ],
   "note": ""
  },
  {
   "property": "C17",
   "status": "proved",
   "theorems": [
    "C17_serial_parallel_same_values_refuted",
    "C17_serial_parallel_agree_up_to_rounding",
    "C17_predefined_filters_ignore_precision"
   ],
   "note": "Equality is refuted (serial rounds to p+1 digits, parallel to p); agreement up to that rounding is proved."
  },
  {
   "property": "C18",
   "status": "proved",
   "theorems": [
    "C18_interrupted_pool"
   ],
   "note": ""
  },
  {
   "property": "C19",
   "status": "proved",
   "theorems": [
    "C19_sample_budget",
    "C19_missing_budget"
   ],
   "note": ""
  },
  {
   "property": "C20",
   "status": "proved",
   "theorems": [
    "C20_search_terminates",
    "C20_depth_and_size",
    "C20_bound_irrelevant"
   ],
   "note": ""
  },
  {
   "property": "C21",
   "status": "proved",
   "theorems": [
    "C21_leaves_tile"
   ],
   "note": ""
  },
  {
   "property": "C22",
   "status": "proved",
   "theorems": [
    "C22_reported_roots"
   ],
   "note": ""
  },
  {
   "property": "C23",
   "status": "proved",
   "theorems": [
    "C23_correct_relative_to_estimator",
    "C23_error_below_a_fifth_is_good",
    "C23_orders_of_separated_zeros"
   ],
   "note": ""
  },
  {
   "property": "C24",
   "status": "proved",
   "theorems": [
    "C24_first_estimate_decides",
    "C24_tight_zero_lost",
    "C24_tight_spurious_root"
   ],
   "note": "Tightness theorems give, for every excess error, a run that loses a zero, and a run reporting a spurious root."
  },
  {
   "property": "C25",
   "status": "proved",
   "theorems": [
    "C25_newton_reports",
    "C25_failed_iteration_is_silent",
    "C25_completeness_refuted",
    "C25_search_goes_on",
    "C25_complete_if_iterations_converge"
   ],
   "note": "Completeness is refuted (failing secant iteration); proved under converging iterations."
  },
  {
   "property": "C26",
   "status": "proved",
   "theorems": [
    "C26_exact_recovery",
    "C26_polynomial_has_the_zeros",
    "C26_polynomial_reports"
   ],
   "note": ""
  },
  {
   "property": "C27",
   "status": "proved",
   "theorems": [
    "C27_newton_identities_any_ring",
    "C27_newton_identities",
    "C27_polynomial_values"
   ],
   "note": ""
  },
  {
   "property": "C28",
   "status": "proved",
   "theorems": [
    "C28_groups_partition",
    "C28_clusters_recognised",
    "C28_order_independence_refuted"
   ],
   "note": ""
  },
  {
   "property": "C29",
   "status": "proved",
   "theorems": [
    "C29_newton_grid_first_task",
    "C29_progress_accounting",
    "C29_full_progress_refuted"
   ],
   "note": "Full progress is refuted (reported leaves advance by 0 because .imag of a float is 0)."
  },
  {
   "property": "C30",
   "status": "proved",
   "theorems": [
    "C30_polynomial_without_derivative",
    "C30_polynomial_without_higher_moments"
   ],
   "note": ""
  },
  {
   "property": "C31",
   "status": "proved",
   "theorems": [
    "C31_start_points",
    "C31_reports",
    "C31_limits_reported",
    "C31_only_limits_reported_refuted",
    "C31_exceptions"
   ],
   "note": "Reporting only converged limits is refuted (final iterates of non-converging starts are reported as well)."
  },
  {
   "property": "C32",
   "status": "proved",
   "theorems": [
    "C32_moments_from_cache",
    "C32_search_without_cache",
    "C32_asymmetric_refuted"
   ],
   "note": ""
  },
  {
   "property": "C33",
   "status": "proved",
   "theorems": [
    "C33_no_leak"
   ],
   "note": ""
  },
  {
   "property": "C34",
   "status": "proved",
   "theorems": [
    "C34_orientations",
    "C34_edges_present",
    "C34_stored_pair"
   ],
   "note": ""
  },
  {
   "property": "C35",
   "status": "proved",
   "theorems": [
    "C35_finite_map",
    "C35_counters",
    "C35_dirty",
    "C35_nonzero_entries_used",
    "C35_zero_entry_recomputed",
    "C35_sides_computed"
   ],
   "note": ""
  },
  {
   "property": "C36",
   "status": "proved",
   "theorems": [
    "C36_closed_sequence",
    "C36_rectangle"
   ],
   "note": ""
  },
  {
   "property": "C37",
   "status": "proved",
   "theorems": [
    "C37_sequence",
    "C37_line",
    "C37_rectangle",
    "C37_without_bound_refuted"
   ],
   "note": ""
  },
  {
   "property": "C38",
   "status": "proved",
   "theorems": [
    "C38_terminates",
    "C38_bound",
    "C38_result",
    "C38_samples_on_line",
    "C38_end_points_refuted"
   ],
   "note": ""
  },
  {
   "property": "C39",
   "status": "proved",
   "theorems": [
    "C39_result",
    "C39_zero_test",
    "C39_uniform",
    "C39_shift_size",
    "C39_terminates",
    "C39_always_terminates_refuted",
    "C39_line_reports",
    "C39_line_reports_all"
   ],
   "note": ""
  },
  {
   "property": "C40",
   "status": "proved",
   "theorems": [
    "C40_split"
   ],
   "note": ""
  },
  {
   "property": "C41",
   "status": "proved",
   "theorems": [
    "C41_fresh_level",
    "C41_cached_start",
    "C41_requery",
    "C41_history_independent_refuted"
   ],
   "note": ""
  },
  {
   "property": "C42",
   "status": "proved",
   "theorems": [
    "C42_reversal_horizontal",
    "C42_reversal_vertical"
   ],
   "note": ""
  },
  {
   "property": "C43",
   "status": "proved",
   "theorems": [
    "C43_oblique_rejected",
    "C43_errors_keep_state",
    "C43_higher_orders_rejected"
   ],
   "note": ""
  },
  {
   "property": "C44",
   "status": "proved",
   "theorems": [
    "C44_sampling",
    "C44_terminates",
    "C44_merge_doubles",
    "C44_value",
    "C44_true_length_refuted",
    "C44_reversal",
    "C44_constant",
    "C44_romberg",
    "C44_derivative_required",
    "C44_answers"
   ],
   "note": ""
  },
  {
   "property": "C45",
   "status": "proved",
   "theorems": [
    "C45_resolved_service_has_requested_type",
    "C45_wrong_type_is_rejected",
    "C45_unregistered_is_reported",
    "C45_none_is_served_refuted"
   ],
   "note": ""
  },
  {
   "property": "C46",
   "status": "proved",
   "theorems": [
    "C46_latest_singleton_wins",
    "C46_singleton_identity",
    "C46_latest_transient_wins",
    "C46_other_registrations_do_not_matter"
   ],
   "note": ""
  },
  {
   "property": "C47",
   "status": "proved",
   "theorems": [
    "C47_sealed_locator_is_frozen",
    "C47_registering_on_a_sealed_locator_raises",
    "C47_sealing_succeeds",
    "C47_sealed_iff_sealed_since_last_clear",
    "C47_clear_restores_the_initial_state"
   ],
   "note": ""
  },
  {
   "property": "C48",
   "status": "proved",
   "theorems": [
    "C48_argument_precedence",
    "C48_undeclared_keywords_are_ignored",
    "C48_unregistered_dependency",
    "C48_failing_dependency"
   ],
   "note": ""
  },
  {
   "property": "C49",
   "status": "proved",
   "theorems": [
    "C49_acyclic_configurations_resolve",
    "C49_cyclic_configurations_never_resolve",
    "C49_explicit_argument_breaks_the_cycle"
   ],
   "note": ""
  },
  {
   "property": "C50",
   "status": "proved",
   "theorems": [
    "C50_wrapper_evaluates_newest_function",
    "C50_acceptance",
    "C50_save_mode_keeps_the_first_function",
    "C50_isolation_refuted",
    "C50_wrapping_the_wrapper",
    "C50_spawned_process_raises"
   ],
   "note": ""
  },
  {
   "property": "C51",
   "status": "proved",
   "theorems": [
    "C51_settings_persist",
    "C51_update_touches_one_key"
   ],
   "note": ""
  },
  {
   "property": "C52",
   "status": "proved",
   "theorems": [
    "C52_rejected_value",
    "C52_setter_outcome",
    "C52_atomicity_refuted"
   ],
   "note": ""
  },
  {
   "property": "C53",
   "status": "proved",
   "theorems": [
    "C53_crash_outcomes",
    "C53_crash_safety_refuted"
   ],
   "note": ""
  },
  {
   "property": "C54",
   "status": "proved",
   "theorems": [
    "C54_interleavings",
    "C54_sequential_keeps_both",
    "C54_isolation_refuted",
    "C54_atomic_writes"
   ],
   "note": ""
  },
  {
   "property": "C55",
   "status": "proved",
   "theorems": [
    "C55_ram_and_json_agree",
    "C55_initial_values_refuted"
   ],
   "note": ""
  },
  {
   "property": "C56",
   "status": "proved",
   "theorems": [
    "C56_container_request",
    "C56_estimator_request",
    "C56_estimator_missing_parameters",
    "C56_algorithm_request",
    "C56_default_of_default_diverges",
    "C56_usable_defaults_refuted",
    "C56_finder_construction",
    "C56_finder_uses_persisted_settings"
   ],
   "note": ""
  },
  {
   "property": "C57",
   "status": "proved",
   "theorems": [
    "C57_change_effect",
    "C57_messages",
    "C57_container_message_refuted"
   ],
   "note": ""
  },
  {
   "property": "C58",
   "status": "proved",
   "theorems": [
    "C58_names",
    "C58_unknown_name",
    "C58_failure_atomicity_refuted",
    "C58_verbosity",
    "C58_verbosity_checked_refuted",
    "C58_parsed_commands_keep_usable",
    "C58_controller_usable_refuted"
   ],
   "note": ""
  },
  {
   "property": "C59",
   "status": "proved",
   "theorems": [
    "C59_install",
    "C59_install_missing",
    "C59_install_refused",
    "C59_uninstall",
    "C59_install_uninstall",
    "C59_plain_calls_confined",
    "C59_data_path",
    "C59_uninstall_any_name",
    "C59_confinement_refuted",
    "C59_no_overwrite_refuted"
   ],
   "note": ""
  },
  {
   "property": "C60",
   "status": "proved",
   "theorems": [
    "C60_discovery",
    "C60_discovery_order",
    "C60_candidate",
    "C60_first_plugin_of_module",
    "C60_load",
    "C60_isolation_refuted",
    "C60_failing_instance",
    "C60_installed_plugins_load_refuted",
    "C60_singleton_refuted",
    "C60_plugin_str"
   ],
   "note": ""
  },
  {
   "property": "C61",
   "status": "proved",
   "theorems": [
    "C61_first_initialization",
    "C61_idempotent",
    "C61_done_iff_no_error",
    "C61_sealed",
    "C61_gui_refuted",
    "C61_unreadable_settings",
    "C61_settings_are_current",
    "C61_cli_controller",
    "C61_installed_plugin_breaks_scripts",
    "C61_cli_works_with_any_plugins"
   ],
   "note": ""
  },
  {
   "property": "C62",
   "status": "proved",
   "theorems": [
    "C62_file_name",
    "C62_one_handler",
    "C62_initialized_logger_has_a_place",
    "C62_one_directory",
    "C62_last_level",
    "C62_level_is_kept_refuted",
    "C62_written",
    "C62_raises",
    "C62_concurrent_start",
    "C62_concurrent_start_refuted"
   ],
   "note": ""
  },
  {
   "property": "C63",
   "status": "proved",
   "theorems": [
    "C63_serial_search",
    "C63_depth_exists",
    "C63_parallel_search",
    "C63_any_depth",
    "C63_parallel_any_depth"
   ],
   "note": "Relative to a reliable estimator (error at most 0.2 turn on every bisection cell, no zero on a cell border); exact arithmetic; C68 is the same in binary64."
  },
  {
   "property": "C64",
   "status": "proved",
   "theorems": [
    "C64_horizontal_never_raises",
    "C64_vertical_never_raises_refuted"
   ],
   "note": ""
  },
  {
   "property": "C65",
   "status": "proved",
   "theorems": [
    "C65_binary64",
    "C65_exact_instance",
    "C65_leaves_tile",
    "C65_reported_roots",
    "C65_correct_relative_to_estimator",
    "C65_search_terminates",
    "C65_bound_irrelevant",
    "C65_precision_limit",
    "C65_always_terminates_refuted"
   ],
   "note": ""
  },
  {
   "property": "C66",
   "status": "proved",
   "theorems": [
    "C66_domain_encloses_request",
    "C66_margin_kept",
    "C66_margin_always_kept_refuted",
    "C66_jobs_tile_domain",
    "C66_narrow_domain_refuted"
   ],
   "note": ""
  },
  {
   "property": "C67",
   "status": "proved",
   "theorems": [
    "C67_python_rounding",
    "C67_container",
    "C67_numpy_rounding",
    "C67_same_rounding_refuted"
   ],
   "note": ""
  },
  {
   "property": "C68",
   "status": "proved",
   "theorems": [
    "C68_serial_search",
    "C68_parallel_search",
    "C68_powers_of_ten",
    "C68_any_depth",
    "C68_parallel_any_depth",
    "C68_interruption"
   ],
   "note": ""
  },
  {
   "property": "C69",
   "status": "proved",
   "theorems": [
    "C69_argument_principle"
   ],
   "note": ""
  },
  {
   "property": "C70",
   "status": "proved",
   "theorems": [
    "C70_serial",
    "C70_complete",
    "C70_parallel",
    "C70_parallel_complete"
   ],
   "note": "No oracle estimator: the modelled estimator with both caches. Sample phases are exact reals; the answer of a line is converted to turns with error at most eps and never to exactly 0 (the result cache takes a stored 0 for a missing entry, C35)."
  },
  {
   "property": "C71",
   "status": "proved",
   "theorems": [
    "C71_reuse",
    "C71_reuse_complete",
    "C71_second_search_refuted"
   ],
   "note": "The property as a user expects it (a used finder finds what a new one finds) is refuted; the positive theorems are C71_reuse and C71_reuse_complete."
  },
  {
   "property": "C72",
   "status": "proved",
   "theorems": [
    "C72_unreadable_settings",
    "C72_parser_exit",
    "C72_no_arguments",
    "C72_bare_subcommand",
    "C72_view",
    "C72_change",
    "C72_tests",
    "C72_install",
    "C72_install_missing",
    "C72_uninstall",
    "C72_replace",
    "C72_modules",
    "C72_list_fails_after_install",
    "C72_histories",
    "C72_absolute_paths"
   ],
   "note": "argparse, pytest and os.listdir are oracles (the parser is assumed to let through only declared options and choices); the process starts with an empty locator. The two user expectations that fail are stated as C72_unreadable_settings and C72_list_fails_after_install."
  },
  {
   "property": "C73",
   "status": "proved",
   "theorems": [
    "C73_moments",
    "C73_polynomial",
    "C73_derivative",
    "C73_count"
   ],
   "note": "Exact reals; scipy.integrate.romb is Romberg's rule (Quad_Spec.romberg), not an oracle here."
  },
  {
   "property": "C74",
   "status": "proved",
   "theorems": [
    "C74_serial",
    "C74_complete",
    "C74_parallel",
    "C74_parallel_complete",
    "C74_polynomial"
   ],
   "note": "No oracle estimator: the modelled quadrature estimator with Romberg's rule and the result cache; exact reals, answers converted to turns with an error of at most 1/25."
  },
  {
   "property": "C75",
   "status": "proved",
   "theorems": [
    "C75_serial",
    "C75_complete",
    "C75_parallel",
    "C75_parallel_complete",
    "C75_summation_serial",
    "C75_summation_complete",
    "C75_summation_parallel",
    "C75_summation_parallel_complete",
    "C75_quadrature_serial",
    "C75_quadrature_complete",
    "C75_quadrature_parallel",
    "C75_quadrature_parallel_complete",
    "C75_once_refuted"
   ],
   "note": "Full as stated: the convergence of scipy's newton/secant is a hypothesis (they are oracles); 'exactly once' with a derivative is refuted (C75_once_refuted)."
  },
  {
   "property": "C76",
   "status": "proved",
   "theorems": [
    "C76_serial",
    "C76_complete",
    "C76_parallel",
    "C76_parallel_complete",
    "C76_quadrature_serial",
    "C76_quadrature_complete",
    "C76_quadrature_parallel",
    "C76_quadrature_parallel_complete",
    "C76_polynomial",
    "C76_conditioning_refuted"
   ],
   "note": "Full as stated: numpy's polynomial roots are an oracle with a backward error; the perturbation bounds for polynomials of degree 1 to 3 are proved, not assumed. Accuracy of moments to the tolerance alone is refuted as a sufficient condition (C76_conditioning_refuted)."
  },
  {
   "property": "C77",
   "status": "proved",
   "theorems": [
    "C77_exception_reaches_caller",
    "C77_storing_at_once",
    "C77_newton_swallows_runtime_errors",
    "C77_silenced_iteration_exists",
    "C77_every_exception_reaches_caller_refuted",
    "C77_parallel_exception_reaches_caller"
   ],
   "note": ""
  },
  {
   "property": "C78",
   "status": "proved",
   "theorems": [
    "C78_accepted_lines",
    "C78_understood_lines",
    "C78_exit_codes",
    "C78_exit_zero_only_if_asked",
    "C78_rejected",
    "C78_help",
    "C78_subcommand_help",
    "C78_one_meaning",
    "C78_parser_ok",
    "C78_change_command",
    "C78_view_command",
    "C78_install_command",
    "C78_histories"
   ],
   "note": "argparse of Python 3.11 is modelled, not only the calls to it; the model was compared with the real argparse on 4500 random command lines (tools/argparse_check.py). int() and the table of non-ASCII digits are arguments. Help, usage and error texts are not modelled."
  },
  {
   "property": "C79",
   "status": "proved",
   "theorems": [
    "C79_values",
    "C79_readable",
    "C79_errors",
    "C79_missing_core",
    "C79_not_json",
    "C79_nothing_else_matters",
    "C79_repair",
    "C79_checks_refuted"
   ],
   "note": "Simplifications: float literals count as zero by their digits (underflow to 0.0 is not modelled); decoding of bytes and permission errors are not modelled. The false expectation is C79_checks_refuted."
  },
  {
   "property": "C80",
   "status": "proved",
   "theorems": [
    "C80_tasks_are_columns",
    "C80_task_outcome",
    "C80_quadrature",
    "C80_reliable_estimator",
    "C80_reliable_any_depth",
    "C80_sharing_refuted"
   ],
   "note": ""
  },
  {
   "property": "C81",
   "status": "proved",
   "theorems": [
    "C81_reading",
    "C81_rejection",
    "C81_unambiguous",
    "C81_layout_read",
    "C81_layout_set",
    "C81_written"
   ],
   "note": ""
  },
  {
   "property": "C82",
   "status": "proved",
   "theorems": [
    "C82_serial",
    "C82_parallel",
    "C82_found",
    "C82_parallel_found",
    "C82_genuine",
    "C82_once_refuted",
    "C82_once",
    "C82_parallel_density",
    "C82_nonvacuous"
   ],
   "note": ""
  },
  {
   "property": "C83",
   "status": "proved",
   "theorems": [
    "C83_set",
    "C83_failure",
    "C83_messages",
    "C83_all_dependents_refuted",
    "C83_only_this_finder_refuted",
    "C83_nonvacuous"
   ],
   "note": ""
  },
  {
   "property": "C84",
   "status": "proved",
   "theorems": [
    "C84_finite",
    "C84_finite_filters",
    "C84_bounds",
    "C84_values",
    "C84_remove",
    "C84_once_refuted",
    "C84_nan_entries",
    "C84_once",
    "C84_no_harm",
    "C84_any_order",
    "C84_grid",
    "C84_grid_bounds",
    "C84_grid_failure",
    "C84_grid_filter_raises",
    "C84_nonvacuous"
   ],
   "note": "False expectation: C84_once_refuted. Rounding of finite values is exact (as in C08); finite values so large that rounding them overflows are not modelled."
  },
  {
   "property": "C85",
   "status": "proved",
   "theorems": [
    "C85_complete",
    "C85_like_finite",
    "C85_replacement_exists",
    "C85_finite",
    "C85_terminates",
    "C85_undefined_everywhere",
    "C85_error_refuted",
    "C85_other_zeros_refuted",
    "C85_nonvacuous"
   ],
   "note": "False expectations: C85_error_refuted, C85_other_zeros_refuted. The estimator is arbitrary; how numpy's complex division produces nan inside it is not modelled."
  },
  {
   "property": "C86",
   "status": "proved",
   "theorems": [
    "C86_line",
    "C86_line_exact",
    "C86_defined",
    "C86_total",
    "C86_rectangle",
    "C86_again",
    "C86_search",
    "C86_corner",
    "C86_single_point_refuted",
    "C86_nonvacuous"
   ],
   "note": "False expectation: C86_single_point_refuted. C86_line, C86_line_exact and C86_defined are for levels not cached before and lines without zeros on sample points; C86_corner for functions without zeros. Infinite function values are not modelled."
  },
  {
   "property": "C87",
   "status": "proved",
   "theorems": [
    "C87_linear_in_zeros",
    "C87_no_other_moments",
    "C87_empty_domain",
    "C87_least_effort",
    "C87_one_zero"
   ],
   "note": "Counts requests to the estimator (calcMoment), not evaluations of f: how many points one request samples is the subject of C37. The lower bound is for the simple algorithm, whose search always goes down to the tolerance."
  },
  {
   "property": "C88",
   "status": "proved",
   "theorems": [
    "C88_parallel",
    "C88_parallel_beyond",
    "C88_quadrature_parallel",
    "C88_quadrature_parallel_beyond",
    "C88_domain",
    "C88_beyond",
    "C88_quadrature_domain",
    "C88_quadrature_beyond",
    "C88_finder",
    "C88_finder_beyond",
    "C88_border_refuted"
   ],
   "note": "C88_border_refuted: the condition on contour zeros cannot be dropped. The scipy/numpy solvers (secant, newton, polyroots) are the same oracles in both runs: what they evaluate is not part of the claim; filters are given the same function in both finders."
  },
  {
   "property": "C89",
   "status": "proved",
   "theorems": [
    "C89_parallel",
    "C89_parallel_everywhere",
    "C89_quadrature_parallel",
    "C89_summation",
    "C89_summation_everywhere",
    "C89_quadrature",
    "C89_quadrature_everywhere",
    "C89_finder"
   ],
   "note": "Exact arithmetic: with floats a factor that is no power of two changes roundings. The scipy/numpy solvers (secant, newton, polyroots) are the same oracles in both runs and the filters are given the same function."
  },
  {
   "property": "C90",
   "status": "proved",
   "theorems": [
    "C90_sum_error",
    "C90_rectangle",
    "C90_tolerance",
    "C90_decisions"
   ],
   "note": "The rounding of the sample positions, of f, of the quotient and of arctan2 is in the hypothesis phases_within (accuracy eps); the additions, the refinement factor and the threshold are rounded in the model. Overflow to infinity does not occur for sums of phases."
  },
  {
   "property": "C91",
   "status": "proved",
   "theorems": [
    "C91_samples",
    "C91_numbers",
    "C91_rounds",
    "C91_memory",
    "C91_default"
   ],
   "note": "C91_samples bounds arrays that are returned; that the request returns is C38/C91_rounds (zero-free segments) - with zeros on the segment the shift loop of genFuncArr may run on (C39, C65). C91_default inherits the hypotheses of C90_rectangle."
  },
  {
   "property": "C92",
   "status": "proved",
   "theorems": [
    "C92_search",
    "C92_quadrature",
    "C92_finder",
    "C92_quadrature_finder",
    "C92_parallel",
    "C92_quadrature_parallel",
    "C92_caches",
    "C92_reported",
    "C92_reported_refining",
    "C92_reported_doubling",
    "C92_reported_derivative",
    "C92_silent",
    "C92_quadrature_silent",
    "C92_swallowed_refuted"
   ],
   "note": ""
  },
  {
   "property": "C93",
   "status": "proved",
   "theorems": [
    "C93_history",
    "C93_nested",
    "C93_parallel",
    "C93_later_searches_refuted",
    "C93_finder",
    "C93_finder_refused",
    "C93_shown",
    "C93_hidden_refuted"
   ],
   "note": ""
  },
  {
   "property": "C94",
   "status": "proved",
   "theorems": [
    "C94_display",
    "C94_search_again_refuted",
    "C94_display_refused",
    "C94_reuse",
    "C94_resume_refuted",
    "C94_quadrature",
    "C94_history",
    "C94_add",
    "C94_complete_add",
    "C94_rounded",
    "C94_no_duplicates",
    "C94_search",
    "C94_search_history",
    "C94_search_complete",
    "C94_nothing_lost_refuted",
    "C94_parallel",
    "C94_plain",
    "C94_plain_loses_refuted"
   ],
   "note": ""
  }
 ]
}