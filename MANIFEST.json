{
 "claims": [
  {
   "property": "C01",
   "status": "proved",
   "theorems": [
    "C01_ids_dense_first_come",
    "C01_ids_stable",
    "C01_idmapping"
   ],
   "note": ""
  },
  {
   "property": "C02",
   "status": "proved",
   "theorems": [
    "C02_strict_error_iff",
    "C02_strict_accepts_iff",
    "C02_allow_multiple_uses_first",
    "C02_strict_first_is_only",
    "C02_same_as_first"
   ],
   "note": ""
  },
  {
   "property": "C03",
   "status": "proved",
   "theorems": [
    "C03_sc_exact"
   ],
   "note": ""
  },
  {
   "property": "C04",
   "status": "proved",
   "theorems": [
    "C04_mut_ex_exact"
   ],
   "note": ""
  },
  {
   "property": "C05",
   "status": "proved",
   "theorems": [
    "C05_imp_exact",
    "C05_bad_implication_iff",
    "C05_no_other_failure"
   ],
   "note": ""
  },
  {
   "property": "C06",
   "status": "proved",
   "theorems": [
    "C06_nondegenerate",
    "C06_one_per_variable"
   ],
   "note": ""
  },
  {
   "property": "C07",
   "status": "proved",
   "theorems": [
    "C07_beliefs_labelled",
    "C07_trust_labelled"
   ],
   "note": ""
  },
  {
   "property": "C08",
   "status": "proved",
   "theorems": [
    "C08_components",
    "C08_components_refuted"
   ],
   "note": ""
  },
  {
   "property": "C09",
   "status": "proved",
   "theorems": [
    "C09_never_multiple",
    "C09_matrix_dataset",
    "C09_matrix_accepted"
   ],
   "note": ""
  },
  {
   "property": "C10",
   "status": "proved",
   "theorems": [
    "C10_accepts_iff",
    "C10_matrix",
    "C10_cell",
    "C10_shape",
    "C10_ragged_iff",
    "C10_bad_number",
    "C10_from_csv",
    "C10_strip",
    "C10_separators"
   ],
   "note": ""
  },
  {
   "property": "C11",
   "status": "proved",
   "theorems": [
    "C11_single_column",
    "C11_round_trip_iff",
    "C11_two_columns",
    "C11_separators"
   ],
   "note": ""
  },
  {
   "property": "C12",
   "status": "proved",
   "theorems": [
    "C12_supervised_csv",
    "C12_true_values_once"
   ],
   "note": ""
  },
  {
   "property": "C13",
   "status": "proved",
   "theorems": [
    "C13_accuracy",
    "C13_bounds",
    "C13_deterministic",
    "C13_no_true_values",
    "C13_no_choice",
    "C13_unit_interval"
   ],
   "note": ""
  },
  {
   "property": "C14",
   "status": "proved",
   "theorems": [
    "C14_probabilities",
    "C14_accepts_iff",
    "C14_errors",
    "C14_rejects"
   ],
   "note": ""
  },
  {
   "property": "C15",
   "status": "proved",
   "theorems": [
    "C15_complete",
    "C15_true_values",
    "C15_dataset",
    "C15_trust_one_zero"
   ],
   "note": ""
  },
  {
   "property": "C16",
   "status": "proved",
   "theorems": [
    "C16_synthetic_round_trip"
   ],
   "note": ""
  },
  {
   "property": "C17",
   "status": "proved",
   "theorems": [
    "C17_most_believed",
    "C17_most_believed_iff",
    "C17_unknown_variable"
   ],
   "note": ""
  },
  {
   "property": "C18",
   "status": "proved",
   "theorems": [
    "C18_filter",
    "C18_filter_order",
    "C18_filter_none",
    "C18_filter_idempotent",
    "C18_filter_commute"
   ],
   "note": ""
  },
  {
   "property": "C19",
   "status": "proved",
   "theorems": [
    "C19_diff",
    "C19_diff_variables",
    "C19_diff_keys_once",
    "C19_iterations",
    "C19_swap_negates",
    "C19_self_zero"
   ],
   "note": ""
  },
  {
   "property": "C20",
   "status": "proved",
   "theorems": [
    "C20_stats",
    "C20_mean_between",
    "C20_std",
    "C20_empty",
    "C20_trust_stats",
    "C20_belief_stats"
   ],
   "note": ""
  },
  {
   "property": "C21",
   "status": "proved",
   "theorems": [
    "C21_fixed"
   ],
   "note": ""
  },
  {
   "property": "C22",
   "status": "proved",
   "theorems": [
    "C22_converges",
    "C22_fails",
    "C22_bounded",
    "C22_defaults"
   ],
   "note": ""
  },
  {
   "property": "C23",
   "status": "proved",
   "theorems": [
    "C23_values",
    "C23_metric",
    "C23_cosine"
   ],
   "note": ""
  },
  {
   "property": "C24",
   "status": "proved",
   "theorems": [
    "C24_ordinal",
    "C24_default",
    "C24_never_fails"
   ],
   "note": ""
  },
  {
   "property": "C25",
   "status": "proved",
   "theorems": [
    "C25_ranking",
    "C25_nan_fails",
    "C25_order",
    "C25_no_gaps",
    "C25_increasing_map"
   ],
   "note": ""
  },
  {
   "property": "C26",
   "status": "proved",
   "theorems": [
    "C26_empty"
   ],
   "note": ""
  },
  {
   "property": "C27",
   "status": "proved",
   "theorems": [
    "C27_history_independent"
   ],
   "note": ""
  },
  {
   "property": "C28",
   "status": "proved",
   "theorems": [
    "C28_fixed",
    "C28_convergence",
    "C28_scores_of_that_round",
    "C28_fixed_returns",
    "C28_convergence_ends"
   ],
   "note": ""
  },
  {
   "property": "C29",
   "status": "proved",
   "theorems": [
    "C29_partial_results",
    "C29_crh",
    "C29_unbounded_sums"
   ],
   "note": ""
  },
  {
   "property": "C30",
   "status": "proved",
   "theorems": [
    "C30_no_interference"
   ],
   "note": ""
  },
  {
   "property": "C31",
   "status": "proved",
   "theorems": [
    "C31_voting",
    "C31_range"
   ],
   "note": ""
  },
  {
   "property": "C32",
   "status": "proved",
   "theorems": [
    "C32_priors_reported",
    "C32_bad_prior",
    "C32_priors"
   ],
   "note": ""
  },
  {
   "property": "C33",
   "status": "proved",
   "theorems": [
    "C33_sums_recurrence",
    "C33_range",
    "C33_normalise_once"
   ],
   "note": ""
  },
  {
   "property": "C34",
   "status": "proved",
   "theorems": [
    "C34_sums_float",
    "C34_sums_float_partial_results",
    "C34_sums_float_returns",
    "C34_voting_float"
   ],
   "note": ""
  },
  {
   "property": "C35",
   "status": "proved",
   "theorems": [
    "C35_avlog_recurrence",
    "C35_range",
    "C35_single_claims_nan"
   ],
   "note": ""
  },
  {
   "property": "C36",
   "status": "proved",
   "theorems": [
    "C36_investment_recurrence",
    "C36_range",
    "C36_conservation"
   ],
   "note": ""
  },
  {
   "property": "C37",
   "status": "proved",
   "theorems": [
    "C37_pooled_recurrence",
    "C37_range"
   ],
   "note": ""
  },
  {
   "property": "C38",
   "status": "proved",
   "theorems": [
    "C38_truthfinder_recurrence",
    "C38_range",
    "C38_at_least_half",
    "C38_full_initial_trust"
   ],
   "note": ""
  },
  {
   "property": "C39",
   "status": "proved",
   "theorems": [
    "C39_crh_recurrence",
    "C39_range",
    "C39_trust_may_exceed_one"
   ],
   "note": ""
  },
  {
   "property": "C40",
   "status": "proved",
   "theorems": [
    "C40_same_as_sums",
    "C40_ranks_of_plain_recurrence",
    "C40_needs_ordinal",
    "C40_no_keyerror"
   ],
   "note": ""
  },
  {
   "property": "C41",
   "status": "proved",
   "theorems": [
    "C41_accepted",
    "C41_rename_and_permute",
    "C41_rename",
    "C41_order_matters_for_repeated_claims"
   ],
   "note": ""
  },
  {
   "property": "C42",
   "status": "proved",
   "theorems": [
    "C42_same_claims_same_trust",
    "C42_same_sources_same_belief",
    "C42_more_support_belief",
    "C42_more_claims_trust",
    "C42_more_support_voting"
   ],
   "note": ""
  },
  {
   "property": "C43",
   "status": "proved",
   "theorems": [
    "C43_accepts_iff",
    "C43_refuses",
    "C43_bounded",
    "C43_ends"
   ],
   "note": ""
  },
  {
   "property": "C44",
   "status": "proved",
   "theorems": [
    "C44_accepts_iff",
    "C44_refuses",
    "C44_no_equals_sign",
    "C44_separator"
   ],
   "note": ""
  },
  {
   "property": "C45",
   "status": "proved",
   "theorems": [
    "C45_split",
    "C45_parsed_typed",
    "C45_constructs",
    "C45_name_order",
    "C45_message",
    "C45_class_names"
   ],
   "note": ""
  },
  {
   "property": "C46",
   "status": "proved",
   "theorems": [
    "C46_output"
   ],
   "note": ""
  },
  {
   "property": "C47",
   "status": "proved",
   "theorems": [
    "C47_labels",
    "C47_one_to_one",
    "C47_unknown"
   ],
   "note": ""
  },
  {
   "property": "C48",
   "status": "proved",
   "theorems": [
    "C48_run",
    "C48_empty_parameters",
    "C48_graph",
    "C48_no_escape",
    "C48_average_log_escapes",
    "C48_usums_escapes",
    "C48_previous_escapes",
    "C48_labels",
    "C48_sizes",
    "C48_booleans"
   ],
   "note": ""
  },
  {
   "property": "C49",
   "status": "proved",
   "theorems": [
    "C49_run",
    "C49_usage_error_first"
   ],
   "note": ""
  },
  {
   "property": "C50",
   "status": "proved",
   "theorems": [
    "C50_layout",
    "C50_labels_base",
    "C50_labels_matrix"
   ],
   "note": ""
  },
  {
   "property": "C51",
   "status": "proved",
   "theorems": [
    "C51_contents",
    "C51_fails",
    "C51_bad_colour",
    "C51_arrow_head",
    "C51_claim_text"
   ],
   "note": ""
  },
  {
   "property": "C52",
   "status": "proved",
   "theorems": [
    "C52_graded",
    "C52_label",
    "C52_negative",
    "C52_not_a_number",
    "C52_graded_float",
    "C52_node_colours",
    "C52_darker",
    "C52_ends",
    "C52_default_colours",
    "C52_other_colours"
   ],
   "note": ""
  },
  {
   "property": "C53",
   "status": "proved",
   "theorems": [
    "C53_entity_to_dict",
    "C53_recoverable",
    "C53_attributes"
   ],
   "note": ""
  },
  {
   "property": "C54",
   "status": "proved",
   "theorems": [
    "C54_frames",
    "C54_progress",
    "C54_rounds",
    "C54_rounds_crh"
   ],
   "note": ""
  },
  {
   "property": "C55",
   "status": "proved",
   "theorems": [
    "C55_render",
    "C55_render_only",
    "C55_compile_keeps_height",
    "C55_first_height"
   ],
   "note": ""
  },
  {
   "property": "C56",
   "status": "proved",
   "theorems": [
    "C56_synth"
   ],
   "note": ""
  },
  {
   "property": "C57",
   "status": "proved",
   "theorems": [
    "C57_graph",
    "C57_value_text"
   ],
   "note": ""
  },
  {
   "property": "C58",
   "status": "proved",
   "theorems": [
    "C58_nonnegative_scores"
   ],
   "note": ""
  },
  {
   "property": "C59",
   "status": "proved",
   "theorems": [
    "C59_terminates",
    "C59_limit_ranking"
   ],
   "note": ""
  },
  {
   "property": "C60",
   "status": "proved",
   "theorems": [
    "C60_converges",
    "C60_terminates"
   ],
   "note": ""
  },
  {
   "property": "C61",
   "status": "proved",
   "theorems": [
    "C61_new_sources_help",
    "C61_monotone_in_initial_trust",
    "C61_more_rounds",
    "C61_converges",
    "C61_terminates"
   ],
   "note": ""
  },
  {
   "property": "C62",
   "status": "proved",
   "theorems": [
    "C62_local",
    "C62_same_comparisons",
    "C62_voting",
    "C62_part",
    "C62_union",
    "C62_crh_not_local"
   ],
   "note": ""
  },
  {
   "property": "C63",
   "status": "proved",
   "theorems": [
    "C63_correctly_rounded",
    "C63_no_false_ties",
    "C63_plurality"
   ],
   "note": ""
  },
  {
   "property": "C64",
   "status": "proved",
   "theorems": [
    "C64_overshooting_numbers",
    "C64_trust_above_one",
    "C64_nan"
   ],
   "note": ""
  },
  {
   "property": "C65",
   "status": "proved",
   "theorems": [
    "C65_stops",
    "C65_fails"
   ],
   "note": ""
  },
  {
   "property": "C66",
   "status": "proved",
   "theorems": [
    "C66_dataset",
    "C66_reader_fails",
    "C66_abstract",
    "C66_values"
   ],
   "note": ""
  },
  {
   "property": "C67",
   "status": "proved",
   "theorems": [
    "C67_separators",
    "C67_lines",
    "C67_reads",
    "C67_unterminated",
    "C67_skips",
    "C67_always_loads",
    "C67_final_newline_matters"
   ],
   "note": ""
  },
  {
   "property": "C68",
   "status": "proved",
   "theorems": [
    "C68_clean",
    "C68_clean_again",
    "C68_sign_lost",
    "C68_names",
    "C68_names_collide",
    "C68_rows",
    "C68_short_row",
    "C68_loads",
    "C68_truth",
    "C68_last_row",
    "C68_clean_exactly",
    "C68_short_truth_row"
   ],
   "note": ""
  },
  {
   "property": "C69",
   "status": "proved",
   "theorems": [
    "C69_marks",
    "C69_label_place",
    "C69_graph",
    "C69_default_sizes"
   ],
   "note": ""
  },
  {
   "property": "C70",
   "status": "proved",
   "theorems": [
    "C70_trust",
    "C70_beliefs",
    "C70_descends",
    "C70_returns",
    "C70_settles",
    "C70_needs_complete"
   ],
   "note": ""
  },
  {
   "property": "C71",
   "status": "proved",
   "theorems": [
    "C71_terminates"
   ],
   "note": ""
  },
  {
   "property": "C72",
   "status": "proved",
   "theorems": [
    "C72_rename",
    "C72_rename_accepted",
    "C72_repeats",
    "C72_repeats_accepted",
    "C72_order_matters_in_floats"
   ],
   "note": ""
  },
  {
   "property": "C73",
   "status": "proved",
   "theorems": [
    "C73_sums",
    "C73_average_log",
    "C73_sums_winner",
    "C73_sums_exact",
    "C73_average_log_winner",
    "C73_average_log_exact",
    "C73_sums_returns",
    "C73_average_log_returns"
   ],
   "note": ""
  },
  {
   "property": "C74",
   "status": "proved",
   "theorems": [
    "C74_callable_type_error",
    "C74_results",
    "C74_too_few_values",
    "C74_new_object",
    "C74_one_run_per_object",
    "C74_second_run"
   ],
   "note": ""
  },
  {
   "property": "C75",
   "status": "proved",
   "theorems": [
    "C75_reduced",
    "C75_timings",
    "C75_slices"
   ],
   "note": ""
  },
  {
   "property": "C76",
   "status": "proved",
   "theorems": [
    "C76_claims",
    "C76_truthfinder",
    "C76_investment",
    "C76_sources"
   ],
   "note": ""
  },
  {
   "property": "C77",
   "status": "proved",
   "theorems": [
    "C77_lines",
    "C77_success",
    "C77_failure"
   ],
   "note": ""
  },
  {
   "property": "C78",
   "status": "proved",
   "theorems": [
    "C78_columns",
    "C78_fails"
   ],
   "note": ""
  },
  {
   "property": "C79",
   "status": "proved",
   "theorems": [
    "C79_labels",
    "C79_measures"
   ],
   "note": ""
  },
  {
   "property": "C80",
   "status": "proved",
   "theorems": [
    "C80_claim_law",
    "C80_possible_iff"
   ],
   "note": ""
  },
  {
   "property": "C81",
   "status": "proved",
   "theorems": [
    "C81_refused",
    "C81_accepted",
    "C81_usage_error_iff",
    "C81_crashes"
   ],
   "note": ""
  },
  {
   "property": "C82",
   "status": "proved",
   "theorems": [
    "C82_synth_refused",
    "C82_synth_printed",
    "C82_graph_refused",
    "C82_graph_missing",
    "C82_graph",
    "C82_graph_same_file"
   ],
   "note": ""
  },
  {
   "property": "C83",
   "status": "proved",
   "theorems": [
    "C83_copies",
    "C83_voting",
    "C83_copied_sources",
    "C83_copied_variables",
    "C83_separate_copies"
   ],
   "note": ""
  },
  {
   "property": "C84",
   "status": "proved",
   "theorems": [
    "C84_accepts_iff",
    "C84_trust_one_zero",
    "C84_probabilities"
   ],
   "note": ""
  },
  {
   "property": "C85",
   "status": "proved",
   "theorems": [
    "C85_effect",
    "C85_always_a_table",
    "C85_offers"
   ],
   "note": ""
  },
  {
   "property": "C86",
   "status": "proved",
   "theorems": [
    "C86_received",
    "C86_one_column",
    "C86_one_column_form",
    "C86_received_iff",
    "C86_run"
   ],
   "note": ""
  },
  {
   "property": "C87",
   "status": "proved",
   "theorems": [
    "C87_rows",
    "C87_load",
    "C87_library_text",
    "C87_library_text_iff",
    "C87_own_text"
   ],
   "note": ""
  },
  {
   "property": "C88",
   "status": "proved",
   "theorems": [
    "C88_request",
    "C88_not_sent",
    "C88_negative_threshold",
    "C88_voting_warns",
    "C88_usums_never"
   ],
   "note": ""
  },
  {
   "property": "C89",
   "status": "proved",
   "theorems": [
    "C89_kept",
    "C89_shown",
    "C89_compared",
    "C89_not_compared",
    "C89_no_error",
    "C89_safe"
   ],
   "note": ""
  },
  {
   "property": "C90",
   "status": "proved",
   "theorems": [
    "C90_player",
    "C90_right_key",
    "C90_no_frames",
    "C90_frames",
    "C90_displayed",
    "C90_crh_zero"
   ],
   "note": ""
  },
  {
   "property": "C91",
   "status": "proved",
   "theorems": [
    "C91_marks",
    "C91_same_as_png"
   ],
   "note": ""
  },
  {
   "property": "C92",
   "status": "proved",
   "theorems": [
    "C92_bold",
    "C92_sorted",
    "C92_few_names",
    "C92_many_names",
    "C92_clicks_none",
    "C92_clicks",
    "C92_no_diff",
    "C92_diff",
    "C92_big_diff",
    "C92_diff_class"
   ],
   "note": ""
  },
  {
   "property": "C93",
   "status": "proved",
   "theorems": [
    "C93_avlog_float",
    "C93_avlog_float_partial_results",
    "C93_avlog_float_returns",
    "C93_single_claims"
   ],
   "note": ""
  },
  {
   "property": "C94",
   "status": "proved",
   "theorems": [
    "C94_crh_float",
    "C94_crh_float_partial_results",
    "C94_crh_float_returns",
    "C94_default_eps"
   ],
   "note": ""
  },
  {
   "property": "C95",
   "status": "proved",
   "theorems": [
    "C95_invest_float_partial_results",
    "C95_invest_float"
   ],
   "note": ""
  },
  {
   "property": "C96",
   "status": "proved",
   "theorems": [
    "C96_investment_nan",
    "C96_investment_nan_default",
    "C96_pooled_nan"
   ],
   "note": ""
  },
  {
   "property": "C97",
   "status": "proved",
   "theorems": [
    "C97_answer"
   ],
   "note": ""
  },
  {
   "property": "C98",
   "status": "proved",
   "theorems": [
    "C98_presets",
    "C98_standard",
    "C98_all_but_one",
    "C98_indep_groups",
    "C98_no_agreement"
   ],
   "note": ""
  },
  {
   "property": "C99",
   "status": "proved",
   "theorems": [
    "C99_sums_limit",
    "C99_avlog_ignores",
    "C99_voting",
    "C99_pooled_not_monotone"
   ],
   "note": ""
  },
  {
   "property": "C100",
   "status": "proved",
   "theorems": [
    "C100_usums_float",
    "C100_more_claims_higher",
    "C100_false_ties"
   ],
   "note": ""
  },
  {
   "property": "C101",
   "status": "proved",
   "theorems": [
    "C101_more_support_belief",
    "C101_more_claims_trust",
    "C101_same_support_same_belief",
    "C101_unanimous_first",
    "C101_investment_belief"
   ],
   "note": ""
  },
  {
   "property": "C102",
   "status": "proved",
   "theorems": [
    "C102_own_steps",
    "C102_as_if_alone",
    "C102_all_done",
    "C102_shared_iterator_refuted",
    "C102_shared_iterator_unbounded"
   ],
   "note": ""
  },
  {
   "property": "C103",
   "status": "proved",
   "theorems": [
    "C103_safe_numbers",
    "C103_tf_float",
    "C103_tf_float_partial_results",
    "C103_tf_float_returns",
    "C103_defaults",
    "C103_powers_of_two"
   ],
   "note": ""
  },
  {
   "property": "C104",
   "status": "proved",
   "theorems": [
    "C104_ordinal_run",
    "C104_ordinal_stops",
    "C104_nonpositive"
   ],
   "note": ""
  },
  {
   "property": "C105",
   "status": "proved",
   "theorems": [
    "C105_constructor",
    "C105_frames_do_not_interfere",
    "C105_animate",
    "C105_colours_left",
    "C105_get_frames"
   ],
   "note": ""
  },
  {
   "property": "C106",
   "status": "proved",
   "theorems": [
    "C106_ordinal_stops64",
    "C106_ordinal_returns64",
    "C106_sums64",
    "C106_average_log64",
    "C106_crh64",
    "C106_truthfinder64"
   ],
   "note": ""
  },
  {
   "property": "C107",
   "status": "proved",
   "theorems": [
    "C107_measure_names",
    "C107_capital",
    "C107_display",
    "C107_click",
    "C107_stays",
    "C107_sections",
    "C107_rounds_shown"
   ],
   "note": ""
  },
  {
   "property": "C108",
   "status": "proved",
   "theorems": [
    "C108_sums_stops",
    "C108_sums_returns",
    "C108_sums_fails",
    "C108_sums_terminates",
    "C108_average_log_stops",
    "C108_average_log_returns",
    "C108_average_log_fails",
    "C108_average_log_terminates",
    "C108_example"
   ],
   "note": ""
  },
  {
   "property": "C109",
   "status": "proved",
   "theorems": [
    "C109_usums_stops64"
   ],
   "note": ""
  },
  {
   "property": "C110",
   "status": "proved",
   "theorems": [
    "C110_investment",
    "C110_pooled_investment",
    "C110_investment_winner",
    "C110_pooled_investment_winner",
    "C110_investment_returns",
    "C110_pooled_investment_returns",
    "C110_investment_exact",
    "C110_pooled_investment_exact"
   ],
   "note": ""
  },
  {
   "property": "C111",
   "status": "proved",
   "theorems": [
    "C111_usums_scores",
    "C111_usums_order",
    "C111_usums_ranks",
    "C111_usums_winner"
   ],
   "note": ""
  },
  {
   "property": "C112",
   "status": "proved",
   "theorems": [
    "C112_same_run"
   ],
   "note": ""
  }
 ]
}