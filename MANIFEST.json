{
 "claims": [
  {
   "property": "C01",
   "status": "proved",
   "theorems": [
    "C01_rejected_and_ignored_calls_leave_no_trace",
    "C01_run_applies_gates_in_order"
   ],
   "note": "all list-form circuits, both backends, exact scalars; rejected and ignored calls may be interleaved"
  },
  {
   "property": "C02",
   "status": "proved",
   "theorems": [
    "C02_x_out_of_range_raises_IndexError",
    "C02_x_out_of_range_never_runs",
    "C02_x_is_cyclic_increment"
   ],
   "note": ""
  },
  {
   "property": "C03",
   "status": "proved",
   "theorems": [
    "C03_cx_fires_at_top_level"
   ],
   "note": ""
  },
  {
   "property": "C04",
   "status": "proved",
   "theorems": [
    "C04_toffoli_fires_when_all_controls_top"
   ],
   "note": ""
  },
  {
   "property": "C05",
   "status": "proved",
   "theorems": [
    "C05_reversible_circuits_give_one_outcome"
   ],
   "note": ""
  },
  {
   "property": "C06",
   "status": "proved",
   "theorems": [
    "C06_merging_is_invisible",
    "C06_disjoint_gates_commute"
   ],
   "note": ""
  },
  {
   "property": "C07",
   "status": "proved",
   "theorems": [
    "C07_layers_tile_the_line",
    "C07_accepted_gate_is_in_last_layer"
   ],
   "note": ""
  },
  {
   "property": "C08",
   "status": "proved",
   "theorems": [
    "C08_measure_all_is_final"
   ],
   "note": ""
  },
  {
   "property": "C09",
   "status": "proved",
   "theorems": [
    "C09_run_before_measure_all_raises",
    "C09_run_after_measure_all_never_asserts"
   ],
   "note": ""
  },
  {
   "property": "C10",
   "status": "proved",
   "theorems": [
    "C10_backends_agree"
   ],
   "note": ""
  },
  {
   "property": "C11",
   "status": "proved",
   "theorems": [
    "C11_digits_to_index_and_back",
    "C11_index_to_digits_and_back",
    "C11_index_out_of_range_raises",
    "C11_length_mismatch_raises",
    "C11_one_base_for_all_digits"
   ],
   "note": ""
  },
  {
   "property": "C12",
   "status": "proved",
   "theorems": [
    "C12_labels_are_basis_states",
    "C12_labels_are_distinct"
   ],
   "note": ""
  },
  {
   "property": "C13",
   "status": "proved",
   "theorems": [
    "C13_printed_labels_are_ambiguous"
   ],
   "note": ""
  },
  {
   "property": "C14",
   "status": "proved",
   "theorems": [
    "C14_single_register_too_large",
    "C14_register_list_too_large",
    "C14_toffoli_register_too_large",
    "C14_cx_register_too_large_never_runs"
   ],
   "note": ""
  },
  {
   "property": "C15",
   "status": "proved",
   "theorems": [
    "C15_dropped_calls_return_True",
    "C15_dropped_calls_have_no_effect"
   ],
   "note": ""
  },
  {
   "property": "C16",
   "status": "proved",
   "theorems": [
    "C16_dims_too_large_raises_ValueError",
    "C16_dims_too_small_never_runs",
    "C16_dims_too_small_raises_ValueError",
    "C16_dims_too_small_never_runs_unguarded_refuted"
   ],
   "note": "under the guard `tame`; without it the statement is false (C16_dims_too_small_never_runs_unguarded_refuted), with one witness per part of the guard"
  },
  {
   "property": "C17",
   "status": "proved",
   "theorems": [
    "C17_constructor_accepts_iff",
    "C17_constructor_exceptions",
    "C17_missing_levels_are_zero"
   ],
   "note": ""
  },
  {
   "property": "C18",
   "status": "proved",
   "theorems": [
    "C18_negative_levels_wrap"
   ],
   "note": ""
  },
  {
   "property": "C19",
   "status": "proved",
   "theorems": [
    "C19_init_states_list_is_extended",
    "C19_second_use_of_the_list_raises",
    "C19_empty_list_is_not_touched"
   ],
   "note": ""
  },
  {
   "property": "C20",
   "status": "proved",
   "theorems": [
    "C20_tuple_circuits_mislabel",
    "C20_tuple_empty_circuit_is_00",
    "C20_tuple_toffoli_raises"
   ],
   "note": ""
  },
  {
   "property": "C21",
   "status": "proved",
   "theorems": [
    "C21_depth_is_the_number_of_gate_layers",
    "C21_a_call_raises_the_depth_by_at_most_one",
    "C21_depth_is_kept_exactly_when_a_layer_is_shared"
   ],
   "note": ""
  },
  {
   "property": "C22",
   "status": "proved",
   "theorems": [
    "C22_counts_are_the_accepted_calls",
    "C22_counts_are_the_gates_of_the_program",
    "C22_counts_are_in_a_fixed_order"
   ],
   "note": ""
  },
  {
   "property": "C23",
   "status": "proved",
   "theorems": [
    "C23_h_on_level_zero_is_uniform",
    "C23_h_twice_restores_level_zero"
   ],
   "note": ""
  },
  {
   "property": "C24",
   "status": "proved",
   "theorems": [
    "C24_h_is_the_fourier_transform",
    "C24_h_is_unitary"
   ],
   "note": ""
  },
  {
   "property": "C25",
   "status": "proved",
   "theorems": [
    "C25_h_is_not_unitary_on_ququarts",
    "C25_probabilities_do_not_add_up"
   ],
   "note": ""
  },
  {
   "property": "C26",
   "status": "proved",
   "theorems": [
    "C26_z_multiplies_by_distinct_roots"
   ],
   "note": ""
  },
  {
   "property": "C27",
   "status": "proved",
   "theorems": [
    "C27_total_probability_is_one"
   ],
   "note": ""
  },
  {
   "property": "C28",
   "status": "proved",
   "theorems": [
    "C28_reported_number_need_not_be_real",
    "C28_probability_is_the_square"
   ],
   "note": "the square for every script and scalar structure; the non-real witness for every order of the roots"
  },
  {
   "property": "C29",
   "status": "proved",
   "theorems": [
    "C29_inverse_gates_cancel"
   ],
   "note": ""
  },
  {
   "property": "C30",
   "status": "proved",
   "theorems": [
    "C30_target_among_controls_never_runs"
   ],
   "note": ""
  },
  {
   "property": "C31",
   "status": "proved",
   "theorems": [
    "C31_cx_on_one_register_is_not_reversible"
   ],
   "note": ""
  },
  {
   "property": "C32",
   "status": "proved",
   "theorems": [
    "C32_single_register_gate_acts_as_its_matrix",
    "C32_bad_matrix_raises",
    "C32_bad_matrix_never_runs"
   ],
   "note": ""
  },
  {
   "property": "C33",
   "status": "proved",
   "theorems": [
    "C33_two_register_gate_never_runs",
    "C33_two_register_gate_raises",
    "C33_two_register_toffoli_never_runs"
   ],
   "note": ""
  },
  {
   "property": "C34",
   "status": "proved",
   "theorems": [
    "C34_register_order_is_ignored"
   ],
   "note": ""
  },
  {
   "property": "C35",
   "status": "proved",
   "theorems": [
    "C35_runs_leave_no_trace",
    "C35_run_is_repeatable"
   ],
   "note": ""
  },
  {
   "property": "C36",
   "status": "proved",
   "theorems": [
    "C36_layers_are_linked"
   ],
   "note": ""
  },
  {
   "property": "C37",
   "status": "proved",
   "theorems": [
    "C37_a_text_builds_the_circuit_of_its_calls",
    "C37_a_text_runs_as_its_program",
    "C37_every_program_has_a_text"
   ],
   "note": ""
  },
  {
   "property": "C38",
   "status": "proved",
   "theorems": [
    "C38_unknown_lines_are_ignored"
   ],
   "note": ""
  },
  {
   "property": "C39",
   "status": "proved",
   "theorems": [
    "C39_second_toffoli_register_gains_a_level",
    "C39_toffoli_on_qubits_does_not_compute_and"
   ],
   "note": ""
  },
  {
   "property": "C40",
   "status": "proved",
   "theorems": [
    "C40_rx_180_never_runs",
    "C40_rx_180_raises_IndexError",
    "C40_sign_of_cx_increment_is_dropped"
   ],
   "note": ""
  },
  {
   "property": "C41",
   "status": "proved",
   "theorems": [
    "C41_fewer_than_three_markers_raise_IndexError"
   ],
   "note": ""
  },
  {
   "property": "C42",
   "status": "proved",
   "theorems": [
    "C42_drawing_shows_each_gate",
    "C42_lines_have_equal_length"
   ],
   "note": ""
  },
  {
   "property": "C43",
   "status": "proved",
   "theorems": [
    "C43_cx_is_drawn_only_from_register_zero",
    "C43_toffoli_label_is_shifted",
    "C43_cx_away_from_zero_spoils_the_figure",
    "C43_figure_is_right_from_register_zero",
    "C43_empty_circuit_has_no_figure"
   ],
   "note": ""
  },
  {
   "property": "C44",
   "status": "proved",
   "theorems": [
    "C44_tree_computes_the_toffoli",
    "C44_default_input_is_all_ones",
    "C44_missing_inputs_are_zero",
    "C44_too_many_inputs_raise"
   ],
   "note": ""
  },
  {
   "property": "C45",
   "status": "proved",
   "theorems": [
    "C45_mapping_is_a_bijection",
    "C45_mapping_is_in_order",
    "C45_kinds_partition_the_nodes",
    "C45_kind_of_each_node",
    "C45_fuel_is_enough"
   ],
   "note": ""
  },
  {
   "property": "C46",
   "status": "proved",
   "theorems": [
    "C46_gate_counters"
   ],
   "note": ""
  },
  {
   "property": "C47",
   "status": "proved",
   "theorems": [
    "C47_circuits_of_equal_length_compare_equal",
    "C47_measured_circuits_of_different_length_never_compare_equal",
    "C47_reported_layer_is_the_first_difference"
   ],
   "note": ""
  },
  {
   "property": "C48",
   "status": "proved",
   "theorems": [
    "C48_tuple_circuits_report_the_tuple"
   ],
   "note": ""
  },
  {
   "property": "C49",
   "status": "proved",
   "theorems": [
    "C49_labels_disagree_with_counters"
   ],
   "note": ""
  },
  {
   "property": "C50",
   "status": "proved",
   "theorems": [
    "C50_fewer_than_three_lines_raise"
   ],
   "note": ""
  },
  {
   "property": "C51",
   "status": "proved",
   "theorems": [
    "C51_circuit_output_is_the_last_result",
    "C51_circuit_output_is_None_before_the_first_result"
   ],
   "note": ""
  },
  {
   "property": "C52",
   "status": "proved",
   "theorems": [
    "C52_every_line_has_an_outcome",
    "C52_a_line_has_one_outcome",
    "C52_a_text_performs_its_lines_in_order",
    "C52_malformed_line_raises"
   ],
   "note": ""
  },
  {
   "property": "C53",
   "status": "proved",
   "theorems": [
    "C53_toffoli_without_two_controls_raises_ValueError",
    "C53_other_toffoli_lines_raise_ValueError"
   ],
   "note": ""
  },
  {
   "property": "C54",
   "status": "proved",
   "theorems": [
    "C54_only_dimensions_and_gate_lines_matter"
   ],
   "note": ""
  },
  {
   "property": "C55",
   "status": "proved",
   "theorems": [
    "C55_what_each_gate_says",
    "C55_gates_come_in_pairs"
   ],
   "note": ""
  },
  {
   "property": "C56",
   "status": "proved",
   "theorems": [
    "C56_unchanged_registers_keep_their_level"
   ],
   "note": ""
  },
  {
   "property": "C57",
   "status": "proved",
   "theorems": [
    "C57_increments_add",
    "C57_a_full_round_does_nothing"
   ],
   "note": ""
  },
  {
   "property": "C58",
   "status": "proved",
   "theorems": [
    "C58_independent_parts_multiply"
   ],
   "note": ""
  },
  {
   "property": "C59",
   "status": "proved",
   "theorems": [
    "C59_depth_of_a_program"
   ],
   "note": ""
  },
  {
   "property": "C60",
   "status": "proved",
   "theorems": [
    "C60_levels_are_parallel",
    "C60_built_circuit_has_linear_depth"
   ],
   "note": ""
  },
  {
   "property": "C61",
   "status": "proved",
   "theorems": [
    "C61_which_files_are_reported",
    "C61_exit_status"
   ],
   "note": ""
  },
  {
   "property": "C62",
   "status": "proved",
   "theorems": [
    "C62_fix_puts_the_header_once",
    "C62_after_fix_check_passes",
    "C62_fixed_files_name_the_license"
   ],
   "note": ""
  },
  {
   "property": "C63",
   "status": "proved",
   "theorems": [
    "C63_next_year_doubles_the_header",
    "C63_lone_preamble_is_moved_behind",
    "C63_missing_paths_pass"
   ],
   "note": ""
  },
  {
   "property": "C64",
   "status": "proved",
   "theorems": [
    "C64_wide_layers_are_all_added",
    "C64_everything_after_a_merged_gate_is_lost",
    "C64_a_flow_without_measurements_does_not_run"
   ],
   "note": ""
  },
  {
   "property": "C65",
   "status": "proved",
   "theorems": [
    "C65_one_register_list_is_the_register",
    "C65_empty_list_raises"
   ],
   "note": ""
  },
  {
   "property": "C66",
   "status": "proved",
   "theorems": [
    "C66_reversible_calls_move_the_outcomes",
    "C66_three_cx_swap_two_qubits"
   ],
   "note": ""
  },
  {
   "property": "C67",
   "status": "proved",
   "theorems": [
    "C67_a_spare_level_replaces_an_ancilla"
   ],
   "note": ""
  },
  {
   "property": "C68",
   "status": "proved",
   "theorems": [
    "C68_reversible_start_is_an_initial_state"
   ],
   "note": ""
  },
  {
   "property": "C69",
   "status": "proved",
   "theorems": [
    "C69_toffoli_controls_are_a_set",
    "C69_one_control_is_cx"
   ],
   "note": ""
  },
  {
   "property": "C70",
   "status": "proved",
   "theorems": [
    "C70_marginals_of_unchanged_registers"
   ],
   "note": ""
  },
  {
   "property": "C71",
   "status": "proved",
   "theorems": [
    "C71_exact_gates_keep_overlaps",
    "C71_different_starts_stay_orthogonal"
   ],
   "note": ""
  },
  {
   "property": "C72",
   "status": "proved",
   "theorems": [
    "C72_registers_can_be_renamed"
   ],
   "note": ""
  },
  {
   "property": "C73",
   "status": "proved",
   "theorems": [
    "C73_generated_tests_pass",
    "C73_small_sizes_fail",
    "C73_listed_outcomes_are_right"
   ],
   "note": ""
  },
  {
   "property": "C74",
   "status": "proved",
   "theorems": [
    "C74_check_never_fires",
    "C74_check_wants_all_counts_wrong",
    "C74_check_misses_wrong_counts"
   ],
   "note": ""
  },
  {
   "property": "C75",
   "status": "proved",
   "theorems": [
    "C75_results_are_saved_next_to_their_sources",
    "C75_failures_keep_old_results",
    "C75_nothing_else_is_written",
    "C75_sources_are_kept",
    "C75_backends_save_the_same",
    "C75_results_collide",
    "C75_other_modes_write_nothing"
   ],
   "note": ""
  },
  {
   "property": "C76",
   "status": "proved",
   "theorems": [
    "C76_cx_never_changes_the_documented_target",
    "C76_documented_cx_refuted",
    "C76_indented_texts_raise_IndexError"
   ],
   "note": ""
  },
  {
   "property": "C77",
   "status": "proved",
   "theorems": [
    "C77_compatible_gates_may_be_reordered"
   ],
   "note": ""
  },
  {
   "property": "C78",
   "status": "proved",
   "theorems": [
    "C78_ghz_circuit"
   ],
   "note": ""
  },
  {
   "property": "C79",
   "status": "proved",
   "theorems": [
    "C79_hidden_parities_are_found"
   ],
   "note": ""
  },
  {
   "property": "C80",
   "status": "proved",
   "theorems": [
    "C80_recorded_outcomes_are_reproduced"
   ],
   "note": ""
  },
  {
   "property": "C81",
   "status": "proved",
   "theorems": [
    "C81_parities_without_the_last_h",
    "C81_testbench_bv"
   ],
   "note": ""
  },
  {
   "property": "C82",
   "status": "proved",
   "theorems": [
    "C82_grover_finds_the_marked_state"
   ],
   "note": ""
  },
  {
   "property": "C83",
   "status": "proved",
   "theorems": [
    "C83_testbench_grover_misses",
    "C83_testbench_toffoli_keeps_its_scratch_level"
   ],
   "note": ""
  },
  {
   "property": "C84",
   "status": "proved",
   "theorems": [
    "C84_clip_is_a_closed_range",
    "C84_clip_to_minus_one_is_empty",
    "C84_clip_from_the_end",
    "C84_truth_table",
    "C84_rows_have_their_index",
    "C84_get_index_is_the_first_match"
   ],
   "note": ""
  },
  {
   "property": "C85",
   "status": "proved",
   "theorems": [
    "C85_what_a_gate_says",
    "C85_initial_states_do_not_say"
   ],
   "note": ""
  },
  {
   "property": "C86",
   "status": "proved",
   "theorems": [
    "C86_object_on_a_register",
    "C86_nothing_on_a_taken_register",
    "C86_first_layer_raises",
    "C86_replacing",
    "C86_check_igate_in_a_narrow_layer",
    "C86_check_igate_beside_a_wide_gate",
    "C86_check_igate_for_a_wide_gate"
   ],
   "note": ""
  },
  {
   "property": "C87",
   "status": "proved",
   "theorems": [
    "C87_h_gates_spread_evenly"
   ],
   "note": ""
  },
  {
   "property": "C88",
   "status": "proved",
   "theorems": [
    "C88_deutsch_jozsa"
   ],
   "note": ""
  },
  {
   "property": "C89",
   "status": "proved",
   "theorems": [
    "C89_own_tests_hold",
    "C89_configuration_test_holds",
    "C89_tests_with_h_hold",
    "C89_test_qudit_toffoli_refuted",
    "C89_digit_tests_hold"
   ],
   "note": ""
  },
  {
   "property": "C90",
   "status": "proved",
   "theorems": [
    "C90_reversible_circuits_need_only_bits",
    "C90_reversible_circuits_are_exact_in_doubles",
    "C90_doubles_agree_with_exact_arithmetic"
   ],
   "note": ""
  },
  {
   "property": "C91",
   "status": "proved",
   "theorems": [
    "C91_accepted_matrices"
   ],
   "note": ""
  },
  {
   "property": "C92",
   "status": "proved",
   "theorems": [
    "C92_accepted_gates_can_raise_the_total_probability",
    "C92_total_probability_is_unbounded"
   ],
   "note": ""
  },
  {
   "property": "C93",
   "status": "proved",
   "theorems": [
    "C93_layers_are_described",
    "C93_measurements_have_no_description"
   ],
   "note": ""
  },
  {
   "property": "C94",
   "status": "proved",
   "theorems": [
    "C94_nodes_are_told_apart_by_their_grandchildren",
    "C94_right_grandchild"
   ],
   "note": ""
  },
  {
   "property": "C95",
   "status": "proved",
   "theorems": [
    "C95_edited_register_list_renames_outcomes"
   ],
   "note": ""
  },
  {
   "property": "C96",
   "status": "proved",
   "theorems": [
    "C96_shared_cx_list_is_read_at_run",
    "C96_outgrown_cx_raises",
    "C96_cases_are_complete",
    "C96_reversing_the_list_swaps_the_gate",
    "C96_shifting_the_list_is_harmless",
    "C96_sliding_one_list_is_harmless"
   ],
   "note": ""
  },
  {
   "property": "C97",
   "status": "proved",
   "theorems": [
    "C97_results_do_not_depend_on_the_backend",
    "C97_numpy_backend_computes",
    "C97_sparse_backend_computes",
    "C97_valid_programs_on_any_backend",
    "C97_column_backend_computes"
   ],
   "note": ""
  },
  {
   "property": "C98",
   "status": "proved",
   "theorems": [
    "C98_str_raises_at_the_first_bad_cx",
    "C98_bad_cx_makes_every_later_drawing_raise"
   ],
   "note": ""
  },
  {
   "property": "C99",
   "status": "proved",
   "theorems": [
    "C99_rounding_errors_stay_small",
    "C99_reported_numbers",
    "C99_growth_factors",
    "C99_size_of_the_bound",
    "C99_numpy_with_rounding",
    "C99_nearest",
    "C99_with_p_digits",
    "C99_any_accuracy"
   ],
   "note": ""
  },
  {
   "property": "C100",
   "status": "proved",
   "theorems": [
    "C100_same_results_as_the_other_backends",
    "C100_rounding_errors_stay_small",
    "C100_reversible_circuits_are_exact_in_doubles"
   ],
   "note": ""
  },
  {
   "property": "C101",
   "status": "proved",
   "theorems": [
    "C101_counting_changes_nothing",
    "C101_cost_of_a_run",
    "C101_state_first_costs_less",
    "C101_sparse_costs_no_more",
    "C101_sparse_reversible_programs"
   ],
   "note": ""
  },
  {
   "property": "C102",
   "status": "proved",
   "theorems": [
    "C102_every_layer_is_in_one_figure",
    "C102_fails_as_the_marks_do",
    "C102_more_compress_no_more_figures",
    "C102_narrow_layers_are_not_cut",
    "C102_full_figures_are_used",
    "C102_the_widest_mark_gives_the_width"
   ],
   "note": ""
  },
  {
   "property": "C103",
   "status": "proved",
   "theorems": [
    "C103_every_call_answers",
    "C103_scripts_stop_at_the_first_refusal",
    "C103_scripts_go_through"
   ],
   "note": ""
  },
  {
   "property": "C104",
   "status": "proved",
   "theorems": [
    "C104_when_run_succeeds",
    "C104_results_are_right",
    "C104_when_a_script_succeeds",
    "C104_when_run_succeeds_unguarded_refuted"
   ],
   "note": ""
  },
  {
   "property": "C105",
   "status": "proved",
   "theorems": [
    "C105_line_ends_of_a_file_do_not_matter",
    "C105_every_file_shows_one_text",
    "C105_every_text_is_shown",
    "C105_crlf_texts_without_rx",
    "C105_crlf_texts_refuted",
    "C105_rx_before_cr_is_dropped",
    "C105_cr_texts_raise_IndexError"
   ],
   "note": ""
  },
  {
   "property": "C106",
   "status": "proved",
   "theorems": [
    "C106_h_is_unitary_only_on_qubits_and_qutrits",
    "C106_two_h_calls_can_gain_probability",
    "C106_pairing_is_needed"
   ],
   "note": ""
  },
  {
   "property": "C107",
   "status": "proved",
   "theorems": [
    "C107_figure_raises_at_the_first_unmarked_gate",
    "C107_cx_on_three_registers_spoils_every_later_figure"
   ],
   "note": ""
  },
  {
   "property": "C108",
   "status": "proved",
   "theorems": [
    "C108_the_layers_tell_the_exception",
    "C108_the_last_layer_with_a_failing_gate_decides"
   ],
   "note": ""
  },
  {
   "property": "C109",
   "status": "proved",
   "theorems": [
    "C109_without_dims_a_list_is_refused",
    "C109_bad_registers_are_refused",
    "C109_idle_registers_are_a_type_error",
    "C109_a_busy_register_starts_a_layer",
    "C109_after_measure_all_nothing_is_added",
    "C109_one_busy_register_is_the_plain_call",
    "C109_several_registers_never_run",
    "C109_nothing_repairs_a_call_on_several_registers"
   ],
   "note": ""
  },
  {
   "property": "C110",
   "status": "proved",
   "theorems": [
    "C110_same_results_as_the_list",
    "C110_same_answers_as_the_list",
    "C110_more_registers_than_entries_cannot_be_printed",
    "C110_two_registers_are_printed",
    "C110_figures_have_two_wires",
    "C110_no_toffoli_with_a_control"
   ],
   "note": ""
  },
  {
   "property": "C111",
   "status": "proved",
   "theorems": [
    "C111_h_and_z_classes_are_the_methods",
    "C111_other_classes_raise",
    "C111_identity_adds_an_idle_layer",
    "C111_identities_do_not_matter",
    "C111_a_small_identity_makes_run_raise",
    "C111_a_small_identity_is_accepted",
    "C111_the_next_gate_replaces_it"
   ],
   "note": ""
  },
  {
   "property": "C112",
   "status": "proved",
   "theorems": [
    "C112_every_permutation_can_be_programmed",
    "C112_every_function_can_be_added_to_a_register",
    "C112_even_permutations_can_be_programmed",
    "C112_odd_dimensions_allow_even_permutations_only",
    "C112_one_register_can_only_be_turned"
   ],
   "note": ""
  },
  {
   "property": "C113",
   "status": "proved",
   "theorems": [
    "C113_x_and_cx_compute_affine_functions",
    "C113_nothing_else_is_computed",
    "C113_every_affine_permutation_is_computed",
    "C113_no_conjunction_from_x_and_cx"
   ],
   "note": ""
  },
  {
   "property": "C114",
   "status": "proved",
   "theorems": [
    "C114_outcomes_of_h_x_z_cx_circuits",
    "C114_outcomes_are_equally_likely"
   ],
   "note": ""
  },
  {
   "property": "C115",
   "status": "proved",
   "theorems": [
    "C115_usable_backends_build_the_same_circuit",
    "C115_unusable_backend_raises",
    "C115_first_register_is_checked_first",
    "C115_unusable_backend_raises_on_tuples"
   ],
   "note": ""
  },
  {
   "property": "C116",
   "status": "proved",
   "theorems": [
    "C116_every_circuit_can_be_taken_back",
    "C116_back_to_the_start",
    "C116_two_h_calls_negate_the_level"
   ],
   "note": ""
  },
  {
   "property": "C117",
   "status": "proved",
   "theorems": [
    "C117_denominators_of_probabilities",
    "C117_number_of_outcomes",
    "C117_thirds_need_qutrits_halves_need_qubits"
   ],
   "note": ""
  },
  {
   "property": "C118",
   "status": "proved",
   "theorems": [
    "C118_edit_between_calls_of_the_same_size",
    "C118_edit_between_calls_of_another_size_raises",
    "C118_edit_with_an_output",
    "C118_the_number_of_registers_is_fixed"
   ],
   "note": ""
  },
  {
   "property": "C119",
   "status": "proved",
   "theorems": [
    "C119_output_for_other_registers_renames",
    "C119_large_enough"
   ],
   "note": ""
  },
  {
   "property": "C120",
   "status": "proved",
   "theorems": [
    "C120_grover_search",
    "C120_probability_of_success",
    "C120_enough_rounds",
    "C120_a_pattern_is_found"
   ],
   "note": ""
  },
  {
   "property": "C121",
   "status": "proved",
   "theorems": [
    "C121_a_circuit_on_some_registers_acts_as_it_does_alone"
   ],
   "note": ""
  },
  {
   "property": "C122",
   "status": "proved",
   "theorems": [
    "C122_teleportation"
   ],
   "note": ""
  },
  {
   "property": "C123",
   "status": "proved",
   "theorems": [
    "C123_superdense_coding"
   ],
   "note": ""
  },
  {
   "property": "C124",
   "status": "proved",
   "theorems": [
    "C124_repetition_code"
   ],
   "note": ""
  },
  {
   "property": "C125",
   "status": "proved",
   "theorems": [
    "C125_numpy_numbers_are_refused",
    "C125_numbers_outside_the_line",
    "C125_never_a_different_answer",
    "C125_scripts_stop"
   ],
   "note": ""
  },
  {
   "property": "C126",
   "status": "proved",
   "theorems": [
    "C126_controls_in_an_array_are_other_registers",
    "C126_the_gate_asked_for_is_not_done",
    "C126_an_array_out_of_range",
    "C126_a_gate_past_the_array",
    "C126_cx_with_an_array"
   ],
   "note": ""
  },
  {
   "property": "C127",
   "status": "proved",
   "theorems": [
    "C127_lists",
    "C127_tuples",
    "C127_arrays",
    "C127_ints",
    "C127_never_other_levels",
    "C127_registers"
   ],
   "note": ""
  },
  {
   "property": "C128",
   "status": "proved",
   "theorems": [
    "C128_the_first_failing_gate_decides",
    "C128_never_a_result",
    "C128_arrays_only"
   ],
   "note": ""
  },
  {
   "property": "C129",
   "status": "proved",
   "theorems": [
    "C129_h_and_z_are_the_methods",
    "C129_identity_on_one_register_changes_nothing",
    "C129_identity_on_several_registers_never_runs",
    "C129_without_dims",
    "C129_without_dims_never_runs",
    "C129_other_classes_raise"
   ],
   "note": ""
  },
  {
   "property": "C130",
   "status": "proved",
   "theorems": [
    "C130_phase_code",
    "C130_a_z_is_undone"
   ],
   "note": ""
  },
  {
   "property": "C131",
   "status": "proved",
   "theorems": [
    "C131_a_circuit_is_one_gate",
    "C131_reversible_circuits_are_one_gate",
    "C131_matrices_multiply"
   ],
   "note": ""
  },
  {
   "property": "C132",
   "status": "proved",
   "theorems": [
    "C132_numpy_dimensions_are_numbers",
    "C132_valid_programs_run",
    "C132_the_shape_is_not_checked",
    "C132_a_wrong_size_is_a_ValueError",
    "C132_a_list_with_numpy_dims",
    "C132_gates_on_two_registers",
    "C132_a_wrong_size_on_a_list",
    "C132_tuples"
   ],
   "note": ""
  }
 ]
}
