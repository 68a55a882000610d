{"claims": [
{"property": "C01", "status": "proved", "theorems": ["C01_index_coordinate_bijection", "C01_one_dimension_undefined"], "note": "bijection for >=2 dimensions; for one dimension idx2coord is UB (also proved)"},
{"property": "C02", "status": "proved", "theorems": ["C02_neighbours_exact"], "note": ""},
{"property": "C03", "status": "proved", "theorems": ["C03_neighbourhood_symmetric"], "note": ""},
{"property": "C04", "status": "proved", "theorems": ["C04_neighbours_wrap_refuted"], "note": ""},
{"property": "C05", "status": "proved", "theorems": ["C05_min_value_in_dim", "C05_flat_dimension_reads_buffer", "C05_history_dependent_refuted"], "note": "positive part for every arithmetic; size-1 dimensions: exact characterisation and a history-dependence witness"},
{"property": "C06", "status": "proved", "theorems": ["C06_resize_fresh", "C06_resize_wraps_refuted"], "note": "plus the 32-bit wrap of 65536x65536"},
{"property": "C07", "status": "proved", "theorems": ["C07_clean"], "note": ""},
{"property": "C08", "status": "proved", "theorems": ["C08_max_value", "C08_max_speed", "C08_avg_speed"], "note": ""},
{"property": "C09", "status": "proved", "theorems": ["C09_clear_leaves_size"], "note": ""},
{"property": "C10", "status": "proved", "theorems": ["C10_update_solves_upwind_equation"], "note": ""},
{"property": "C11", "status": "proved", "theorems": ["C11_update_is_causal", "C11_discriminant_never_negative"], "note": ""},
{"property": "C12", "status": "proved", "theorems": ["C12_infinite_iff_no_upwind_neighbour"], "note": ""},
{"property": "C13", "status": "proved", "theorems": ["C13_float_causality_refuted", "C13_float_causality_one_dimension"], "note": ""},
{"property": "C14", "status": "proved", "theorems": ["C14_dimension_order_irrelevant_exact", "C14_dimension_order_irrelevant_binary64"], "note": ""},
{"property": "C15", "status": "proved", "theorems": ["C15_fmm_with_fmdaryheap_terminates", "C15_fmm_terminates_any_arithmetic", "C15_fmm_terminates_doubles", "C15_fmm_terminates_exact", "C15_fmm_with_fmfibheap_terminates", "C15_fmm_terminates_doubles_any_sources", "C15_fmm_terminates_exact_any_sources"], "note": ""},
{"property": "C16", "status": "proved", "theorems": ["C16_sources_at_zero", "C16_obstacle_sources_at_zero", "C16_single_source_at_zero", "C16_adjacent_sources_refuted"], "note": ""},
{"property": "C17", "status": "proved", "theorems": ["C17_freezes_exactly_connected_any_arithmetic", "C17_goal_frozen_iff_connected_any_arithmetic", "C17_fmm_with_fmdaryheap_accepts_the_connected_cells", "C17_reaches_exactly_connected", "C17_fmm_with_fmfibheap_accepts_the_connected_cells", "C17_doubles_accept_exactly_the_connected_cells"], "note": ""},
{"property": "C18", "status": "proved", "theorems": ["C18_fmm_with_fmdaryheap_solves_eikonal", "C18_fmm_solves_eikonal", "C18_time_is_root_of_upwind_equation", "C18_fmm_with_fmfibheap_solves_eikonal"], "note": ""},
{"property": "C19", "status": "proved", "theorems": ["C19_accepted_in_order", "C19_accepted_is_final"], "note": ""},
{"property": "C20", "status": "proved", "theorems": ["C20_fmm_keeps_map", "C20_fsm_keeps_map", "C20_lsm_keeps_map", "C20_ddqm_keeps_map", "C20_fim_keeps_map", "C20_gmm_keeps_map", "C20_ufmm_keeps_map"], "note": ""},
{"property": "C21", "status": "proved", "theorems": ["C21_each_cell_once", "C21_each_cell_once_any_arithmetic"], "note": ""},
{"property": "C22", "status": "proved", "theorems": ["C22_goal_run_is_prefix", "C22_goal_time_unchanged"], "note": ""},
{"property": "C23", "status": "proved", "theorems": ["C23_fmm_star_changes_the_goal_time"], "note": ""},
{"property": "C24", "status": "proved", "theorems": ["C24_lookups_succeed", "C24_distance_is_euclidean", "C24_table_written_past_the_end", "C24_table_kept_for_another_grid"], "note": ""},
{"property": "C25", "status": "proved", "theorems": ["C25_fmm_reusable", "C25_fsm_reusable", "C25_lsm_reusable", "C25_fim_reusable", "C25_gmm_reusable", "C25_ufmm_reusable", "C25_ddqm_reset_changes_the_threshold"], "note": ""},
{"property": "C26", "status": "proved", "theorems": ["C26_fmm_after_lsm_computes_nothing", "C26_fmm_after_lsm_returns"], "note": ""},
{"property": "C27", "status": "proved", "theorems": ["C27_sfmm_pops_a_non_minimal_cell", "C27_sfmm_times_differ_from_fmm", "C27_improving_stores_a_second_entry", "C27_pop_takes_one_copy"], "note": ""},
{"property": "C28", "status": "proved", "theorems": ["C28_top_is_within_one_bucket_of_the_minimum", "C28_calls_inside_the_window_succeed", "C28_late_times_are_given_back_out_of_order", "C28_late_times_share_the_last_bucket", "C28_untidy_queue_loses_nothing", "C28_pop_removes_what_top_returned", "C28_push_defined_from_the_origin_on"], "note": ""},
{"property": "C29", "status": "proved", "theorems": ["C29_sweep_visits_each_free_cell_once_in_order", "C29_applies_to_fsm_and_lsm"], "note": ""},
{"property": "C30", "status": "proved", "theorems": ["C30_directions_cycle_through_all", "C30_initial_directions"], "note": ""},
{"property": "C31", "status": "proved", "theorems": ["C31_fsm_solves_eikonal", "C31_times_never_increase", "C31_one_update_never_increases"], "note": ""},
{"property": "C32", "status": "proved", "theorems": ["C32_fsm_terminates_doubles", "C32_lsm_terminates_doubles", "C32_fsm_terminates_exact", "C32_lsm_terminates_exact", "C32_fsm_stops_by_itself", "C32_fsm_stops_by_itself_doubles", "C32_lsm_stops_by_itself", "C32_lsm_stops_by_itself_doubles", "C32_at_most_maxSweeps"], "note": ""},
{"property": "C33", "status": "proved", "theorems": ["C33_lsm_solves_eikonal", "C33_times_never_increase"], "note": ""},
{"property": "C34", "status": "proved", "theorems": ["C34_solvers_agree", "C34_all_solvers_have_a_result", "C34_adjacent_initial_points_refuted"], "note": "result_of: complete runs; only its FMM clause asks for initial points that are not neighbours. C52 and C101-C109 use it, so their statements about FSM, LSM and DDQM take neighbouring initial points."},
{"property": "C35", "status": "proved", "theorems": ["C35_ddqm_terminates_exact", "C35_ddqm_terminates_doubles", "C35_ddqm_solves_eikonal"], "note": ""},
{"property": "C36", "status": "proved", "theorems": ["C36_emptying_the_list_decrements_begin", "C36_no_cell_is_listed_twice", "C36_every_pass_keeps_the_list", "C36_no_time_below_the_solution"], "note": ""},
{"property": "C37", "status": "proved", "theorems": ["C37_step_zero_never_ends", "C37_absorbed_step_never_ends", "C37_step_is_kept", "C37_doubles_never_end", "C37_step_is_kept_doubles", "C37_object_keeps_the_first_default_step"], "note": ""},
{"property": "C38", "status": "proved", "theorems": ["C38_setup_decides", "C38_setup_exits_iff", "C38_missing_grid", "C38_not_checked"], "note": ""},
{"property": "C39", "status": "proved", "theorems": ["C39_no_cell_is_the_goal", "C39_runs_never_stop_early"], "note": ""},
{"property": "C40", "status": "proved", "theorems": ["C40_fm2_computes", "C40_velocities_are_normalised", "C40_saturation_does_not_saturate", "C40_small_saturation_is_relative_to_the_map"], "note": ""},
{"property": "C41", "status": "proved", "theorems": ["C41_single_obstacle_exits", "C41_refusals", "C41_no_goal_undefined", "C41_second_run_after_path_exits"], "note": ""},
{"property": "C42", "status": "proved", "theorems": ["C42_endless_after_fmm", "C42_no_path_after_fm2", "C42_array_overrun", "C42_path_shape", "C42_one_velocity_per_point", "C42_steps_bounded", "C42_walled_descent", "C42_never_returns", "C42_stuck_start"], "note": ""},
{"property": "C43", "status": "proved", "theorems": ["C43_image_is_flipped"], "note": ""},
{"property": "C44", "status": "proved", "theorems": ["C44_round_trip", "C44_errors"], "note": ""},
{"property": "C45", "status": "proved", "theorems": ["C45_identifiers_differ", "C45_identifiers_have_four_characters", "C45_run_files_differ", "C45_same_stem_same_file", "C45_log", "C45_configuration_line", "C45_runs_are_independent", "C45_fresh_fmm", "C45_fresh_fsm", "C45_fresh_fim", "C45_fresh_gmm", "C45_fresh_ufmm", "C45_lsm_spoils_the_next_solver"], "note": ""},
{"property": "C46", "status": "proved", "theorems": ["C46_split_characterised", "C46_empty_string", "C46_one_field", "C46_two_fields", "C46_three_fields"], "note": ""},
{"property": "C47", "status": "proved", "theorems": ["C47_default", "C47_with_parameters", "C47_ddqm_with_parameters_is_lsm", "C47_ddqm_with_a_name", "C47_unknown_strategy", "C47_short_name", "C47_single_digit_ignored", "C47_in_order", "C47_read", "C47_read_order"], "note": ""},
{"property": "C48", "status": "proved", "theorems": ["C48_findArguments", "C48_scalar", "C48_scalar_total", "C48_vector_found", "C48_vector_missing"], "note": ""},
{"property": "C49", "status": "proved", "theorems": ["C49_better_is_strict_order_doubles", "C49_no_infinite_improvement"], "note": ""},
{"property": "C50", "status": "proved", "theorems": ["C50_heap_comparison_is_a_strict_weak_order", "C50_holds_for_doubles", "C50_fails_with_nan"], "note": ""},
{"property": "C51", "status": "proved", "theorems": ["C51_obstacle_iff_velocity_below_the_margin", "C51_nan_velocity_is_free", "C51_grey_levels"], "note": ""},
{"property": "C52", "status": "proved", "theorems": ["C52_exact_solution_exists_and_is_unique", "C52_solvers_are_close_to_the_exact_solution"], "note": ""},
{"property": "C53", "status": "proved", "theorems": ["C53_no_solver_is_below_the_exact_solution", "C53_times_are_infinite_or_nonnegative"], "note": ""},
{"property": "C54", "status": "proved", "theorems": ["C54_reached_cells_are_connected_to_a_source", "C54_doubles"], "note": ""},
{"property": "C55", "status": "proved", "theorems": ["C55_fim_within_tolerance_of_the_solution"], "note": ""},
{"property": "C56", "status": "proved", "theorems": ["C56_gmm_terminates_and_reaches_the_reachable_cells", "C56_gmm_terminates_with_a_goal"], "note": ""},
{"property": "C57", "status": "proved", "theorems": ["C57_new_map_stays_flagged_clean", "C57_compute_leaves_the_solver_set_up", "C57_reset_does_not_help", "C57_checks_are_skipped"], "note": ""},
{"property": "C58", "status": "proved", "theorems": ["C58_heuristic_lost_after_a_run_without_goal"], "note": ""},
{"property": "C59", "status": "proved", "theorems": ["C59_splitAndCast"], "note": ""},
{"property": "C60", "status": "proved", "theorems": ["C60_truncated_file_is_completed", "C60_no_values", "C60_unreadable_value_blocks_the_rest", "C60_unreadable_dimension"], "note": ""},
{"property": "C61", "status": "proved", "theorems": ["C61_reset_keeps_the_computed_velocities", "C61_negative_distance_removes_the_obstacles", "C61_negative_distance_end_to_end", "C61_second_answer_differs"], "note": ""},
{"property": "C62", "status": "proved", "theorems": ["C62_path_file", "C62_path_file_determines_the_path", "C62_velocity_file", "C62_extracted_path_can_be_saved", "C62_grid_file"], "note": ""},
{"property": "C63", "status": "proved", "theorems": ["C63_coordinates_choose_the_cell", "C63_refused_exactly_when", "C63_outside_coordinates_alias", "C63_needs_a_grid"], "note": ""},
{"property": "C64", "status": "proved", "theorems": ["C64_clear_forgets_the_points", "C64_clear_keeps_the_problem", "C64_clear_forgets_the_distances", "C64_clear_then_new_point", "C64_ufmm_unusable_after_clear", "C64_fm2_unusable_after_clear", "C64_fm2_alive_until_clear"], "note": ""},
{"property": "C65", "status": "proved", "theorems": ["C65_ufmm_accepts_each_connected_cell_once", "C65_without_goal_all_connected_cells_are_accepted", "C65_default_band_doubles", "C65_band_exact", "C65_adjacent_sources_are_undefined"], "note": ""},
{"property": "C66", "status": "proved", "theorems": ["C66_ufmm_error_is_at_most_one_bucket_per_cell", "C66_ufmm_whole_grid", "C66_slow_cells_break_ufmm"], "note": ""},
{"property": "C67", "status": "proved", "theorems": ["C67_heuristic_values_doubles", "C67_heuristic_values_exact"], "note": ""},
{"property": "C68", "status": "proved", "theorems": ["C68_sfmm_terminates_doubles", "C68_sfmm_terminates_exact", "C68_sfmm_accepts_the_connected_cells"], "note": ""},
{"property": "C69", "status": "proved", "theorems": ["C69_priority_queue_returns_minima", "C69_pop_fails_only_when_empty", "C69_push_all_then_pop_all_sorts"], "note": ""},
{"property": "C70", "status": "proved", "theorems": ["C70_fmdaryheap_serves_every_history", "C70_handle_of_a_cell_stored_twice_can_be_stale", "C15_fmm_with_fmdaryheap_terminates", "C17_fmm_with_fmdaryheap_accepts_the_connected_cells", "C18_fmm_with_fmdaryheap_solves_eikonal"], "note": ""},
{"property": "C71", "status": "proved", "theorems": ["C71_fim_terminates", "C71_fim_without_goal_solves"], "note": "exact arithmetic (extended reals); by a measure over the finitely many levels of cells whose time is below a computed bound, on which every relaxation either decreases the measure or changes nothing"},
{"property": "C72", "status": "proved", "theorems": ["C72_plots_show_the_grid", "C72_plotting_a_loaded_image", "C72_shades_of_arrival_times"], "note": "any arithmetic for the pixel/cell correspondence; exact arithmetic for the round trip and the shades. The CImg image is its data vector; the display window and the colour table (img.map) are not modelled"},
{"property": "C73", "status": "proved", "theorems": ["C73_a_path_is_drawn_on_its_cells", "C73_other_path_plots", "C73_at_most_two_paths", "C73_points_outside_the_grid", "C73_computed_paths_can_be_plotted"], "note": "any arithmetic; that computed paths can be plotted is proved in exact arithmetic on maps with a border of obstacles (C42)"},
{"property": "C74", "status": "proved", "theorems": ["C74_selected_points"], "note": "mouse events are a list of what the display reports after each wait()"},
{"property": "C75", "status": "proved", "theorems": ["C75_fmfibheap_serves_every_history", "C75_nan_times_break_the_queue", "C75_handle_of_a_cell_stored_twice_can_be_stale", "C15_fmm_with_fmfibheap_terminates", "C17_fmm_with_fmfibheap_accepts_the_connected_cells", "C18_fmm_with_fmfibheap_solves_eikonal"], "note": "boost fibonacci_heap modelled from its published source; the 64-slot table of consolidate() is unbounded in the model"},
{"property": "C76", "status": "proved", "theorems": ["C76_exact_solution_exists", "C76_doubles_are_never_early", "C76_doubles_sources_at_zero"], "note": "IEEE doubles via Flocq; grid size and velocity contrast limited by within_resolution; exact solution in real arithmetic as reference"},
{"property": "C77", "status": "proved", "theorems": ["C77_doubles_are_accurate", "C77_solvers_agree_in_doubles", "C77_all_solvers_have_a_result", "C77_fmm_with_the_library_heaps", "C77_uniform_maps_are_within_resolution"], "note": "IEEE doubles via Flocq; grid size and velocity contrast limited by within_resolution; exact solution in real arithmetic as reference"},
{"property": "C78", "status": "proved", "theorems": ["C78_accepted_cells_are_accurate", "C78_goal_time_is_accurate"], "note": "IEEE doubles via Flocq; grid size and velocity contrast limited by within_resolution; exact solution in real arithmetic as reference"},
{"property": "C79", "status": "proved", "theorems": ["C79_any_heuristic_reaches_the_connected_cells", "C79_goal_time_with_any_heuristic", "C79_heuristic_changes_the_goal_time"], "note": "exact arithmetic (extended reals), any strategy and lawful heap; the goal-time difference is an F64 computation"},
{"property": "C80", "status": "proved", "theorems": ["C80_points_need_the_environment", "C80_setup_adds_the_goal_check", "C80_no_goal_exits", "C80_noheur_is_fm2", "C80_star_computes", "C80_distances_are_of_the_map_at_setPoints", "C80_larger_map_needs_the_points_again"], "note": "setup part for any arithmetic; the computation in exact arithmetic for >= 2 dimensions of at most 65536 cells each (the range in which the table lookups are exact, C24)"},
{"property": "C81", "status": "proved", "theorems": ["C81_never_early_and_bounded", "C81_sources_at_zero", "C81_star_reaches_the_connected_cells", "C81_star_goal_time", "C81_ufmm_reaches_the_connected_cells"], "note": "doubles (Flocq binary64); hypotheses within_resolution, quiet_sources (one source or obstacle sources) for the FMM family, separated for UFMM; examples of all kinds of run"},
{"property": "C82", "status": "proved", "theorems": ["C82_runs_stay_inside_the_grid", "C82_lists_hold_cells"], "note": "every arithmetic with NumLaws; Safe.v: a safety logic over the model; example with a dirty grid"},
{"property": "C83", "status": "proved", "theorems": ["C83_fmm", "C83_fim", "C83_ufmm", "C83_fsm", "C83_lsm", "C83_gmm_given_step", "C83_gmm_default_step", "C83_fmmstar", "C83_fim_faultless", "C83_fsm_faultless", "C83_lsm_faultless", "C83_gmm_faultless", "C83_ddqm_faultless", "C83_fmm_faultless_doubles"], "note": "histories of requests as lists; DDQM only for absence of faults (its result depends on thresholds reset() chooses, C39/C35)"},
{"property": "C84", "status": "proved", "theorems": ["C84_threshold_follows_the_rounds", "C84_positive_step_stays_positive"], "note": "rounds defined from queue lengths only, independent of the counters of the code; work of the rounds = exact number of loop steps"},
{"property": "C85", "status": "proved", "theorems": ["C85_fm2_computes_in_doubles", "C85_fm2_with_the_library_heaps", "C85_velocity_map_within_resolution"], "note": "saturation (maxDistance other than -1) is covered in exact arithmetic by C40 only"},
{"property": "C86", "status": "proved", "theorems": ["C86_table_is_large_enough", "C86_histories_stay_in_the_table", "C86_overrun_or_not", "C86_wave_beyond_the_table", "C86_clear_then_compute_overruns", "C86_larger_map_overruns"], "note": "Guarded heap policies (HandleModel.v); simulation in both directions; histories by induction."},
{"property": "C87", "status": "proved", "theorems": ["C87_fim", "C87_gmm", "C87_ddqm", "C87_fsm", "C87_lsm"], "note": "five solver objects, every call sequence, stated for any number type with the comparison laws; smaller map counterexample included"},
{"property": "C88", "status": "proved", "theorems": ["C88_fim", "C88_gmm", "C88_fmm_doubles", "C88_fsm", "C88_ufmm"], "note": "FMM family: doubles, any heap with the bag laws; FIM, GMM, UFMM: any arithmetic; FSM: any arithmetic, with the observable condition that the initial points had time 0. LSM and DDQM are not covered (their second run solves the neighbours of the initial points again)."},
{"property": "C89", "status": "proved", "theorems": ["C89_fim", "C89_fsm"], "note": "FIM: any arithmetic; FSM: any arithmetic with the comparison laws. Counterexample runs for LSM, GMM and UFMM are included as Examples; FMM and DDQM are not covered."},
{"property": "C90", "status": "proved", "theorems": ["C90_never_negative", "C90_sources_stay_zero", "C90_fsm_repeat", "C90_fsm_continue"], "note": "runs of DDQM, FIM and GMM start with empty saved queues; FMM, FSM, LSM, UFMM from any grid, heap or band state"},
{"property": "C91", "status": "proved", "theorems": ["C91_survives", "C91_library_heaps"], "note": "The heap stores pointers to cells, the model indices: the two agree because a new map is only given when the heap is empty. The storage of the distance table is as in C24 (writes past size() reach reserved storage)."},
{"property": "C92", "status": "proved", "theorems": ["C92_no_tolerance_helps", "C92_default_tolerance_never_ends", "C92_back_and_forth", "C92_exact_arithmetic_ends", "C92_the_others_end"], "note": "Refutation of termination on doubles: concrete maps for all fuels (cycle of states), general back-and-forth theorem, and the contrast with exact arithmetic."},
{"property": "C93", "status": "proved", "theorems": ["C93_ufmm_is_defined_on_slow_maps", "C93_far_times_have_no_bucket", "C93_a_very_slow_cell_is_undefined"], "note": "Exact arithmetic for the positive part (lower bounds of bucket slots instead of windows); the undefined conversion generally at the queue and on a concrete map in doubles."},
{"property": "C94", "status": "proved", "theorems": ["C94_parse_grid", "C94_short_file"], "note": "Number texts through parameters show/read; numbers fill their words; a Matlab error is Exit 1."},
{"property": "C95", "status": "proved", "theorems": ["C95_load_saved_array", "C95_single_layer_is_lost", "C95_through_matlab_and_back"], "note": "'%.2f' and '%f' through parameters; elements must be printed as words the C++ reader accepts."},
{"property": "C96", "status": "proved", "theorems": ["C96_parse_path", "C96_parse_path_and_velocity", "C96_idx2coord"], "note": "Both readings of a fractional array size (error, truncation) are covered by a flag."},
{"property": "C97", "status": "proved", "theorems": ["C97_library_solvers_keep_dims", "C97_benchmark_log", "C97_names_with_spaces"], "note": "All solver classes of the library are shown to meet the hypothesis that setEnvironment keeps the dimensions."},
{"property": "C98", "status": "proved", "theorems": ["C98_options", "C98_does_nothing", "C98_unreadable_number_aborts", "C98_runs_what_is_asked", "C98_log", "C98_grids", "C98_start_inside", "C98_start_outside", "C98_leaf_size_of_the_map_is_ignored", "C98_default_name", "C98_solver_objects"], "note": "Program fm_benchmark as a function of its arguments and files; boost lexical_cast, the image loader and the clock are parameters. Whether a run finishes is C15/C32/C36/C68, not this claim."},
{"property": "C99", "status": "proved", "theorems": ["C99_benchmark_ends_if_each_solver_does", "C99_benchmark_ends", "C99_program_ends", "C99_map_that_cannot_be_opened", "C99_empty_map"], "note": "lsm and ddqm (which spoil the runs after them, C45) and fim, gmm, ufmm (which need not finish on doubles: C92, C37, C93) are outside the claim."},
{"property": "C100", "status": "proved", "theorems": ["C100_each_answer_is_the_solvers_own", "C100_the_sequence_ends", "C100_what_each_solver_computes", "C100_explicit_setup_makes_no_difference", "C100_fmm3d_start", "C100_fmm3d_no_map", "C100_fmm3d_answers", "C100_the_loop_ends_in_doubles"], "note": "test_fm.cpp's console output, timing and plots are not modelled; test_fmm3d from its arguments to its output file."},
{"property": "C101", "status": "proved", "theorems": ["C101_easier_maps_are_never_slower", "C101_easier_maps_doubles"], "note": "exact arithmetic (solver_run: any of the seven families; FIM, GMM, UFMM included) and doubles within resolution (C76)."},
{"property": "C102", "status": "proved", "theorems": ["C102_symmetric_maps_give_symmetric_times", "C102_symmetric_maps_doubles"], "note": "mirror images and axis exchanges generate all symmetries; initial points not next to each other where FMM is used (separated)."},
{"property": "C103", "status": "proved", "theorems": ["C103_changing_units_scales_the_times", "C103_changing_units_doubles"], "note": "COMP_MARGIN is an absolute number and does not scale: the error terms of both maps appear."},
{"property": "C104", "status": "proved", "theorems": ["C104_no_slower_than_any_route", "C104_no_faster_than_the_straight_line", "C104_triangle_inequality", "C104_no_slower_than_any_route_doubles", "C104_no_faster_than_the_straight_line_doubles", "C104_triangle_inequality_doubles"], "note": "Examples: two initial points break the straight-line bound; times are not symmetric."},
{"property": "C105", "status": "proved", "theorems": ["C105_small_changes_of_the_velocities", "C105_small_changes_doubles"], "note": "The factor is on the whole map; both arithmetics. In doubles the relative errors of C76/C77 multiply the factor."},
{"property": "C106", "status": "proved", "theorems": ["C106_later_cells_do_not_matter", "C106_later_cells_doubles"], "note": "The cells changed must lie beyond the given time by more than the accuracy of the solver, as the theorem is about what solvers report."},
{"property": "C107", "status": "proved", "theorems": ["C107_open_ground", "C107_straight_corridors_are_exact", "C107_open_ground_doubles"], "note": "Between the straight line and the number of steps; along an axis both are equal."},
{"property": "C108", "status": "proved", "theorems": ["C108_every_cell_has_an_earlier_neighbour", "C108_every_cell_has_a_downhill_way", "C108_every_cell_has_an_earlier_neighbour_doubles", "C108_every_cell_has_a_downhill_way_doubles"], "note": "For the complete runs of FMM, FSM, LSM and DDQM in real arithmetic (the earlier neighbour, and the whole way when every cost exceeds the error) and in doubles (with the two relative errors of C77)."},
{"property": "C109", "status": "proved", "theorems": ["C109_what_is_behind_walls_does_not_matter", "C109_what_is_behind_walls_doubles"], "note": "Real arithmetic: any two results of FMM, FSM, LSM and DDQM. Doubles: any solver's run inside one map against a complete run of FMM, FSM, LSM or DDQM on the other. Dimensions of size one are excluded (C05): a map is compared with a slab of at least two layers."},
{"property": "C110", "status": "proved", "theorems": ["C110_fsm_points_are_a_set", "C110_lsm_points_are_a_set", "C110_order_of_the_points", "C110_order_of_the_points_doubles"], "note": "FSM/LSM: equality of the runs for lists with the same elements, whatever the arithmetic; the other solvers and the reordering of distinct points through the common exact solution (exact arithmetic and doubles)."},
{"property": "C111", "status": "proved", "theorems": ["C111_gmm_leaves_initial_points_at_zero", "C111_fmm_never_accepts_neighbours_at_zero", "C111_fmm_delays_one_of_two_neighbours", "C111_fim_delays_the_neighbour_given_later", "C111_sweeping_leaves_initial_points_at_zero", "C111_sweeping_leaves_initial_points_at_zero_doubles", "C111_ufmm_has_no_result_for_neighbours", "C65_adjacent_sources_are_undefined", "C16_adjacent_sources_refuted"], "note": "positive: GMM (any arithmetic), FSM/LSM/DDQM (exact and doubles); negative, for every problem: FMM family and FIM (exact); UFMM by a witness in doubles"},
{"property": "C112", "status": "proved", "theorems": ["C112_refusals", "C112_each_result_is_the_planners_own", "C112_start_and_goal", "C112_exact_answers", "C112_fm2_answers_in_doubles", "C112_pictures"], "note": "Any arithmetic for refusals, sequence, start and goal. That computePath ends is not claimed (see C41, C42). Answers: exact arithmetic for FM2 and FM2* over the d-ary and the Fibonacci heap, doubles for FM2 over them. The static_cast at line 70 is wrong by the standard for six of the nine planners; it is modelled as the virtual call compilers make of it."},
{"property": "C113", "status": "proved", "theorems": ["C113_one_run_lost", "C113_harmless_order", "C113_ddqm_steps_agree", "C113_test_fm_benchmark"], "note": "Any arithmetic, but the two formulas DDQM has for its step (in setEnvironment and in reset) must agree on the map when a DDQM is in the list; C113_ddqm_steps_agree proves this for every new map of doubles. Partial correctness: runs that end (the hypothesis is that run() returned). test_fm_benchmark: doubles; fuel is a parameter."}
]}
