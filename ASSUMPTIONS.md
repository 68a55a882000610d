# Print Assumptions of every property theorem

## Closed under the global context (219 theorems)

* `Prop_Grid.C01_index_coordinate_bijection`
* `Prop_Grid.C01_one_dimension_undefined`
* `Prop_Grid.C02_neighbours_exact`
* `Prop_Grid.C03_neighbourhood_symmetric`
* `Prop_Grid.C04_neighbours_wrap_refuted`
* `Prop_Grid.C05_min_value_in_dim`
* `Prop_Grid.C05_flat_dimension_reads_buffer`
* `Prop_Grid.C06_resize_fresh`
* `Prop_Grid.C06_resize_wraps_refuted`
* `Prop_Grid.C07_clean`
* `Prop_Grid.C08_max_value`
* `Prop_Grid.C08_max_speed`
* `Prop_Grid.C09_clear_leaves_size`
* `Prop_FMM.C15_fmm_terminates_any_arithmetic`
* `Prop_FMM.C16_obstacle_sources_at_zero`
* `Prop_FMM.C16_single_source_at_zero`
* `Prop_Clear.C17_freezes_exactly_connected_any_arithmetic`
* `Prop_Clear.C17_goal_frozen_iff_connected_any_arithmetic`
* `Prop_FMM.C19_accepted_is_final`
* `Prop_Frame.C20_fmm_keeps_map`
* `Prop_Frame.C20_fsm_keeps_map`
* `Prop_Frame.C20_lsm_keeps_map`
* `Prop_Frame.C20_ddqm_keeps_map`
* `Prop_Frame.C20_fim_keeps_map`
* `Prop_Frame.C20_gmm_keeps_map`
* `Prop_Frame.C20_ufmm_keeps_map`
* `Prop_FMM.C21_each_cell_once_any_arithmetic`
* `Prop_FMM.C22_goal_run_is_prefix`
* `Prop_FMM.C22_goal_time_unchanged`
* `Prop_Star.C24_lookups_succeed`
* `Prop_Star.C24_table_written_past_the_end`
* `Prop_Solver.C25_fmm_reusable`
* `Prop_Solver.C25_fsm_reusable`
* `Prop_Solver.C25_lsm_reusable`
* `Prop_Solver.C25_fim_reusable`
* `Prop_Solver.C25_gmm_reusable`
* `Prop_Solver.C25_ufmm_reusable`
* `Prop_Solver.C26_fmm_after_lsm_computes_nothing`
* `Prop_Solver.C26_fmm_after_lsm_returns`
* `Prop_SFMM.C27_improving_stores_a_second_entry`
* `Prop_SFMM.C27_pop_takes_one_copy`
* `Prop_Untidy.C28_untidy_queue_loses_nothing`
* `Prop_Untidy.C28_pop_removes_what_top_returned`
* `Prop_Sweep.C29_sweep_visits_each_free_cell_once_in_order`
* `Prop_Sweep.C29_applies_to_fsm_and_lsm`
* `Prop_Sweep.C30_directions_cycle_through_all`
* `Prop_Sweep.C30_initial_directions`
* `Prop_Sweep.C31_times_never_increase`
* `Prop_Sweep.C31_one_update_never_increases`
* `Prop_Sweep.C32_at_most_maxSweeps`
* `Prop_Sweep.C33_times_never_increase`
* `Prop_FIM.C36_emptying_the_list_decrements_begin`
* `Prop_FIM.C36_no_cell_is_listed_twice`
* `Prop_FIM.C36_every_pass_keeps_the_list`
* `Prop_GMM.C37_absorbed_step_never_ends`
* `Prop_GMM.C37_step_is_kept`
* `Prop_Solver.C38_setup_decides`
* `Prop_Solver.C38_setup_exits_iff`
* `Prop_Solver.C38_missing_grid`
* `Prop_Solver.C38_not_checked`
* `Prop_Solver.C39_no_cell_is_the_goal`
* `Prop_Solver.C39_runs_never_stop_early`
* `Prop_FM2Obj.C41_single_obstacle_exits`
* `Prop_FM2Obj.C41_refusals`
* `Prop_FM2Obj.C41_no_goal_undefined`
* `Prop_GD.C42_array_overrun`
* `Prop_GD.C42_path_shape`
* `Prop_GD.C42_one_velocity_per_point`
* `Prop_IO.C43_image_is_flipped`
* `Prop_IO.C44_round_trip`
* `Prop_IO.C44_errors`
* `Prop_Bench.C45_identifiers_differ`
* `Prop_Bench.C45_identifiers_have_four_characters`
* `Prop_Bench.C45_run_files_differ`
* `Prop_Bench.C45_same_stem_same_file`
* `Prop_Bench.C45_log`
* `Prop_Bench.C45_configuration_line`
* `Prop_Bench.C45_runs_are_independent`
* `Prop_Bench.C45_fresh_fmm`
* `Prop_Bench.C45_fresh_fsm`
* `Prop_Bench.C45_fresh_fim`
* `Prop_Bench.C45_fresh_gmm`
* `Prop_Bench.C45_fresh_ufmm`
* `Prop_Text.C46_split_characterised`
* `Prop_Text.C46_empty_string`
* `Prop_Text.C46_one_field`
* `Prop_Text.C46_two_fields`
* `Prop_Text.C46_three_fields`
* `Prop_Text.C47_default`
* `Prop_Text.C47_with_parameters`
* `Prop_Text.C47_ddqm_with_parameters_is_lsm`
* `Prop_Text.C47_ddqm_with_a_name`
* `Prop_Text.C47_unknown_strategy`
* `Prop_Text.C47_short_name`
* `Prop_Text.C47_single_digit_ignored`
* `Prop_Text.C47_in_order`
* `Prop_Text.C47_read`
* `Prop_Text.C47_read_order`
* `Prop_Text.C48_findArguments`
* `Prop_Text.C48_scalar`
* `Prop_Text.C48_scalar_total`
* `Prop_Text.C48_vector_found`
* `Prop_Text.C48_vector_missing`
* `Prop_Heap.C50_heap_comparison_is_a_strict_weak_order`
* `Prop_Heap.C51_nan_velocity_is_free`
* `Prop_Bound.C54_reached_cells_are_connected_to_a_source`
* `Prop_Life.C57_new_map_stays_flagged_clean`
* `Prop_Life.C57_compute_leaves_the_solver_set_up`
* `Prop_Life.C58_heuristic_lost_after_a_run_without_goal`
* `Prop_Text.C59_splitAndCast`
* `Prop_IO.C60_truncated_file_is_completed`
* `Prop_IO.C60_no_values`
* `Prop_IO.C60_unreadable_value_blocks_the_rest`
* `Prop_IO.C60_unreadable_dimension`
* `Prop_PathIO.C62_path_file`
* `Prop_PathIO.C62_path_file_determines_the_path`
* `Prop_PathIO.C62_velocity_file`
* `Prop_PathIO.C62_extracted_path_can_be_saved`
* `Prop_PathIO.C62_grid_file`
* `Prop_Clear.C63_coordinates_choose_the_cell`
* `Prop_Clear.C63_refused_exactly_when`
* `Prop_Clear.C63_outside_coordinates_alias`
* `Prop_Clear.C63_needs_a_grid`
* `Prop_Clear.C64_clear_forgets_the_points`
* `Prop_Clear.C64_clear_keeps_the_problem`
* `Prop_Clear.C64_clear_forgets_the_distances`
* `Prop_Clear.C64_clear_then_new_point`
* `Prop_Clear.C64_ufmm_unusable_after_clear`
* `Prop_Clear.C64_fm2_unusable_after_clear`
* `Prop_Clear.C64_fm2_alive_until_clear`
* `Prop_UFMM.C65_ufmm_accepts_each_connected_cell_once`
* `Prop_UFMM.C65_without_goal_all_connected_cells_are_accepted`
* `Prop_SFMM.C69_priority_queue_returns_minima`
* `Prop_SFMM.C69_pop_fails_only_when_empty`
* `Prop_SFMM.C69_push_all_then_pop_all_sorts`
* `Prop_Dary.C70_fmdaryheap_serves_every_history`
* `Prop_Plot.C72_plots_show_the_grid`
* `Prop_Plot.C73_a_path_is_drawn_on_its_cells`
* `Prop_Plot.C73_other_path_plots`
* `Prop_Plot.C73_at_most_two_paths`
* `Prop_Plot.C73_points_outside_the_grid`
* `Prop_Plot.C74_selected_points`
* `Prop_Fib.C75_fmfibheap_serves_every_history`
* `Prop_FM2Star.C80_points_need_the_environment`
* `Prop_FM2Star.C80_setup_adds_the_goal_check`
* `Prop_FM2Star.C80_no_goal_exits`
* `Prop_FM2Star.C80_noheur_is_fm2`
* `Prop_FM2Star.C80_distances_are_of_the_map_at_setPoints`
* `Prop_History.C82_runs_stay_inside_the_grid`
* `Prop_History.C82_lists_hold_cells`
* `Prop_History.C83_fmm`
* `Prop_History.C83_fim`
* `Prop_History.C83_ufmm`
* `Prop_History.C83_fsm`
* `Prop_History.C83_lsm`
* `Prop_History.C83_gmm_given_step`
* `Prop_History.C83_gmm_default_step`
* `Prop_History.C83_fmmstar`
* `Prop_History.C83_fim_faultless`
* `Prop_History.C83_fsm_faultless`
* `Prop_History.C83_lsm_faultless`
* `Prop_History.C83_gmm_faultless`
* `Prop_History.C83_ddqm_faultless`
* `Prop_Threshold.C84_threshold_follows_the_rounds`
* `Prop_Handles.C86_table_is_large_enough`
* `Prop_Handles.C86_histories_stay_in_the_table`
* `Prop_Handles.C86_overrun_or_not`
* `Prop_Handles.C86_wave_beyond_the_table`
* `Prop_Handles.C86_clear_then_compute_overruns`
* `Prop_Handles.C86_larger_map_overruns`
* `Prop_Calls.C87_fim`
* `Prop_Calls.C87_gmm`
* `Prop_Calls.C87_ddqm`
* `Prop_Calls.C87_fsm`
* `Prop_Calls.C87_lsm`
* `Prop_Repeat.C88_fim`
* `Prop_Repeat.C88_gmm`
* `Prop_Repeat.C88_fsm`
* `Prop_RepeatUFMM.C88_ufmm`
* `Prop_Continue.C89_fim`
* `Prop_Continue.C89_fsm`
* `Prop_CallsFMM.C91_survives`
* `Prop_FIMLoop.C92_back_and_forth`
* `Prop_Scripts.C94_parse_grid`
* `Prop_Scripts.C94_short_file`
* `Prop_Scripts.C95_load_saved_array`
* `Prop_Scripts.C95_single_layer_is_lost`
* `Prop_Scripts.C95_through_matlab_and_back`
* `Prop_ScriptPath.C96_parse_path`
* `Prop_ScriptPath.C96_parse_path_and_velocity`
* `Prop_ScriptPath.C96_idx2coord`
* `Prop_ScriptLog.C97_library_solvers_keep_dims`
* `Prop_ScriptLog.C97_benchmark_log`
* `Prop_Cfg.C98_options`
* `Prop_Cfg.C98_does_nothing`
* `Prop_Cfg.C98_unreadable_number_aborts`
* `Prop_Cfg.C98_runs_what_is_asked`
* `Prop_Cfg.C98_log`
* `Prop_Cfg.C98_grids`
* `Prop_Cfg.C98_start_inside`
* `Prop_Cfg.C98_start_outside`
* `Prop_Cfg.C98_leaf_size_of_the_map_is_ignored`
* `Prop_Cfg.C98_default_name`
* `Prop_Cfg.C98_solver_objects`
* `Prop_CfgRun.C99_benchmark_ends_if_each_solver_does`
* `Prop_Example.C100_each_answer_is_the_solvers_own`
* `Prop_Example.C100_the_sequence_ends`
* `Prop_Example.C100_what_each_solver_computes`
* `Prop_Example.C100_explicit_setup_makes_no_difference`
* `Prop_Example.C100_fmm3d_start`
* `Prop_Example.C100_fmm3d_no_map`
* `Prop_Points.C110_fsm_points_are_a_set`
* `Prop_Points.C110_lsm_points_are_a_set`
* `Prop_Adjacent.C111_gmm_leaves_initial_points_at_zero`
* `Prop_TestFM2.C112_refusals`
* `Prop_TestFM2.C112_each_result_is_the_planners_own`
* `Prop_TestFM2.C112_start_and_goal`
* `Prop_BenchLSM.C113_one_run_lost`
* `Prop_BenchLSM.C113_harmless_order`

## `ClassicalDedekindReals.sig_forall_dec`, `ClassicalDedekindReals.sig_not_dec`, `FunctionalExtensionality.functional_extensionality_dep` (93 theorems)

* `Prop_Grid.C08_avg_speed`
* `Prop_Eikonal.C10_update_solves_upwind_equation`
* `Prop_Eikonal.C11_update_is_causal`
* `Prop_Eikonal.C11_discriminant_never_negative`
* `Prop_Eikonal.C12_infinite_iff_no_upwind_neighbour`
* `Prop_Eikonal.C14_dimension_order_irrelevant_exact`
* `Prop_FMM.C15_fmm_terminates_exact`
* `Prop_SFMM.C15_fmm_terminates_exact_any_sources`
* `Prop_FMM.C16_sources_at_zero`
* `Prop_FMM.C17_reaches_exactly_connected`
* `Prop_Dary.C18_fmm_with_fmdaryheap_solves_eikonal`
* `Prop_FMM.C18_fmm_solves_eikonal`
* `Prop_FMM.C18_time_is_root_of_upwind_equation`
* `Prop_Fib.C18_fmm_with_fmfibheap_solves_eikonal`
* `Prop_FMM.C19_accepted_in_order`
* `Prop_FMM.C21_each_cell_once`
* `Prop_Star.C24_distance_is_euclidean`
* `Prop_Solver.C25_ddqm_reset_changes_the_threshold`
* `Prop_UFMM.C28_top_is_within_one_bucket_of_the_minimum`
* `Prop_UFMM.C28_calls_inside_the_window_succeed`
* `Prop_UFMM.C28_late_times_share_the_last_bucket`
* `Prop_Untidy.C28_push_defined_from_the_origin_on`
* `Prop_Sweep.C31_fsm_solves_eikonal`
* `Prop_Sweep.C32_fsm_terminates_exact`
* `Prop_Sweep.C32_lsm_terminates_exact`
* `Prop_Sweep.C32_fsm_stops_by_itself`
* `Prop_Sweep.C32_lsm_stops_by_itself`
* `Prop_Sweep.C33_lsm_solves_eikonal`
* `Prop_Sweep.C34_solvers_agree`
* `Prop_Sweep.C34_all_solvers_have_a_result`
* `Prop_Sweep.C35_ddqm_terminates_exact`
* `Prop_Sweep.C35_ddqm_solves_eikonal`
* `Prop_FIM.C36_no_time_below_the_solution`
* `Prop_GMM.C37_step_zero_never_ends`
* `Prop_Life.C37_object_keeps_the_first_default_step`
* `Prop_FM2.C40_fm2_computes`
* `Prop_FM2.C40_velocities_are_normalised`
* `Prop_FM2.C40_saturation_does_not_saturate`
* `Prop_FM2.C40_small_saturation_is_relative_to_the_map`
* `Prop_FM2Obj.C41_second_run_after_path_exits`
* `Prop_FM2Obj.C42_endless_after_fmm`
* `Prop_FM2Obj.C42_no_path_after_fm2`
* `Prop_GD.C42_steps_bounded`
* `Prop_GD.C42_walled_descent`
* `Prop_GD.C42_never_returns`
* `Prop_GD.C42_stuck_start`
* `Prop_Bound.C52_exact_solution_exists_and_is_unique`
* `Prop_Bound.C52_solvers_are_close_to_the_exact_solution`
* `Prop_Bound.C53_no_solver_is_below_the_exact_solution`
* `Prop_Bound.C53_times_are_infinite_or_nonnegative`
* `Prop_FIM.C55_fim_within_tolerance_of_the_solution`
* `Prop_GMM.C56_gmm_terminates_and_reaches_the_reachable_cells`
* `Prop_GMM.C56_gmm_terminates_with_a_goal`
* `Prop_FM2Again.C61_reset_keeps_the_computed_velocities`
* `Prop_FM2Again.C61_negative_distance_removes_the_obstacles`
* `Prop_FM2Again.C61_negative_distance_end_to_end`
* `Prop_UFMM.C65_band_exact`
* `Prop_UFMM.C66_ufmm_error_is_at_most_one_bucket_per_cell`
* `Prop_UFMM.C66_ufmm_whole_grid`
* `Prop_SFMM.C67_heuristic_values_exact`
* `Prop_SFMM.C68_sfmm_terminates_exact`
* `Prop_Dary.C18_fmm_with_fmdaryheap_solves_eikonal`
* `Prop_FIMTerm.C71_fim_terminates`
* `Prop_FIMTerm.C71_fim_without_goal_solves`
* `Prop_Plot.C72_plotting_a_loaded_image`
* `Prop_Plot.C72_shades_of_arrival_times`
* `Prop_Plot.C73_computed_paths_can_be_plotted`
* `Prop_Fib.C18_fmm_with_fmfibheap_solves_eikonal`
* `Prop_FM2Star.C79_any_heuristic_reaches_the_connected_cells`
* `Prop_FM2Star.C79_goal_time_with_any_heuristic`
* `Prop_Threshold.C84_positive_step_stays_positive`
* `Prop_FIMLoop.C92_exact_arithmetic_ends`
* `Prop_UFMMSlow.C93_ufmm_is_defined_on_slow_maps`
* `Prop_UFMMSlow.C93_far_times_have_no_bucket`
* `Prop_Travel.C101_easier_maps_are_never_slower`
* `Prop_Travel.C102_symmetric_maps_give_symmetric_times`
* `Prop_Travel.C103_changing_units_scales_the_times`
* `Prop_Travel.C104_no_slower_than_any_route`
* `Prop_Travel.C104_no_faster_than_the_straight_line`
* `Prop_Travel.C104_triangle_inequality`
* `Prop_Local.C105_small_changes_of_the_velocities`
* `Prop_Local.C106_later_cells_do_not_matter`
* `Prop_Local.C107_open_ground`
* `Prop_Local.C107_straight_corridors_are_exact`
* `Prop_Place.C108_every_cell_has_an_earlier_neighbour`
* `Prop_Place.C108_every_cell_has_a_downhill_way`
* `Prop_Place.C109_what_is_behind_walls_does_not_matter`
* `Prop_Points.C110_order_of_the_points`
* `Prop_Adjacent.C111_fmm_never_accepts_neighbours_at_zero`
* `Prop_Adjacent.C111_fmm_delays_one_of_two_neighbours`
* `Prop_Adjacent.C111_fim_delays_the_neighbour_given_later`
* `Prop_Adjacent.C111_sweeping_leaves_initial_points_at_zero`
* `Prop_TestFM2.C112_pictures`

## `ClassicalDedekindReals.sig_forall_dec`, `ClassicalDedekindReals.sig_not_dec`, `Classical_Prop.classic`, `FunctionalExtensionality.functional_extensionality_dep` (109 theorems)

* `Prop_Grid.C05_history_dependent_refuted`
* `Prop_Eikonal.C13_float_causality_refuted`
* `Prop_Eikonal.C13_float_causality_one_dimension`
* `Prop_Eikonal.C14_dimension_order_irrelevant_binary64`
* `Prop_Dary.C15_fmm_with_fmdaryheap_terminates`
* `Prop_FMM.C15_fmm_terminates_doubles`
* `Prop_Fib.C15_fmm_with_fmfibheap_terminates`
* `Prop_SFMM.C15_fmm_terminates_doubles_any_sources`
* `Prop_FMM.C16_adjacent_sources_refuted`
* `Prop_Dary.C17_fmm_with_fmdaryheap_accepts_the_connected_cells`
* `Prop_Fib.C17_fmm_with_fmfibheap_accepts_the_connected_cells`
* `Prop_SFMM.C17_doubles_accept_exactly_the_connected_cells`
* `Prop_Heap.C23_fmm_star_changes_the_goal_time`
* `Prop_Star.C24_table_kept_for_another_grid`
* `Prop_Heap.C27_sfmm_pops_a_non_minimal_cell`
* `Prop_Heap.C27_sfmm_times_differ_from_fmm`
* `Prop_UFMM.C28_late_times_are_given_back_out_of_order`
* `Prop_Sweep.C32_fsm_terminates_doubles`
* `Prop_Sweep.C32_lsm_terminates_doubles`
* `Prop_Sweep.C32_fsm_stops_by_itself_doubles`
* `Prop_Sweep.C32_lsm_stops_by_itself_doubles`
* `Prop_Sweep.C34_adjacent_initial_points_refuted`
* `Prop_Sweep.C35_ddqm_terminates_doubles`
* `Prop_GMM.C37_doubles_never_end`
* `Prop_GMM.C37_step_is_kept_doubles`
* `Prop_Bench.C45_lsm_spoils_the_next_solver`
* `Prop_Sweep.C49_better_is_strict_order_doubles`
* `Prop_Sweep.C49_no_infinite_improvement`
* `Prop_Heap.C50_holds_for_doubles`
* `Prop_Heap.C50_fails_with_nan`
* `Prop_Heap.C51_obstacle_iff_velocity_below_the_margin`
* `Prop_Heap.C51_grey_levels`
* `Prop_Bound.C54_doubles`
* `Prop_Life.C57_reset_does_not_help`
* `Prop_Life.C57_checks_are_skipped`
* `Prop_FM2Again.C61_second_answer_differs`
* `Prop_UFMM.C65_default_band_doubles`
* `Prop_UFMM.C65_adjacent_sources_are_undefined`
* `Prop_UFMM.C66_slow_cells_break_ufmm`
* `Prop_SFMM.C67_heuristic_values_doubles`
* `Prop_SFMM.C68_sfmm_terminates_doubles`
* `Prop_SFMM.C68_sfmm_accepts_the_connected_cells`
* `Prop_Dary.C70_handle_of_a_cell_stored_twice_can_be_stale`
* `Prop_Dary.C15_fmm_with_fmdaryheap_terminates`
* `Prop_Dary.C17_fmm_with_fmdaryheap_accepts_the_connected_cells`
* `Prop_Fib.C75_nan_times_break_the_queue`
* `Prop_Fib.C75_handle_of_a_cell_stored_twice_can_be_stale`
* `Prop_Fib.C15_fmm_with_fmfibheap_terminates`
* `Prop_Fib.C17_fmm_with_fmfibheap_accepts_the_connected_cells`
* `Prop_Float.C76_exact_solution_exists`
* `Prop_Float.C76_doubles_are_never_early`
* `Prop_Float.C76_doubles_sources_at_zero`
* `Prop_Float.C77_doubles_are_accurate`
* `Prop_Float.C77_solvers_agree_in_doubles`
* `Prop_Float.C77_all_solvers_have_a_result`
* `Prop_Float.C77_fmm_with_the_library_heaps`
* `Prop_Float.C77_uniform_maps_are_within_resolution`
* `Prop_Float.C78_accepted_cells_are_accurate`
* `Prop_Float.C78_goal_time_is_accurate`
* `Prop_FM2Star.C79_heuristic_changes_the_goal_time`
* `Prop_FM2Star.C80_star_computes`
* `Prop_FM2Star.C80_larger_map_needs_the_points_again`
* `Prop_FloatAll.C81_never_early_and_bounded`
* `Prop_FloatAll.C81_sources_at_zero`
* `Prop_FloatAll.C81_star_reaches_the_connected_cells`
* `Prop_FloatAll.C81_star_goal_time`
* `Prop_FloatAll.C81_ufmm_reaches_the_connected_cells`
* `Prop_History.C83_fmm_faultless_doubles`
* `Prop_FM2Float.C85_fm2_computes_in_doubles`
* `Prop_FM2Float.C85_fm2_with_the_library_heaps`
* `Prop_FM2Float.C85_velocity_map_within_resolution`
* `Prop_Repeat.C88_fmm_doubles`
* `Prop_Sign.C90_never_negative`
* `Prop_Sign.C90_sources_stay_zero`
* `Prop_Sign.C90_fsm_repeat`
* `Prop_Sign.C90_fsm_continue`
* `Prop_CallsFMM.C91_library_heaps`
* `Prop_FIMLoop.C92_no_tolerance_helps`
* `Prop_FIMLoop.C92_default_tolerance_never_ends`
* `Prop_FIMLoop.C92_the_others_end`
* `Prop_UFMMSlow.C93_a_very_slow_cell_is_undefined`
* `Prop_ScriptLog.C97_names_with_spaces`
* `Prop_CfgRun.C99_benchmark_ends`
* `Prop_CfgRun.C99_program_ends`
* `Prop_CfgRun.C99_map_that_cannot_be_opened`
* `Prop_CfgRun.C99_empty_map`
* `Prop_Example.C100_fmm3d_answers`
* `Prop_Example.C100_the_loop_ends_in_doubles`
* `Prop_Travel.C101_easier_maps_doubles`
* `Prop_Travel.C102_symmetric_maps_doubles`
* `Prop_Travel.C103_changing_units_doubles`
* `Prop_Travel.C104_no_slower_than_any_route_doubles`
* `Prop_Travel.C104_no_faster_than_the_straight_line_doubles`
* `Prop_Travel.C104_triangle_inequality_doubles`
* `Prop_Local.C105_small_changes_doubles`
* `Prop_Local.C106_later_cells_doubles`
* `Prop_Local.C107_open_ground_doubles`
* `Prop_Place.C108_every_cell_has_an_earlier_neighbour_doubles`
* `Prop_Place.C108_every_cell_has_a_downhill_way_doubles`
* `Prop_Place.C109_what_is_behind_walls_doubles`
* `Prop_Points.C110_order_of_the_points_doubles`
* `Prop_Adjacent.C111_sweeping_leaves_initial_points_at_zero_doubles`
* `Prop_Adjacent.C111_ufmm_has_no_result_for_neighbours`
* `Prop_UFMM.C65_adjacent_sources_are_undefined`
* `Prop_FMM.C16_adjacent_sources_refuted`
* `Prop_TestFM2.C112_exact_answers`
* `Prop_TestFM2.C112_fm2_answers_in_doubles`
* `Prop_BenchLSM.C113_ddqm_steps_agree`
* `Prop_BenchLSM.C113_test_fm_benchmark`
