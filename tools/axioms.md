* **closed under the global context (no axioms)** (187 theorems): C01_histogram_index_in_range, C07_isInWhichFOV, C07_isOnEdgeOfFOV, C10_fov_step, C14_set_zero, C14_upsample_copies, C14_downsample_averages, C14_guarded, C15_reads_wrap_around, C15_write_defined_in_range, C15_isEmpty, C15_only_bad_writes_undefined, C16_buffer_contents, C16_sorted_and_bounded, C16_insert_accepts_newer, C18_separate_histories_partial, C19_step_follows_table, C20_failsafe, C21_parameters_mirror_last_value, C21_auto_mode, C21_unknown_names_ignored, C21_initialised_iff_polled_finite, C22_mission_speed_partial, C23_processed_cloud, C24_remembered_points, C24_history, C25_mean_distance, C27_candidates_are_the_cells, C27_zero_requested_refuted, C28_padding_is_spherical, C28_sphere_cell_direction, C31_tree_bounded, C32_path_is_root_path, C33_short_paths, C35_number_of_states, C36_initial, C36_transitions, C36_documented_moves, C36_reset, C37_hover_partial, C37_landing_target_kept, C40_altitude_target, C41_cycle_publishes_iff_fresh, C41_only_active_cycles_publish, C41_setpoint_contents, C42_waiting_cloud_kept, C42_waiting_cloud_replaced, C42_feed_happens, C45_landable_iff, C45_strictest_setting_refuted, C46_exit_only_by_reset, C48_no_repetition, C51_neighbours, C51_diagonal_neighbours, C53_simplify, C53_simplify_terminates, C56_trail, C56_trail_current, C56_go_back, C56_empty_trail_refuted, C57_path_message, C58_new_goal_not_blocked, C58_goals_announced, C58_intermediate_goal, C58_cycle, C58_goals_in_order, C58_one_goal_at_a_time, C58_stale_goal_refuted, C59_setpoint_heading, C60_node_equality_hash_order, C62_image_layout, C62_index_injective, C65_cycle_effect, C65_no_cloud_refuted, C66_histogram_image, C68_stay, C68_stay_at_once, C69_position_is_smoothed, C71_yaw_rate_never_set_refuted, C72_fresh_pose_per_setpoint, C72_waiting_blocks_planner, C73_goal_reaches_planner_partial, C74_distance_message, C79_sequence_number, C75_vertical_descent, C75_descent_starts_at_vehicle, C82_status_reflects_delay, C82_long_wait_terminates, C82_published_while_waiting, C82_critical_during_outage_refuted, C86_map_message, C86_risk_cache_transparent, C86_new_map_fresh, C88_sent_back_refuted, C88_stop_refuted, C89_flow_neighbors, C90_no_map_refuted, C90_risk_heuristic_range, C91_advance, C91_in_order, C92_single_pose_refuted, C93_bound, C93_use_current_yaw_refuted, C95_in_force, C95_cell_size_refuted, C95_stale_risk_refuted, C97_order, C97_calm_clouds_all_processed, C97_repeated_refuted, C97_cloud_lost_refuted, C97_start_refuted, C98_goal_between_cycles, C98_goal_lost_refuted, C98_path_read_in_range, C98_path_race_refuted, C98_waiting_goals_in_order, C99_window_refuted, C101_cost_image, C101_cost_image_other_size, C101_histogram_image_refuted, C101_tree_display, C101_path_display, C101_fov_pyramid, C102_scan_is_current, C103_locations, C103_resolve, C103_environment_refuted, C103_regular_file_refuted, C103_world, C103_missing_file_refuted, C103_vehicle, C104_map_in_use, C104_planning_excludes_map, C104_no_collision, C104_threads_refuted, C105_lines_stay, C105_waypoint_trails, C105_last_two_positions, C105_whole_path, C106_no_deadlock, C106_mutexes_used_properly, C106_everything_ends, C107_no_pose_freezes_node_refuted, C107_no_reply_freezes_node_refuted, C108_local_and_global_planner_abort_refuted, C108_landing_planner_hangs_refuted, C108_own_threads_joined, C109_bounded_delay, C109_observations, C109_steady_camera, C109_prompt_refuted, C114_protected_data_is_not_raced_for, C114_stable_while_locked, C114_no_races_refuted, C114_same_mutex_operations, C115_locked_copies_are_whole, C115_each_word_was_sent, C115_unprotected_goal_is_torn_refuted, C116_latest_configuration_in_force, C116_reconfiguration_keeps_memory, C116_goal_altitude_kept_refuted, C116_timeouts_have_no_effect, C118_races_exactly, C118_map_freed_while_read_refuted, C118_px4_parameters_stable, C119_races_exactly, C119_cloud_stable, C119_mutexes_exist_refuted, C120_every_mutex_can_be_had, C120_every_mutex_is_let_go, C120_position_kept_up_to_date_refuted, C121_obstacles_stored, C121_obstacles_right, C121_wrong_transform_refuted, C121_default_frame_refuted, C121_risk_not_renewed_refuted, C122_cloud, C122_camera_in_obstacle_refuted, C122_overrun_refuted, C122_goal_ignored_refuted, C125_offboard_takeoff_climbs, C125_invalid_filter_forgotten, C126_planner_fov, C126_planner_fov_all_known, C126_generator_fov, C126_node_fov, C126_out_of_order_refuted
* **`Classical_Prop.classic`** (1 theorems): C15_read_after_write
* **`ClassicalDedekindReals.sig_forall_dec`, `ClassicalDedekindReals.sig_not_dec`, `FunctionalExtensionality.functional_extensionality_dep`** (95 theorems): C02_cell_centre_roundtrip, C02_direction_near_cell_centre, C03_wrap180_canonical, C03_wrapPI_canonical, C06_angleDifference, C06_indexAngleDifference, C07_edge, C07_scale_on_edge, C07_scaleToFOV, C08_pointInsideFOV_partial, C11_bezier_yaw, C12_yaw_involution, C13_turns_the_short_way, C14_up_down_identity, C23_accepted_distance, C24_expires, C26_scan_direction, C33_setpoint_on_path, C33_fails_at_nodes_refuted, C34_cruise_speed, C35_trajectory, C35_desired_velocity, C40_no_descent_refuted, C43_index_valid, C43_no_overrun, C44_online_is_batch, C44_cell_statistics, C44_variance_nonneg, C45_history, C46_descent_needs_acceptance, C47_patch_test, C47_filter_range, C47_accepted_on_evidence, C48_spiral, C48_starts, C49_percentile, C51_cells_tile_space, C51_near_centre, C51_roundtrip, C52_fallback_altitude_refuted, C54_bezier, C54_smooth_path, C54_smooth_yaw, C54_acceleration_refuted, C54_two_point_chain, C55_posterior, C55_altitude_prior, C55_below_ground_refuted, C55_risk_nonneg, C58_autopilot_goal, C58_altitude_change_ignored_refuted, C59_setpoint, C59_speed, C60_edge_cost_nonneg, C60_heuristic_admissible, C60_heuristic_overestimates_refuted, C63_smoothing_is_cone_average, C63_never_lowers_obstacle_cost, C63_obstacle_raises_neighbourhood, C64_best_first, C66_brightness, C67_closest_point, C67_foot_is_nearest, C78_published_is_previous_partial, C79_variance_partial, C83_smoothing_partial, C75_descends_at_site_partial, C80_no_overrun_partial, C81_colours_partial, C84_twenty_grids_partial, C85_search_complete, C91_heading_refuted, C92_length, C92_corners, C92_kinetic, C92_colour, C94_cells_of_move, C94_cells_near_way, C94_plain_moves_complete, C99_landable_cells_green, C99_spread_colours, C99_spread_distinguished, C99_spread_refuted, C99_count_colours, C99_three_grids, C99_count_refuted, C99_cloud_intensity_is_cell, C100_configured_limits_in_force, C100_size_change_restarts, C105_trail_refuted, C105_setpoint_arrow, C110_info, C123_decay_default, C127_polar_distance, C127_polar_distance_refuted
* **`ClassicalDedekindReals.sig_forall_dec`, `ClassicalDedekindReals.sig_not_dec`, `Classical_Prop.classic`, `FunctionalExtensionality.functional_extensionality_dep`** (140 theorems): C01_nan_direction_gives_index_zero, C02_cell_centre_roundtrip_float, C03_wrap180_float, C03_wrap180_float_range_refuted, C04_wrapPolar_same_point, C05_cartesian_polar_cartesian, C05_polar_cartesian_polar, C08_pointInsideFOV_refuted, C09_cloud_filter_and_extremes, C10_estimate, C10_points_inside, C10_points_inside_refuted, C10_fov_never_shrinks, C11_waypoint_message, C11_bezier_message, C12_position_involution, C12_orientation_involution, C12_pose_quaternion_yaw, C12_quaternion_angles, C12_orientation_yaw_pitch, C14_up_down_identity_float, C17_lookup_result, C17_lookup_succeeds_iff_bracketed, C17_weight_in_unit_interval, C18_separate_histories_refuted, C22_mission_speed_refuted, C23_accepted_points_finite, C24_direction_in_view, C25_mean_distance_real, C26_scan, C26_coverage, C26_compressed_histogram, C27_cheapest, C29_every_cell_filled, C30_obstacle_cost, C30_farther_is_cheaper, C30_other_costs_nonneg, C30_at_the_goal_refuted, C31_always_completes, C31_zero_children_refuted, C34_cruise_speed_binary32, C34_no_limit_refuted, C35_zero_direction_refuted, C37_hover_initial_partial, C37_goal_refuted, C37_loiter_while_landing_refuted, C38_no_nan_target, C38_direct_nan_refuted, C39_speed, C39_speed_history, C40_moves_to_goal_altitude, C40_no_descent_runs_refuted, C42_clouds_used_once_in_order, C43_index_refuted, C46_path_binary32, C49_position_binary32, C49_smallest_window_refuted, C50_valid_partial, C50_vertical_refuted, C51_roundtrip_double, C51_neighbor_from_yaw_refuted, C52_search, C52_legal, C52_global_path, C52_every_published_path, C52_start_is_free, C53_swapped_arguments_refuted, C55_risk_nonneg_double, C59_setpoint_refuted, C60_edge_cost_nonneg_double, C61_fcu_roundtrip_partial, C61_fcu_roundtrip_refuted, C62_bytes_in_range, C64_tree_geometry, C65_cycle_completes, C65_fresh_or_stale, C69_brake_command_lost_refuted, C70_orientation, C73_goal_lost_by_race_refuted, C73_goal_lost_by_drift_refuted, C77_transport, C77_serialise_total, C78_newest_refuted, C79_replay_partial, C79_size_change_refuted, C83_between_measurements_refuted, C75_stray_refuted, C76_vertical_speeds_partial, C76_abort_refuted, C80_default_refuted, C80_visualisation_refuted, C81_offset_refuted, C84_few_grids_refuted, C86_obstacle_ignored_refuted, C87_find_path_terminates, C87_endless_search_refuted, C89_large_robot_refuted, C93_bound_lost_refuted, C94_steep_move_refuted, C95_paths, C96_turns, C96_quarter_turn_refuted, C99_same_grid_refuted, C100_configured_sizes_in_force, C100_display_refuted, C101_waypoint_cell, C101_heading_refuted, C101_scan_display, C101_scan_no_data, C101_scan_sector_refuted, C101_body_direction, C101_fov_level_partial, C101_fov_refuted, C102_scan_is_current_refuted, C110_not_blocked, C110_blocked_iff, C110_risk_message, C110_cheapest_refuted, C111_free_space_at_rest, C111_free_space_moving, C112_walled_direction_not_chosen, C112_walled_direction_not_chosen_refuted, C113_obstacle_raises_cost, C113_obstacle_raises_cost_refuted, C117_no_step_into_a_wall, C123_looks_where_it_flies, C123_turns_towards_target, C123_turn_shrinks, C123_commanded_yaw, C123_landing_planner, C124_follows_target, C124_converges, C124_long_cycles_refuted, C125_lands_when_asked, C125_unknown_altitude_lands_refuted, C125_starts_at_the_vehicle, C125_starts_at_the_vehicle_after_landing, C125_nan_target_ignored, C125_filter_finite_after_vehicle_state, C125_unknown_yaw_keeps_heading
