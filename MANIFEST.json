{
 "claims": [
  {
   "property": "C01",
   "status": "proved",
   "theorems": [
    "C01_histogram_index_in_range",
    "C01_nan_direction_gives_index_zero"
   ],
   "note": ""
  },
  {
   "property": "C02",
   "status": "proved",
   "theorems": [
    "C02_cell_centre_roundtrip_float",
    "C02_cell_centre_roundtrip",
    "C02_direction_near_cell_centre"
   ],
   "note": ""
  },
  {
   "property": "C03",
   "status": "partial",
   "theorems": [
    "C03_wrap180_canonical",
    "C03_wrapPI_canonical",
    "C03_wrap180_float",
    "C03_wrap180_float_range_refuted"
   ],
   "note": "Proved over the reals; as executed in binary32 the bound holds up to rounding for |a|<=720 and the exact range [-180,180) is refuted by a witness (largest float below 180)."
  },
  {
   "property": "C04",
   "status": "proved",
   "theorems": [
    "C04_wrapPolar_same_point"
   ],
   "note": ""
  },
  {
   "property": "C05",
   "status": "proved",
   "theorems": [
    "C05_cartesian_polar_cartesian",
    "C05_polar_cartesian_polar"
   ],
   "note": "Over the reals, histogram convention."
  },
  {
   "property": "C06",
   "status": "proved",
   "theorems": [
    "C06_angleDifference",
    "C06_indexAngleDifference"
   ],
   "note": ""
  },
  {
   "property": "C07",
   "status": "proved",
   "theorems": [
    "C07_edge",
    "C07_scale_on_edge",
    "C07_isInWhichFOV",
    "C07_isOnEdgeOfFOV",
    "C07_scaleToFOV"
   ],
   "note": ""
  },
  {
   "property": "C08",
   "status": "partial",
   "theorems": [
    "C08_pointInsideFOV_partial",
    "C08_pointInsideFOV_refuted"
   ],
   "note": "Holds for cameras not straddling +-180 deg; refuted by a witness otherwise."
  },
  {
   "property": "C09",
   "status": "proved",
   "theorems": [
    "C09_cloud_filter_and_extremes"
   ],
   "note": ""
  },
  {
   "property": "C10",
   "status": "proved",
   "theorems": [
    "C10_estimate",
    "C10_points_inside",
    "C10_points_inside_refuted",
    "C10_fov_step",
    "C10_fov_never_shrinks"
   ],
   "note": "Growth in binary32, for every history; the value of the estimate in ideal arithmetic. C10_points_inside_refuted shows that the restriction to half a circle is needed: of points spread further only the outermost two are sure to be inside."
  },
  {
   "property": "C11",
   "status": "proved",
   "theorems": [
    "C11_waypoint_message",
    "C11_bezier_message",
    "C11_bezier_yaw"
   ],
   "note": ""
  },
  {
   "property": "C12",
   "status": "proved",
   "theorems": [
    "C12_position_involution",
    "C12_yaw_involution",
    "C12_orientation_involution",
    "C12_pose_quaternion_yaw",
    "C12_quaternion_angles",
    "C12_orientation_yaw_pitch"
   ],
   "note": ""
  },
  {
   "property": "C13",
   "status": "proved",
   "theorems": [
    "C13_turns_the_short_way"
   ],
   "note": ""
  },
  {
   "property": "C14",
   "status": "proved",
   "theorems": [
    "C14_set_zero",
    "C14_up_down_identity",
    "C14_up_down_identity_float",
    "C14_upsample_copies",
    "C14_downsample_averages",
    "C14_guarded"
   ],
   "note": "Round trip over the reals and bit-exact in binary32 for readings up to 2^90."
  },
  {
   "property": "C15",
   "status": "proved",
   "theorems": [
    "C15_reads_wrap_around",
    "C15_read_after_write",
    "C15_write_defined_in_range",
    "C15_isEmpty",
    "C15_only_bad_writes_undefined"
   ],
   "note": ""
  },
  {
   "property": "C16",
   "status": "proved",
   "theorems": [
    "C16_buffer_contents",
    "C16_sorted_and_bounded",
    "C16_insert_accepts_newer"
   ],
   "note": ""
  },
  {
   "property": "C17",
   "status": "proved",
   "theorems": [
    "C17_lookup_result",
    "C17_lookup_succeeds_iff_bracketed",
    "C17_weight_in_unit_interval"
   ],
   "note": ""
  },
  {
   "property": "C18",
   "status": "partial",
   "theorems": [
    "C18_separate_histories_partial",
    "C18_separate_histories_refuted"
   ],
   "note": "Refuted: ('a_to_b','c') and ('a','b_to_c') share one history. Proved for source names s such that s++'_' does not contain '_to_'."
  },
  {
   "property": "C19",
   "status": "proved",
   "theorems": [
    "C19_step_follows_table"
   ],
   "note": ""
  },
  {
   "property": "C20",
   "status": "proved",
   "theorems": [
    "C20_failsafe"
   ],
   "note": ""
  },
  {
   "property": "C21",
   "status": "proved",
   "theorems": [
    "C21_parameters_mirror_last_value",
    "C21_auto_mode",
    "C21_unknown_names_ignored",
    "C21_initialised_iff_polled_finite"
   ],
   "note": ""
  },
  {
   "property": "C22",
   "status": "partial",
   "theorems": [
    "C22_mission_speed_partial",
    "C22_mission_speed_refuted"
   ],
   "note": "Exact behaviour proved with the code's speed type test (param1 - 1 < FLT_MIN); refuted for the documented 'ground speed' test: airspeed items (param1 = 0) are taken as well."
  },
  {
   "property": "C23",
   "status": "proved",
   "theorems": [
    "C23_processed_cloud",
    "C23_accepted_points_finite",
    "C23_accepted_distance"
   ],
   "note": ""
  },
  {
   "property": "C24",
   "status": "proved",
   "theorems": [
    "C24_direction_in_view",
    "C24_remembered_points",
    "C24_history",
    "C24_expires"
   ],
   "note": ""
  },
  {
   "property": "C25",
   "status": "proved",
   "theorems": [
    "C25_mean_distance",
    "C25_mean_distance_real"
   ],
   "note": ""
  },
  {
   "property": "C26",
   "status": "proved",
   "theorems": [
    "C26_scan",
    "C26_scan_direction",
    "C26_coverage",
    "C26_compressed_histogram"
   ],
   "note": "compressed histogram (C26_compressed_histogram) and the scan message built from it (C26_scan), binary32; which azimuths count as covered is characterised over the reals (C26_coverage)."
  },
  {
   "property": "C27",
   "status": "proved",
   "theorems": [
    "C27_cheapest",
    "C27_candidates_are_the_cells",
    "C27_zero_requested_refuted"
   ],
   "note": "Proved for n >= 1; for n = 0 (allowed by the reconfigure range of children_per_node_) the code reads top() of an empty queue (refuted)."
  },
  {
   "property": "C28",
   "status": "proved",
   "theorems": [
    "C28_padding_is_spherical",
    "C28_sphere_cell_direction"
   ],
   "note": "Every number system; the code casts nothing here."
  },
  {
   "property": "C29",
   "status": "proved",
   "theorems": [
    "C29_every_cell_filled"
   ],
   "note": "Real arithmetic with the C++ rounding functions; smoothing margin up to 180 degrees (configuration allows up to 90)."
  },
  {
   "property": "C30",
   "status": "proved",
   "theorems": [
    "C30_obstacle_cost",
    "C30_farther_is_cheaper",
    "C30_other_costs_nonneg",
    "C30_at_the_goal_refuted"
   ],
   "note": "Real arithmetic; false at the goal position itself in binary32 (pitch cost divided by zero), proved as C30_at_the_goal_refuted."
  },
  {
   "property": "C31",
   "status": "proved",
   "theorems": [
    "C31_tree_bounded",
    "C31_always_completes",
    "C31_zero_children_refuted"
   ],
   "note": "The stated bounds hold for every number system. In addition: completion without undefined behaviour for children_per_node >= 1, and a witness that children_per_node = 0 (accepted by the parameter server) is undefined behaviour."
  },
  {
   "property": "C32",
   "status": "proved",
   "theorems": [
    "C32_path_is_root_path"
   ],
   "note": "Every number system."
  },
  {
   "property": "C33",
   "status": "partial",
   "theorems": [
    "C33_setpoint_on_path",
    "C33_short_paths",
    "C33_fails_at_nodes_refuted"
   ],
   "note": "Exact success condition proved over the reals; the claim that it only fails once flown through is refuted at inner nodes."
  },
  {
   "property": "C34",
   "status": "proved",
   "theorems": [
    "C34_cruise_speed",
    "C34_cruise_speed_binary32",
    "C34_no_limit_refuted"
   ],
   "note": "Proved over the reals for positive limits and in binary32 against the computed limit; C34_no_limit_refuted: with an unknown (NaN, the initial value) acceleration limit or a zero jerk limit the computed limit is NaN and the commanded speed is not limited."
  },
  {
   "property": "C35",
   "status": "proved",
   "theorems": [
    "C35_trajectory",
    "C35_desired_velocity",
    "C35_number_of_states",
    "C35_zero_direction_refuted"
   ],
   "note": "over the reals; number of states in every number system. C35_zero_direction_refuted records that in binary32 a zero goal direction yields NaN states (0/0 gain), a case outside the reals theorem (there the gain is arbitrary)."
  },
  {
   "property": "C36",
   "status": "proved",
   "theorems": [
    "C36_initial",
    "C36_transitions",
    "C36_documented_moves",
    "C36_reset"
   ],
   "note": "every number system, every history of API calls; the 'reset' flag is never set by any API call, so C36_reset is about arbitrary states."
  },
  {
   "property": "C37",
   "status": "partial",
   "theorems": [
    "C37_hover_partial",
    "C37_hover_initial_partial",
    "C37_goal_refuted",
    "C37_landing_target_kept",
    "C37_loiter_while_landing_refuted"
   ],
   "note": "C37_hover_*_partial give the exact target in every cycle of every episode (entry position latched by the first loiter cycle); the claim as stated is false: within 1 m of the goal the target is the goal (C37_goal_refuted), and a loiter request during a landing keeps commanding the landing point (C37_landing_target_kept, C37_loiter_while_landing_refuted)."
  },
  {
   "property": "C38",
   "status": "proved",
   "theorems": [
    "C38_no_nan_target",
    "C38_direct_nan_refuted"
   ],
   "note": "binary32, for every planner output; beyond the claim, direct flight with an undefined goal coordinate does produce a NaN target (C38_direct_nan_refuted)."
  },
  {
   "property": "C39",
   "status": "proved",
   "theorems": [
    "C39_speed",
    "C39_speed_history"
   ],
   "note": "reals; cameras of positive width (setFOV with a gap in the indices creates zero-width cameras, excluded), non-negative cruise velocity, outside landing (there the speed is not adapted)."
  },
  {
   "property": "C40",
   "status": "partial",
   "theorems": [
    "C40_altitude_target",
    "C40_moves_to_goal_altitude",
    "C40_no_descent_refuted",
    "C40_no_descent_runs_refuted"
   ],
   "note": "exact conditions (C36_transitions with altitude_wanted) and targets proved; C40_no_descent_refuted: return-to-land and offboard mode never descend to the goal altitude, offboard marks it reached for the rest of the flight."
  },
  {
   "property": "C41",
   "status": "proved",
   "theorems": [
    "C41_cycle_publishes_iff_fresh",
    "C41_only_active_cycles_publish",
    "C41_setpoint_contents"
   ],
   "note": "holds in every event history; within the first start-up seconds ACTIVE is also reported before any result exists (since_start, not since_result, is what is compared there)."
  },
  {
   "property": "C42",
   "status": "proved",
   "theorems": [
    "C42_clouds_used_once_in_order",
    "C42_waiting_cloud_kept",
    "C42_waiting_cloud_replaced",
    "C42_feed_happens"
   ],
   "note": "clouds/transforms as events, threads interleaved at lock granularity; wp_generator setFOV outside waypoints_mutex_ treated as atomic."
  },
  {
   "property": "C43",
   "status": "partial",
   "theorems": [
    "C43_index_valid",
    "C43_no_overrun",
    "C43_index_refuted"
   ],
   "note": "Proved for all histories over the reals; as executed in binary32 it is refuted: a point 2^-21 m inside the border of the default grid gets index 10 of a 10-column matrix (heap overrun)."
  },
  {
   "property": "C44",
   "status": "proved",
   "theorems": [
    "C44_online_is_batch",
    "C44_cell_statistics",
    "C44_variance_nonneg"
   ],
   "note": "Over the reals, for every history of reconfigurations, poses and live clouds."
  },
  {
   "property": "C45",
   "status": "proved",
   "theorems": [
    "C45_landable_iff",
    "C45_history",
    "C45_strictest_setting_refuted"
   ],
   "note": "Exact for every number system for 0 <= min_n_land_cells, 1 <= max_n_mean_diff_cells; with the allowed setting 0 no cell is ever landable (refuted). Cells beyond the border count as not flat and at height 0."
  },
  {
   "property": "C46",
   "status": "proved",
   "theorems": [
    "C46_descent_needs_acceptance",
    "C46_path_binary32",
    "C46_exit_only_by_reset"
   ],
   "note": "Every history from construction: order of states for binary32 and any trig; landability of the accepted patch over the reals (inputs: kernel >= 0, weights in [0,1], threshold >= 0, flags 0/1)."
  },
  {
   "property": "C47",
   "status": "proved",
   "theorems": [
    "C47_patch_test",
    "C47_filter_range",
    "C47_accepted_on_evidence"
   ],
   "note": "Patch test exact over Z; filter range and evidence over the reals for every history. The filter forgets earlier cycles only when landing is not requested or the grid changes size (restart)."
  },
  {
   "property": "C48",
   "status": "proved",
   "theorems": [
    "C48_spiral",
    "C48_starts",
    "C48_no_repetition"
   ],
   "note": "Goals of the search over the reals for every history in which landing stays requested; offsets pairwise different for all step numbers."
  },
  {
   "property": "C49",
   "status": "proved",
   "theorems": [
    "C49_percentile",
    "C49_position_binary32",
    "C49_smallest_window_refuted"
   ],
   "note": "Window 1..100 in binary32 (valid sample) and any window >= 1 over the reals (rank); with the allowed window 0 every grid is read out of range (refuted). Grids must be at least as large as the window."
  },
  {
   "property": "C50",
   "status": "partial",
   "theorems": [
    "C50_valid_partial",
    "C50_vertical_refuted"
   ],
   "note": "The vertical axis is not examined at all (misplaced parenthesis), shown by a run; the horizontal part is exact in binary32."
  },
  {
   "property": "C51",
   "status": "proved",
   "theorems": [
    "C51_cells_tile_space",
    "C51_near_centre",
    "C51_roundtrip",
    "C51_roundtrip_double",
    "C51_neighbours",
    "C51_neighbor_from_yaw_refuted",
    "C51_diagonal_neighbours"
   ],
   "note": "Tiling and distance to the centre over the reals; centre-and-back also with the doubles of the program for scales 2^-20..2^20 and int coordinates; neighbour relation exact. getNeighborFromYaw does not return a neighbour (refuted). The latter is beyond the claim."
  },
  {
   "property": "C52",
   "status": "proved",
   "theorems": [
    "C52_search",
    "C52_legal",
    "C52_global_path",
    "C52_every_published_path",
    "C52_fallback_altitude_refuted",
    "C52_start_is_free"
   ],
   "note": "Search, legality and published paths proved in binary64 for every map, cost function, tie-breaking; every path published in any history is good or of the fallback kind; the fallback flies above the maximum altitude (refuted). Iteration bound part of C52_search. The refuted theorem concerns the fallback path, which is not a search result."
  },
  {
   "property": "C53",
   "status": "proved",
   "theorems": [
    "C53_simplify",
    "C53_simplify_terminates",
    "C53_swapped_arguments_refuted"
   ],
   "note": "Proved for every number type and cost, terminates; beyond the claim, the node passes iteration count and margin in swapped order (C53_swapped_arguments_refuted)."
  },
  {
   "property": "C54",
   "status": "proved",
   "theorems": [
    "C54_bezier",
    "C54_smooth_path",
    "C54_smooth_yaw",
    "C54_acceleration_refuted",
    "C54_two_point_chain"
   ],
   "note": "Over the reals; beyond the claim, quadraticBezierAcc ignores the duration (C54_acceleration_refuted)."
  },
  {
   "property": "C55",
   "status": "partial",
   "theorems": [
    "C55_posterior",
    "C55_altitude_prior",
    "C55_below_ground_refuted",
    "C55_risk_nonneg",
    "C55_risk_nonneg_double"
   ],
   "note": "Posterior and risks (reals, and doubles up to NaN); prior above/inside the table proved; the clamp below the table is dead code (signed/unsigned), so a negative height uses the LAST entry (refuted)."
  },
  {
   "property": "C56",
   "status": "proved",
   "theorems": [
    "C56_trail",
    "C56_trail_current",
    "C56_go_back",
    "C56_empty_trail_refuted"
   ],
   "note": "Proved for every history and number type; backing up with an empty trail is undefined behaviour (refuted). goBack is never called by the node."
  },
  {
   "property": "C57",
   "status": "proved",
   "theorems": [
    "C57_path_message"
   ],
   "note": "Any number type for length/order/centre; yaw over the reals."
  },
  {
   "property": "C58",
   "status": "partial",
   "theorems": [
    "C58_new_goal_not_blocked",
    "C58_goals_announced",
    "C58_autopilot_goal",
    "C58_intermediate_goal",
    "C58_cycle",
    "C58_goals_in_order",
    "C58_one_goal_at_a_time",
    "C58_stale_goal_refuted",
    "C58_altitude_change_ignored_refuted"
   ],
   "note": "Order proved for histories without user commands; a new user goal does not clear the waiting list, so the vehicle flies on to the old goal afterwards, and altitude-only changes are ignored (refuted by runs)."
  },
  {
   "property": "C59",
   "status": "partial",
   "theorems": [
    "C59_setpoint_heading",
    "C59_setpoint",
    "C59_speed",
    "C59_setpoint_refuted"
   ],
   "note": "Reals. Setpoint beyond the goal when nearer than the speed; NaN at the goal (None in the model); speed above the maximum when default > max (refuted)."
  },
  {
   "property": "C60",
   "status": "proved",
   "theorems": [
    "C60_edge_cost_nonneg",
    "C60_edge_cost_nonneg_double",
    "C60_heuristic_admissible",
    "C60_heuristic_overestimates_refuted",
    "C60_node_equality_hash_order"
   ],
   "note": "Non-negative costs in reals and doubles; heuristics admissible for plain nodes and cells of at least a metre; overestimates for SpeedNode and for small cells (refuted)."
  },
  {
   "property": "C61",
   "status": "partial",
   "theorems": [
    "C61_fcu_roundtrip_partial",
    "C61_fcu_roundtrip_refuted"
   ],
   "note": "False of the code: the round trip mirrors the vertical coordinate; exact effect proved."
  },
  {
   "property": "C62",
   "status": "proved",
   "theorems": [
    "C62_image_layout",
    "C62_index_injective",
    "C62_bytes_in_range"
   ],
   "note": ""
  },
  {
   "property": "C63",
   "status": "proved",
   "theorems": [
    "C63_smoothing_is_cone_average",
    "C63_never_lowers_obstacle_cost",
    "C63_obstacle_raises_neighbourhood"
   ],
   "note": ""
  },
  {
   "property": "C64",
   "status": "proved",
   "theorems": [
    "C64_tree_geometry",
    "C64_best_first"
   ],
   "note": "Real arithmetic."
  },
  {
   "property": "C65",
   "status": "proved",
   "theorems": [
    "C65_cycle_effect",
    "C65_cycle_completes",
    "C65_fresh_or_stale",
    "C65_no_cloud_refuted"
   ],
   "note": "C65_no_cloud_refuted: without any cloud the code reads complete_cloud[0] of an empty vector (precondition of completion)."
  },
  {
   "property": "C66",
   "status": "proved",
   "theorems": [
    "C66_histogram_image",
    "C66_brightness"
   ],
   "note": ""
  },
  {
   "property": "C67",
   "status": "proved",
   "theorems": [
    "C67_closest_point",
    "C67_foot_is_nearest"
   ],
   "note": ""
  },
  {
   "property": "C68",
   "status": "proved",
   "theorems": [
    "C68_stay",
    "C68_stay_at_once"
   ],
   "note": ""
  },
  {
   "property": "C69",
   "status": "partial",
   "theorems": [
    "C69_position_is_smoothed",
    "C69_brake_command_lost_refuted"
   ],
   "note": "the equality is proved for all histories; consequently the braking command of runAltitudeChange is overwritten (C69_brake_command_lost_refuted), which refutes the second half of the claim."
  },
  {
   "property": "C70",
   "status": "proved",
   "theorems": [
    "C70_orientation"
   ],
   "note": "reals"
  },
  {
   "property": "C71",
   "status": "partial",
   "theorems": [
    "C71_yaw_rate_never_set_refuted"
   ],
   "note": "the claim is false: C71_yaw_rate_never_set_refuted shows that in every history the angular velocity is the uninitialised value present at construction (transformPositionToVelocityWaypoint is never called)."
  },
  {
   "property": "C72",
   "status": "proved",
   "theorems": [
    "C72_fresh_pose_per_setpoint",
    "C72_waiting_blocks_planner"
   ],
   "note": ""
  },
  {
   "property": "C73",
   "status": "partial",
   "theorems": [
    "C73_goal_reaches_planner_partial",
    "C73_goal_lost_by_race_refuted",
    "C73_goal_lost_by_drift_refuted"
   ],
   "note": "true when no goal is announced between the worker's read and clear of the new-goal flag and no autopilot message moves the goal silently (partial theorem); the two refuted theorems show that otherwise a goal is lost for ever: a race on new_goal_, and goals moving by less than 1 cm per message."
  },
  {
   "property": "C74",
   "status": "proved",
   "theorems": [
    "C74_distance_message"
   ],
   "note": "a NaN CP_DIST parameter counts as enabled."
  },
  {
   "property": "C77",
   "status": "proved",
   "theorems": [
    "C77_transport",
    "C77_serialise_total"
   ],
   "note": "binary32, all sizes."
  },
  {
   "property": "C78",
   "status": "partial",
   "theorems": [
    "C78_published_is_previous_partial",
    "C78_newest_refuted"
   ],
   "note": "False of the code: the message is built from the grid before the cloud (proved exactly, refuted by a witness)."
  },
  {
   "property": "C79",
   "status": "partial",
   "theorems": [
    "C79_sequence_number",
    "C79_replay_partial",
    "C79_variance_partial",
    "C79_size_change_refuted"
   ],
   "note": "Proved for the raw grid itself; a recording with another number of cells makes the planner blend matrices of different sizes (refuted)."
  },
  {
   "property": "C83",
   "status": "partial",
   "theorems": [
    "C83_smoothing_partial",
    "C83_between_measurements_refuted"
   ],
   "note": "Geometric convergence proved; the first estimate is blended with 0, so it can lie outside the measured range (refuted)."
  },
  {
   "property": "C75",
   "status": "partial",
   "theorems": [
    "C75_descends_at_site_partial",
    "C75_vertical_descent",
    "C75_descent_starts_at_vehicle",
    "C75_stray_refuted"
   ],
   "note": "Proved without trajectory/mode messages between acceptance and descent (reals); a trajectory message in between moves the goal (refuted by a run). Vertical descent at one point proved for any number system."
  },
  {
   "property": "C76",
   "status": "partial",
   "theorems": [
    "C76_vertical_speeds_partial",
    "C76_abort_refuted"
   ],
   "note": "Set of commanded vertical speeds proved in binary32; after an abort during the altitude change the node keeps commanding the descent (refuted by a run)."
  },
  {
   "property": "C80",
   "status": "partial",
   "theorems": [
    "C80_no_overrun_partial",
    "C80_default_refuted",
    "C80_visualisation_refuted"
   ],
   "note": "No overrun for kernels 1..20 and grids >= 41 cells (reals); with the default parameters of both nodes the first cycle overruns (refuted)."
  },
  {
   "property": "C81",
   "status": "partial",
   "theorems": [
    "C81_colours_partial",
    "C81_offset_refuted"
   ],
   "note": "Exact for grids of 40 or 41 rows; other sizes are drawn with the wrong offset (refuted for 44)."
  },
  {
   "property": "C82",
   "status": "partial",
   "theorems": [
    "C82_status_reflects_delay",
    "C82_long_wait_terminates",
    "C82_published_while_waiting",
    "C82_critical_during_outage_refuted"
   ],
   "note": "Status exact for all timings; nothing is published while waiting up to the termination timeout, so CRITICAL is only reported when the outage is over (refuted)."
  },
  {
   "property": "C84",
   "status": "partial",
   "theorems": [
    "C84_twenty_grids_partial",
    "C84_few_grids_refuted"
   ],
   "note": "Proved if no grid message is lost; lost messages shorten the evidence (refuted by a run with five grids)."
  },
  {
   "property": "C85",
   "status": "proved",
   "theorems": [
    "C85_search_complete"
   ],
   "note": "Over the reals (with doubles sums of costs can be absorbed)."
  },
  {
   "property": "C86",
   "status": "partial",
   "theorems": [
    "C86_map_message",
    "C86_risk_cache_transparent",
    "C86_new_map_fresh",
    "C86_obstacle_ignored_refuted"
   ],
   "note": "Transparency for every number type; a camera obstacle in a cell whose risk is cached is ignored until the next map (refuted)."
  },
  {
   "property": "C87",
   "status": "proved",
   "theorems": [
    "C87_find_path_terminates",
    "C87_endless_search_refuted"
   ],
   "note": "Terminates in doubles if min_overestimate > 1; with the allowed value 1.0 the repetition never ends (refuted)."
  },
  {
   "property": "C88",
   "status": "partial",
   "theorems": [
    "C88_sent_back_refuted",
    "C88_stop_refuted"
   ],
   "note": "The English claim is false: a planning cycle that fails because the own cell is occupied sends the vehicle back to the second cell of the old path, and stop() leaves the goal pose unchanged; both proved for every state with an occupied own cell, with concrete runs."
  },
  {
   "property": "C89",
   "status": "partial",
   "theorems": [
    "C89_flow_neighbors",
    "C89_large_robot_refuted"
   ],
   "note": "Exact for radius 0 and 1 (in cells); any larger radius recurses/indexes undefined (refuted), which includes the default robot radius with a 0.2 m octree."
  },
  {
   "property": "C90",
   "status": "partial",
   "theorems": [
    "C90_no_map_refuted",
    "C90_risk_heuristic_range"
   ],
   "note": "Exact range for the heuristic; planning or clicking before the first map is undefined behaviour (refuted)."
  },
  {
   "property": "C91",
   "status": "partial",
   "theorems": [
    "C91_advance",
    "C91_in_order",
    "C91_heading_refuted"
   ],
   "note": "Order, pace and last pose proved for every history and number type; the heading condition is vacuous (refuted over the reals: only exactly opposite headings fail)."
  },
  {
   "property": "C92",
   "status": "proved",
   "theorems": [
    "C92_length",
    "C92_corners",
    "C92_kinetic",
    "C92_single_pose_refuted",
    "C92_colour"
   ],
   "note": "Over the reals; a single-pose path is doubled by filterPathCorners (refuted)."
  },
  {
   "property": "C93",
   "status": "partial",
   "theorems": [
    "C93_bound",
    "C93_bound_lost_refuted",
    "C93_use_current_yaw_refuted"
   ],
   "note": "Bound is the configured one or 5000; it does become 5000 for good after one failed search (refuted by a run); use_current_yaw_ is never read (refuted for every run)."
  },
  {
   "property": "C94",
   "status": "partial",
   "theorems": [
    "C94_cells_of_move",
    "C94_cells_near_way",
    "C94_plain_moves_complete",
    "C94_steep_move_refuted"
   ],
   "note": "Over the reals for cell sizes above 0.2 m: soundness for all moves, completeness for level, vertical and axis-aligned moves up to 45 degrees; false for steep slanted moves, which speed nodes offer (refuted)."
  },
  {
   "property": "C95",
   "status": "partial",
   "theorems": [
    "C95_in_force",
    "C95_paths",
    "C95_cell_size_refuted",
    "C95_stale_risk_refuted"
   ],
   "note": "All other parameters are in force at once and path guarantees hold across reconfigurations (binary64); CELL_SCALE is a header static and never changes in the files that read it, node type/radius ignored at start and in combined requests, cached risks stay stale (refuted)."
  },
  {
   "property": "C96",
   "status": "partial",
   "theorems": [
    "C96_turns",
    "C96_quarter_turn_refuted"
   ],
   "note": "Over the reals. Holds unless the first move has no y part and the second no x part; there a quarter turn counts as none (the guard in getXYRotation tests this_diff instead of other_diff; refuted), and a vertical second move counts turns depending on the first's direction."
  },
  {
   "property": "C97",
   "status": "partial",
   "theorems": [
    "C97_order",
    "C97_calm_clouds_all_processed",
    "C97_repeated_refuted",
    "C97_cloud_lost_refuted",
    "C97_start_refuted"
   ],
   "note": "Order holds in all interleavings; all clouds are processed if each arrives after the previous one has been handled. Otherwise a cloud may be processed several times (flag read before the cloud is consumed) or never (lost notification), and the worker may use mutexes before they exist (all refuted)."
  },
  {
   "property": "C98",
   "status": "partial",
   "theorems": [
    "C98_goal_between_cycles",
    "C98_goal_lost_refuted",
    "C98_path_read_in_range",
    "C98_path_race_refuted",
    "C98_waiting_goals_in_order"
   ],
   "note": "Goals given between cycles are tried, waiting goals are taken up in order; goals given between cycles are tried; goals given during a cycle can be lost (popNextGoal overwrites, or goal_is_blocked_ of the old goal is applied to the new one); path_[0] can be read from an empty vector since positionCallback does not take the mutex (refuted). setCurrentPath once per cycle; torn reads not modelled."
  },
  {
   "property": "C99",
   "status": "partial",
   "theorems": [
    "C99_landable_cells_green",
    "C99_spread_colours",
    "C99_spread_distinguished",
    "C99_spread_refuted",
    "C99_count_colours",
    "C99_three_grids",
    "C99_count_refuted",
    "C99_window_refuted",
    "C99_same_grid_refuted",
    "C99_cloud_intensity_is_cell"
   ],
   "note": "Ideal arithmetic. Refuted: spread equal to the threshold looks like no spread; counts are misleading for thresholds of 200 and more and wrap around from 400 points on (counter_max_value is fixed); the thick window misses its last row and column; the display shows the newest grid, the message to the waypoint generator the previous one."
  },
  {
   "property": "C100",
   "status": "partial",
   "theorems": [
    "C100_configured_sizes_in_force",
    "C100_configured_limits_in_force",
    "C100_display_refuted",
    "C100_size_change_restarts"
   ],
   "note": "Sizes and window in binary32 for all histories without replay; limits in ideal arithmetic. Refuted for the display, which shows the requested smoothing size before it is applied."
  },
  {
   "property": "C101",
   "status": "partial",
   "theorems": [
    "C101_cost_image",
    "C101_cost_image_other_size",
    "C101_waypoint_cell",
    "C101_heading_refuted",
    "C101_histogram_image_refuted",
    "C101_tree_display",
    "C101_path_display",
    "C101_scan_display",
    "C101_scan_no_data",
    "C101_scan_sector_refuted",
    "C101_body_direction",
    "C101_fov_level_partial",
    "C101_fov_refuted",
    "C101_fov_pyramid"
   ],
   "note": "Index safety and the painted cells for every number system; geometry in ideal arithmetic. Refuted: the heading's cell (degrees converted as if radians), the histogram image (step 255 for rows of 60 bytes), the scan's sectors (turned by half a column), the fields of view of tilted cameras (mirrored upside down)."
  },
  {
   "property": "C102",
   "status": "partial",
   "theorems": [
    "C102_scan_is_current",
    "C102_scan_is_current_refuted"
   ],
   "note": "Holds for CP_DIST > 0. Refuted for CP_DIST = 0 or NaN: the message of an earlier run is sent again after every run."
  },
  {
   "property": "C103",
   "status": "partial",
   "theorems": [
    "C103_locations",
    "C103_resolve",
    "C103_environment_refuted",
    "C103_regular_file_refuted",
    "C103_world",
    "C103_missing_file_refuted",
    "C103_vehicle"
   ],
   "note": "Refuted: an unset GAZEBO_MODEL_PATH or HOME is undefined behaviour, a missing world file is shown as an empty world without a failure, a socket counts as a file."
  },
  {
   "property": "C104",
   "status": "partial",
   "theorems": [
    "C104_map_in_use",
    "C104_planning_excludes_map",
    "C104_no_collision",
    "C104_threads_refuted"
   ],
   "note": "Proved for all interleavings in which the command thread asks for no risk (use_speedup_heuristics_ off); without depth clouds and clicked points also free of collisions. Refuted in general: publishSetpoint takes no lock, so the command thread can read a deleted octree and put risks of the old map into the cleared cache; depthCameraCallback and clickedPointCallback take no lock either and change the obstacle set and the cache during a planning cycle."
  },
  {
   "property": "C105",
   "status": "partial",
   "theorems": [
    "C105_lines_stay",
    "C105_waypoint_trails",
    "C105_last_two_positions",
    "C105_whole_path",
    "C105_trail_refuted",
    "C105_setpoint_arrow"
   ],
   "note": "Ids, waypoint trails and the arrow hold for all histories; the vehicle's trail is complete only if exactly one position arrives per cycle (refuted otherwise: gaps, repeated lines, a first line from an uninitialised position or from the origin). Ids are unbounded integers in the model (int in the program)."
  },
  {
   "property": "C106",
   "status": "proved",
   "theorems": [
    "C106_no_deadlock",
    "C106_mutexes_used_properly",
    "C106_everything_ends"
   ],
   "note": "For any number of cameras; the outside world (pose, service reply) is assumed to answer for the last theorem only."
  },
  {
   "property": "C107",
   "status": "partial",
   "theorems": [
    "C107_no_pose_freezes_node_refuted",
    "C107_no_reply_freezes_node_refuted"
   ],
   "note": "Refuted: cmdLoopCallback waits for a pose with the waypoint mutex held (planning, reconfiguration and destructor then wait for it); checkPx4Parameters calls the parameter service with the parameter mutex held."
  },
  {
   "property": "C108",
   "status": "partial",
   "theorems": [
    "C108_local_and_global_planner_abort_refuted",
    "C108_landing_planner_hangs_refuted",
    "C108_own_threads_joined"
   ],
   "note": "Refuted: AvoidanceNode's worker_ is never joined, so its destructor calls std::terminate; the landing planner's main joins a thread whose exit flag nobody sets. Proved: the local planner joins its own threads first."
  },
  {
   "property": "C109",
   "status": "partial",
   "theorems": [
    "C109_bounded_delay",
    "C109_observations",
    "C109_steady_camera",
    "C109_prompt_refuted"
   ],
   "note": "The bounds are proved for all schedules; promptness is refuted (two lost notifications: 10 s)."
  },
  {
   "property": "C110",
   "status": "partial",
   "theorems": [
    "C110_info",
    "C110_not_blocked",
    "C110_blocked_iff",
    "C110_risk_message",
    "C110_cheapest_refuted"
   ],
   "note": "Refuted: the cheapest path is not found (1.6 times the cost with a 1.03 overestimate), as the estimate takes everything on the way for unknown space. The message with risks is built but never published and PathInfo.is_blocked is never read."
  },
  {
   "property": "C111",
   "status": "proved",
   "theorems": [
    "C111_free_space_at_rest",
    "C111_free_space_moving"
   ],
   "note": "Ideal arithmetic."
  },
  {
   "property": "C112",
   "status": "partial",
   "theorems": [
    "C112_walled_direction_not_chosen",
    "C112_walled_direction_not_chosen_refuted"
   ],
   "note": "Refuted nearer than 5 m to the goal: the climb weight grows with 25/d^2 and a blocked direction is ranked first though another one is free all around. Proved from 5 m on, ideal arithmetic."
  },
  {
   "property": "C113",
   "status": "partial",
   "theorems": [
    "C113_obstacle_raises_cost",
    "C113_obstacle_raises_cost_refuted"
   ],
   "note": "Refuted in columns that are not evaluated: above and below 48 degrees elevation the cost is computed for every second (fourth, tenth, ...) column only, and a single obstacle in a column in between changes no cost at all. Proved for all evaluated columns; ideal arithmetic, for an unchanged flag 'an obstacle faces the goal'."
  },
  {
   "property": "C114",
   "status": "partial",
   "theorems": [
    "C114_protected_data_is_not_raced_for",
    "C114_stable_while_locked",
    "C114_no_races_refuted",
    "C114_same_mutex_operations"
   ],
   "note": "Refuted for 21 members: what the vehicle reports (position, orientation, velocity, armed, nav state), the goal, the last waypoints, the node's status, mission speed and, in the planner and the waypoint generator, goal_, position_, timeout_termination_ and the smoothing speeds: each has a reachable state in which one thread is about to write it while another one is about to access it, for any number of cameras. Proved for all other members (C114_protected_data_is_not_raced_for). The construction of the node before its threads run and its destructor are not modelled."
  },
  {
   "property": "C115",
   "status": "partial",
   "theorems": [
    "C115_locked_copies_are_whole",
    "C115_each_word_was_sent",
    "C115_unprotected_goal_is_torn_refuted"
   ],
   "note": "Refuted for the vectors that no mutex protects: the goal (0,0,5) is replaced by (100,100,5) and the planner gets (100,0,5). Proved: under a mutex every copy is a vector that was sent; without one every single coordinate was sent. Words are stored and read one at a time in program order (C++ gives a racing program no meaning at all)."
  },
  {
   "property": "C116",
   "status": "partial",
   "theorems": [
    "C116_latest_configuration_in_force",
    "C116_reconfiguration_keeps_memory",
    "C116_goal_altitude_kept_refuted",
    "C116_timeouts_have_no_effect"
   ],
   "note": "Proved: the latest configuration is in force in both objects (LocalPlanner and its StarPlanner keep copies of ranges, margin, weights, goal and pose), for every history in which configuration, firmware parameters, pose and goal have been handed over. Refuted: a goal whose altitude is not goal_z_param loses its altitude at the next reconfiguration, whatever that one is about, until a goal is set again (only in the planner: the node and the waypoint generator keep the old one). timeout_startup_ and timeout_critical_ are never read (C116_timeouts_have_no_effect: no timeout affects the planner; the node uses timeout_termination_ in its waiting loop only, C52). Before the first configuration the two objects have different ranges (12 m and 15 m); the node's planning thread is started before the reconfigure server calls back (local_planner_nodelet.cpp:53-59)."
  },
  {
   "property": "C117",
   "status": "proved",
   "theorems": [
    "C117_no_step_into_a_wall"
   ],
   "note": "Ideal arithmetic. The goal is at least 5 m from the predecessor (nearer: C112_walled_direction_not_chosen_refuted). Walls whose smoothing window reaches over the poles are not covered. The change of velocity is bounded with the larger of the vehicle's speed and one node distance, which is what the tree takes for the velocity. Without enough open directions the walled ones are candidates like the others (all directions are returned, only ranked)."
  },
  {
   "property": "C118",
   "status": "proved",
   "theorems": [
    "C118_races_exactly",
    "C118_map_freed_while_read_refuted",
    "C118_px4_parameters_stable"
   ],
   "note": "Exact: a member is raced for in some reachable state iff it is in the list. Accesses are modelled per member (or group of members accessed under the same conditions), values are not. C118_map_freed_while_read_refuted: the node's mutex does not keep the command loop away from the map and the risk cache."
  },
  {
   "property": "C119",
   "status": "proved",
   "theorems": [
    "C119_races_exactly",
    "C119_cloud_stable",
    "C119_mutexes_exist_refuted"
   ],
   "note": "Exact: a member is raced for in some reachable state iff it is the flag or one of the pointers. C119_mutexes_exist_refuted: the transform thread can use the pointers to the mutexes while they are being set. That the flag is a plain bool is why it counts; its value is handed over consistently otherwise."
  },
  {
   "property": "C120",
   "status": "proved",
   "theorems": [
    "C120_every_mutex_can_be_had",
    "C120_every_mutex_is_let_go",
    "C120_position_kept_up_to_date_refuted"
   ],
   "note": "Proved for both nodes from a general theorem on systems whose code takes no mutex within another. C120_position_kept_up_to_date_refuted is the starvation: a reachable state from which the command loop makes n whole turns, for every n, without a position update. Time is not modelled: that a planning pass ends is C87."
  },
  {
   "property": "C121",
   "status": "partial",
   "theorems": [
    "C121_obstacles_stored",
    "C121_obstacles_right",
    "C121_wrong_transform_refuted",
    "C121_default_frame_refuted",
    "C121_risk_not_renewed_refuted"
   ],
   "note": "Proved: what exactly is stored, for every history, and that it is right for one camera in the configured frame whose transform does not change between stamp and reception. Refuted for the rest, as the code ignores the header of the cloud: C121_wrong_transform_refuted (several cameras as in global_planner_sitl_3cam.launch; a vehicle that moved), C121_default_frame_refuted (no parameter camera_frame_id: the looked-up frame is the empty string, nothing is ever stored), C121_risk_not_renewed_refuted (the cached risk is used until the next map)."
  },
  {
   "property": "C122",
   "status": "partial",
   "theorems": [
    "C122_cloud",
    "C122_camera_in_obstacle_refuted",
    "C122_overrun_refuted",
    "C122_goal_ignored_refuted"
   ],
   "note": "Proved: which points are in the cloud and which sizes of wall fit. Refuted: C122_camera_in_obstacle_refuted (the cloud always has 100 points; those not filled are at the origin of the camera, whose cell becomes an obstacle cell), C122_overrun_refuted (more than 100 points are written beyond the buffer), C122_goal_ignored_refuted (a clicked point is not a goal)."
  },
  {
   "property": "C123",
   "status": "proved",
   "theorems": [
    "C123_looks_where_it_flies",
    "C123_turns_towards_target",
    "C123_turn_shrinks",
    "C123_commanded_yaw",
    "C123_decay_default",
    "C123_landing_planner"
   ],
   "note": "Ideal arithmetic. The contraction holds for control cycles no longer than half the filter's time constant (158 ms with the default smoothing speed 10), as long as the turn and rate to begin with are less than half a circle; C124_long_cycles_refuted shows that a bound on the length is needed."
  },
  {
   "property": "C124",
   "status": "partial",
   "theorems": [
    "C124_follows_target",
    "C124_converges",
    "C124_long_cycles_refuted"
   ],
   "note": "Proved for cycles no longer than half the time constant. Refuted for longer ones: C124_long_cycles_refuted (default smoothing, cycles of 1 s, take-off from 5 m to 50 m: the setpoint is 391 m below the origin in the sixth cycle and the deviation grows without bound, although the speed-adapted target is between 5 m and 8 m all the time); nothing in the code bounds the length of a cycle."
  },
  {
   "property": "C125",
   "status": "partial",
   "theorems": [
    "C125_offboard_takeoff_climbs",
    "C125_lands_when_asked",
    "C125_unknown_altitude_lands_refuted",
    "C125_starts_at_the_vehicle",
    "C125_starts_at_the_vehicle_after_landing",
    "C125_invalid_filter_forgotten",
    "C125_nan_target_ignored",
    "C125_filter_finite_after_vehicle_state",
    "C125_unknown_yaw_keeps_heading"
   ],
   "note": "Everything proved but one case: C125_unknown_altitude_lands_refuted (binary32: a return to launch with a goal altitude that is not a number is flown as a landing). Loiter and a loiter request do not evaluate the mode (C125_lands_when_asked says that they keep it; see C37_loiter_while_landing_refuted)."
  },
  {
   "property": "C126",
   "status": "proved",
   "theorems": [
    "C126_planner_fov",
    "C126_planner_fov_all_known",
    "C126_generator_fov",
    "C126_node_fov",
    "C126_out_of_order_refuted"
   ],
   "note": "C126_node_fov; every camera is reported in every cycle, counting upwards (local_planner_nodelet.cpp:164-174; how a camera's field of view is estimated is C10). The waypoint generator would do with any order, the planner only with orders in which the cameras become known one after the other: C126_out_of_order_refuted is about calls of setFOV that the node does not make."
  },
  {
   "property": "C127",
   "status": "partial",
   "theorems": [
    "C127_polar_distance",
    "C127_polar_distance_refuted"
   ],
   "note": "Over the reals. The last part is false: the azimuths -180 and 180 degrees are the same and 360 apart (C127_polar_distance_refuted)."
  }
 ]
}