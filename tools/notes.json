{
 "C03": {
  "status": "partial",
  "note": "Proved over the reals; as executed in binary32 the bound holds up to rounding for |a|<=720 and the exact range [-180,180) is refuted by a witness (largest float below 180)."
 },
 "C05": {
  "note": "Over the reals, histogram convention."
 },
 "C08": {
  "status": "partial",
  "note": "Holds for cameras not straddling +-180 deg; refuted by a witness otherwise."
 },
 "C61": {
  "status": "partial",
  "note": "False of the code: the round trip mirrors the vertical coordinate; exact effect proved."
 },
 "C14": {
  "note": "Round trip over the reals and bit-exact in binary32 for readings up to 2^90."
 },
 "C18": {
  "status": "partial",
  "note": "Refuted: ('a_to_b','c') and ('a','b_to_c') share one history. Proved for source names s such that s++'_' does not contain '_to_'."
 },
 "C22": {
  "status": "partial",
  "note": "Exact behaviour proved with the code's speed type test (param1 - 1 < FLT_MIN); refuted for the documented 'ground speed' test: airspeed items (param1 = 0) are taken as well."
 },
 "C26": {
  "status": "proved",
  "note": "compressed histogram (C26_compressed_histogram) and the scan message built from it (C26_scan), binary32; which azimuths count as covered is characterised over the reals (C26_coverage)."
 },
 "C27": {
  "status": "proved",
  "note": "Proved for n >= 1; for n = 0 (allowed by the reconfigure range of children_per_node_) the code reads top() of an empty queue (refuted)."
 },
 "C29": {
  "note": "Real arithmetic with the C++ rounding functions; smoothing margin up to 180 degrees (configuration allows up to 90)."
 },
 "C30": {
  "status": "proved",
  "note": "Real arithmetic; false at the goal position itself in binary32 (pitch cost divided by zero), proved as C30_at_the_goal_refuted."
 },
 "C33": {
  "status": "partial",
  "note": "Exact success condition proved over the reals; the claim that it only fails once flown through is refuted at inner nodes."
 },
 "C28": {
  "note": "Every number system; the code casts nothing here."
 },
 "C31": {
  "status": "proved",
  "note": "The stated bounds hold for every number system. In addition: completion without undefined behaviour for children_per_node >= 1, and a witness that children_per_node = 0 (accepted by the parameter server) is undefined behaviour."
 },
 "C64": {
  "note": "Real arithmetic."
 },
 "C32": {
  "note": "Every number system."
 },
 "C34": {
  "status": "proved",
  "note": "Proved over the reals for positive limits and in binary32 against the computed limit; C34_no_limit_refuted: with an unknown (NaN, the initial value) acceleration limit or a zero jerk limit the computed limit is NaN and the commanded speed is not limited."
 },
 "C35": {
  "status": "proved",
  "note": "over the reals; number of states in every number system. C35_zero_direction_refuted records that in binary32 a zero goal direction yields NaN states (0/0 gain), a case outside the reals theorem (there the gain is arbitrary)."
 },
 "C65": {
  "status": "proved",
  "note": "C65_no_cloud_refuted: without any cloud the code reads complete_cloud[0] of an empty vector (precondition of completion)."
 },
 "C36": {
  "status": "proved",
  "note": "every number system, every history of API calls; the 'reset' flag is never set by any API call, so C36_reset is about arbitrary states."
 },
 "C37": {
  "status": "partial",
  "note": "C37_hover_*_partial give the exact target in every cycle of every episode (entry position latched by the first loiter cycle); the claim as stated is false: within 1 m of the goal the target is the goal (C37_goal_refuted), and a loiter request during a landing keeps commanding the landing point (C37_landing_target_kept, C37_loiter_while_landing_refuted)."
 },
 "C38": {
  "status": "proved",
  "note": "binary32, for every planner output; beyond the claim, direct flight with an undefined goal coordinate does produce a NaN target (C38_direct_nan_refuted)."
 },
 "C39": {
  "status": "proved",
  "note": "reals; cameras of positive width (setFOV with a gap in the indices creates zero-width cameras, excluded), non-negative cruise velocity, outside landing (there the speed is not adapted)."
 },
 "C40": {
  "status": "partial",
  "note": "exact conditions (C36_transitions with altitude_wanted) and targets proved; C40_no_descent_refuted: return-to-land and offboard mode never descend to the goal altitude, offboard marks it reached for the rest of the flight."
 },
 "C69": {
  "status": "partial",
  "note": "the equality is proved for all histories; consequently the braking command of runAltitudeChange is overwritten (C69_brake_command_lost_refuted), which refutes the second half of the claim."
 },
 "C70": {
  "status": "proved",
  "note": "reals"
 },
 "C71": {
  "status": "partial",
  "note": "the claim is false: C71_yaw_rate_never_set_refuted shows that in every history the angular velocity is the uninitialised value present at construction (transformPositionToVelocityWaypoint is never called)."
 },
 "C41": {
  "status": "proved",
  "note": "holds in every event history; within the first start-up seconds ACTIVE is also reported before any result exists (since_start, not since_result, is what is compared there)."
 },
 "C42": {
  "status": "proved",
  "note": "clouds/transforms as events, threads interleaved at lock granularity; wp_generator setFOV outside waypoints_mutex_ treated as atomic."
 },
 "C72": {
  "status": "proved",
  "note": ""
 },
 "C73": {
  "status": "partial",
  "note": "true when no goal is announced between the worker's read and clear of the new-goal flag and no autopilot message moves the goal silently (partial theorem); the two refuted theorems show that otherwise a goal is lost for ever: a race on new_goal_, and goals moving by less than 1 cm per message."
 },
 "C74": {
  "status": "proved",
  "note": "a NaN CP_DIST parameter counts as enabled."
 },
 "C43": {
  "status": "partial",
  "note": "Proved for all histories over the reals; as executed in binary32 it is refuted: a point 2^-21 m inside the border of the default grid gets index 10 of a 10-column matrix (heap overrun)."
 },
 "C44": {
  "status": "proved",
  "note": "Over the reals, for every history of reconfigurations, poses and live clouds."
 },
 "C45": {
  "status": "proved",
  "note": "Exact for every number system for 0 <= min_n_land_cells, 1 <= max_n_mean_diff_cells; with the allowed setting 0 no cell is ever landable (refuted). Cells beyond the border count as not flat and at height 0."
 },
 "C77": {
  "status": "proved",
  "note": "binary32, all sizes."
 },
 "C78": {
  "status": "partial",
  "note": "False of the code: the message is built from the grid before the cloud (proved exactly, refuted by a witness)."
 },
 "C79": {
  "status": "partial",
  "note": "Proved for the raw grid itself; a recording with another number of cells makes the planner blend matrices of different sizes (refuted)."
 },
 "C83": {
  "status": "partial",
  "note": "Geometric convergence proved; the first estimate is blended with 0, so it can lie outside the measured range (refuted)."
 },
 "C46": {
  "status": "proved",
  "note": "Every history from construction: order of states for binary32 and any trig; landability of the accepted patch over the reals (inputs: kernel >= 0, weights in [0,1], threshold >= 0, flags 0/1)."
 },
 "C47": {
  "status": "proved",
  "note": "Patch test exact over Z; filter range and evidence over the reals for every history. The filter forgets earlier cycles only when landing is not requested or the grid changes size (restart)."
 },
 "C48": {
  "status": "proved",
  "note": "Goals of the search over the reals for every history in which landing stays requested; offsets pairwise different for all step numbers."
 },
 "C49": {
  "status": "proved",
  "note": "Window 1..100 in binary32 (valid sample) and any window >= 1 over the reals (rank); with the allowed window 0 every grid is read out of range (refuted). Grids must be at least as large as the window."
 },
 "C50": {
  "status": "partial",
  "note": "The vertical axis is not examined at all (misplaced parenthesis), shown by a run; the horizontal part is exact in binary32."
 },
 "C75": {
  "status": "partial",
  "note": "Proved without trajectory/mode messages between acceptance and descent (reals); a trajectory message in between moves the goal (refuted by a run). Vertical descent at one point proved for any number system."
 },
 "C76": {
  "status": "partial",
  "note": "Set of commanded vertical speeds proved in binary32; after an abort during the altitude change the node keeps commanding the descent (refuted by a run)."
 },
 "C80": {
  "status": "partial",
  "note": "No overrun for kernels 1..20 and grids >= 41 cells (reals); with the default parameters of both nodes the first cycle overruns (refuted)."
 },
 "C81": {
  "status": "partial",
  "note": "Exact for grids of 40 or 41 rows; other sizes are drawn with the wrong offset (refuted for 44)."
 },
 "C82": {
  "status": "partial",
  "note": "Status exact for all timings; nothing is published while waiting up to the termination timeout, so CRITICAL is only reported when the outage is over (refuted)."
 },
 "C84": {
  "status": "partial",
  "note": "Proved if no grid message is lost; lost messages shorten the evidence (refuted by a run with five grids)."
 },
 "C51": {
  "status": "proved",
  "note": "Tiling and distance to the centre over the reals; centre-and-back also with the doubles of the program for scales 2^-20..2^20 and int coordinates; neighbour relation exact. getNeighborFromYaw does not return a neighbour (refuted). The latter is beyond the claim."
 },
 "C52": {
  "status": "proved",
  "note": "Search, legality and published paths proved in binary64 for every map, cost function, tie-breaking; every path published in any history is good or of the fallback kind; the fallback flies above the maximum altitude (refuted). Iteration bound part of C52_search. The refuted theorem concerns the fallback path, which is not a search result."
 },
 "C53": {
  "status": "proved",
  "note": "Proved for every number type and cost, terminates; beyond the claim, the node passes iteration count and margin in swapped order (C53_swapped_arguments_refuted)."
 },
 "C54": {
  "status": "proved",
  "note": "Over the reals; beyond the claim, quadraticBezierAcc ignores the duration (C54_acceleration_refuted)."
 },
 "C55": {
  "status": "partial",
  "note": "Posterior and risks (reals, and doubles up to NaN); prior above/inside the table proved; the clamp below the table is dead code (signed/unsigned), so a negative height uses the LAST entry (refuted)."
 },
 "C56": {
  "status": "proved",
  "note": "Proved for every history and number type; backing up with an empty trail is undefined behaviour (refuted). goBack is never called by the node."
 },
 "C57": {
  "status": "proved",
  "note": "Any number type for length/order/centre; yaw over the reals."
 },
 "C58": {
  "status": "partial",
  "note": "Order proved for histories without user commands; a new user goal does not clear the waiting list, so the vehicle flies on to the old goal afterwards, and altitude-only changes are ignored (refuted by runs)."
 },
 "C59": {
  "status": "partial",
  "note": "Reals. Setpoint beyond the goal when nearer than the speed; NaN at the goal (None in the model); speed above the maximum when default > max (refuted)."
 },
 "C60": {
  "status": "proved",
  "note": "Non-negative costs in reals and doubles; heuristics admissible for plain nodes and cells of at least a metre; overestimates for SpeedNode and for small cells (refuted)."
 },
 "C85": {
  "status": "proved",
  "note": "Over the reals (with doubles sums of costs can be absorbed)."
 },
 "C86": {
  "status": "partial",
  "note": "Transparency for every number type; a camera obstacle in a cell whose risk is cached is ignored until the next map (refuted)."
 },
 "C87": {
  "status": "proved",
  "note": "Terminates in doubles if min_overestimate > 1; with the allowed value 1.0 the repetition never ends (refuted)."
 },
 "C89": {
  "status": "partial",
  "note": "Exact for radius 0 and 1 (in cells); any larger radius recurses/indexes undefined (refuted), which includes the default robot radius with a 0.2 m octree."
 },
 "C90": {
  "status": "partial",
  "note": "Exact range for the heuristic; planning or clicking before the first map is undefined behaviour (refuted)."
 },
 "C94": {
  "status": "partial",
  "note": "Over the reals for cell sizes above 0.2 m: soundness for all moves, completeness for level, vertical and axis-aligned moves up to 45 degrees; false for steep slanted moves, which speed nodes offer (refuted)."
 },
 "C88": {
  "status": "partial",
  "note": "The English claim is false: a planning cycle that fails because the own cell is occupied sends the vehicle back to the second cell of the old path, and stop() leaves the goal pose unchanged; both proved for every state with an occupied own cell, with concrete runs."
 },
 "C91": {
  "status": "partial",
  "note": "Order, pace and last pose proved for every history and number type; the heading condition is vacuous (refuted over the reals: only exactly opposite headings fail)."
 },
 "C92": {
  "status": "proved",
  "note": "Over the reals; a single-pose path is doubled by filterPathCorners (refuted)."
 },
 "C93": {
  "status": "partial",
  "note": "Bound is the configured one or 5000; it does become 5000 for good after one failed search (refuted by a run); use_current_yaw_ is never read (refuted for every run)."
 },
 "C95": {
  "status": "partial",
  "note": "All other parameters are in force at once and path guarantees hold across reconfigurations (binary64); CELL_SCALE is a header static and never changes in the files that read it, node type/radius ignored at start and in combined requests, cached risks stay stale (refuted)."
 },
 "C96": {
  "status": "partial",
  "note": "Over the reals. Holds unless the first move has no y part and the second no x part; there a quarter turn counts as none (the guard in getXYRotation tests this_diff instead of other_diff; refuted), and a vertical second move counts turns depending on the first's direction."
 },
 "C97": {
  "status": "partial",
  "note": "Order holds in all interleavings; all clouds are processed if each arrives after the previous one has been handled. Otherwise a cloud may be processed several times (flag read before the cloud is consumed) or never (lost notification), and the worker may use mutexes before they exist (all refuted)."
 },
 "C98": {
  "status": "partial",
  "note": "Goals given between cycles are tried, waiting goals are taken up in order; goals given between cycles are tried; goals given during a cycle can be lost (popNextGoal overwrites, or goal_is_blocked_ of the old goal is applied to the new one); path_[0] can be read from an empty vector since positionCallback does not take the mutex (refuted). setCurrentPath once per cycle; torn reads not modelled."
 },
 "C99": {
  "status": "partial",
  "note": "Ideal arithmetic. Refuted: spread equal to the threshold looks like no spread; counts are misleading for thresholds of 200 and more and wrap around from 400 points on (counter_max_value is fixed); the thick window misses its last row and column; the display shows the newest grid, the message to the waypoint generator the previous one."
 },
 "C100": {
  "status": "partial",
  "note": "Sizes and window in binary32 for all histories without replay; limits in ideal arithmetic. Refuted for the display, which shows the requested smoothing size before it is applied."
 },
 "C101": {
  "status": "partial",
  "note": "Index safety and the painted cells for every number system; geometry in ideal arithmetic. Refuted: the heading's cell (degrees converted as if radians), the histogram image (step 255 for rows of 60 bytes), the scan's sectors (turned by half a column), the fields of view of tilted cameras (mirrored upside down)."
 },
 "C102": {
  "status": "partial",
  "note": "Holds for CP_DIST > 0. Refuted for CP_DIST = 0 or NaN: the message of an earlier run is sent again after every run."
 },
 "C103": {
  "status": "partial",
  "note": "Refuted: an unset GAZEBO_MODEL_PATH or HOME is undefined behaviour, a missing world file is shown as an empty world without a failure, a socket counts as a file."
 },
 "C104": {
  "status": "partial",
  "note": "Proved for all interleavings in which the command thread asks for no risk (use_speedup_heuristics_ off); without depth clouds and clicked points also free of collisions. Refuted in general: publishSetpoint takes no lock, so the command thread can read a deleted octree and put risks of the old map into the cleared cache; depthCameraCallback and clickedPointCallback take no lock either and change the obstacle set and the cache during a planning cycle."
 },
 "C105": {
  "status": "partial",
  "note": "Ids, waypoint trails and the arrow hold for all histories; the vehicle's trail is complete only if exactly one position arrives per cycle (refuted otherwise: gaps, repeated lines, a first line from an uninitialised position or from the origin). Ids are unbounded integers in the model (int in the program)."
 },
 "C106": {
  "status": "proved",
  "note": "For any number of cameras; the outside world (pose, service reply) is assumed to answer for the last theorem only."
 },
 "C107": {
  "status": "partial",
  "note": "Refuted: cmdLoopCallback waits for a pose with the waypoint mutex held (planning, reconfiguration and destructor then wait for it); checkPx4Parameters calls the parameter service with the parameter mutex held."
 },
 "C108": {
  "status": "partial",
  "note": "Refuted: AvoidanceNode's worker_ is never joined, so its destructor calls std::terminate; the landing planner's main joins a thread whose exit flag nobody sets. Proved: the local planner joins its own threads first."
 },
 "C109": {
  "status": "partial",
  "note": "The bounds are proved for all schedules; promptness is refuted (two lost notifications: 10 s)."
 },
 "C110": {
  "status": "partial",
  "note": "Refuted: the cheapest path is not found (1.6 times the cost with a 1.03 overestimate), as the estimate takes everything on the way for unknown space. The message with risks is built but never published and PathInfo.is_blocked is never read."
 },
 "C111": {
  "status": "proved",
  "note": "Ideal arithmetic."
 },
 "C112": {
  "status": "partial",
  "note": "Refuted nearer than 5 m to the goal: the climb weight grows with 25/d^2 and a blocked direction is ranked first though another one is free all around. Proved from 5 m on, ideal arithmetic."
 },
 "C113": {
  "status": "partial",
  "note": "Refuted in columns that are not evaluated: above and below 48 degrees elevation the cost is computed for every second (fourth, tenth, ...) column only, and a single obstacle in a column in between changes no cost at all. Proved for all evaluated columns; ideal arithmetic, for an unchanged flag 'an obstacle faces the goal'."
 },
 "C114": {
  "status": "partial",
  "note": "Refuted for 21 members: what the vehicle reports (position, orientation, velocity, armed, nav state), the goal, the last waypoints, the node's status, mission speed and, in the planner and the waypoint generator, goal_, position_, timeout_termination_ and the smoothing speeds: each has a reachable state in which one thread is about to write it while another one is about to access it, for any number of cameras. Proved for all other members (C114_protected_data_is_not_raced_for). The construction of the node before its threads run and its destructor are not modelled."
 },
 "C115": {
  "status": "partial",
  "note": "Refuted for the vectors that no mutex protects: the goal (0,0,5) is replaced by (100,100,5) and the planner gets (100,0,5). Proved: under a mutex every copy is a vector that was sent; without one every single coordinate was sent. Words are stored and read one at a time in program order (C++ gives a racing program no meaning at all)."
 },
 "C116": {
  "status": "partial",
  "note": "Proved: the latest configuration is in force in both objects (LocalPlanner and its StarPlanner keep copies of ranges, margin, weights, goal and pose), for every history in which configuration, firmware parameters, pose and goal have been handed over. Refuted: a goal whose altitude is not goal_z_param loses its altitude at the next reconfiguration, whatever that one is about, until a goal is set again (only in the planner: the node and the waypoint generator keep the old one). timeout_startup_ and timeout_critical_ are never read (C116_timeouts_have_no_effect: no timeout affects the planner; the node uses timeout_termination_ in its waiting loop only, C52). Before the first configuration the two objects have different ranges (12 m and 15 m); the node's planning thread is started before the reconfigure server calls back (local_planner_nodelet.cpp:53-59)."
 },
 "C117": {
  "status": "proved",
  "note": "Ideal arithmetic. The goal is at least 5 m from the predecessor (nearer: C112_walled_direction_not_chosen_refuted). Walls whose smoothing window reaches over the poles are not covered. The change of velocity is bounded with the larger of the vehicle's speed and one node distance, which is what the tree takes for the velocity. Without enough open directions the walled ones are candidates like the others (all directions are returned, only ranked)."
 },
 "C118": {
  "status": "proved",
  "note": "Exact: a member is raced for in some reachable state iff it is in the list. Accesses are modelled per member (or group of members accessed under the same conditions), values are not. C118_map_freed_while_read_refuted: the node's mutex does not keep the command loop away from the map and the risk cache."
 },
 "C119": {
  "status": "proved",
  "note": "Exact: a member is raced for in some reachable state iff it is the flag or one of the pointers. C119_mutexes_exist_refuted: the transform thread can use the pointers to the mutexes while they are being set. That the flag is a plain bool is why it counts; its value is handed over consistently otherwise."
 },
 "C120": {
  "status": "proved",
  "note": "Proved for both nodes from a general theorem on systems whose code takes no mutex within another. C120_position_kept_up_to_date_refuted is the starvation: a reachable state from which the command loop makes n whole turns, for every n, without a position update. Time is not modelled: that a planning pass ends is C87."
 },
 "C121": {
  "status": "partial",
  "note": "Proved: what exactly is stored, for every history, and that it is right for one camera in the configured frame whose transform does not change between stamp and reception. Refuted for the rest, as the code ignores the header of the cloud: C121_wrong_transform_refuted (several cameras as in global_planner_sitl_3cam.launch; a vehicle that moved), C121_default_frame_refuted (no parameter camera_frame_id: the looked-up frame is the empty string, nothing is ever stored), C121_risk_not_renewed_refuted (the cached risk is used until the next map)."
 },
 "C122": {
  "status": "partial",
  "note": "Proved: which points are in the cloud and which sizes of wall fit. Refuted: C122_camera_in_obstacle_refuted (the cloud always has 100 points; those not filled are at the origin of the camera, whose cell becomes an obstacle cell), C122_overrun_refuted (more than 100 points are written beyond the buffer), C122_goal_ignored_refuted (a clicked point is not a goal)."
 },
 "C10": {
  "status": "proved",
  "note": "Growth in binary32, for every history; the value of the estimate in ideal arithmetic. C10_points_inside_refuted shows that the restriction to half a circle is needed: of points spread further only the outermost two are sure to be inside."
 },
 "C123": {
  "status": "proved",
  "note": "Ideal arithmetic. The contraction holds for control cycles no longer than half the filter's time constant (158 ms with the default smoothing speed 10), as long as the turn and rate to begin with are less than half a circle; C124_long_cycles_refuted shows that a bound on the length is needed."
 },
 "C124": {
  "status": "partial",
  "note": "Proved for cycles no longer than half the time constant. Refuted for longer ones: C124_long_cycles_refuted (default smoothing, cycles of 1 s, take-off from 5 m to 50 m: the setpoint is 391 m below the origin in the sixth cycle and the deviation grows without bound, although the speed-adapted target is between 5 m and 8 m all the time); nothing in the code bounds the length of a cycle."
 },
 "C125": {
  "status": "partial",
  "note": "Everything proved but one case: C125_unknown_altitude_lands_refuted (binary32: a return to launch with a goal altitude that is not a number is flown as a landing). Loiter and a loiter request do not evaluate the mode (C125_lands_when_asked says that they keep it; see C37_loiter_while_landing_refuted)."
 },
 "C126": {
  "status": "proved",
  "note": "C126_node_fov; every camera is reported in every cycle, counting upwards (local_planner_nodelet.cpp:164-174; how a camera's field of view is estimated is C10). The waypoint generator would do with any order, the planner only with orders in which the cameras become known one after the other: C126_out_of_order_refuted is about calls of setFOV that the node does not make."
 },
 "C127": {
  "status": "partial",
  "note": "Over the reals. The last part is false: the azimuths -180 and 180 degrees are the same and 360 apart (C127_polar_distance_refuted)."
 }
}