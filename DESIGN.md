# Formal model of PX4-Avoidance in Rocq (Coq 8.16.1)

(This file is produced by `python3 tools/mkdesign.py` from `tools/design.md`, `MANIFEST.json` and `tools/axioms.md`.)

## 1. Arithmetic

The C++ is floating point code.  Three styles are used, and each model file says which:

* **`num` interface** (`theories/Num.v`): a plain record of operations (`+ - * / floor sqrt
  < <= == isfinite ...`).  The numeric code is written *once* over this record and
  instantiated with `F32` = IEEE-754 binary32 (Flocq `BinarySingleNaN`, round to
  nearest even: NaN, infinities, signed zero, rounding - executable), `F64` = binary64 (`Num64.v`; the global
  planner computes in `double`), and `Rn` = the real numbers
  (ideal arithmetic).  Theorems that only depend on comparisons/control flow are proved for
  *every* instance or for `F32`/`F64`; geometric identities are proved for `Rn` and say so; where the
  float execution violates the ideal statement, a `_refuted` theorem gives a floating point witness.
* **Discrete**: indices, queues, state machines, histories: `Z`, `nat`, `list`, `option`, records.
* **Oracles**: library code whose implementation is not in the repository (sin/cos/atan2, octomap, ROS, tf
  interpolation, random, priority queue tie-breaking) is a universally quantified argument of the model function.

C++ undefined behaviour (out-of-range access, use of an uninitialised or empty container, division by 0 in integers, endless loops where
stated) is a separate outcome (`None`/`UB`), never a default value.

## 2. Conventions

`theories/<X>Model.v` model (definitions only, each citing file:lines of /repo and its simplifications);
`<X>Spec.v` small independent specification used in theorem statements; `<X>Proofs*.v` lemmas;
`<X>Props*.v` the property theorems (`Cnn_...`), each followed by `Print Assumptions` and by `Example`s showing that
their hypotheses are met by a concrete non-trivial case.

* A theorem ending in `_partial` proves part of the property; the full statement is in `properties.jsonl` and the note of the manifest says what is missing.
* A theorem ending in `_refuted` proves that the (part of the) English property it is named after is **false of the code**: it
  exhibits an input or a history. These are findings about the code (section 6). The property then has status `partial` in the manifest, except where the finding only concerns inputs outside
  the property's stated precondition.

## 3. What is modelled

| component | source | model files |
|---|---|---|
| numbers | float/double arithmetic | Num, Num64 (errors: F32Err, F64Err) |
| angles, polar coordinates, FOV, cloud filtering, messages, frames | avoidance/src/common.cpp, common.h | CommonModel |
| histogram | avoidance/src/histogram.cpp, histogram.h | Mat, HistModel |
| transform buffer | avoidance/src/transform_buffer.cpp | TfModel |
| state machine base class | avoidance/include/avoidance/usm.h | UsmModel |
| failsafe, parameters, mission | avoidance/src/avoidance_node.cpp | NodeModel |
| cloud processing, histograms, cost matrix, candidates | local_planner/src/nodes/planner_functions.cpp | PfModel |
| look-ahead tree | star_planner.cpp, tree_node.cpp | StarModel |
| local planner, trajectory simulator, obstacle scan | local_planner.cpp, trajectory_simulator.cpp | LpModel |
| local planner display | local_planner_visualization.cpp | LvModel, TrModel |
| world display | avoidance/src/rviz_world_loader.cpp | WlModel |
| waypoint generator | local_planner/src/nodes/waypoint_generator.cpp | WgModel |
| local planner node: callbacks, camera threads, worker, command loop; its mutexes; its waits in time; shutdown of the nodes | local_planner_nodelet.cpp, *_node_main.cpp | NlModel, NtModel, NwModel, ShModel |
| landing grid, landing decision, serialisation | grid.hpp, safe_landing_planner.cpp, _node.cpp | SlModel |
| landing display | safe_landing_planner_visualization.cpp | SlvModel, TrModel |
| landing node status; its threads | safe_landing_planner_node.cpp | SlnModel, SlwModel |
| landing waypoint generator and its node | safe_landing_planner/.../waypoint_generator{,_node}.cpp | SwModel |
| global planner library: cells, nodes, risk, search, simplification, Bezier, statistics | global_planner/src/library/*.cpp, include/*.h | GpModel, GpSearch, GpPlan, GpStats, GpInfo |
| global planner node, its reconfiguration and its threads | global_planner_node.cpp, GlobalPlannerNode.cfg | GpNode, GpFollow, GpConf, GcModel, GmModel |

**Not modelled**: ROS transport (queues, serialisation of library messages), timers' periods (callbacks are events in arbitrary order), threads other than those
of the local planner node (C73, C106-C109) and those of C97, C108 (landing node), C98, C104 and C108 (global planner node); torn reads and writes of single variables, the implementation of
PCL, octomap, tf, Eigen and libm (oracles), rviz markers except the ones of C62, C66, C81, C99, C101, C103 and C105, the YAML parser, `mock_data_node`, the simulation and
launch files, log output, C++ integer overflow and float-to-int casts of unrepresentable values (arbitrary where a theorem says so, else out of scope).

## 4. Trusted base

* The Coq 8.16.1 kernel, including `vm_compute`.
* Axioms: only those of the standard library, listed per theorem in section 7 (`ClassicalDedekindReals.sig_forall_dec`, `ClassicalDedekindReals.sig_not_dec`,
  `FunctionalExtensionality.functional_extensionality_dep`, `Classical_Prop.classic`). They come in through the real numbers and Flocq. No axioms of our own.
* The reading of the C++ source: every model definition cites its source lines. FLT_EVAL_METHOD = 0 and no `-ffast-math`, no fused multiply-add contraction.

## 5. Properties

| id | model | proof |
|----|-------|-------|
| C01 | `polarToHistogramIndex`, `wrapPolar` over `num`; float->int conversion is an arbitrary function on out-of-range values | for every instance and conversion the final clamp gives the range |
| C02 | `histogramIndexToPolar` | R: floor arithmetic; F32: exhaustive over the finite domain, lifted by `forallb_forall` |
| C03 | `wrapAngleToPlusMinus180/PI` | R: range, congruence, idempotence; F32: error analysis, witness outside the range |
| C04,C05 | conversions over `Rn`, atan2 built from the stdlib `atan` | trigonometric identities |
| C06 | `angleDifference` (fmod), `indexAngleDifference` | R |
| C07 | `isInWhichFOV`, `isOnEdgeOfFOV`, `scaleToFOV` | induction over camera list, any instance; bounds, edges and the scale on the edge in R (CommonFovProps) |
| C08 | `pointInsideFOV` | R characterisation when not straddling; refutation otherwise |
| C09 | in-place compaction loop with index `j` | refinement to `filter`; extremes by induction |
| C10 | `updateFOVFromMaxima` | monotone by case analysis, lifted to histories; the value of the estimate by an invariant of the fold over the points, in R (CommonFovProps) |
| C11 | message records with NaN-able fields | direct |
| C12,C13 | conversions, quaternions over R | `ring`/`nsatz`, floor lemmas |
| C14,C15 | matrices as functions with dimensions | index arithmetic, histories |
| C16,C17,C18 | map from key to list of (stamp,transform) | invariant over operation lists; string witness |
| C19 | table-driven machine with output | by construction + per-step lemmas |
| C20,C21,C22 | `checkFailsafe`, `px4ParamsCallback`, `missionCallback` | case analysis, fold induction |
| C23,C24,C25,C26 | `processPointcloud`, `generateNewHistogram`, `compressHistogramElevation`, obstacle scan with loops over lists/cells; trigonometry an oracle | loop invariants |
| C27 | priority-queue algorithm of `getBestCandidatesFromCostMatrix` | loop invariant to sorted prefix |
| C28,C29 | block-copy algorithms on matrices | index arithmetic |
| C30 | `costFunction` over R | monotonicity |
| C31,C32 | `StarPlanner::buildLookAheadTree` with cost oracles | tree invariant by induction on iterations |
| C33,C34,C35 | path interpolation, speed limit, trajectory simulator over R | real analysis |
| C36..C40 | local waypoint generator as a state machine with recorded outputs | invariants over input sequences |
| C41,C42 | node event handlers, camera thread protocol as transition system | invariants over interleavings |
| C43..C49 | grid, online statistics, landing decision, landing state machine | R arithmetic, fold induction, state invariants |
| C50 | setpoint validity flags with NaN-able values | case analysis / witness |
| C51..C60 | global planner cells, A*, simplification, Bezier, risk, trail, goals | integer/real arithmetic, search invariants |
| C61 | `cartesianToPolarFCU`, `polarFCUToCartesian` | exact effect over R (mirrored z), witness |
| C62,C66 | image builders of local_planner and planner_functions | injectivity of the index arithmetic; byte ranges in every instance |
| C63 | `smoothPolarMatrix` with its padding and convolution loops | sums over neighbourhoods, R |
| C64 | tree of C31 with positions | invariant over iterations, R |
| C65 | `LocalPlanner::runPlanner` | composition of C23..C32, totality of every step |
| C67 | closest point on the goal line | planar geometry over R |
| C68,C69,C70,C71 | waypoint generator histories | state invariants; unit quaternion over R |
| C72,C73,C74 | local planner node as labelled transition system, all interleavings of command loop, worker and callbacks | invariants over event lists; runs as witnesses |
| C75,C76 | landing waypoint generator node histories | invariants; runs as witnesses |
| C77,C78,C79 | serialisation of grids | list/matrix index arithmetic in binary32 |
| C80,C81 | matrix accesses of the landing node, marker builder | bounds invariants; runs as witnesses |
| C82 | landing node status loop with arbitrary timings | case analysis, induction over cycles |
| C83 | cell smoothing recursion | geometric series over R |
| C84 | landing decision histories | induction over histories |
| C85 | A* loop with abstract `pop` | loop invariant: closed set is saturated |
| C86,C89,C90 | risk functions with the cache and octomap oracle | cache invariant; witnesses |
| C87 | repetition of searches with decreasing overestimation, binary64 | decreasing measure (rounding-aware), fixpoint witness |
| C88,C91 | node histories with failing searches, path following | per-state theorems and invariants |
| C92 | path statistics (`analysis.h`, `common_ros.h`) | triangle inequality over R |
| C93,C95 | node with dynamic reconfiguration, header statics per source file | invariants over request/event histories |
| C94 | `Node::getCells` (`node.cpp`), all half-step samples with their four 10 cm offsets | characterisation of the sampled cells by floors, one-dimensional monotonicity over R |
| C96 | `Node::getRotation`, `getXYRotation`, `angleToRange` | `Ratan2` and cosine subtraction over R |
| C97 | the three threads of the landing node as a labelled transition system | invariants over all interleavings, witness schedules |
| C98 | main and planning thread of the global planner node as a labelled transition system | invariants over all interleavings, witness schedules |
| C99 | `SlvModel`: markers, colours, binned cloud | induction over the drawing loop, piecewise-linear spec of the rainbow |
| C100 | `reconfigure`, `applyResize`, `runCloud` over histories | invariant: update pending or configuration in force |
| C101 | `costDisplay`, `treeLines`, `scanSectors`, `fovCorners` | indices by C01, distinct channels by C62; tree invariant over planner histories; trigonometry; counterexamples |
| C102 | `runPlanner`, `laserScan` | case analysis of one run, binary32 |
| C103 | `resolveUri`, `visualizeRVIZWorld`; environment, stat and the parsed file are arguments | induction over the search path and the file |
| C104 | three threads of the global planner node, map, risk cache and obstacle set; accesses are intervals | invariant over all interleavings, witness schedules |
| C105 | both `publishPaths` with the callbacks that feed them, `publishCurrentSetpoint` | induction over histories |
| C106, C107 | each thread of the local planner node as the sequence of its mutex operations, joins and outside calls (per camera) | lock order invariant, measure; witness schedules with an invariant |
| C108 | what main/destructor of each node does to flags and threads | invariants over all schedules |
| C109 | cloud callback, transform threads and planning thread with the waits' time limits, in ms, notifications lost if nobody waits yet | invariant over all schedules |
| C110 | `getPathInfo`, `getPathWithRiskMsg` over the search model | induction over the path (reals), doubles for the flags and the counterexample |
| C111 | cost matrix of an empty histogram and `getBestCandidatesFromCostMatrix` | every cell's cost in closed form (C29), nearest row and column, a priority queue's first element is a minimum (reals) |
| C112 | cost matrix of a partly blocked histogram | bounds of the smoothed obstacle cost over the window, bounds of the other terms; counterexample at 1 m |
| C113 | cost matrices of two histograms | obstacle cost, interpolation and smoothing are monotone, strictly around the changed cell; counterexample in a skipped column |
| C114 | NdModel.v: which shared member each thread reads and writes, in which order, under which mutexes (those of NtModel.v) | a protection for every member; invariant: every thread's remaining script respects them with the mutexes it holds; schedules for the unprotected ones, for any number of cameras |
| C115 | NdTorn.v: word by word storing and copying of a vector, with and without a mutex | invariants over all interleavings; counterexample |
| C116 | LcModel.v: LocalPlanner and StarPlanner with separate members, all calls the node makes, the configuration's doubles | refinement: after every history the star planner's copies agree with the planner's, so a run is LpModel.v's under the latest configuration; induction on histories |
| C117 | LpModel.v, StarModel.v, PfModel.v composed: a whole planner run over the remembered points | the tree invariant gives the candidate list behind each edge; the histogram of this list is read off the cloud; C112's bound; a cell that enough others undercut is not among the n best (permutation and pigeonhole) |
| C118 | RcModel.v, GrModel.v: the accesses of the global planner node's functions, as code with branches, loops and mutexes, run by five threads | a protection for each member that the code is checked against (invariant over all executions of all codes); for the others a schedule, found by evaluation and proved to exist in general (`find_later_race`) |
| C119 | RcModel.v, SrModel.v: the same for the safe landing planner node | the same |
| C120 | RcModel.v, GrModel.v, SrModel.v | invariant: who holds which mutex is what is still to be given back, one at most (no Guard within a Guard, checked on the code); induction over what the holder still has to do |
| C121 | CamModel.v on GpNode.v | induction over the history with frame lemmas for every other callback; tf a parameter (every tf tree) |
| C122 | MdModel.v with CamModel.v, GpNode.v | the wall as a set of points by membership in the two loops' ranges; counting |
| C123 | WgLookSpec.v on WgModel.v, SwModel.v | the yaw as a bearing (no atan2 in the statement); the discretized second-order filter shown to contract a weighted norm of error and rate by 1 - h^2; induction over the flight with frame lemmas for the other callbacks |
| C124 | the same on smoothWaypoint | the same contraction per coordinate with a moving target; refuted for long cycles by evaluation in binary32 |
| C125 | WgModel.v | invariant of the flags over every history; the answer to "altitude change?" as a function of the inputs; case analysis of binary32 for NaN (no overflow bounds are needed as infinities are not NaN) |
| C126 | lp_setFOV of LpModel.v, wg_setFOV of WgModel.v | induction over the reports; the specification is the last report of each camera |
| C127 | distance2DPolar of CommonModel.v | norms of the plane, over R |

## 6. Findings about the code

Statements a user would expect that are false of the code, each with a machine-checked witness:

* C03 (`C03_wrap180_float_range_refuted`): Proved over the reals; as executed in binary32 the bound holds up to rounding for |a|<=720 and the exact range [-180,180) is refuted by a witness (largest float below 180).
* C08 (`C08_pointInsideFOV_refuted`): Holds for cameras not straddling +-180 deg; refuted by a witness otherwise.
* C10 (`C10_points_inside_refuted`): Growth in binary32, for every history; the value of the estimate in ideal arithmetic. C10_points_inside_refuted shows that the restriction to half a circle is needed: of points spread further only the outermost two are sure to be inside.
* C100 (`C100_display_refuted`): Sizes and window in binary32 for all histories without replay; limits in ideal arithmetic. Refuted for the display, which shows the requested smoothing size before it is applied.
* C101 (`C101_heading_refuted`, `C101_histogram_image_refuted`, `C101_scan_sector_refuted`, `C101_fov_refuted`): Index safety and the painted cells for every number system; geometry in ideal arithmetic. Refuted: the heading's cell (degrees converted as if radians), the histogram image (step 255 for rows of 60 bytes), the scan's sectors (turned by half a column), the fields of view of tilted cameras (mirrored upside down).
* C102 (`C102_scan_is_current_refuted`): Holds for CP_DIST > 0. Refuted for CP_DIST = 0 or NaN: the message of an earlier run is sent again after every run.
* C103 (`C103_environment_refuted`, `C103_regular_file_refuted`, `C103_missing_file_refuted`): Refuted: an unset GAZEBO_MODEL_PATH or HOME is undefined behaviour, a missing world file is shown as an empty world without a failure, a socket counts as a file.
* C104 (`C104_threads_refuted`): Proved for all interleavings in which the command thread asks for no risk (use_speedup_heuristics_ off); without depth clouds and clicked points also free of collisions. Refuted in general: publishSetpoint takes no lock, so the command thread can read a deleted octree and put risks of the old map into the cleared cache; depthCameraCallback and clickedPointCallback take no lock either and change the obstacle set and the cache during a planning cycle.
* C105 (`C105_trail_refuted`): Ids, waypoint trails and the arrow hold for all histories; the vehicle's trail is complete only if exactly one position arrives per cycle (refuted otherwise: gaps, repeated lines, a first line from an uninitialised position or from the origin). Ids are unbounded integers in the model (int in the program).
* C107 (`C107_no_pose_freezes_node_refuted`, `C107_no_reply_freezes_node_refuted`): Refuted: cmdLoopCallback waits for a pose with the waypoint mutex held (planning, reconfiguration and destructor then wait for it); checkPx4Parameters calls the parameter service with the parameter mutex held.
* C108 (`C108_local_and_global_planner_abort_refuted`, `C108_landing_planner_hangs_refuted`): Refuted: AvoidanceNode's worker_ is never joined, so its destructor calls std::terminate; the landing planner's main joins a thread whose exit flag nobody sets. Proved: the local planner joins its own threads first.
* C109 (`C109_prompt_refuted`): The bounds are proved for all schedules; promptness is refuted (two lost notifications: 10 s).
* C110 (`C110_cheapest_refuted`): Refuted: the cheapest path is not found (1.6 times the cost with a 1.03 overestimate), as the estimate takes everything on the way for unknown space. The message with risks is built but never published and PathInfo.is_blocked is never read.
* C112 (`C112_walled_direction_not_chosen_refuted`): Refuted nearer than 5 m to the goal: the climb weight grows with 25/d^2 and a blocked direction is ranked first though another one is free all around. Proved from 5 m on, ideal arithmetic.
* C113 (`C113_obstacle_raises_cost_refuted`): Refuted in columns that are not evaluated: above and below 48 degrees elevation the cost is computed for every second (fourth, tenth, ...) column only, and a single obstacle in a column in between changes no cost at all. Proved for all evaluated columns; ideal arithmetic, for an unchanged flag 'an obstacle faces the goal'.
* C114 (`C114_no_races_refuted`): Refuted for 21 members: what the vehicle reports (position, orientation, velocity, armed, nav state), the goal, the last waypoints, the node's status, mission speed and, in the planner and the waypoint generator, goal_, position_, timeout_termination_ and the smoothing speeds: each has a reachable state in which one thread is about to write it while another one is about to access it, for any number of cameras. Proved for all other members (C114_protected_data_is_not_raced_for). The construction of the node before its threads run and its destructor are not modelled.
* C115 (`C115_unprotected_goal_is_torn_refuted`): Refuted for the vectors that no mutex protects: the goal (0,0,5) is replaced by (100,100,5) and the planner gets (100,0,5). Proved: under a mutex every copy is a vector that was sent; without one every single coordinate was sent. Words are stored and read one at a time in program order (C++ gives a racing program no meaning at all).
* C116 (`C116_goal_altitude_kept_refuted`): Proved: the latest configuration is in force in both objects (LocalPlanner and its StarPlanner keep copies of ranges, margin, weights, goal and pose), for every history in which configuration, firmware parameters, pose and goal have been handed over. Refuted: a goal whose altitude is not goal_z_param loses its altitude at the next reconfiguration, whatever that one is about, until a goal is set again (only in the planner: the node and the waypoint generator keep the old one). timeout_startup_ and timeout_critical_ are never read (C116_timeouts_have_no_effect: no timeout affects the planner; the node uses timeout_termination_ in its waiting loop only, C52). Before the first configuration the two objects have different ranges (12 m and 15 m); the node's planning thread is started before the reconfigure server calls back (local_planner_nodelet.cpp:53-59).
* C118 (`C118_map_freed_while_read_refuted`): Exact: a member is raced for in some reachable state iff it is in the list. Accesses are modelled per member (or group of members accessed under the same conditions), values are not. C118_map_freed_while_read_refuted: the node's mutex does not keep the command loop away from the map and the risk cache.
* C119 (`C119_mutexes_exist_refuted`): Exact: a member is raced for in some reachable state iff it is the flag or one of the pointers. C119_mutexes_exist_refuted: the transform thread can use the pointers to the mutexes while they are being set. That the flag is a plain bool is why it counts; its value is handed over consistently otherwise.
* C120 (`C120_position_kept_up_to_date_refuted`): Proved for both nodes from a general theorem on systems whose code takes no mutex within another. C120_position_kept_up_to_date_refuted is the starvation: a reachable state from which the command loop makes n whole turns, for every n, without a position update. Time is not modelled: that a planning pass ends is C87.
* C121 (`C121_wrong_transform_refuted`, `C121_default_frame_refuted`, `C121_risk_not_renewed_refuted`): Proved: what exactly is stored, for every history, and that it is right for one camera in the configured frame whose transform does not change between stamp and reception. Refuted for the rest, as the code ignores the header of the cloud: C121_wrong_transform_refuted (several cameras as in global_planner_sitl_3cam.launch; a vehicle that moved), C121_default_frame_refuted (no parameter camera_frame_id: the looked-up frame is the empty string, nothing is ever stored), C121_risk_not_renewed_refuted (the cached risk is used until the next map).
* C122 (`C122_camera_in_obstacle_refuted`, `C122_overrun_refuted`, `C122_goal_ignored_refuted`): Proved: which points are in the cloud and which sizes of wall fit. Refuted: C122_camera_in_obstacle_refuted (the cloud always has 100 points; those not filled are at the origin of the camera, whose cell becomes an obstacle cell), C122_overrun_refuted (more than 100 points are written beyond the buffer), C122_goal_ignored_refuted (a clicked point is not a goal).
* C124 (`C124_long_cycles_refuted`): Proved for cycles no longer than half the time constant. Refuted for longer ones: C124_long_cycles_refuted (default smoothing, cycles of 1 s, take-off from 5 m to 50 m: the setpoint is 391 m below the origin in the sixth cycle and the deviation grows without bound, although the speed-adapted target is between 5 m and 8 m all the time); nothing in the code bounds the length of a cycle.
* C125 (`C125_unknown_altitude_lands_refuted`): Everything proved but one case: C125_unknown_altitude_lands_refuted (binary32: a return to launch with a goal altitude that is not a number is flown as a landing). Loiter and a loiter request do not evaluate the mode (C125_lands_when_asked says that they keep it; see C37_loiter_while_landing_refuted).
* C126 (`C126_out_of_order_refuted`): C126_node_fov; every camera is reported in every cycle, counting upwards (local_planner_nodelet.cpp:164-174; how a camera's field of view is estimated is C10). The waypoint generator would do with any order, the planner only with orders in which the cameras become known one after the other: C126_out_of_order_refuted is about calls of setFOV that the node does not make.
* C127 (`C127_polar_distance_refuted`): Over the reals. The last part is false: the azimuths -180 and 180 degrees are the same and 360 apart (C127_polar_distance_refuted).
* C18 (`C18_separate_histories_refuted`): Refuted: ('a_to_b','c') and ('a','b_to_c') share one history. Proved for source names s such that s++'_' does not contain '_to_'.
* C22 (`C22_mission_speed_refuted`): Exact behaviour proved with the code's speed type test (param1 - 1 < FLT_MIN); refuted for the documented 'ground speed' test: airspeed items (param1 = 0) are taken as well.
* C27 (`C27_zero_requested_refuted`): Proved for n >= 1; for n = 0 (allowed by the reconfigure range of children_per_node_) the code reads top() of an empty queue (refuted).
* C30 (`C30_at_the_goal_refuted`): Real arithmetic; false at the goal position itself in binary32 (pitch cost divided by zero), proved as C30_at_the_goal_refuted.
* C31 (`C31_zero_children_refuted`): The stated bounds hold for every number system. In addition: completion without undefined behaviour for children_per_node >= 1, and a witness that children_per_node = 0 (accepted by the parameter server) is undefined behaviour.
* C33 (`C33_fails_at_nodes_refuted`): Exact success condition proved over the reals; the claim that it only fails once flown through is refuted at inner nodes.
* C34 (`C34_no_limit_refuted`): Proved over the reals for positive limits and in binary32 against the computed limit; C34_no_limit_refuted: with an unknown (NaN, the initial value) acceleration limit or a zero jerk limit the computed limit is NaN and the commanded speed is not limited.
* C35 (`C35_zero_direction_refuted`): over the reals; number of states in every number system. C35_zero_direction_refuted records that in binary32 a zero goal direction yields NaN states (0/0 gain), a case outside the reals theorem (there the gain is arbitrary).
* C37 (`C37_goal_refuted`, `C37_loiter_while_landing_refuted`): C37_hover_*_partial give the exact target in every cycle of every episode (entry position latched by the first loiter cycle); the claim as stated is false: within 1 m of the goal the target is the goal (C37_goal_refuted), and a loiter request during a landing keeps commanding the landing point (C37_landing_target_kept, C37_loiter_while_landing_refuted).
* C38 (`C38_direct_nan_refuted`): binary32, for every planner output; beyond the claim, direct flight with an undefined goal coordinate does produce a NaN target (C38_direct_nan_refuted).
* C40 (`C40_no_descent_refuted`, `C40_no_descent_runs_refuted`): exact conditions (C36_transitions with altitude_wanted) and targets proved; C40_no_descent_refuted: return-to-land and offboard mode never descend to the goal altitude, offboard marks it reached for the rest of the flight.
* C43 (`C43_index_refuted`): Proved for all histories over the reals; as executed in binary32 it is refuted: a point 2^-21 m inside the border of the default grid gets index 10 of a 10-column matrix (heap overrun).
* C45 (`C45_strictest_setting_refuted`): Exact for every number system for 0 <= min_n_land_cells, 1 <= max_n_mean_diff_cells; with the allowed setting 0 no cell is ever landable (refuted). Cells beyond the border count as not flat and at height 0.
* C49 (`C49_smallest_window_refuted`): Window 1..100 in binary32 (valid sample) and any window >= 1 over the reals (rank); with the allowed window 0 every grid is read out of range (refuted). Grids must be at least as large as the window.
* C50 (`C50_vertical_refuted`): The vertical axis is not examined at all (misplaced parenthesis), shown by a run; the horizontal part is exact in binary32.
* C51 (`C51_neighbor_from_yaw_refuted`): Tiling and distance to the centre over the reals; centre-and-back also with the doubles of the program for scales 2^-20..2^20 and int coordinates; neighbour relation exact. getNeighborFromYaw does not return a neighbour (refuted). The latter is beyond the claim.
* C52 (`C52_fallback_altitude_refuted`): Search, legality and published paths proved in binary64 for every map, cost function, tie-breaking; every path published in any history is good or of the fallback kind; the fallback flies above the maximum altitude (refuted). Iteration bound part of C52_search. The refuted theorem concerns the fallback path, which is not a search result.
* C53 (`C53_swapped_arguments_refuted`): Proved for every number type and cost, terminates; beyond the claim, the node passes iteration count and margin in swapped order (C53_swapped_arguments_refuted).
* C54 (`C54_acceleration_refuted`): Over the reals; beyond the claim, quadraticBezierAcc ignores the duration (C54_acceleration_refuted).
* C55 (`C55_below_ground_refuted`): Posterior and risks (reals, and doubles up to NaN); prior above/inside the table proved; the clamp below the table is dead code (signed/unsigned), so a negative height uses the LAST entry (refuted).
* C56 (`C56_empty_trail_refuted`): Proved for every history and number type; backing up with an empty trail is undefined behaviour (refuted). goBack is never called by the node.
* C58 (`C58_stale_goal_refuted`, `C58_altitude_change_ignored_refuted`): Order proved for histories without user commands; a new user goal does not clear the waiting list, so the vehicle flies on to the old goal afterwards, and altitude-only changes are ignored (refuted by runs).
* C59 (`C59_setpoint_refuted`): Reals. Setpoint beyond the goal when nearer than the speed; NaN at the goal (None in the model); speed above the maximum when default > max (refuted).
* C60 (`C60_heuristic_overestimates_refuted`): Non-negative costs in reals and doubles; heuristics admissible for plain nodes and cells of at least a metre; overestimates for SpeedNode and for small cells (refuted).
* C61 (`C61_fcu_roundtrip_refuted`): False of the code: the round trip mirrors the vertical coordinate; exact effect proved.
* C65 (`C65_no_cloud_refuted`): C65_no_cloud_refuted: without any cloud the code reads complete_cloud[0] of an empty vector (precondition of completion).
* C69 (`C69_brake_command_lost_refuted`): the equality is proved for all histories; consequently the braking command of runAltitudeChange is overwritten (C69_brake_command_lost_refuted), which refutes the second half of the claim.
* C71 (`C71_yaw_rate_never_set_refuted`): the claim is false: C71_yaw_rate_never_set_refuted shows that in every history the angular velocity is the uninitialised value present at construction (transformPositionToVelocityWaypoint is never called).
* C73 (`C73_goal_lost_by_race_refuted`, `C73_goal_lost_by_drift_refuted`): true when no goal is announced between the worker's read and clear of the new-goal flag and no autopilot message moves the goal silently (partial theorem); the two refuted theorems show that otherwise a goal is lost for ever: a race on new_goal_, and goals moving by less than 1 cm per message.
* C75 (`C75_stray_refuted`): Proved without trajectory/mode messages between acceptance and descent (reals); a trajectory message in between moves the goal (refuted by a run). Vertical descent at one point proved for any number system.
* C76 (`C76_abort_refuted`): Set of commanded vertical speeds proved in binary32; after an abort during the altitude change the node keeps commanding the descent (refuted by a run).
* C78 (`C78_newest_refuted`): False of the code: the message is built from the grid before the cloud (proved exactly, refuted by a witness).
* C79 (`C79_size_change_refuted`): Proved for the raw grid itself; a recording with another number of cells makes the planner blend matrices of different sizes (refuted).
* C80 (`C80_default_refuted`, `C80_visualisation_refuted`): No overrun for kernels 1..20 and grids >= 41 cells (reals); with the default parameters of both nodes the first cycle overruns (refuted).
* C81 (`C81_offset_refuted`): Exact for grids of 40 or 41 rows; other sizes are drawn with the wrong offset (refuted for 44).
* C82 (`C82_critical_during_outage_refuted`): Status exact for all timings; nothing is published while waiting up to the termination timeout, so CRITICAL is only reported when the outage is over (refuted).
* C83 (`C83_between_measurements_refuted`): Geometric convergence proved; the first estimate is blended with 0, so it can lie outside the measured range (refuted).
* C84 (`C84_few_grids_refuted`): Proved if no grid message is lost; lost messages shorten the evidence (refuted by a run with five grids).
* C86 (`C86_obstacle_ignored_refuted`): Transparency for every number type; a camera obstacle in a cell whose risk is cached is ignored until the next map (refuted).
* C87 (`C87_endless_search_refuted`): Terminates in doubles if min_overestimate > 1; with the allowed value 1.0 the repetition never ends (refuted).
* C88 (`C88_sent_back_refuted`, `C88_stop_refuted`): The English claim is false: a planning cycle that fails because the own cell is occupied sends the vehicle back to the second cell of the old path, and stop() leaves the goal pose unchanged; both proved for every state with an occupied own cell, with concrete runs.
* C89 (`C89_large_robot_refuted`): Exact for radius 0 and 1 (in cells); any larger radius recurses/indexes undefined (refuted), which includes the default robot radius with a 0.2 m octree.
* C90 (`C90_no_map_refuted`): Exact range for the heuristic; planning or clicking before the first map is undefined behaviour (refuted).
* C91 (`C91_heading_refuted`): Order, pace and last pose proved for every history and number type; the heading condition is vacuous (refuted over the reals: only exactly opposite headings fail).
* C92 (`C92_single_pose_refuted`): Over the reals; a single-pose path is doubled by filterPathCorners (refuted).
* C93 (`C93_bound_lost_refuted`, `C93_use_current_yaw_refuted`): Bound is the configured one or 5000; it does become 5000 for good after one failed search (refuted by a run); use_current_yaw_ is never read (refuted for every run).
* C94 (`C94_steep_move_refuted`): Over the reals for cell sizes above 0.2 m: soundness for all moves, completeness for level, vertical and axis-aligned moves up to 45 degrees; false for steep slanted moves, which speed nodes offer (refuted).
* C95 (`C95_cell_size_refuted`, `C95_stale_risk_refuted`): All other parameters are in force at once and path guarantees hold across reconfigurations (binary64); CELL_SCALE is a header static and never changes in the files that read it, node type/radius ignored at start and in combined requests, cached risks stay stale (refuted).
* C96 (`C96_quarter_turn_refuted`): Over the reals. Holds unless the first move has no y part and the second no x part; there a quarter turn counts as none (the guard in getXYRotation tests this_diff instead of other_diff; refuted), and a vertical second move counts turns depending on the first's direction.
* C97 (`C97_repeated_refuted`, `C97_cloud_lost_refuted`, `C97_start_refuted`): Order holds in all interleavings; all clouds are processed if each arrives after the previous one has been handled. Otherwise a cloud may be processed several times (flag read before the cloud is consumed) or never (lost notification), and the worker may use mutexes before they exist (all refuted).
* C98 (`C98_goal_lost_refuted`, `C98_path_race_refuted`): Goals given between cycles are tried, waiting goals are taken up in order; goals given between cycles are tried; goals given during a cycle can be lost (popNextGoal overwrites, or goal_is_blocked_ of the old goal is applied to the new one); path_[0] can be read from an empty vector since positionCallback does not take the mutex (refuted). setCurrentPath once per cycle; torn reads not modelled.
* C99 (`C99_spread_refuted`, `C99_count_refuted`, `C99_window_refuted`, `C99_same_grid_refuted`): Ideal arithmetic. Refuted: spread equal to the threshold looks like no spread; counts are misleading for thresholds of 200 and more and wrap around from 400 points on (counter_max_value is fixed); the thick window misses its last row and column; the display shows the newest grid, the message to the waypoint generator the previous one.

## 7. What `Print Assumptions` lists for each theorem

(Regenerate with `python3 tools/axioms.py` in a built tree.)

* **closed under the global context (no axioms)** (187 theorems): C01_histogram_index_in_range, C07_isInWhichFOV, C07_isOnEdgeOfFOV, C10_fov_step, C14_set_zero, C14_upsample_copies, C14_downsample_averages, C14_guarded, C15_reads_wrap_around, C15_write_defined_in_range, C15_isEmpty, C15_only_bad_writes_undefined, C16_buffer_contents, C16_sorted_and_bounded, C16_insert_accepts_newer, C18_separate_histories_partial, C19_step_follows_table, C20_failsafe, C21_parameters_mirror_last_value, C21_auto_mode, C21_unknown_names_ignored, C21_initialised_iff_polled_finite, C22_mission_speed_partial, C23_processed_cloud, C24_remembered_points, C24_history, C25_mean_distance, C27_candidates_are_the_cells, C27_zero_requested_refuted, C28_padding_is_spherical, C28_sphere_cell_direction, C31_tree_bounded, C32_path_is_root_path, C33_short_paths, C35_number_of_states, C36_initial, C36_transitions, C36_documented_moves, C36_reset, C37_hover_partial, C37_landing_target_kept, C40_altitude_target, C41_cycle_publishes_iff_fresh, C41_only_active_cycles_publish, C41_setpoint_contents, C42_waiting_cloud_kept, C42_waiting_cloud_replaced, C42_feed_happens, C45_landable_iff, C45_strictest_setting_refuted, C46_exit_only_by_reset, C48_no_repetition, C51_neighbours, C51_diagonal_neighbours, C53_simplify, C53_simplify_terminates, C56_trail, C56_trail_current, C56_go_back, C56_empty_trail_refuted, C57_path_message, C58_new_goal_not_blocked, C58_goals_announced, C58_intermediate_goal, C58_cycle, C58_goals_in_order, C58_one_goal_at_a_time, C58_stale_goal_refuted, C59_setpoint_heading, C60_node_equality_hash_order, C62_image_layout, C62_index_injective, C65_cycle_effect, C65_no_cloud_refuted, C66_histogram_image, C68_stay, C68_stay_at_once, C69_position_is_smoothed, C71_yaw_rate_never_set_refuted, C72_fresh_pose_per_setpoint, C72_waiting_blocks_planner, C73_goal_reaches_planner_partial, C74_distance_message, C79_sequence_number, C75_vertical_descent, C75_descent_starts_at_vehicle, C82_status_reflects_delay, C82_long_wait_terminates, C82_published_while_waiting, C82_critical_during_outage_refuted, C86_map_message, C86_risk_cache_transparent, C86_new_map_fresh, C88_sent_back_refuted, C88_stop_refuted, C89_flow_neighbors, C90_no_map_refuted, C90_risk_heuristic_range, C91_advance, C91_in_order, C92_single_pose_refuted, C93_bound, C93_use_current_yaw_refuted, C95_in_force, C95_cell_size_refuted, C95_stale_risk_refuted, C97_order, C97_calm_clouds_all_processed, C97_repeated_refuted, C97_cloud_lost_refuted, C97_start_refuted, C98_goal_between_cycles, C98_goal_lost_refuted, C98_path_read_in_range, C98_path_race_refuted, C98_waiting_goals_in_order, C99_window_refuted, C101_cost_image, C101_cost_image_other_size, C101_histogram_image_refuted, C101_tree_display, C101_path_display, C101_fov_pyramid, C102_scan_is_current, C103_locations, C103_resolve, C103_environment_refuted, C103_regular_file_refuted, C103_world, C103_missing_file_refuted, C103_vehicle, C104_map_in_use, C104_planning_excludes_map, C104_no_collision, C104_threads_refuted, C105_lines_stay, C105_waypoint_trails, C105_last_two_positions, C105_whole_path, C106_no_deadlock, C106_mutexes_used_properly, C106_everything_ends, C107_no_pose_freezes_node_refuted, C107_no_reply_freezes_node_refuted, C108_local_and_global_planner_abort_refuted, C108_landing_planner_hangs_refuted, C108_own_threads_joined, C109_bounded_delay, C109_observations, C109_steady_camera, C109_prompt_refuted, C114_protected_data_is_not_raced_for, C114_stable_while_locked, C114_no_races_refuted, C114_same_mutex_operations, C115_locked_copies_are_whole, C115_each_word_was_sent, C115_unprotected_goal_is_torn_refuted, C116_latest_configuration_in_force, C116_reconfiguration_keeps_memory, C116_goal_altitude_kept_refuted, C116_timeouts_have_no_effect, C118_races_exactly, C118_map_freed_while_read_refuted, C118_px4_parameters_stable, C119_races_exactly, C119_cloud_stable, C119_mutexes_exist_refuted, C120_every_mutex_can_be_had, C120_every_mutex_is_let_go, C120_position_kept_up_to_date_refuted, C121_obstacles_stored, C121_obstacles_right, C121_wrong_transform_refuted, C121_default_frame_refuted, C121_risk_not_renewed_refuted, C122_cloud, C122_camera_in_obstacle_refuted, C122_overrun_refuted, C122_goal_ignored_refuted, C125_offboard_takeoff_climbs, C125_invalid_filter_forgotten, C126_planner_fov, C126_planner_fov_all_known, C126_generator_fov, C126_node_fov, C126_out_of_order_refuted
* **`Classical_Prop.classic`** (1 theorems): C15_read_after_write
* **`ClassicalDedekindReals.sig_forall_dec`, `ClassicalDedekindReals.sig_not_dec`, `FunctionalExtensionality.functional_extensionality_dep`** (95 theorems): C02_cell_centre_roundtrip, C02_direction_near_cell_centre, C03_wrap180_canonical, C03_wrapPI_canonical, C06_angleDifference, C06_indexAngleDifference, C07_edge, C07_scale_on_edge, C07_scaleToFOV, C08_pointInsideFOV_partial, C11_bezier_yaw, C12_yaw_involution, C13_turns_the_short_way, C14_up_down_identity, C23_accepted_distance, C24_expires, C26_scan_direction, C33_setpoint_on_path, C33_fails_at_nodes_refuted, C34_cruise_speed, C35_trajectory, C35_desired_velocity, C40_no_descent_refuted, C43_index_valid, C43_no_overrun, C44_online_is_batch, C44_cell_statistics, C44_variance_nonneg, C45_history, C46_descent_needs_acceptance, C47_patch_test, C47_filter_range, C47_accepted_on_evidence, C48_spiral, C48_starts, C49_percentile, C51_cells_tile_space, C51_near_centre, C51_roundtrip, C52_fallback_altitude_refuted, C54_bezier, C54_smooth_path, C54_smooth_yaw, C54_acceleration_refuted, C54_two_point_chain, C55_posterior, C55_altitude_prior, C55_below_ground_refuted, C55_risk_nonneg, C58_autopilot_goal, C58_altitude_change_ignored_refuted, C59_setpoint, C59_speed, C60_edge_cost_nonneg, C60_heuristic_admissible, C60_heuristic_overestimates_refuted, C63_smoothing_is_cone_average, C63_never_lowers_obstacle_cost, C63_obstacle_raises_neighbourhood, C64_best_first, C66_brightness, C67_closest_point, C67_foot_is_nearest, C78_published_is_previous_partial, C79_variance_partial, C83_smoothing_partial, C75_descends_at_site_partial, C80_no_overrun_partial, C81_colours_partial, C84_twenty_grids_partial, C85_search_complete, C91_heading_refuted, C92_length, C92_corners, C92_kinetic, C92_colour, C94_cells_of_move, C94_cells_near_way, C94_plain_moves_complete, C99_landable_cells_green, C99_spread_colours, C99_spread_distinguished, C99_spread_refuted, C99_count_colours, C99_three_grids, C99_count_refuted, C99_cloud_intensity_is_cell, C100_configured_limits_in_force, C100_size_change_restarts, C105_trail_refuted, C105_setpoint_arrow, C110_info, C123_decay_default, C127_polar_distance, C127_polar_distance_refuted
* **`ClassicalDedekindReals.sig_forall_dec`, `ClassicalDedekindReals.sig_not_dec`, `Classical_Prop.classic`, `FunctionalExtensionality.functional_extensionality_dep`** (140 theorems): C01_nan_direction_gives_index_zero, C02_cell_centre_roundtrip_float, C03_wrap180_float, C03_wrap180_float_range_refuted, C04_wrapPolar_same_point, C05_cartesian_polar_cartesian, C05_polar_cartesian_polar, C08_pointInsideFOV_refuted, C09_cloud_filter_and_extremes, C10_estimate, C10_points_inside, C10_points_inside_refuted, C10_fov_never_shrinks, C11_waypoint_message, C11_bezier_message, C12_position_involution, C12_orientation_involution, C12_pose_quaternion_yaw, C12_quaternion_angles, C12_orientation_yaw_pitch, C14_up_down_identity_float, C17_lookup_result, C17_lookup_succeeds_iff_bracketed, C17_weight_in_unit_interval, C18_separate_histories_refuted, C22_mission_speed_refuted, C23_accepted_points_finite, C24_direction_in_view, C25_mean_distance_real, C26_scan, C26_coverage, C26_compressed_histogram, C27_cheapest, C29_every_cell_filled, C30_obstacle_cost, C30_farther_is_cheaper, C30_other_costs_nonneg, C30_at_the_goal_refuted, C31_always_completes, C31_zero_children_refuted, C34_cruise_speed_binary32, C34_no_limit_refuted, C35_zero_direction_refuted, C37_hover_initial_partial, C37_goal_refuted, C37_loiter_while_landing_refuted, C38_no_nan_target, C38_direct_nan_refuted, C39_speed, C39_speed_history, C40_moves_to_goal_altitude, C40_no_descent_runs_refuted, C42_clouds_used_once_in_order, C43_index_refuted, C46_path_binary32, C49_position_binary32, C49_smallest_window_refuted, C50_valid_partial, C50_vertical_refuted, C51_roundtrip_double, C51_neighbor_from_yaw_refuted, C52_search, C52_legal, C52_global_path, C52_every_published_path, C52_start_is_free, C53_swapped_arguments_refuted, C55_risk_nonneg_double, C59_setpoint_refuted, C60_edge_cost_nonneg_double, C61_fcu_roundtrip_partial, C61_fcu_roundtrip_refuted, C62_bytes_in_range, C64_tree_geometry, C65_cycle_completes, C65_fresh_or_stale, C69_brake_command_lost_refuted, C70_orientation, C73_goal_lost_by_race_refuted, C73_goal_lost_by_drift_refuted, C77_transport, C77_serialise_total, C78_newest_refuted, C79_replay_partial, C79_size_change_refuted, C83_between_measurements_refuted, C75_stray_refuted, C76_vertical_speeds_partial, C76_abort_refuted, C80_default_refuted, C80_visualisation_refuted, C81_offset_refuted, C84_few_grids_refuted, C86_obstacle_ignored_refuted, C87_find_path_terminates, C87_endless_search_refuted, C89_large_robot_refuted, C93_bound_lost_refuted, C94_steep_move_refuted, C95_paths, C96_turns, C96_quarter_turn_refuted, C99_same_grid_refuted, C100_configured_sizes_in_force, C100_display_refuted, C101_waypoint_cell, C101_heading_refuted, C101_scan_display, C101_scan_no_data, C101_scan_sector_refuted, C101_body_direction, C101_fov_level_partial, C101_fov_refuted, C102_scan_is_current_refuted, C110_not_blocked, C110_blocked_iff, C110_risk_message, C110_cheapest_refuted, C111_free_space_at_rest, C111_free_space_moving, C112_walled_direction_not_chosen, C112_walled_direction_not_chosen_refuted, C113_obstacle_raises_cost, C113_obstacle_raises_cost_refuted, C117_no_step_into_a_wall, C123_looks_where_it_flies, C123_turns_towards_target, C123_turn_shrinks, C123_commanded_yaw, C123_landing_planner, C124_follows_target, C124_converges, C124_long_cycles_refuted, C125_lands_when_asked, C125_unknown_altitude_lands_refuted, C125_starts_at_the_vehicle, C125_starts_at_the_vehicle_after_landing, C125_nan_target_ignored, C125_filter_finite_after_vehicle_state, C125_unknown_yaw_keeps_heading
