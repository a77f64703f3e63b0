# Formal model of PX4-Avoidance in Rocq (Coq 8.16.1)

(This file is produced by `python3 tools/mkdesign.py` from `tools/design.md`, `MANIFEST.json` and `tools/axioms.md`.)

## 1. Arithmetic

The C++ is floating point code.  Three styles are used, and each model file says which:

* **`num` interface** (`theories/Num.v`): a plain record of operations (`+ - * / floor sqrt
  < <= == isfinite ...`).  The numeric code is written *once* over this record and
  instantiated with `F32` = IEEE-754 binary32 (Flocq `BinarySingleNaN`, round to
  nearest even: NaN, infinities, signed zero, rounding - executable), `F64` = binary64 (`Num64.v`; the global
  planner computes in `double`), and `Rn` = the real numbers
  (ideal arithmetic).  Theorems that only depend on comparisons/control flow are proved for
  *every* instance or for `F32`/`F64`; geometric identities are proved for `Rn` and say so; where the
  float execution violates the ideal statement, a `_refuted` theorem gives a floating point witness.
* **Discrete**: indices, queues, state machines, histories: `Z`, `nat`, `list`, `option`, records.
* **Oracles**: library code whose implementation is not in the repository (sin/cos/atan2, octomap, ROS, tf
  interpolation, random, priority queue tie-breaking) is a universally quantified argument of the model function.

C++ undefined behaviour (out-of-range access, use of an uninitialised or empty container, division by 0 in integers, endless loops where
stated) is a separate outcome (`None`/`UB`), never a default value.

## 2. Conventions

`theories/<X>Model.v` model (definitions only, each citing file:lines of /repo and its simplifications);
`<X>Spec.v` small independent specification used in theorem statements; `<X>Proofs*.v` lemmas;
`<X>Props*.v` the property theorems (`Cnn_...`), each followed by `Print Assumptions` and by `Example`s showing that
their hypotheses are met by a concrete non-trivial case.

* A theorem ending in `_partial` proves part of the property; the full statement is in `properties.jsonl` and the note of the manifest says what is missing.
* A theorem ending in `_refuted` proves that the (part of the) English property it is named after is **false of the code**: it
  exhibits an input or a history. These are findings about the code (section 6). The property then has status `partial` in the manifest, except where the finding only concerns inputs outside
  the property's stated precondition.

## 3. What is modelled

| component | source | model files |
|---|---|---|
| numbers | float/double arithmetic | Num, Num64 (errors: F32Err, F64Err) |
| angles, polar coordinates, FOV, cloud filtering, messages, frames | avoidance/src/common.cpp, common.h | CommonModel |
| histogram | avoidance/src/histogram.cpp, histogram.h | Mat, HistModel |
| transform buffer | avoidance/src/transform_buffer.cpp | TfModel |
| state machine base class | avoidance/include/avoidance/usm.h | UsmModel |
| failsafe, parameters, mission | avoidance/src/avoidance_node.cpp | NodeModel |
| cloud processing, histograms, cost matrix, candidates | local_planner/src/nodes/planner_functions.cpp | PfModel |
| look-ahead tree | star_planner.cpp, tree_node.cpp | StarModel |
| local planner, trajectory simulator, obstacle scan | local_planner.cpp, trajectory_simulator.cpp | LpModel |
| local planner display | local_planner_visualization.cpp | LvModel, TrModel |
| world display | avoidance/src/rviz_world_loader.cpp | WlModel |
| waypoint generator | local_planner/src/nodes/waypoint_generator.cpp | WgModel |
| local planner node: callbacks, camera threads, worker, command loop; its mutexes; its waits in time; shutdown of the nodes | local_planner_nodelet.cpp, *_node_main.cpp | NlModel, NtModel, NwModel, ShModel |
| landing grid, landing decision, serialisation | grid.hpp, safe_landing_planner.cpp, _node.cpp | SlModel |
| landing display | safe_landing_planner_visualization.cpp | SlvModel, TrModel |
| landing node status; its threads | safe_landing_planner_node.cpp | SlnModel, SlwModel |
| landing waypoint generator and its node | safe_landing_planner/.../waypoint_generator{,_node}.cpp | SwModel |
| global planner library: cells, nodes, risk, search, simplification, Bezier, statistics | global_planner/src/library/*.cpp, include/*.h | GpModel, GpSearch, GpPlan, GpStats, GpInfo |
| global planner node, its reconfiguration and its threads | global_planner_node.cpp, GlobalPlannerNode.cfg | GpNode, GpFollow, GpConf, GcModel, GmModel |

**Not modelled**: ROS transport (queues, serialisation of library messages), timers' periods (callbacks are events in arbitrary order), threads other than those
of the local planner node (C73, C106-C109) and those of C97, C108 (landing node), C98, C104 and C108 (global planner node); torn reads and writes of single variables, the implementation of
PCL, octomap, tf, Eigen and libm (oracles), rviz markers except the ones of C62, C66, C81, C99, C101, C103 and C105, the YAML parser, `mock_data_node`, the simulation and
launch files, log output, C++ integer overflow and float-to-int casts of unrepresentable values (arbitrary where a theorem says so, else out of scope).

## 4. Trusted base

* The Coq 8.16.1 kernel, including `vm_compute`.
* Axioms: only those of the standard library, listed per theorem in section 7 (`ClassicalDedekindReals.sig_forall_dec`, `ClassicalDedekindReals.sig_not_dec`,
  `FunctionalExtensionality.functional_extensionality_dep`, `Classical_Prop.classic`). They come in through the real numbers and Flocq. No axioms of our own.
* The reading of the C++ source: every model definition cites its source lines. FLT_EVAL_METHOD = 0 and no `-ffast-math`, no fused multiply-add contraction.

## 5. Properties

| id | model | proof |
|----|-------|-------|
| C01 | `polarToHistogramIndex`, `wrapPolar` over `num`; float->int conversion is an arbitrary function on out-of-range values | for every instance and conversion the final clamp gives the range |
| C02 | `histogramIndexToPolar` | R: floor arithmetic; F32: exhaustive over the finite domain, lifted by `forallb_forall` |
| C03 | `wrapAngleToPlusMinus180/PI` | R: range, congruence, idempotence; F32: error analysis, witness outside the range |
| C04,C05 | conversions over `Rn`, atan2 built from the stdlib `atan` | trigonometric identities |
| C06 | `angleDifference` (fmod), `indexAngleDifference` | R |
| C07 | `isInWhichFOV`, `isOnEdgeOfFOV`, `scaleToFOV` | induction over camera list, any instance; bounds, edges and the scale on the edge in R (CommonFovProps) |
| C08 | `pointInsideFOV` | R characterisation when not straddling; refutation otherwise |
| C09 | in-place compaction loop with index `j` | refinement to `filter`; extremes by induction |
| C10 | `updateFOVFromMaxima` | monotone by case analysis, lifted to histories; the value of the estimate by an invariant of the fold over the points, in R (CommonFovProps) |
| C11 | message records with NaN-able fields | direct |
| C12,C13 | conversions, quaternions over R | `ring`/`nsatz`, floor lemmas |
| C14,C15 | matrices as functions with dimensions | index arithmetic, histories |
| C16,C17,C18 | map from key to list of (stamp,transform) | invariant over operation lists; string witness |
| C19 | table-driven machine with output | by construction + per-step lemmas |
| C20,C21,C22 | `checkFailsafe`, `px4ParamsCallback`, `missionCallback` | case analysis, fold induction |
| C23,C24,C25,C26 | `processPointcloud`, `generateNewHistogram`, `compressHistogramElevation`, obstacle scan with loops over lists/cells; trigonometry an oracle | loop invariants |
| C27 | priority-queue algorithm of `getBestCandidatesFromCostMatrix` | loop invariant to sorted prefix |
| C28,C29 | block-copy algorithms on matrices | index arithmetic |
| C30 | `costFunction` over R | monotonicity |
| C31,C32 | `StarPlanner::buildLookAheadTree` with cost oracles | tree invariant by induction on iterations |
| C33,C34,C35 | path interpolation, speed limit, trajectory simulator over R | real analysis |
| C36..C40 | local waypoint generator as a state machine with recorded outputs | invariants over input sequences |
| C41,C42 | node event handlers, camera thread protocol as transition system | invariants over interleavings |
| C43..C49 | grid, online statistics, landing decision, landing state machine | R arithmetic, fold induction, state invariants |
| C50 | setpoint validity flags with NaN-able values | case analysis / witness |
| C51..C60 | global planner cells, A*, simplification, Bezier, risk, trail, goals | integer/real arithmetic, search invariants |
| C61 | `cartesianToPolarFCU`, `polarFCUToCartesian` | exact effect over R (mirrored z), witness |
| C62,C66 | image builders of local_planner and planner_functions | injectivity of the index arithmetic; byte ranges in every instance |
| C63 | `smoothPolarMatrix` with its padding and convolution loops | sums over neighbourhoods, R |
| C64 | tree of C31 with positions | invariant over iterations, R |
| C65 | `LocalPlanner::runPlanner` | composition of C23..C32, totality of every step |
| C67 | closest point on the goal line | planar geometry over R |
| C68,C69,C70,C71 | waypoint generator histories | state invariants; unit quaternion over R |
| C72,C73,C74 | local planner node as labelled transition system, all interleavings of command loop, worker and callbacks | invariants over event lists; runs as witnesses |
| C75,C76 | landing waypoint generator node histories | invariants; runs as witnesses |
| C77,C78,C79 | serialisation of grids | list/matrix index arithmetic in binary32 |
| C80,C81 | matrix accesses of the landing node, marker builder | bounds invariants; runs as witnesses |
| C82 | landing node status loop with arbitrary timings | case analysis, induction over cycles |
| C83 | cell smoothing recursion | geometric series over R |
| C84 | landing decision histories | induction over histories |
| C85 | A* loop with abstract `pop` | loop invariant: closed set is saturated |
| C86,C89,C90 | risk functions with the cache and octomap oracle | cache invariant; witnesses |
| C87 | repetition of searches with decreasing overestimation, binary64 | decreasing measure (rounding-aware), fixpoint witness |
| C88,C91 | node histories with failing searches, path following | per-state theorems and invariants |
| C92 | path statistics (`analysis.h`, `common_ros.h`) | triangle inequality over R |
| C93,C95 | node with dynamic reconfiguration, header statics per source file | invariants over request/event histories |
| C94 | `Node::getCells` (`node.cpp`), all half-step samples with their four 10 cm offsets | characterisation of the sampled cells by floors, one-dimensional monotonicity over R |
| C96 | `Node::getRotation`, `getXYRotation`, `angleToRange` | `Ratan2` and cosine subtraction over R |
| C97 | the three threads of the landing node as a labelled transition system | invariants over all interleavings, witness schedules |
| C98 | main and planning thread of the global planner node as a labelled transition system | invariants over all interleavings, witness schedules |
| C99 | `SlvModel`: markers, colours, binned cloud | induction over the drawing loop, piecewise-linear spec of the rainbow |
| C100 | `reconfigure`, `applyResize`, `runCloud` over histories | invariant: update pending or configuration in force |
| C101 | `costDisplay`, `treeLines`, `scanSectors`, `fovCorners` | indices by C01, distinct channels by C62; tree invariant over planner histories; trigonometry; counterexamples |
| C102 | `runPlanner`, `laserScan` | case analysis of one run, binary32 |
| C103 | `resolveUri`, `visualizeRVIZWorld`; environment, stat and the parsed file are arguments | induction over the search path and the file |
| C104 | three threads of the global planner node, map, risk cache and obstacle set; accesses are intervals | invariant over all interleavings, witness schedules |
| C105 | both `publishPaths` with the callbacks that feed them, `publishCurrentSetpoint` | induction over histories |
| C106, C107 | each thread of the local planner node as the sequence of its mutex operations, joins and outside calls (per camera) | lock order invariant, measure; witness schedules with an invariant |
| C108 | what main/destructor of each node does to flags and threads | invariants over all schedules |
| C109 | cloud callback, transform threads and planning thread with the waits' time limits, in ms, notifications lost if nobody waits yet | invariant over all schedules |
| C110 | `getPathInfo`, `getPathWithRiskMsg` over the search model | induction over the path (reals), doubles for the flags and the counterexample |
| C111 | cost matrix of an empty histogram and `getBestCandidatesFromCostMatrix` | every cell's cost in closed form (C29), nearest row and column, a priority queue's first element is a minimum (reals) |
| C112 | cost matrix of a partly blocked histogram | bounds of the smoothed obstacle cost over the window, bounds of the other terms; counterexample at 1 m |
| C113 | cost matrices of two histograms | obstacle cost, interpolation and smoothing are monotone, strictly around the changed cell; counterexample in a skipped column |
| C114 | NdModel.v: which shared member each thread reads and writes, in which order, under which mutexes (those of NtModel.v) | a protection for every member; invariant: every thread's remaining script respects them with the mutexes it holds; schedules for the unprotected ones, for any number of cameras |
| C115 | NdTorn.v: word by word storing and copying of a vector, with and without a mutex | invariants over all interleavings; counterexample |
| C116 | LcModel.v: LocalPlanner and StarPlanner with separate members, all calls the node makes, the configuration's doubles | refinement: after every history the star planner's copies agree with the planner's, so a run is LpModel.v's under the latest configuration; induction on histories |
| C117 | LpModel.v, StarModel.v, PfModel.v composed: a whole planner run over the remembered points | the tree invariant gives the candidate list behind each edge; the histogram of this list is read off the cloud; C112's bound; a cell that enough others undercut is not among the n best (permutation and pigeonhole) |
| C118 | RcModel.v, GrModel.v: the accesses of the global planner node's functions, as code with branches, loops and mutexes, run by five threads | a protection for each member that the code is checked against (invariant over all executions of all codes); for the others a schedule, found by evaluation and proved to exist in general (`find_later_race`) |
| C119 | RcModel.v, SrModel.v: the same for the safe landing planner node | the same |
| C120 | RcModel.v, GrModel.v, SrModel.v | invariant: who holds which mutex is what is still to be given back, one at most (no Guard within a Guard, checked on the code); induction over what the holder still has to do |
| C121 | CamModel.v on GpNode.v | induction over the history with frame lemmas for every other callback; tf a parameter (every tf tree) |
| C122 | MdModel.v with CamModel.v, GpNode.v | the wall as a set of points by membership in the two loops' ranges; counting |
| C123 | WgLookSpec.v on WgModel.v, SwModel.v | the yaw as a bearing (no atan2 in the statement); the discretized second-order filter shown to contract a weighted norm of error and rate by 1 - h^2; induction over the flight with frame lemmas for the other callbacks |
| C124 | the same on smoothWaypoint | the same contraction per coordinate with a moving target; refuted for long cycles by evaluation in binary32 |
| C125 | WgModel.v | invariant of the flags over every history; the answer to "altitude change?" as a function of the inputs; case analysis of binary32 for NaN (no overflow bounds are needed as infinities are not NaN) |
| C126 | lp_setFOV of LpModel.v, wg_setFOV of WgModel.v | induction over the reports; the specification is the last report of each camera |
| C127 | distance2DPolar of CommonModel.v | norms of the plane, over R |

