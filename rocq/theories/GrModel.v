(** Model of the accesses of the global planner node's threads to the data they share, in the model of RcModel.v: the main thread (ros::spin: all subscriptions and
    the parameter server), the thread of the command loop, the thread of the planning loop, and AvoidanceNode's status thread and PX4-parameter thread.
    A variable is a member of a class or a group of members that are accessed under the same conditions; an element or the content of a container counts as
    the container.
    Simplifications: the program begins at the end of AvoidanceNode::init() and readParams() (what is done before, on the main thread, is not looked at;
    AvoidanceNode's two threads have no access to what is set up there); publishers, tf's listener, ROS' parameters and time are libraries with their own
    synchronisation; the static SPEEDNODE_RADIUS (node.h:70) is left out: every translation unit has one, and which of them the inline
    SpeedNode::getNeighbors uses is up to the linker; CELL_SCALE (cell.h:14) too is one for each translation unit: the node's, which is
    written in 190, is not read by anybody else. *)
From Coq Require Import List Bool.
From Verif Require Import RcModel.
Import ListNotations.

Inductive grvar :=
(* GlobalPlanner, global_planner.h:34-99. octree_ with the tree and octree_resolution_; risk_cache_; bubble_risk_cache_; heuristic_cache_; occupied_ *)
| GOctree | GRiskCache | GBubbleCache | GHeurCache | GOccupied
(* path_back_; curr_pos_; curr_yaw_; curr_vel_; goal_pos_; going_back_; goal_is_blocked_; current_cell_blocked_ *)
| GPathBack | GCurrPos | GCurrYaw | GCurrVel | GGoalPos | GGoingBack | GGoalBlocked | GCellBlocked
(* overestimate_factor_; curr_path_, curr_path_info_ and path_cells_; visitor_.seen_; visitor_.seen_count_ *)
| GOverestimate | GCurrPath | GSeen | GSeenCount
(* parameters: neighbor_risk_flow_ and explore_penalty_; default_speed_, max_speed_ and risk_threshold_risk_based_speedup_; use_speedup_heuristics_;
   max_iterations_; default_node_type_; use_risk_based_speedup_; all the others *)
| GRiskParams | GSpeedParams | GUseSpeedup | GMaxIterations | GNodeType | GUnusedParam | GPlanParams
(* what nobody changes any more: alt_prior_, accumulated_alt_prior_, robot_radius_, frame_id_ (both), camera_frame_id_, start_pos_, start_yaw_, mapupdate_dt_,
   AvoidanceNode's timeouts and its position_received_ *)
| GConstants
(* GlobalPlannerNode, global_planner_node.h:48-122: waypoints_; actual_path_; current_goal_; last_goal_; last_pos_; last_clicked_points; path_; num_pos_msg_ *)
| GWaypoints | GActualPath | GCurrentGoal | GLastGoal | GLastPos | GClickedPoints | GPath | GNumPos
(* speed_; position_received_; clicked_goal_alt_ and clicked_goal_radius_; simplify_iterations_ and simplify_margin_; hover_; start_time_; last_wp_time_; the node's CELL_SCALE *)
| GSpeed | GPosReceived | GClickedParams | GSimplifyParams | GHover | GStartTime | GLastWpTime | GCellScale
(* AvoidanceNode: px4_, companion_state_, mission_item_speed_ *)
| GPx4 | GNodeStatus | GMissionSpeed.
(** mutex_ of the node; param_cb_mutex_ *)
Inductive grlock := GMap | GParam.
Inductive grtid := GMain | GCmd | GPlan | GStatusT | GCheckT.
Definition grvar_dec (a b : grvar) : {a = b} + {a <> b}.
Proof. decide equality. Defined.
Definition grlock_dec (a b : grlock) : {a = b} + {a <> b}.
Proof. decide equality. Defined.
Definition grtid_dec (a b : grtid) : {a = b} + {a <> b}.
Proof. decide equality. Defined.
Definition grcode := code grvar grlock grtid.

(** getSingleCellRisk, global_planner.cpp:133-161 (getAltPrior 163-173) *)
Definition gr_single : grcode :=
  opt (seqs [Read GOctree; opt (seqs [Read GOctree; opt (seqs [Read GConstants; Read GOccupied]); opt (Read GRiskParams); Read GConstants])]).
(** getRisk of a cell, 181-194; of a node, 196-203 *)
Definition gr_risk : grcode :=
  Seq (Read GRiskCache) (Alt (Read GRiskCache) (seqs [gr_single; Read GConstants; Read GOctree; Star (Seq (Read GRiskParams) gr_single); Write GRiskCache])).
Definition gr_risk_node : grcode := Star gr_risk.
(** isLegal, 177-179; getEdgeDist, 124-130; getEdgeCost, 235-245 *)
Definition gr_legal : grcode := Seq (Read GPlanParams) (opt (Seq gr_risk_node (Read GPlanParams))).
Definition gr_edge_cost : grcode := seqs [Read GPlanParams; Read GPlanParams; gr_risk_node; Read GPlanParams; Read GCurrPos; opt (Read GCurrVel)].
(** getHeuristic, 315-333, with altitudeHeuristic (306-312), smoothnessHeuristic (281-303) and riskHeuristic (249-264) *)
Definition gr_heuristic : grcode :=
  seqs [Read GHeurCache; Read GOverestimate; Read GPlanParams; opt (Read GPlanParams); Read GPlanParams;
        opt (opt (seqs [Read GRiskParams; Read GPlanParams; Read GConstants; gr_risk; Read GPlanParams]));
        Read GUseSpeedup; opt (Seq (Read GSeenCount) (opt (Write GSeenCount))); Write GHeurCache].
(** setGoal, 42-48, and setNewGoal, global_planner_node.cpp:106-110 *)
Definition gr_set_goal : grcode := writes [GGoalPos; GGoingBack; GGoalBlocked; GHeurCache; GBubbleCache].
Definition gr_new_goal : grcode := Seq gr_set_goal (Read GConstants).
(** setPose, 30-39 *)
Definition gr_set_pose : grcode :=
  seqs [Write GCurrPos; Write GCurrYaw; Read GCurrPos; Read GGoingBack; opt (Seq (Read GPathBack) (opt (Write GPathBack)))].
(** getPathInfo, 383-396; setPath, 51-62 *)
Definition gr_path_info : grcode := Star (seqs [gr_risk_node; Read GPlanParams; gr_edge_cost; Read GPlanParams]).
Definition gr_set_path : grcode := Seq gr_path_info (Write GCurrPath).
(** updateFullOctomap, 69-76 *)
Definition gr_update_map : grcode := seqs [Write GRiskCache; Read GOctree; opt (Write GOctree); Write GOctree].
(** getPathMsg of a path, 345-367; of the current one, 343; getPathWithRiskMsg, 369-380 *)
Definition gr_path_msg : grcode := Seq (Read GConstants) (opt (Seq (Read GCurrYaw) (Star (Read GConstants)))).
Definition gr_path_msg_current : grcode := Seq (Read GCurrPath) gr_path_msg.
Definition gr_path_risk : grcode := Seq gr_path_msg_current (Star gr_risk).
(** findSmoothPath with visitor_, search_tools.h:129-201; findPathOld, 266-353 (getOpenNeighbors, global_planner.cpp:80-111); find2DPath, 205-227 *)
Definition gr_find_smooth : grcode :=
  seqs [Write GSeen; Write GSeenCount;
        Star (Star (Seq gr_legal (opt (Seq gr_edge_cost (opt (seqs [gr_heuristic; Read GSeenCount; Write GSeenCount; Write GSeen]))))))].
Definition gr_find_old : grcode :=
  Seq (Star (Seq (Read GMaxIterations) (opt (Seq (Read GPlanParams) (Star (seqs [Read GPlanParams; gr_risk; Read GPlanParams; opt (reads [GPlanParams; GOverestimate])]))))))
      (opt (Read GOverestimate)).
Definition gr_find_2d : grcode := seqs [gr_find_old; gr_find_old; gr_find_old].
(** findPath, global_planner.cpp:414-480 *)
Definition gr_find_path : grcode :=
  seqs [reads [GCurrPos; GCurrVel; GPlanParams; GGoalPos; GCurrPos; GCurrVel; GPlanParams; GPlanParams; GCurrPos; GPlanParams]; Write GOverestimate; Read GMaxIterations;
        Star (seqs [Read GOverestimate; Read GPlanParams; Read GNodeType; Read GOverestimate; gr_find_smooth; Read GOverestimate; opt gr_path_info; Read GOverestimate; Write GOverestimate]);
        opt (seqs [Write GMaxIterations; Read GPlanParams; gr_find_2d])].
(** getGlobalPath, 484-512: the goal is occupied; the current position is; no path; a path *)
Definition gr_global_path : grcode :=
  seqs [Read GCurrPos; Read GGoalPos; gr_single; Write GCellBlocked; Read GPlanParams; opt (Seq gr_risk (Read GPlanParams));
        Alt (Write GGoalBlocked) (Seq (Read GCellBlocked) (opt (Seq gr_find_path (Alt (Seq gr_risk (Write GGoalBlocked)) gr_set_path))))].
(** stop, 534-537 *)
Definition gr_stop : grcode := seqs [Read GCurrPos; gr_set_goal; Read GCurrPos; gr_set_path].

(** popNextGoal, global_planner_node.cpp:113-124; setIntermediateGoal, 147-155; planPath, 127-144 *)
Definition gr_pop : grcode :=
  Seq (Read GWaypoints) (Alt (seqs [Read GWaypoints; Write GWaypoints; gr_new_goal]) (Seq (Read GGoalBlocked) (opt gr_stop))).
Definition gr_intermediate : grcode := Seq (Read GCurrPath) (opt (seqs [Read GGoalPos; Write GWaypoints; Read GCurrPath; gr_new_goal])).
Definition gr_plan_path : grcode := seqs [Read GOctree; opt (Read GOctree); gr_global_path; opt (Seq (Read GOverestimate) (opt gr_intermediate))].
(** setCurrentPath, 307-320; publishPath, 369-382 (simplifyPath, search_tools.h:73-118) *)
Definition gr_set_current : grcode := Seq (Write GPath) (opt (seqs [Write GLastGoal; Write GCurrentGoal; Star (Write GPath)])).
Definition gr_publish_path : grcode :=
  seqs [gr_path_msg_current; gr_path_risk; gr_set_current; Read GCurrPath; Read GSimplifyParams; Star gr_edge_cost; gr_path_msg; gr_set_current].
(** plannerLoopCallback, 335-353 *)
Definition gr_plan : grcode :=
  Guard GMap (seqs [Read GGoalPos; Read GCurrPos; opt (Read GGoalBlocked); opt gr_pop; gr_plan_path;
    opt (Seq (Read GWaypoints) (opt (reads [GGoalPos; GWaypoints; GActualPath; GActualPath; GPlanParams]))); gr_publish_path]).

(** checkFailsafe, avoidance_node.cpp:62-83; publishSetpoint, global_planner_node.cpp:390-431; cmdLoopCallback, 322-333 *)
Definition gr_failsafe : grcode :=
  Seq (Read GConstants) (alts [Write GNodeStatus; Seq (Write GHover) (Write GNodeStatus); Seq (Read GHover) (opt (Write GNodeStatus))]).
Definition gr_setpoint : grcode :=
  seqs [Read GCurrentGoal; Read GLastPos; Read GUseSpeedup;
        Alt (seqs [Read GLastPos; gr_risk; Read GSpeedParams; Read GSpeedParams; Write GSpeed]) (Seq (Read GSpeedParams) (Write GSpeed));
        opt (Read GSpeed); Read GCurrentGoal; Read GLastPos].
Definition gr_cmd : grcode := seqs [Write GHover; Read GLastWpTime; Read GStartTime; gr_failsafe; gr_setpoint].

(** the callbacks of the main thread: dynamicReconfigureCallback, 157-198 *)
Definition gr_cb_reconfigure : grcode :=
  seqs [writes [GPlanParams; GRiskParams; GPlanParams; GSpeedParams; GMaxIterations; GPlanParams; GUseSpeedup; GUnusedParam; GClickedParams; GSimplifyParams];
        opt (Write GCellScale); opt (Write GNodeType)].
(** velocityCallback, 200-202; positionCallback, 205-239 (isCloseToGoal 433) *)
Definition gr_cb_velocity : grcode := Write GCurrVel.
Definition gr_cb_position : grcode :=
  seqs [Write GLastPos; Read GLastPos; gr_set_pose; Read GNumPos; Write GNumPos; opt (seqs [Read GConstants; Write GLastPos; Read GLastPos; Write GActualPath; Read GActualPath]);
        Write GPosReceived; Read GPath;
        opt (seqs [Read GCurrentGoal; Read GLastPos; Read GSpeed;
             opt (seqs [Read GCurrentGoal; Read GLastPos;
                  opt (seqs [Read GCurrentGoal; Write GLastGoal; Read GPath; Write GCurrentGoal; Write GPath])])])].
(** clickedPointCallback, 241-249 (printPointStats, analysis.h:103-132) *)
Definition gr_cb_clicked : grcode :=
  seqs [Read GPlanParams; gr_risk; gr_risk; gr_single; gr_single; gr_single; gr_single; gr_single; gr_single; gr_single; Read GGoalPos; gr_heuristic; Read GOctree;
        Alt (seqs [Read GOctree; Read GConstants; Read GOccupied; opt (Read GRiskParams)]) (Seq (Read GRiskParams) (Read GConstants));
        Read GCurrPos; Write GClickedPoints].
(** moveBaseSimpleCallback, 251-253; fcuInputGoalCallback, 255-261 *)
Definition gr_cb_move_base : grcode := Seq (Read GClickedParams) gr_new_goal.
Definition gr_cb_fcu : grcode := opt (Seq (Read GGoalPos) (opt gr_new_goal)).
(** octomapFullCallback, 264-277; depthCameraCallback, 280-305 *)
Definition gr_cb_octomap : grcode := Guard GMap (seqs [Read GLastWpTime; Read GConstants; opt (Seq (Write GLastWpTime) gr_update_map)]).
Definition gr_cb_camera : grcode := Seq (Read GConstants) (Star (Write GOccupied)).
(** px4ParamsCallback, avoidance_node.cpp:85-124; missionCallback, 168-182 *)
Definition gr_cb_px4 : grcode := Guard GParam (opt (Seq (Read GPx4) (Write GPx4))).
Definition gr_cb_mission : grcode := opt (Write GMissionSpeed).
Definition gr_callbacks : grcode :=
  alts [gr_cb_reconfigure; gr_cb_velocity; gr_cb_position; gr_cb_clicked; gr_cb_move_base; gr_cb_fcu; gr_cb_octomap; gr_cb_camera; gr_cb_px4; gr_cb_mission].
(** statusLoopCallback, avoidance_node.cpp:46, 53-60; a round of checkPx4Parameters, 135-157 *)
Definition gr_status : grcode := Read GNodeStatus.
Definition gr_check : grcode := Guard GParam (Seq (Star (Write GPx4)) (Read GPx4)).
(** the end of the constructor, global_planner_node.cpp:53-69, with AvoidanceNode's two threads (avoidance_node.cpp:38-41) started before *)
Definition gr_start : grcode :=
  seqs [Spawn GStatusT; Spawn GCheckT; Spawn GCmd; Spawn GPlan; Read GConstants; Write GCurrentGoal; Read GCurrentGoal; Write GLastGoal; Read GSpeedParams; Write GSpeed; Write GStartTime].
Definition gr_body (t : grtid) : grcode :=
  match t with GMain => gr_callbacks | GCmd => gr_cmd | GPlan => gr_plan | GStatusT => gr_status | GCheckT => gr_check end.
Definition gr_node : system grvar grlock grtid := System grlock_dec grtid_dec GMain gr_start gr_body.
