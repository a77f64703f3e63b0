(** Model of the configuration of local_planner/src/nodes/local_planner.cpp and local_planner/src/nodes/star_planner.cpp: LocalPlanner and the StarPlanner it
    owns keep members of their own for what LpModel.v has once (ranges, margin, cost weights, goal, pose, cloud, closest point); here they are separate, and
    LcProps.v shows when that makes no difference.
    A configuration (LocalPlannerNodeConfig, generated from local_planner/cfg/LocalPlannerNode.cfg) has doubles; [narrow]: double to float, [widen]: float to double.
    Simplification: LocalPlanner::children_per_node_ and n_expanded_nodes_ (local_planner.h:37-38) are set but never read and are left out. The histograms, the
    cost matrix and the images are computed afresh in every run; pictures for display are not modelled, as in LpModel.v. *)
From Coq Require Import ZArith List Bool.
From Verif Require Import Num Mat CommonModel HistModel PfModel StarModel LpModel.
Import ListNotations.

Section Lc.
Context (N D : num) (G : trig N) (narrow : D -> N) (widen : N -> D).
Context (secs : Z -> N) (cast rnd ceilc : N -> Z)
        (top : list (candidate N) -> option (candidate N * list (candidate N))) (huge : N).

(** local_planner/cfg/LocalPlannerNode.cfg:10-30 *)
Record lconfig := LConf {
  dc_max_range : D; dc_min_range : D; dc_pitch : D; dc_yaw : D; dc_velocity : D; dc_obstacle : D; dc_heuristic : D; dc_goal_z : D;
  dc_startup : D; dc_critical : D; dc_termination : D; dc_max_age : D; dc_min_num : Z; dc_smoothing_xy : D; dc_smoothing_z : D; dc_margin : D;
  dc_children : Z; dc_expanded : Z; dc_node_distance : D }.

(** StarPlanner, star_planner.h:22-38, 49-51 *)
Record splanner := SPl {
  q_children : Z; q_expanded : Z; q_node_distance : N; q_max_path : N; q_margin : N; q_heuristic : N; q_max_range : N; q_min_range : N;
  q_cloud : list (xyzi N); q_goal : vec3 N; q_pos : vec3 N; q_vel : vec3 N; q_closest : vec3 N; q_cost : costParameters N;
  q_tree : list (tnode N); q_closed : list nat; q_path : list (vec3 N) }.
(** what LocalPlanner::dynamicReconfigureSetParams assigns, local_planner.h:39-44, 56, 95-97 *)
Record lparams := LPar {
  p_min_num : Z; p_min_range : N; p_max_range : N; p_margin : N; p_max_age : N; p_cost : costParameters N;
  p_startup : D; p_critical : D; p_termination : D }.
(** the autopilot's parameters used here (local_planner.h:101) and mission_item_speed_ (99) *)
Record lpx4 := LPx4 { x_cp_dist : N; x_xy_cruise : N; x_acc_hor : N; x_jerk_max : N }.
(** the other members of LocalPlanner, local_planner.h:45-51, 58-64 *)
Record lmembers := LMem {
  m_fovs : list (fov N); m_pos : vec3 N; m_vel : vec3 N; m_yaw : N; m_pitch : N; m_goal : vec3 N; m_prev_goal : vec3 N;
  m_cloud : list (xyzi N); m_process_time : Z; m_path_time : Z; m_scan : list N; m_closest : vec3 N }.
Record lplanner := LPl { lc_params : lparams; lc_px4 : lpx4; lc_speed : N; lc_mem : lmembers; lc_star : splanner }.

(** cost_parameters.h:5-10; the members' initializers, local_planner.h:39-64, 95-101; common.h:82-95; star_planner.h:22-38 *)
Let zero3 : vec3 N := V3 (ofZ N 0) (ofZ N 0) (ofZ N 0).
Let nan3 : vec3 N := V3 (nanv N) (nanv N) (nanv N).
Definition cost_new : costParameters N := CostParams (cst N 1 2) (ofZ N 3) (cst N 3 2) (ofZ N 5).
Definition star_new : splanner :=
  SPl 1 5 (ofZ N 1) (ofZ N 4) (ofZ N 30) (ofZ N 10) (ofZ N 15) (cst N 1 5) [] nan3 nan3 nan3 nan3 cost_new [] [] [].
Definition planner_new : lplanner :=
  LPl (LPar 3 (cst N 1 5) (ofZ N 12) (ofZ N 30) (ofZ N 10) cost_new (ofZ D 20) (cst D 1 2) (ofZ D 20))
      (LPx4 (nanv N) (nanv N) (nanv N) (nanv N)) (nanv N)
      (LMem [] zero3 zero3 (ofZ N 0) (ofZ N 0) zero3 zero3 [] 0 0 [] zero3) star_new.

(** star_planner.cpp:14-23 *)
Definition star_reconf (q : splanner) (c : lconfig) : splanner :=
  SPl (dc_children c) (dc_expanded c) (narrow (dc_node_distance c)) (narrow (dc_max_range c)) (narrow (dc_margin c)) (narrow (dc_heuristic c))
      (narrow (dc_max_range c)) (narrow (dc_min_range c)) (q_cloud q) (q_goal q) (q_pos q) (q_vel q) (q_closest q) (q_cost q) (q_tree q) (q_closed q) (q_path q).
(** star_planner.cpp:25: setParams; 27-30: setPose; 32: setGoal; 34: setPointcloud; 36: setClosestPointOnLine *)
Definition star_setParams (q : splanner) (cp : costParameters N) : splanner :=
  SPl (q_children q) (q_expanded q) (q_node_distance q) (q_max_path q) (q_margin q) (q_heuristic q) (q_max_range q) (q_min_range q)
      (q_cloud q) (q_goal q) (q_pos q) (q_vel q) (q_closest q) cp (q_tree q) (q_closed q) (q_path q).
Definition star_setPose (q : splanner) (pos vel : vec3 N) : splanner :=
  SPl (q_children q) (q_expanded q) (q_node_distance q) (q_max_path q) (q_margin q) (q_heuristic q) (q_max_range q) (q_min_range q)
      (q_cloud q) (q_goal q) pos vel (q_closest q) (q_cost q) (q_tree q) (q_closed q) (q_path q).
Definition star_setGoal (q : splanner) (goal : vec3 N) : splanner :=
  SPl (q_children q) (q_expanded q) (q_node_distance q) (q_max_path q) (q_margin q) (q_heuristic q) (q_max_range q) (q_min_range q)
      (q_cloud q) goal (q_pos q) (q_vel q) (q_closest q) (q_cost q) (q_tree q) (q_closed q) (q_path q).
Definition star_setPointcloud (q : splanner) (cloud : list (xyzi N)) : splanner :=
  SPl (q_children q) (q_expanded q) (q_node_distance q) (q_max_path q) (q_margin q) (q_heuristic q) (q_max_range q) (q_min_range q)
      cloud (q_goal q) (q_pos q) (q_vel q) (q_closest q) (q_cost q) (q_tree q) (q_closed q) (q_path q).
Definition star_setClosest (q : splanner) (pt : vec3 N) : splanner :=
  SPl (q_children q) (q_expanded q) (q_node_distance q) (q_max_path q) (q_margin q) (q_heuristic q) (q_max_range q) (q_min_range q)
      (q_cloud q) (q_goal q) (q_pos q) (q_vel q) pt (q_cost q) (q_tree q) (q_closed q) (q_path q).
(** star_planner.cpp:42-159 with this object's members *)
Definition star_build (q : splanner) : option splanner :=
  obind (buildLookAheadTree N G huge
           (starCandidates N G cast rnd ceilc top (q_cloud q) (q_goal q) (q_cost q) (q_margin q) (q_closest q) (q_max_range q) (q_min_range q) (q_children q))
           (SP (q_children q) (q_expanded q) (q_node_distance q) (q_max_path q) (q_heuristic q) (q_goal q) (q_pos q) (q_vel q))) (fun r =>
  Some (SPl (q_children q) (q_expanded q) (q_node_distance q) (q_max_path q) (q_margin q) (q_heuristic q) (q_max_range q) (q_min_range q)
         (q_cloud q) (q_goal q) (q_pos q) (q_vel q) (q_closest q) (q_cost q) (r_tree r) (r_closed r) (r_path r))).

(** local_planner.cpp:16-22 *)
Definition lc_setState (s : lplanner) (pos vel : vec3 N) (yaw pitch : N) : lplanner :=
  let m := lc_mem s in
  LPl (lc_params s) (lc_px4 s) (lc_speed s)
      (LMem (m_fovs m) pos vel yaw pitch (m_goal m) (m_prev_goal m) (m_cloud m) (m_process_time m) (m_path_time m) (m_scan m) (m_closest m))
      (star_setPose (lc_star s) pos vel).
(** applyGoal, local_planner.cpp:70 *)
Definition lc_applyGoal (s : lplanner) : lplanner :=
  LPl (lc_params s) (lc_px4 s) (lc_speed s) (lc_mem s) (star_setGoal (lc_star s) (m_goal (lc_mem s))).
(** local_planner.cpp:52-57 *)
Definition lc_setGoal (s : lplanner) (goal : vec3 N) : lplanner :=
  let m := lc_mem s in
  lc_applyGoal (LPl (lc_params s) (lc_px4 s) (lc_speed s)
    (LMem (m_fovs m) (m_pos m) (m_vel m) (m_yaw m) (m_pitch m) goal (m_prev_goal m) (m_cloud m) (m_process_time m) (m_path_time m) (m_scan m) (m_closest m))
    (lc_star s)).
(** local_planner.cpp:58 *)
Definition lc_setPreviousGoal (s : lplanner) (prev : vec3 N) : lplanner :=
  let m := lc_mem s in
  LPl (lc_params s) (lc_px4 s) (lc_speed s)
    (LMem (m_fovs m) (m_pos m) (m_vel m) (m_yaw m) (m_pitch m) (m_goal m) prev (m_cloud m) (m_process_time m) (m_path_time m) (m_scan m) (m_closest m))
    (lc_star s).
(** local_planner.cpp:60-66 *)
Definition lc_setFOV (s : lplanner) (i : nat) (f : fov N) : lplanner :=
  let m := lc_mem s in
  LPl (lc_params s) (lc_px4 s) (lc_speed s)
    (LMem (if (i <? length (m_fovs m))%nat then set_nth (m_fovs m) i f else m_fovs m ++ [f])
       (m_pos m) (m_vel m) (m_yaw m) (m_pitch m) (m_goal m) (m_prev_goal m) (m_cloud m) (m_process_time m) (m_path_time m) (m_scan m) (m_closest m))
    (lc_star s).
(** local_planner.cpp:25-50; the altitude of the goal, a float, is compared with the parameter, a double *)
Definition lc_reconf (s : lplanner) (c : lconfig) : lplanner :=
  let s1 := LPl (LPar (dc_min_num c) (narrow (dc_min_range c)) (narrow (dc_max_range c)) (narrow (dc_margin c)) (narrow (dc_max_age c))
                   (CostParams (narrow (dc_yaw c)) (narrow (dc_pitch c)) (narrow (dc_velocity c)) (narrow (dc_obstacle c)))
                   (dc_startup c) (dc_critical c) (dc_termination c))
                (lc_px4 s) (lc_speed s) (lc_mem s) (lc_star s) in
  let goal := m_goal (lc_mem s) in
  let s2 := if negb (eqb D (widen (vz goal)) (dc_goal_z c)) then lc_setGoal s1 (V3 (vx goal) (vy goal) (narrow (dc_goal_z c))) else s1 in
  LPl (lc_params s2) (lc_px4 s2) (lc_speed s2) (lc_mem s2) (star_reconf (lc_star s2) c).
(** local_planner_nodelet.cpp:195-196 *)
Definition lc_setFirmware (s : lplanner) (x : lpx4) (speed : N) : lplanner := LPl (lc_params s) x speed (lc_mem s) (lc_star s).

(** local_planner.cpp:72-83, 85-100, 116-148; see LpModel.runPlanner for the two members *)
Definition lc_run (s : lplanner) (clouds : list (list (vec3 N))) (now : Z) : option lplanner :=
  let p := lc_params s in let x := lc_px4 s in let m := lc_mem s in
  obind (processPointcloud N G cast (m_cloud m) clouds (m_fovs m) (m_yaw m) (m_pitch m) (m_pos m) (p_min_range p) (p_max_range p)
           (p_max_age p) (secs (now - m_process_time m)) (p_min_num p)) (fun cloud =>
  obind (h_new N ALPHA_RES) (fun h0 =>
  obind (generateNewHistogram N G cast h0 cloud (m_pos m)) (fun h =>
  obind (if ltb N (ofZ N 0) (x_cp_dist x)
         then obind (compressHistogramElevation N G cast h0 h (m_pos m)) (fun ch =>
              updateObstacleDistanceMsg N G ch (m_fovs m) (m_pos m) (m_yaw m) (p_min_range p) (p_max_range p))
         else Some (m_scan m)) (fun scan =>
  obind (generateHistogramImage N cast (p_max_range p) h) (fun _ =>
  let closest := closestPoint N (m_goal m) (m_prev_goal m) (m_pos m) (x_xy_cruise x) in
  obind (h_isEmpty N h) (fun empty =>
  if empty then
    Some (LPl p x (lc_speed s)
      (LMem (m_fovs m) (m_pos m) (m_vel m) (m_yaw m) (m_pitch m) (m_goal m) (m_prev_goal m) cloud now (m_path_time m) scan closest) (lc_star s))
  else
    obind (getCostMatrix N G cast rnd ceilc h (m_goal m) (m_pos m) (m_vel m) (p_cost p) (p_margin p) closest (p_max_range p) (p_min_range p)) (fun _ =>
    obind (star_build (star_setClosest (star_setPointcloud (star_setParams (lc_star s) (p_cost p)) cloud) closest)) (fun q =>
    Some (LPl p x (lc_speed s)
      (LMem (m_fovs m) (m_pos m) (m_vel m) (m_yaw m) (m_pitch m) (m_goal m) (m_prev_goal m) cloud now now scan closest) q))))))))).

(** local_planner.cpp:216-238 *)
Definition lc_output (s : lplanner) : output N :=
  Out (cruiseVelocity N (lc_speed s) (x_xy_cruise (lc_px4 s)) (x_acc_hor (lc_px4 s)) (x_jerk_max (lc_px4 s)) (p_max_range (lc_params s)))
    (m_path_time (lc_mem s)) (q_path (lc_star s)).

(** the calls LocalPlannerNodelet makes, in any order (local_planner_nodelet.cpp:98, 171, 180, 187-188, 195-196, 437, 469) *)
Inductive lc_op :=
| LState (pos vel : vec3 N) (yaw pitch : N) | LApply | LGoal (goal : vec3 N) | LPrev (prev : vec3 N) | LFov (i : nat) (f : fov N)
| LReconf (c : lconfig) | LFirmware (x : lpx4) (speed : N) | LRun (clouds : list (list (vec3 N))) (now : Z).
Definition lc_call (s : lplanner) (o : lc_op) : option lplanner :=
  match o with
  | LState pos vel yaw pitch => Some (lc_setState s pos vel yaw pitch)
  | LApply => Some (lc_applyGoal s)
  | LGoal g => Some (lc_setGoal s g)
  | LPrev g => Some (lc_setPreviousGoal s g)
  | LFov i f => Some (lc_setFOV s i f)
  | LReconf c => Some (lc_reconf s c)
  | LFirmware x v => Some (lc_setFirmware s x v)
  | LRun clouds now => lc_run s clouds now
  end.
(** a planner after a sequence of calls; [None]: undefined behaviour *)
Definition lc_after (ops : list lc_op) : option lplanner := foldM lc_call planner_new ops.
End Lc.
Arguments LConf {D} _ _ _ _ _ _ _ _ _ _ _ _ _ _ _ _ _ _ _.
Arguments dc_max_range {D} _. Arguments dc_min_range {D} _. Arguments dc_pitch {D} _. Arguments dc_yaw {D} _. Arguments dc_velocity {D} _.
Arguments dc_obstacle {D} _. Arguments dc_heuristic {D} _. Arguments dc_goal_z {D} _. Arguments dc_startup {D} _. Arguments dc_critical {D} _.
Arguments dc_termination {D} _. Arguments dc_max_age {D} _. Arguments dc_min_num {D} _. Arguments dc_smoothing_xy {D} _. Arguments dc_smoothing_z {D} _.
Arguments dc_margin {D} _. Arguments dc_children {D} _. Arguments dc_expanded {D} _. Arguments dc_node_distance {D} _.
Arguments LState {N D} _ _ _ _. Arguments LApply {N D}. Arguments LGoal {N D} _. Arguments LPrev {N D} _. Arguments LFov {N D} _ _.
Arguments LReconf {N D} _. Arguments LFirmware {N D} _ _. Arguments LRun {N D} _ _.
Arguments LPx4 {N} _ _ _ _. Arguments x_cp_dist {N} _. Arguments x_xy_cruise {N} _. Arguments x_acc_hor {N} _. Arguments x_jerk_max {N} _.
