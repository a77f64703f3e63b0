(** Model of local_planner/src/nodes/local_planner.cpp and of
    local_planner/src/utils/trajectory_simulator.cpp, local_planner/include/local_planner/trajectory_simulator.h. *)
From Coq Require Import ZArith List Bool.
From Verif Require Import Num Mat CommonModel HistModel PfModel StarModel.
Import ListNotations.

Section Lp.
Context (N : num) (G : trig N).
Declare Scope lp_scope.
Local Notation "x + y" := (add N x y) : lp_scope.
Local Notation "x - y" := (sub N x y) : lp_scope.
Local Notation "x * y" := (mul N x y) : lp_scope.
Local Notation "x / y" := (div N x y) : lp_scope.
Local Notation "x <? y" := (ltb N x y) : lp_scope.
Local Notation "x <=? y" := (leb N x y) : lp_scope.
Local Notation "# z" := (ofZ N z) (at level 1, format "# z") : lp_scope.
Local Open Scope lp_scope.

(* ------------------------------------------------------------------- obstacle distance message 150-173 *)
(** local_planner.cpp:159-170: the [ranges] of the message; stamp, frame and increment are constants and not modelled.
    (angle_min is left at its default 0.) *)
Definition scanEntry (h : hist N) (fovs : list (fov N)) (position : vec3 N) (yaw min_range max_range : N) (i : Z) : option N :=
  let j := Z.rem (i + GRID_LENGTH_Z / 2) GRID_LENGTH_Z in
  match h_get N h 0 j with
  | None => None
  | Some dist =>
      Some (if histogramIndexYawInsideFOVs N G fovs j position yaw
            then (if min_range <? dist then dist else max_range + cst N 1 100)
            else nanv N)
  end.
Definition updateObstacleDistanceMsg (h : hist N) (fovs : list (fov N)) (position : vec3 N) (yaw min_range max_range : N)
    : option (list N) :=
  foldM (fun acc i => option_map (fun x => acc ++ [x]) (scanEntry h fovs position yaw min_range max_range i)) [] (zrange GRID_LENGTH_Z).

(* ------------------------------------------------------------------- histogram image 102-114 *)
(** local_planner.cpp:109-111. [cast] is (int) of a float, then narrowed to uint8_t (no effect on 0..255). *)
Definition imageByte (cast : N -> Z) (max_range dist : N) : Z :=
  let depth_val := if cst N 1 100 <? dist then #255 - #255 * dist / max_range else #0 in
  cast (maxv N (#0) (minv N (#255) depth_val)).
Definition generateHistogramImage (cast : N -> Z) (max_range : N) (h : hist N) : option (list Z) :=
  foldM (fun acc e => foldM (fun acc z => option_map (fun d => acc ++ [imageByte cast max_range d]) (h_get N h e z)) acc (zrange GRID_LENGTH_Z))
        [] (rev (zrange GRID_LENGTH_E)).

(* ------------------------------------------------------------------- closest point on the goal line 123-134 *)
(** Eigen: normalized() of a 2-vector *)
Definition v2normalized (x y : N) : N * N :=
  let s := x * x + y * y in if #0 <? s then (x / sqrtv N s, y / sqrtv N s) else (x, y).
(** local_planner.cpp:124-134 *)
Definition closestPoint (goal prev_goal position : vec3 N) (xy_cruise : N) : vec3 N :=
  let (ux, uy) := v2normalized (vx goal - vx prev_goal) (vy goal - vy prev_goal) in
  let px := vx position - vx prev_goal in
  let py := vy position - vy prev_goal in
  let d := ux * px + uy * py in
  let cx := vx prev_goal + ux * d in
  let cy := vy prev_goal + uy * d in
  if (v2norm N (vx position - cx) (vy position - cy) <? xy_cruise)
     || (v2norm N (vx goal - vx prev_goal) (vy goal - vy prev_goal) <? cst N 1 1000)
  then goal else V3 cx cy (vz goal).

(* ------------------------------------------------------------------- getAvoidanceOutput 216-238 *)
(** local_planner.cpp:224-228 *)
Definition limitedSpeed (acc_hor jerk_max max_range : N) : N :=
  let ramp := acc_hor / jerk_max in
  let a := #1 in
  let b := #2 * acc_hor * ramp in
  let c := #2 * opp N acc_hor * max_range in
  (opp N b + sqrtv N (b * b - #4 * a * c)) / (#2 * a).
(** local_planner.cpp:230-231 *)
Definition cruiseVelocity (mission_speed xy_cruise acc_hor jerk_max max_range : N) : N :=
  let speed := if finiteb N mission_speed then mission_speed else xy_cruise in
  minv N speed (limitedSpeed acc_hor jerk_max max_range).

(* ------------------------------------------------------------------- LocalPlanner as a state machine *)
(** configuration: local_planner.cpp:25-50 and the autopilot parameters used here *)
Record lp_config := LpCfg {
  g_min_num : Z; g_min_range : N; g_max_range : N; g_margin : N; g_max_age : N; g_cost : costParameters N;
  g_children : Z; g_expanded : Z; g_node_distance : N; g_heuristic_weight : N;
  g_cp_dist : N; g_xy_cruise : N; g_acc_hor : N; g_jerk_max : N; g_mission_speed : N }.
(** state: local_planner.h:48-67, star_planner.h:49-51 *)
Record lp_state := LpS {
  l_fovs : list (fov N); l_pos : vec3 N; l_vel : vec3 N; l_yaw : N; l_pitch : N; l_goal : vec3 N; l_prev_goal : vec3 N;
  l_cloud : list (xyzi N); l_process_time : Z; l_path_time : Z; l_scan : list N; l_closest : vec3 N;
  l_tree : list (tnode N); l_closed : list nat; l_path : list (vec3 N) }.
(** avoidance_output.h:12-21 *)
Record output := Out { o_cruise : N; o_path_time : Z; o_path : list (vec3 N) }.

(** seconds as a float from a duration in nanoseconds; the C++ conversions; std::priority_queue; HUGE_VAL *)
Context (secs : Z -> N) (cast rnd ceilc : N -> Z)
        (top : list (candidate N) -> option (candidate N * list (candidate N))) (huge : N).

(** local_planner.cpp:60-66 *)
Definition lp_setFOV (s : lp_state) (i : nat) (f : fov N) : lp_state :=
  let fovs := if (i <? length (l_fovs s))%nat then set_nth (l_fovs s) i f else l_fovs s ++ [f] in
  LpS fovs (l_pos s) (l_vel s) (l_yaw s) (l_pitch s) (l_goal s) (l_prev_goal s) (l_cloud s) (l_process_time s) (l_path_time s)
      (l_scan s) (l_closest s) (l_tree s) (l_closed s) (l_path s).
(** local_planner.cpp:16-22 (the angles are those of getYaw/PitchFromQuaternion), 52-58 *)
Definition lp_setState (s : lp_state) (pos vel : vec3 N) (yaw pitch : N) : lp_state :=
  LpS (l_fovs s) pos vel yaw pitch (l_goal s) (l_prev_goal s) (l_cloud s) (l_process_time s) (l_path_time s)
      (l_scan s) (l_closest s) (l_tree s) (l_closed s) (l_path s).
Definition lp_setGoal (s : lp_state) (goal prev_goal : vec3 N) : lp_state :=
  LpS (l_fovs s) (l_pos s) (l_vel s) (l_yaw s) (l_pitch s) goal prev_goal (l_cloud s) (l_process_time s) (l_path_time s)
      (l_scan s) (l_closest s) (l_tree s) (l_closed s) (l_path s).

Definition starParams (g : lp_config) (s : lp_state) : star_params N :=
  SP (g_children g) (g_expanded g) (g_node_distance g) (g_max_range g) (g_heuristic_weight g) (l_goal s) (l_pos s) (l_vel s).

(** local_planner.cpp:72-83, 85-100, 116-148: runPlanner, create2DObstacleRepresentation, determineStrategy. [now] is the time
    of all three clock readings of one call. The cost and histogram images, only published for display, are not part of the
    state (see generateHistogramImage, generateCostImage), but the cost matrix is computed, as it can fail. *)
Definition runPlanner (g : lp_config) (s : lp_state) (clouds : list (list (vec3 N))) (now : Z) : option lp_state :=
  obind (processPointcloud N G cast (l_cloud s) clouds (l_fovs s) (l_yaw s) (l_pitch s) (l_pos s) (g_min_range g) (g_max_range g)
           (g_max_age g) (secs (now - l_process_time s)) (g_min_num g)) (fun cloud =>
  obind (h_new N ALPHA_RES) (fun h0 =>
  obind (generateNewHistogram N G cast h0 cloud (l_pos s)) (fun h =>
  obind (if #0 <? g_cp_dist g
         then obind (compressHistogramElevation N G cast h0 h (l_pos s)) (fun ch =>
              updateObstacleDistanceMsg ch (l_fovs s) (l_pos s) (l_yaw s) (g_min_range g) (g_max_range g))
         else Some (l_scan s)) (fun scan =>
  obind (generateHistogramImage cast (g_max_range g) h) (fun _ =>
  let closest := closestPoint (l_goal s) (l_prev_goal s) (l_pos s) (g_xy_cruise g) in
  obind (h_isEmpty N h) (fun empty =>
  if empty then
    Some (LpS (l_fovs s) (l_pos s) (l_vel s) (l_yaw s) (l_pitch s) (l_goal s) (l_prev_goal s) cloud now (l_path_time s) scan closest
              (l_tree s) (l_closed s) (l_path s))
  else
    obind (getCostMatrix N G cast rnd ceilc h (l_goal s) (l_pos s) (l_vel s) (g_cost g) (g_margin g) closest (g_max_range g) (g_min_range g)) (fun _ =>
    obind (buildLookAheadTree N G huge
             (starCandidates N G cast rnd ceilc top cloud (l_goal s) (g_cost g) (g_margin g) closest (g_max_range g) (g_min_range g) (g_children g))
             (starParams g s)) (fun r =>
    Some (LpS (l_fovs s) (l_pos s) (l_vel s) (l_yaw s) (l_pitch s) (l_goal s) (l_prev_goal s) cloud now now scan closest
              (r_tree r) (r_closed r) (r_path r)))))))))).

(** local_planner.cpp:216-238 *)
Definition getAvoidanceOutput (g : lp_config) (s : lp_state) : output :=
  Out (cruiseVelocity (g_mission_speed g) (g_xy_cruise g) (g_acc_hor g) (g_jerk_max g) (g_max_range g)) (l_path_time s) (l_path s).

(* ------------------------------------------------------------------- trajectory_simulator *)
(** trajectory_simulator.h:8-21 *)
Record sim_state := Sim { s_time : N; s_pos : vec3 N; s_vel : vec3 N; s_acc : vec3 N }.
Record sim_limits := Lim { max_z_velocity : N; min_z_velocity : N; max_xy_velocity : N; max_acceleration : N; max_jerk : N }.
(** trajectory_simulator.h:42-50, for 3 and 2 components; [val * k] *)
Definition normClamp3 (v : vec3 N) (max_norm : N) : vec3 N :=
  let n := v3sqnorm N v in
  if max_norm * max_norm <? n then
    let k := max_norm / sqrtv N n in V3 (vx v * k) (vy v * k) (vz v * k)
  else v.
Definition normClamp2 (x y max_norm : N) : N * N :=
  let n := x * x + y * y in
  if max_norm * max_norm <? n then let k := max_norm / sqrtv N n in (x * k, y * k) else (x, y).
(** trajectory_simulator.cpp:6-11; std::min(max_z, std::max(min_z, z)) *)
Definition xyNormZClamp (v : vec3 N) (max_xy min_z max_z : N) : vec3 N :=
  let (x, y) := normClamp2 (vx v) (vy v) max_xy in
  V3 x y (minv N max_z (maxv N min_z (vz v))).
(** trajectory_simulator.cpp:70-79 *)
Definition stepConstantJerk (s : sim_state) (jerk : vec3 N) (dt : N) : sim_state :=
  let half := cst N 1 2 in let sixth := #1 / #6 in
  let comb (p v a j : N) := p + dt * v + half * (dt * dt) * a + sixth * (dt * dt * dt) * j in
  let combv (v a j : N) := v + a * dt + half * (dt * dt) * j in
  Sim (s_time s + dt)
    (V3 (comb (vx (s_pos s)) (vx (s_vel s)) (vx (s_acc s)) (vx jerk)) (comb (vy (s_pos s)) (vy (s_vel s)) (vy (s_acc s)) (vy jerk))
        (comb (vz (s_pos s)) (vz (s_vel s)) (vz (s_acc s)) (vz jerk)))
    (V3 (combv (vx (s_vel s)) (vx (s_acc s)) (vx jerk)) (combv (vy (s_vel s)) (vy (s_acc s)) (vy jerk)) (combv (vz (s_vel s)) (vz (s_acc s)) (vz jerk)))
    (V3 (vx (s_acc s) + dt * vx jerk) (vy (s_acc s) + dt * vy jerk) (vz (s_acc s) + dt * vz jerk)).
(** trajectory_simulator.cpp:81-93 *)
Definition jerkForVelocity (P D maxj : N) (desired : vec3 N) (s : sim_state) : vec3 N :=
  let c (dv v a : N) := (dv - v) * P + (#0 - a) * D in
  normClamp3 (V3 (c (vx desired) (vx (s_vel s)) (vx (s_acc s))) (c (vy desired) (vy (s_vel s)) (vy (s_acc s)))
                 (c (vz desired) (vz (s_vel s)) (vz (s_acc s)))) maxj.
(** trajectory_simulator.cpp:45-60: jerk and duration of one step *)
Definition stepChoice (P D maxa : N) (lim : sim_limits) (step : N) (desired : vec3 N) (s : sim_state) : vec3 N * N :=
  let damped := jerkForVelocity P D (max_jerk lim) desired s in
  let requested := V3 (vx (s_acc s) + step * vx damped) (vy (s_acc s) + step * vy damped) (vz (s_acc s) + step * vz damped) in
  if maxa * maxa <? v3sqnorm N requested then
    let t := (maxa - v3norm N (s_acc s)) / v3norm N damped in
    if (t <=? flt_eps N) || (step <? t) then (V3 (#0) (#0) (#0), step) else (damped, t)
  else (damped, step).
Fixpoint simulate (P D maxa : N) (lim : sim_limits) (step : N) (desired : vec3 N) (n : nat) (s : sim_state) : list sim_state :=
  match n with
  | O => []
  | S n' => let (j, dt) := stepChoice P D maxa lim step desired s in
            let s' := stepConstantJerk s j dt in s' :: simulate P D maxa lim step desired n' s'
  end.
(** trajectory_simulator.cpp:23-68. [ceil_int] is static_cast<int>(std::ceil(x)); a negative number of steps makes
    vector::reserve throw: [None]. *)
Definition desiredVelocity (hyp : N -> N -> N) (lim : sim_limits) (goal_direction : vec3 N) : vec3 N :=
  let u := v3normalized N goal_direction in
  let h := hyp (max_xy_velocity lim) (if #0 <? vz u then max_z_velocity lim else min_z_velocity lim) in
  xyNormZClamp (V3 (vx u * h) (vy u * h) (vz u * h)) (max_xy_velocity lim) (min_z_velocity lim) (max_z_velocity lim).
Definition simAccLimit (lim : sim_limits) : N := minv N (#2 * sqrtv N (max_jerk lim)) (max_acceleration lim).
Definition generateTrajectory (hyp : N -> N -> N) (ceil_int : N -> Z) (lim : sim_limits) (start : sim_state) (step : N)
    (goal_direction : vec3 N) (duration : N) : option (list sim_state) :=
  let n := ceil_int (duration / step) in
  if (n <? 0)%Z then None
  else
    let desired := desiredVelocity hyp lim goal_direction in
    let maxa := simAccLimit lim in
    let dn := v3norm N desired in
    let P := (sqrtv N (maxa * maxa + max_jerk lim * dn) - maxa) / dn * #10 in
    let D := #2 * sqrtv N P in
    Some (simulate P D maxa lim step desired (Z.to_nat n) start).
End Lp.
Arguments LpCfg {N} _ _ _ _ _ _ _ _ _ _ _ _ _ _ _.
Arguments LpS {N} _ _ _ _ _ _ _ _ _ _ _ _ _ _ _.
Arguments Out {N} _ _ _.
Arguments Sim {N} _ _ _ _.
Arguments Lim {N} _ _ _ _ _.
Arguments g_min_num {N} _.
Arguments g_min_range {N} _.
Arguments g_max_range {N} _.
Arguments g_margin {N} _.
Arguments g_max_age {N} _.
Arguments g_cost {N} _.
Arguments g_children {N} _.
Arguments g_expanded {N} _.
Arguments g_node_distance {N} _.
Arguments g_heuristic_weight {N} _.
Arguments g_cp_dist {N} _.
Arguments g_xy_cruise {N} _.
Arguments g_acc_hor {N} _.
Arguments g_jerk_max {N} _.
Arguments g_mission_speed {N} _.
Arguments l_fovs {N} _.
Arguments l_pos {N} _.
Arguments l_vel {N} _.
Arguments l_yaw {N} _.
Arguments l_pitch {N} _.
Arguments l_goal {N} _.
Arguments l_prev_goal {N} _.
Arguments l_cloud {N} _.
Arguments l_process_time {N} _.
Arguments l_path_time {N} _.
Arguments l_scan {N} _.
Arguments l_closest {N} _.
Arguments l_tree {N} _.
Arguments l_closed {N} _.
Arguments l_path {N} _.
Arguments o_cruise {N} _.
Arguments o_path_time {N} _.
Arguments o_path {N} _.
Arguments s_time {N} _.
Arguments s_pos {N} _.
Arguments s_vel {N} _.
Arguments s_acc {N} _.
Arguments max_z_velocity {N} _.
Arguments min_z_velocity {N} _.
Arguments max_xy_velocity {N} _.
Arguments max_acceleration {N} _.
Arguments max_jerk {N} _.
