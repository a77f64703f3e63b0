(** Model of the accesses of the local planner node's threads to the data they share: which variable is read or written, in which order, under which mutexes,
    for any number of cameras. The threads, their mutexes and the order in which these are taken are those of NtModel.v (NdProps.v shows that the mutex
    operations of every script here are those of a script there); added is the thread that publishes the node's status (avoidance_node.cpp:30-32, 38-39, 46:
    a queue and spinner of its own).
    Values are not modelled: every branch can be taken at any time. A variable is a member of a class or a group of members that are always accessed under the
    same conditions. ROS runs a callback of the global queue on any thread that serves the queue: on the main thread and, from within the waiting loop of
    cmdLoopCallback (local_planner_nodelet.cpp:241), on the command thread; it never runs two callbacks of one subscription at the same time (a mutex for each
    subscription, modelled as [Sub]).
    Simplification: what happens before the threads are started and the destructor are left out, should_exit_ (std::atomic) too; publishers, tf's listener,
    ROS' parameters and time are libraries with their own synchronisation; the simulation's WorldVisualizer has no variable in common with the node. *)
From Coq Require Import Arith List Bool Lia.
From Verif Require Import NtModel.
Import ListNotations.

(** the subscriptions of the global queue: local_planner_nodelet.cpp:79-88, 146-147, avoidance_node.cpp:22-23 *)
Inductive sub := SubCloud (i : nat) | SubPose | SubVelocity | SubState | SubPoint | SubClicked | SubFcu | SubGoal | SubAltitude | SubParam | SubMission.
Inductive dlock := Mx (l : lock) | Sub (k : sub).
Definition dlock_eq_dec (a b : dlock) : {a = b} + {a <> b}.
Proof. decide equality; [apply lock_eq_dec|]. decide equality. apply Nat.eq_dec. Defined.
Inductive dtid := Th (t : tid) | StatusT.
Definition dtid_eq_dec (a b : dtid) : {a = b} + {a <> b}.
Proof. decide equality. apply tid_eq_dec. Defined.

(** the shared data *)
Inductive var :=
(* a camera's data, local_planner_nodelet.h:55-72: untransformed_cloud_, received_, transformed_cloud_, transformed_, fov_fcu_frame_, transform_registered_ *)
| CamRaw (i : nat) | CamReceived (i : nat) | CamCloud (i : nat) | CamTransformed (i : nat) | CamFov (i : nat) | CamRegistered (i : nat)
(* buffered_transforms_ (235); the contents of tf_buffer_ (transform_buffer.h) *)
| TfFrames | TfBuffer
(* AvoidanceNode: px4_, companion_state_, mission_item_speed_ (avoidance_node.h:67-84) *)
| Px4 | NodeStatus | MissionSpeed
(* newest_position_, last_position_, newest_orientation_, position_received_, velocity_, armed_, nav_state_ (local_planner_nodelet.h:106, 218-222, 227, 242) *)
| NewestPos | LastPos | NewestOri | PosReceived | Velocity | Armed | NavState
(* goal_position_, prev_goal_position_, new_goal_, desired_velocity_, is_land_waypoint_, is_takeoff_waypoint_ *)
| GoalPos | PrevGoal | NewGoal | DesiredVel | IsLand | IsTakeoff
(* goal_mission_item_msg_, desired_yaw_setpoint_ and desired_yaw_speed_setpoint_, ground_distance_msg_, accept_goal_input_topic_ (248), start_time_ (204) *)
| GoalItem | DesiredYaw | GroundDistance | AcceptGoal | StartTime
(* hover_, position_not_received_error_sent_, last_wp_time_ *)
| Hover | ErrorSent | LastWpTime
(* newest_waypoint_position_, last_waypoint_position_, newest_adapted_waypoint_position_, last_adapted_waypoint_position_ *)
| WpPos | LastWpPos | AdaptedWp | LastAdaptedWp
(* rqt_param_config_ *)
| RqtConfig
(* LocalPlanner: goal_; position_; timeout_termination_; the other members that dynamicReconfigureSetParams sets; all other members, with the star planner's *)
| PlGoal | PlPos | PlTimeout | PlConfig | PlData
(* WaypointGenerator: planner_info_; fov_fcu_frame_; smoothing_speed_xy_ and smoothing_speed_z_; all other members *)
| WgPlan | WgFov | WgSmoothing | WgData.

(** [Poll]: callAvailable, local_planner_nodelet.cpp:241; [Call]: a service call *)
Inductive dact := Take (l : dlock) | Give (l : dlock) | Rd (v : var) | Wr (v : var) | Poll | Call.
Definition dguard (l : dlock) (body : list dact) : list dact := Take l :: body ++ [Give l].
Definition dwait (l : dlock) : list dact := [Give l; Take l].

(** numTransformedClouds, local_planner_nodelet.cpp:153-160 *)
Definition d_num (n : nat) : list dact := flat_map (fun i => dguard (Mx (Cam i)) [Rd (CamTransformed i)]) (seq 0 n).
(** the loop of updatePlannerInfo over the cameras, 165-177 (setFOV waypoint_generator.cpp:218-224) *)
Definition d_swap (i : nat) : list dact :=
  dguard (Mx (Cam i)) ([Rd PlData; Rd (CamCloud i); Wr PlData; Wr (CamCloud i); Wr (CamCloud i); Wr (CamTransformed i); Rd (CamFov i); Wr PlData; Rd (CamFov i)] ++
    dguard (Mx Wg) [Wr WgFov]).
(** its remainder, 179-196; [new]: new_goal_ *)
Definition d_info_rest (new : bool) : list dact :=
  [Rd NewestPos; Wr PlPos; Rd Velocity; Wr PlData; Rd NewestOri; Wr PlData; Rd Armed; Wr PlData; Rd NewGoal] ++
  (if new then [Rd GoalPos; Wr PlGoal; Rd PlGoal; Wr PlData; Rd PrevGoal; Wr PlData; Wr NewGoal] else []) ++
  [Rd WpPos; Wr PlData] ++ dguard (Mx Param) [Rd Px4] ++ [Wr PlData; Rd MissionSpeed; Wr PlData].
(** runPlanner (local_planner.cpp:72-83), visualizePlannerData (local_planner_visualization.cpp:36-66: its arguments are references), publishLaserScan
    (local_planner_nodelet.cpp:442-453) *)
Definition d_run : list dact :=
  [Rd PlData; Rd PlPos; Rd PlConfig; Rd PlGoal; Wr PlData] ++
  [Rd PlData; Rd PlPos; Rd PlGoal; Rd NewestPos; Rd NewestOri; Rd WpPos; Rd AdaptedWp] ++ [Rd PlData; Wr PlData].
(** 475-477: getAvoidanceOutput, setPlannerInfo (waypoint_generator.cpp:455-458), last_wp_time_ *)
Definition d_output : list dact := dguard (Mx Waypoints) ([Rd PlData] ++ dguard (Mx Wg) [Wr WgPlan] ++ [Wr LastWpTime]).
(** the planning thread waits, 458-461; one planner run, 458-487 (last_wp_time_ is read again in 482) *)
Definition d_worker_wait (n : nat) : list dact := d_num n ++ dguard (Mx Cloud) (dwait (Mx Cloud)).
Definition d_worker_plan (n : nat) (new : bool) : list dact :=
  d_num n ++ dguard (Mx Running) ([Wr PlData] ++ flat_map d_swap (seq 0 n) ++ d_info_rest new ++ d_run ++ d_output) ++ [Rd LastWpTime].

(** getTransform, transform_buffer.cpp:57-96; insertTransform, 34-55 *)
Definition d_lookup : list dact := dguard (Mx Buf) [Rd TfBuffer].
Definition d_insert : list dact := dguard (Mx Buf) [Rd TfBuffer; Wr TfBuffer].
(** a round of a transform thread, 496-547; as in NtModel.v *)
Definition d_wait_cloud (i : nat) (ex : bool) : list dact := if ex then [] else dguard (Mx (Cam i)) (dwait (Mx (Cam i))).
Definition d_wait_tf (ex : bool) : list dact := if ex then [] else dguard (Mx Tf) (dwait (Mx Tf)).
Definition d_xf_nothing (i : nat) (ex : bool) : list dact := dguard (Mx (Cam i)) [Rd (CamReceived i)] ++ d_wait_cloud i ex.
Definition d_xf_missing1 (i : nat) (ex : bool) : list dact :=
  dguard (Mx (Cam i)) ([Rd (CamReceived i); Rd (CamRaw i)] ++ d_lookup) ++ d_wait_tf ex.
Definition d_xf_missing2 (i : nat) (ex : bool) : list dact :=
  dguard (Mx (Cam i)) ([Rd (CamReceived i); Rd (CamRaw i)] ++ d_lookup ++ [Rd (CamRaw i)] ++ d_lookup) ++ d_wait_tf ex.
Definition d_xf_done (i : nat) (ex : bool) : list dact :=
  dguard (Mx (Cam i)) ([Rd (CamReceived i); Rd (CamRaw i)] ++ d_lookup ++ [Rd (CamRaw i)] ++ d_lookup ++
    [Rd (CamRaw i); Wr (CamRaw i); Wr (CamFov i); Rd (CamRaw i); Wr (CamCloud i); Wr (CamTransformed i); Wr (CamReceived i)] ++ dguard (Mx Cloud) []) ++
  d_wait_cloud i ex.
(** one round of the tf thread, 371-388 *)
Definition d_tf_round (k : nat) : list dact := dguard (Mx Tf) (Rd TfFrames :: flat_map (fun _ => d_insert) (seq 0 k)).
(** one round of the polling thread, avoidance_node.cpp:135-159 *)
Definition d_check : list dact := dguard (Mx Param) (flat_map (fun _ => [Call; Wr Px4]) (seq 0 11) ++ [Rd Px4]).

(** the callbacks of the global queue. pointCloudCallback, local_planner_nodelet.cpp:406-433; [drop]: the cloud comes too early, [first]: the transforms are registered *)
Definition d_cb_cloud (i : nat) (drop first : bool) : list dact :=
  dguard (Sub (SubCloud i)) (dguard (Mx (Cam i)) ([Rd (CamReceived i); Rd (CamRaw i)] ++
    if drop then [] else [Wr (CamRaw i); Wr (CamReceived i); Rd (CamRegistered i)] ++
      if first then dguard (Mx Tf) [Wr TfFrames; Wr (CamRegistered i)] else [])).
(** positionCallback 199-205, velocityCallback 207-209, stateCallback 211-231 *)
Definition d_cb_pose : list dact := dguard (Sub SubPose) [Rd NewestPos; Wr LastPos; Wr NewestPos; Wr NewestOri; Wr PosReceived].
Definition d_cb_velocity : list dact := dguard (Sub SubVelocity) [Wr Velocity].
Definition d_cb_state : list dact := dguard (Sub SubState) [Wr Armed; Wr NavState].
(** clickedPointCallback 318-320 (printPointInfo 392-393), clickedGoalCallback 322-329 *)
Definition d_cb_point : list dact := dguard (Sub SubPoint) [Rd PlPos].
Definition d_cb_clicked : list dact := dguard (Sub SubClicked) [Wr NewGoal; Rd GoalPos; Wr PrevGoal; Wr GoalPos; Rd PlGoal; Wr GoalPos].
(** updateGoalCallback 331-337 *)
Definition d_cb_goal (accepted : bool) : list dact :=
  dguard (Sub SubGoal) ([Rd AcceptGoal] ++ if accepted then [Rd GoalPos; Wr PrevGoal; Wr GoalPos; Wr NewGoal] else []).
(** fcuInputGoalCallback 339-361; [far]: the norm exceeds 0.01 (goal_position_ is then not looked at), [upd], [second]: the two outer ifs, [open]: the inner one *)
Definition d_cb_fcu (far upd second open : bool) : list dact :=
  dguard (Sub SubFcu) ([Rd GoalItem] ++ (if far then [] else [Rd GoalPos]) ++
    (if upd then [Wr NewGoal; Rd GoalPos; Wr PrevGoal; Wr GoalPos; Wr DesiredVel; Wr IsLand; Wr IsTakeoff] else []) ++
    (if second then [Wr GoalItem] ++ (if open then [Wr GoalPos; Wr DesiredVel] else []) ++ [Wr DesiredYaw] else [])).
(** distanceSensorCallback 363-367; px4ParamsCallback avoidance_node.cpp:85-124; missionCallback 168-182 *)
Definition d_cb_altitude (valid : bool) : list dact := dguard (Sub SubAltitude) (if valid then [Wr GroundDistance] else []).
Definition d_cb_param (known : bool) : list dact := dguard (Sub SubParam) (dguard (Mx Param) (if known then [Rd Px4; Wr Px4] else [])).
Definition d_cb_mission (found : bool) : list dact := dguard (Sub SubMission) (if found then [Wr MissionSpeed] else []).
Inductive d_callback (n : nat) : list dact -> Prop :=
| DCloud : forall i drop first, i < n -> d_callback n (d_cb_cloud i drop first)
| DPose : d_callback n d_cb_pose
| DVelocity : d_callback n d_cb_velocity
| DState : d_callback n d_cb_state
| DPoint : d_callback n d_cb_point
| DClicked : d_callback n d_cb_clicked
| DGoal : forall a, d_callback n (d_cb_goal a)
| DFcu : forall f u s o, d_callback n (d_cb_fcu f u s o)
| DAltitude : forall v, d_callback n (d_cb_altitude v)
| DParam : forall k, d_callback n (d_cb_param k)
| DMission : forall f, d_callback n (d_cb_mission f).

(** a turn of the waiting loop 240-260; [late]: the time is over, [first]: nothing reported yet *)
Definition d_turn (x : bool * bool) : list dact :=
  [Poll; Rd PlTimeout] ++ (if fst x then [Wr NodeStatus; Rd ErrorSent] ++ (if snd x then [Wr ErrorSent] else []) else []) ++ [Rd PosReceived].
(** checkFailsafe, avoidance_node.cpp:62-83 *)
Inductive verdict := Terminate | Critical | Fine (hovering : bool).
Definition d_failsafe (f : verdict) : list dact :=
  match f with Terminate => [Wr NodeStatus] | Critical => [Wr Hover; Wr NodeStatus] | Fine h => Rd Hover :: if h then [] else [Wr NodeStatus] end.
(** calculateWaypoints, local_planner_nodelet.cpp:283-316 (hover and what is passed by value is read before the call, the rest within updateState,
    waypoint_generator.cpp:226-261; getWaypoints 412-416; getOfftrackPointsForVisualization 460-466) *)
Definition d_waypoints : list dact :=
  [Rd Hover; Rd Armed; Rd NavState; Rd IsLand; Rd IsTakeoff] ++
  dguard (Mx Wg) [Rd NewestPos; Rd Velocity; Rd GoalPos; Rd PrevGoal; Rd NewestOri; Rd NavState; Rd DesiredVel; Rd WgData; Wr WgData] ++
  dguard (Mx Wg) [Rd WgPlan; Rd WgFov; Rd WgData; Rd WgSmoothing; Wr WgData] ++ dguard (Mx Wg) [Rd WgData] ++
  [Rd WpPos; Wr LastWpPos; Wr WpPos; Rd AdaptedWp; Wr LastAdaptedWp; Wr AdaptedWp;
   Rd LastPos; Rd NewestPos; Rd LastWpPos; Rd WpPos; Rd LastAdaptedWp; Rd AdaptedWp; Rd NewestPos].
(** cmdLoopCallback, 233-277; [w]: the turns of the waiting loop, [active]: waypoints are calculated *)
Definition d_cmd (w : list (bool * bool)) (f : verdict) (active : bool) : list dact :=
  dguard (Mx Waypoints) ([Wr Hover; Rd PosReceived] ++ flat_map d_turn w ++ [Rd LastWpTime; Rd StartTime] ++ d_failsafe f ++ [Rd NodeStatus] ++
    (if active then d_waypoints else []) ++ [Wr PosReceived]).
(** dynamicReconfigureCallback, 435-440 (local_planner.cpp:25-57; setSmoothingSpeed waypoint_generator.h:175-178); [z]: goal_z_param differs *)
Definition d_reconf (z : bool) : list dact :=
  dguard (Mx Running) ([Wr PlConfig; Wr PlTimeout; Rd PlGoal] ++ (if z then [Rd PlGoal; Wr PlGoal; Rd PlGoal; Wr PlData] else []) ++
    [Wr PlConfig; Wr WgSmoothing; Wr RqtConfig]).
(** statusLoopCallback, avoidance_node.cpp:46, 53-60 *)
Definition d_status : list dact := [Rd NodeStatus].

(** what a thread may start when it has nothing under way. The planning thread plans only if there is a camera (458) *)
Inductive d_script (n : nat) : dtid -> list dact -> Prop :=
| DSWait : d_script n (Th Worker) (d_worker_wait n)
| DSPlan : forall new, 0 < n -> d_script n (Th Worker) (d_worker_plan n new)
| DSNothing : forall i ex, i < n -> d_script n (Th (Xf i)) (d_xf_nothing i ex)
| DSMissing1 : forall i ex, i < n -> d_script n (Th (Xf i)) (d_xf_missing1 i ex)
| DSMissing2 : forall i ex, i < n -> d_script n (Th (Xf i)) (d_xf_missing2 i ex)
| DSDone : forall i ex, i < n -> d_script n (Th (Xf i)) (d_xf_done i ex)
| DSTf : forall k, d_script n (Th TfT) (d_tf_round k)
| DSCheck : d_script n (Th Check) d_check
| DSCallback : forall cb, d_callback n cb -> d_script n (Th Main) cb
| DSCmd : forall w f a, d_script n (Th Cmd) (d_cmd w f a)
| DSReconf : forall z, d_script n (Th Recf) (d_reconf z)
| DSStatus : d_script n StatusT d_status.

Record nds := Nds { todo_of : dtid -> list dact; held_by : dlock -> option dtid }.
Definition nds_init : nds := Nds (fun _ => []) (fun _ => None).
Definition put_t {X} (f : dtid -> X) (t : dtid) (x : X) : dtid -> X := fun u => if dtid_eq_dec u t then x else f u.
Definition put_l {X} (f : dlock -> X) (l : dlock) (x : X) : dlock -> X := fun u => if dlock_eq_dec u l then x else f u.

Inductive d_step (n : nat) : nds -> nds -> Prop :=
| XTake : forall s t l r, todo_of s t = Take l :: r -> held_by s l = None -> d_step n s (Nds (put_t (todo_of s) t r) (put_l (held_by s) l (Some t)))
| XGive : forall s t l r, todo_of s t = Give l :: r -> held_by s l = Some t -> d_step n s (Nds (put_t (todo_of s) t r) (put_l (held_by s) l None))
| XRd : forall s t v r, todo_of s t = Rd v :: r -> d_step n s (Nds (put_t (todo_of s) t r) (held_by s))
| XWr : forall s t v r, todo_of s t = Wr v :: r -> d_step n s (Nds (put_t (todo_of s) t r) (held_by s))
| XCall : forall s t r, todo_of s t = Call :: r -> d_step n s (Nds (put_t (todo_of s) t r) (held_by s))
(* callAvailable returns, or runs another callback first *)
| XPolled : forall s t r, todo_of s t = Poll :: r -> d_step n s (Nds (put_t (todo_of s) t r) (held_by s))
| XNested : forall s t cb r, todo_of s t = Poll :: r -> d_callback n cb -> d_step n s (Nds (put_t (todo_of s) t (cb ++ Poll :: r)) (held_by s))
| XStart : forall s t c, todo_of s t = [] -> d_script n t c -> d_step n s (Nds (put_t (todo_of s) t c) (held_by s)).

Inductive d_reachable (n : nat) : nds -> Prop :=
| DInit : d_reachable n nds_init
| DMore : forall s s', d_reachable n s -> d_step n s s' -> d_reachable n s'.
