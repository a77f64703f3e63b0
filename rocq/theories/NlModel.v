(** Model of the local planner's ROS node: local_planner/src/nodes/local_planner_nodelet.cpp and
    local_planner/include/local_planner/local_planner_nodelet.h.
    The node is a labelled transition system. An event is one atomic step of one thread: a subscriber callback, one
    iteration of a cloud transform thread, one step of the planner (worker) thread, or one step of the command loop.
    A thread that is blocked (on a mutex or in a wait) makes no step: the event leaves the state unchanged.
    Simplifications: every callback is atomic; should_exit_, visualisation and log output are left out;
    frame names are left out: the outcome of the two transform buffer lookups is part of the transform event. *)
From Coq Require Import ZArith List Bool String.
From Verif Require Import Num Mat CommonModel HistModel PfModel StarModel LpModel UsmModel WgModel NodeModel.
Import ListNotations.
Local Open Scope Z_scope.

Section Nl.
Context (N : num) (G : trig N) (secs : Z -> N) (travel : Z -> N -> N).
Context (getyaw : quat N -> N).          (* tf::getYaw of the published orientation, used by transformToTrajectory *)

(** sensor_msgs::PointCloud2: header.seq, header.stamp in nanoseconds, the points *)
Record cloud_msg := CM { cm_seq : Z; cm_stamp : Z; cm_points : cloud N }.
(** pcl::PointCloud: header.seq, header.stamp in microseconds (pcl_conversions toPCL: stamp.toNSec() / 1000) *)
Record pcloud := PC { pc_seq : Z; pc_us : Z; pc_points : cloud N }.
Definition toPCL (m : cloud_msg) : pcloud := PC (cm_seq m) (cm_stamp m / 1000) (cm_points m).
(** the cloud handed to the planner *)
Record tcloud := TC { tc_seq : Z; tc_us : Z; tc_points : list (vec3 N) }.
Definition tcloud0 : tcloud := TC 0 0 [].

(** local_planner_nodelet.h:55-72 *)
Record cam := Cam { k_received : bool; k_raw : pcloud; k_transformed : bool; k_out : tcloud; k_fov : fov N; k_registered : bool }.
(** local_planner_nodelet.cpp:136-151 *)
Definition cam0 : cam :=
  let z := ofZ N 0 in Cam false (PC 0 0 (Cloud N [] 0 0 true)) false tcloud0 (Fov z z z z) false.

(** local_planner_nodelet.cpp:406-433; 0.3 s in nanoseconds *)
Definition pointCloudCallback (k : cam) (m : cloud_msg) : cam :=
  if k_received k && (cm_stamp m - pc_us (k_raw k) * 1000 <? 300000000) then k
  else Cam true (toPCL m) (k_transformed k) (k_out k) (k_fov k) true.

(** local_planner_nodelet.cpp:494-535: one pass of the transform thread under the camera mutex. [tf] is the result of the two
    transform buffer lookups, as functions on points (to local_origin, to fcu). None: undefined behaviour. *)
Definition transformPass (k : cam) (tf : option ((vec3 N -> vec3 N) * (vec3 N -> vec3 N))) : option cam :=
  if k_received k then
    match tf with
    | Some (to_local, to_fcu) =>
        match removeNaNAndGetMaxima N (pc_points (k_raw k)) with
        | Some (c, maxima) =>
            Some (Cam false (PC (pc_seq (k_raw k)) (pc_us (k_raw k)) c) true
                      (TC (pc_seq (k_raw k)) (pc_us (k_raw k)) (map to_local (c_points N c)))
                      (updateFOVFromMaxima N G (k_fov k) (map to_fcu maxima)) (k_registered k))
        | None => None
        end
    | None => Some k
    end
  else Some k.

(** the planner is arbitrary: its state, one run on its inputs, its output and its obstacle distance scan
    (angle_increment and ranges). *)
Record plan_in := PIn {
  n_clouds : list tcloud; n_fovs : list (fov N); n_pos : vec3 N; n_vel : vec3 N; n_quat : quat N; n_armed : bool;
  n_goal : vec3 N; n_prev_goal : vec3 N; n_last_wp : vec3 N; n_px4 : px4params N; n_speed : N }.
Context (P : Type) (pl_run : P -> plan_in -> Z -> P) (pl_out : P -> output N) (pl_scan : P -> N * list N).

(** mavros_msgs::Trajectory, the fields read by fcuInputGoalCallback; point_valid is uint8, command uint16 *)
Record fcu_msg := Fcu {
  f_valid0 : Z; f_valid1 : Z; f_pos1 : vec3 N; f_vel1 : vec3 N; f_pos2 : vec3 N; f_cmd0 : Z; f_cmd1 : Z; f_yaw2 : N; f_yawrate2 : N }.

(** where the worker thread (threadFunction, 455-488) is *)
Inductive wpc :=
| PScan (i cnt : nat)      (* numTransformedClouds 153-160 in the wait condition 459, about to look at camera i *)
| PSwap (i : nat)          (* updatePlannerInfo 164-176, about to take the cloud of camera i; running_mutex_ held from here to PInfo *)
| PState                   (* 179-182 *)
| PFlag                    (* 185: about to read new_goal_ *)
| PGoal | PPrev | PClear   (* 186, 187, 188 *)
| PRun                     (* 192-196, then 469 runPlanner and 473 publishLaserScan *)
| PInfo.                   (* 475-477: needs waypoints_mutex_ *)

Inductive out :=
| OFeed (i : plan_in)                                  (* runPlanner called *)
| OScan (ranges : N * list N)                          (* mavros/obstacle/send *)
| OInfo (now : Z)                                      (* planner result handed to the waypoint generator *)
| OPose (now : Z) (pos : vec3 N) (q : quat N)          (* mavros/setpoint_position/local *)
| OTraj (now : Z) (t : traj N).                        (* mavros/trajectory/generated *)

Record nl := NL {
  s_cams : list cam; s_wpc : wpc;
  s_cmd : option Z;                      (* command loop: None, or Some start_query_position while it holds waypoints_mutex_ *)
  s_status : mav_state; s_hover : bool; s_posrec : bool; s_last_wp : Z; s_start : Z; s_timeout : Z;
  s_pos : vec3 N; s_quat : quat N; s_vel : vec3 N; s_armed : bool; s_nav : nav_state;
  s_goal : vec3 N; s_prev : vec3 N; s_new : bool; s_desired : vec3 N; s_land : bool; s_takeoff : bool;
  s_mission : vec3 N; s_yaw_sp : N * N; s_accept : bool; s_newest_wp : vec3 N; s_px4 : px4params N; s_speed : N;
  s_lp : P; s_lp_in : plan_in;           (* the planner and the inputs set on it so far *)
  s_wg : wg N; s_log : list out }.       (* log: everything sent, newest first *)

Inductive ev :=
| ECloud (i : nat) (m : cloud_msg)
| ETransform (i : nat) (tf : option ((vec3 N -> vec3 N) * (vec3 N -> vec3 N)))
| EWorker (now : Z)
| ECmdStart (now : Z) | ECmdPoll (now : Z) | ECmdEnd (now : Z)
| EPos (p : vec3 N) (q : quat N) | EVel (v : vec3 N) | EState (armed : bool) (mode : string)
| EClickedGoal (g : vec3 N) | EMarkers (gs : list (vec3 N)) | EFcu (m : fcu_msg)
| EPx4 (p : px4params N) (speed : N)
| EReconf (goal_z sxy sz : N) (timeout : Z).

(* setters *)
Definition up_cams (s : nl) (c : list cam) (w : wpc) (l : plan_in) : nl :=
  NL c w (s_cmd s) (s_status s) (s_hover s) (s_posrec s) (s_last_wp s) (s_start s) (s_timeout s) (s_pos s) (s_quat s) (s_vel s) (s_armed s)
     (s_nav s) (s_goal s) (s_prev s) (s_new s) (s_desired s) (s_land s) (s_takeoff s) (s_mission s) (s_yaw_sp s) (s_accept s) (s_newest_wp s)
     (s_px4 s) (s_speed s) (s_lp s) l (s_wg s) (s_log s).
Definition up_cmd (s : nl) (c : option Z) (st : mav_state) (h p : bool) (wp : vec3 N) (g : wg N) (o : list out) : nl :=
  NL (s_cams s) (s_wpc s) c st h p (s_last_wp s) (s_start s) (s_timeout s) (s_pos s) (s_quat s) (s_vel s) (s_armed s)
     (s_nav s) (s_goal s) (s_prev s) (s_new s) (s_desired s) (s_land s) (s_takeoff s) (s_mission s) (s_yaw_sp s) (s_accept s) wp
     (s_px4 s) (s_speed s) (s_lp s) (s_lp_in s) g (o ++ s_log s).
Definition up_goal (s : nl) (goal prev : vec3 N) (n : bool) (des : vec3 N) (land takeoff : bool) (mission : vec3 N) (y : N * N) : nl :=
  NL (s_cams s) (s_wpc s) (s_cmd s) (s_status s) (s_hover s) (s_posrec s) (s_last_wp s) (s_start s) (s_timeout s) (s_pos s) (s_quat s) (s_vel s)
     (s_armed s) (s_nav s) goal prev n des land takeoff mission y (s_accept s) (s_newest_wp s)
     (s_px4 s) (s_speed s) (s_lp s) (s_lp_in s) (s_wg s) (s_log s).
Definition up_vehicle (s : nl) (rec : bool) (p : vec3 N) (q : quat N) (v : vec3 N) (a : bool) (n : nav_state) (px : px4params N) (sp : N) : nl :=
  NL (s_cams s) (s_wpc s) (s_cmd s) (s_status s) (s_hover s) rec (s_last_wp s) (s_start s) (s_timeout s) p q v
     a n (s_goal s) (s_prev s) (s_new s) (s_desired s) (s_land s) (s_takeoff s) (s_mission s) (s_yaw_sp s) (s_accept s) (s_newest_wp s)
     px sp (s_lp s) (s_lp_in s) (s_wg s) (s_log s).
(** worker step: new pc, new_goal_, last_wp_time_, planner, planner inputs, generator, emitted *)
Definition up_work (s : nl) (w : wpc) (n : bool) (last : Z) (lp : P) (l : plan_in) (g : wg N) (o : list out) : nl :=
  NL (s_cams s) w (s_cmd s) (s_status s) (s_hover s) (s_posrec s) last (s_start s) (s_timeout s) (s_pos s) (s_quat s) (s_vel s) (s_armed s)
     (s_nav s) (s_goal s) (s_prev s) n (s_desired s) (s_land s) (s_takeoff s) (s_mission s) (s_yaw_sp s) (s_accept s) (s_newest_wp s)
     (s_px4 s) (s_speed s) lp l g (o ++ s_log s).

Definition p_clouds (l : plan_in) (c : list tcloud) (f : list (fov N)) : plan_in :=
  PIn c f (n_pos l) (n_vel l) (n_quat l) (n_armed l) (n_goal l) (n_prev_goal l) (n_last_wp l) (n_px4 l) (n_speed l).
Definition p_state (l : plan_in) (p v : vec3 N) (q : quat N) (a : bool) : plan_in :=
  PIn (n_clouds l) (n_fovs l) p v q a (n_goal l) (n_prev_goal l) (n_last_wp l) (n_px4 l) (n_speed l).
Definition p_goal (l : plan_in) (g pg : vec3 N) : plan_in :=
  PIn (n_clouds l) (n_fovs l) (n_pos l) (n_vel l) (n_quat l) (n_armed l) g pg (n_last_wp l) (n_px4 l) (n_speed l).
Definition p_rest (l : plan_in) (wp : vec3 N) (px : px4params N) (sp : N) : plan_in :=
  PIn (n_clouds l) (n_fovs l) (n_pos l) (n_vel l) (n_quat l) (n_armed l) (n_goal l) (n_prev_goal l) wp px sp.

Fixpoint upd {A} (l : list A) (i : nat) (f : A -> A) : list A :=
  match l, i with [], _ => [] | x :: r, O => f x :: r | x :: r, S i' => x :: upd r i' f end.

(** LocalPlanner::setFOV, local_planner.cpp:60-67 *)
Definition setFOVlist (l : list (fov N)) (i : nat) (f : fov N) : list (fov N) :=
  if (i <? List.length l)%nat then upd l i (fun _ => f) else l ++ [f].

(** local_planner_nodelet.cpp:442-453: publishLaserScan *)
Definition laserScan (cp : N) (scan : N * list N) : list out :=
  if negb (ltb N cp (ofZ N 0)) then (if ltb N (ofZ N 0) (fst scan) then [OScan scan] else []) else [].

(** one step of the worker thread, local_planner_nodelet.cpp:455-488, 153-197 *)
Definition workerStep (s : nl) (now : Z) : nl :=
  let stay w := up_work s w (s_new s) (s_last_wp s) (s_lp s) (s_lp_in s) (s_wg s) [] in
  let l := s_lp_in s in
  match s_wpc s with
  | PScan i cnt =>
      match nth_error (s_cams s) i with
      | Some k => stay (PScan (S i) (if k_transformed k then S cnt else cnt))
      | None => if (List.length (s_cams s) =? 0)%nat || negb (cnt =? List.length (s_cams s))%nat
                then stay (PScan 0 0)
                else up_cams s (s_cams s) (PSwap 0)                      (* original_cloud_vector_.resize *)
                       (p_clouds l (firstn (List.length (s_cams s)) (n_clouds l ++ repeat tcloud0 (List.length (s_cams s) - List.length (n_clouds l))))
                                 (n_fovs l))
      end
  | PSwap i =>
      match nth_error (s_cams s) i with
      | Some k =>
          let s1 := up_cams s (upd (s_cams s) i (fun k => Cam (k_received k) (k_raw k) false tcloud0 (k_fov k) (k_registered k)))
                            (PSwap (S i)) (p_clouds l (upd (n_clouds l) i (fun _ => k_out k)) (setFOVlist (n_fovs l) i (k_fov k))) in
          up_work s1 (PSwap (S i)) (s_new s) (s_last_wp s) (s_lp s) (s_lp_in s1) (wg_setFOV N (s_wg s) i (k_fov k)) []
      | None => stay PState
      end
  | PState => up_cams s (s_cams s) PFlag (p_state l (s_pos s) (s_vel s) (s_quat s) (s_armed s))
  | PFlag => stay (if s_new s then PGoal else PRun)
  | PGoal => up_cams s (s_cams s) PPrev (p_goal l (s_goal s) (n_prev_goal l))
  | PPrev => up_cams s (s_cams s) PClear (p_goal l (n_goal l) (s_prev s))
  | PClear => up_work s PRun false (s_last_wp s) (s_lp s) l (s_wg s) []
  | PRun =>
      let l' := p_rest l (s_newest_wp s) (s_px4 s) (s_speed s) in
      let lp' := pl_run (s_lp s) l' now in
      up_work s PInfo (s_new s) (s_last_wp s) lp' l' (s_wg s) (laserScan (cp_dist (s_px4 s)) (pl_scan lp') ++ [OFeed l'])
  | PInfo =>
      match s_cmd s with
      | Some _ => s                                                    (* waypoints_mutex_ is held by the command loop *)
      | None => up_work s (PScan 0 0) (s_new s) now (s_lp s) l (setPlannerInfo N (s_wg s) (pl_out (s_lp s))) [OInfo now]
      end
  end.

(** local_planner_nodelet.cpp:283-316: calculateWaypoints *)
Definition airborne (s : nl) : bool := s_armed s && negb (nav_eqb (s_nav s) N_none).
Definition generate (s : nl) (hover : bool) (now : Z) : wg N :=
  calculateWaypoint N G secs travel
    (updateState N G (s_wg s) (s_pos s) (s_quat s) (s_goal s) (s_vel s) hover (airborne s) (s_nav s) (s_land s) (s_takeoff s) (s_desired s)) now.
Definition publish (g : wg N) (now : Z) : list out :=
  let r := w_out g in
  [OTraj now (transformToTrajectory N (o_pos r) (getyaw (o_quat r)) (o_lin r) (vz (o_ang r))); OPose now (o_pos r) (o_quat r)].

(** command loop, local_planner_nodelet.cpp:233-277, in three steps: entry (233-238), one pass of the waiting loop (240-260),
    the rest once a position arrived (263-274) *)
Definition cmdStart (s : nl) (now : Z) : nl :=
  match s_cmd s with
  | Some _ => s
  | None => up_cmd s (Some now) (s_status s) false (s_posrec s) (s_newest_wp s) (s_wg s) []
  end.
Definition cmdPoll (s : nl) (now : Z) : nl :=
  match s_cmd s with
  | Some q => if negb (s_posrec s) && (s_timeout s <? now - q)
              then up_cmd s (s_cmd s) TERMINATION (s_hover s) (s_posrec s) (s_newest_wp s) (s_wg s) [] else s
  | None => s
  end.
Definition cmdEnd (s : nl) (now : Z) : nl :=
  match s_cmd s with
  | Some q =>
      if s_posrec s then
        let '(st, h) := checkFailsafe true (s_status s) (now - s_last_wp s) (now - s_start s) (s_hover s) in
        match st with
        | ACTIVE => let g := generate s h now in up_cmd s None st h false (o_smoothed (w_out g)) g (publish g now)
        | _ => up_cmd s None st h false (s_newest_wp s) (s_wg s) []
        end
      else s
  | None => s
  end.

(** local_planner_nodelet.cpp:211-231: stateCallback *)
Definition navOfMode (m : string) : nav_state :=
  if String.eqb m "AUTO.MISSION" then N_mission else if String.eqb m "AUTO.TAKEOFF" then N_takeoff
  else if String.eqb m "AUTO.LAND" then N_land else if String.eqb m "AUTO.RTL" then N_rtl
  else if String.eqb m "AUTO.RTGS" then N_rtgs else if String.eqb m "AUTO.LOITER" then N_loiter
  else if String.eqb m "OFFBOARD" then N_offboard else N_none.

(** local_planner_nodelet.cpp:339-361: fcuInputGoalCallback. UINT16_MAX = 65535, MAV_CMD_NAV_LAND = 21, MAV_CMD_NAV_TAKEOFF = 22 (common.h:44-48).
    The constant 0.01 is a double compared with a float norm; modelled in [num]. *)
Definition fcuUpdate (s : nl) (m : fcu_msg) : bool :=
  ltb N (cst N 1 100) (v3norm N (v3sub N (f_pos2 m) (s_mission s))) || negb (finiteb N (vx (s_goal s))) || negb (finiteb N (vy (s_goal s))).
Definition fcuInputGoal (s : nl) (m : fcu_msg) : nl :=
  let s1 := if (f_valid0 m =? 1) && fcuUpdate s m
            then up_goal s (f_pos1 m) (s_goal s) true (f_vel1 m) (f_cmd0 m =? 21) (f_cmd0 m =? 22) (s_mission s) (s_yaw_sp s) else s in
  if f_valid1 m =? 1
  then let forced := f_cmd1 m =? 65535 in
       up_goal s1 (if forced then f_pos2 m else s_goal s1) (s_prev s1) (s_new s1) (if forced then nan3 N else s_desired s1)
               (s_land s1) (s_takeoff s1) (f_pos2 m) (f_yaw2 m, f_yawrate2 m)
  else s1.

(** dynamicReconfigureCallback 435-440 with LocalPlanner::dynamicReconfigureSetParams local_planner.cpp:41-45; needs running_mutex_ *)
Definition workerHoldsRunning (w : wpc) : bool := match w with PScan _ _ => false | _ => true end.
Definition reconf (s : nl) (gz sxy sz : N) (timeout : Z) : nl :=
  if workerHoldsRunning (s_wpc s) then s
  else
    let l := s_lp_in s in
    let g := if negb (eqb N (vz (n_goal l)) gz) then setz N (n_goal l) gz else n_goal l in
    NL (s_cams s) (s_wpc s) (s_cmd s) (s_status s) (s_hover s) (s_posrec s) (s_last_wp s) (s_start s) timeout (s_pos s) (s_quat s) (s_vel s)
       (s_armed s) (s_nav s) (s_goal s) (s_prev s) (s_new s) (s_desired s) (s_land s) (s_takeoff s) (s_mission s) (s_yaw_sp s) (s_accept s)
       (s_newest_wp s) (s_px4 s) (s_speed s) (s_lp s) (p_goal l g (n_prev_goal l)) (setSmoothingSpeed N (s_wg s) sxy sz) (s_log s).

Definition keep_goal (s : nl) (goal : vec3 N) : nl :=
  up_goal s goal (s_goal s) true (s_desired s) (s_land s) (s_takeoff s) (s_mission s) (s_yaw_sp s).

Definition step (s : nl) (e : ev) : option nl :=
  match e with
  | ECloud i m => Some (up_cams s (upd (s_cams s) i (fun k => pointCloudCallback k m)) (s_wpc s) (s_lp_in s))
  | ETransform i tf =>
      match nth_error (s_cams s) i with
      | Some k => match transformPass k tf with
                  | Some k' => Some (up_cams s (upd (s_cams s) i (fun _ => k')) (s_wpc s) (s_lp_in s))
                  | None => None
                  end
      | None => Some s
      end
  | EWorker now => Some (workerStep s now)
  | ECmdStart now => Some (cmdStart s now)
  | ECmdPoll now => Some (cmdPoll s now)
  | ECmdEnd now => Some (cmdEnd s now)
  | EPos p q => Some (up_vehicle s true p q (s_vel s) (s_armed s) (s_nav s) (s_px4 s) (s_speed s))           (* 199-205 *)
  | EVel v => Some (up_vehicle s (s_posrec s) (s_pos s) (s_quat s) v (s_armed s) (s_nav s) (s_px4 s) (s_speed s))   (* 207-209 *)
  | EState a m => Some (up_vehicle s (s_posrec s) (s_pos s) (s_quat s) (s_vel s) a (navOfMode m) (s_px4 s) (s_speed s))
  | EClickedGoal g => Some (keep_goal s (setz N g (vz (n_goal (s_lp_in s)))))                                 (* 322-329 *)
  | EMarkers gs => Some (match gs with g :: _ => if s_accept s then keep_goal s g else s | [] => s end)        (* 331-337 *)
  | EFcu m => Some (fcuInputGoal s m)
  | EPx4 p sp => Some (up_vehicle s (s_posrec s) (s_pos s) (s_quat s) (s_vel s) (s_armed s) (s_nav s) p sp)
  | EReconf gz sxy sz t => Some (reconf s gz sxy sz t)
  end.
Fixpoint run (s : nl) (es : list ev) : option nl :=
  match es with [] => Some s | e :: r => match step s e with Some s' => run s' r | None => None end end.

(** state after InitializeNodelet and readParams (62-134); members without initialiser are taken from the argument [junk]:
    positions, velocities, the desired velocity, the mission item position is zero (message constructor). *)
Definition init (n : nat) (start : Z) (goal : vec3 N) (accept : bool) (lp : P) (l : plan_in) (w : wg N)
    (junk_v : vec3 N) (junk_q : quat N) : nl :=
  NL (repeat cam0 n) (PScan 0 0) None BOOT false false 0 start 20000000000 junk_v junk_q junk_v false N_none goal junk_v true junk_v false false
     (zero3 N) (nanv N, nanv N) accept junk_v (px4_init N) (nanv N) lp l w [].
End Nl.
Arguments CM {N}. Arguments cm_seq {N}. Arguments cm_stamp {N}. Arguments cm_points {N}.
Arguments PC {N}. Arguments pc_seq {N}. Arguments pc_us {N}. Arguments pc_points {N}.
Arguments TC {N}. Arguments tc_seq {N}. Arguments tc_us {N}. Arguments tc_points {N}.
Arguments Cam {N}. Arguments k_received {N}. Arguments k_raw {N}. Arguments k_transformed {N}. Arguments k_out {N}. Arguments k_fov {N}. Arguments k_registered {N}.
Arguments PIn {N}. Arguments n_clouds {N}. Arguments n_fovs {N}. Arguments n_pos {N}. Arguments n_vel {N}. Arguments n_quat {N}. Arguments n_armed {N}.
Arguments n_goal {N}. Arguments n_prev_goal {N}. Arguments n_last_wp {N}. Arguments n_px4 {N}. Arguments n_speed {N}.
Arguments Fcu {N}. Arguments f_valid0 {N}. Arguments f_valid1 {N}. Arguments f_pos1 {N}. Arguments f_vel1 {N}. Arguments f_pos2 {N}. Arguments f_cmd0 {N}. Arguments f_cmd1 {N}.
Arguments f_yaw2 {N}. Arguments f_yawrate2 {N}.
Arguments OFeed {N}. Arguments OScan {N}. Arguments OInfo {N}. Arguments OPose {N}. Arguments OTraj {N}.
Arguments NL {N P}. Arguments s_cams {N P}. Arguments s_wpc {N P}. Arguments s_cmd {N P}. Arguments s_status {N P}. Arguments s_hover {N P}. Arguments s_posrec {N P}.
Arguments s_last_wp {N P}. Arguments s_start {N P}. Arguments s_timeout {N P}. Arguments s_pos {N P}. Arguments s_quat {N P}. Arguments s_vel {N P}. Arguments s_armed {N P}.
Arguments s_nav {N P}. Arguments s_goal {N P}. Arguments s_prev {N P}. Arguments s_new {N P}. Arguments s_desired {N P}. Arguments s_land {N P}. Arguments s_takeoff {N P}.
Arguments s_mission {N P}. Arguments s_yaw_sp {N P}. Arguments s_accept {N P}. Arguments s_newest_wp {N P}. Arguments s_px4 {N P}. Arguments s_speed {N P}.
Arguments s_lp {N P}. Arguments s_lp_in {N P}. Arguments s_wg {N P}. Arguments s_log {N P}.
Arguments ECloud {N}. Arguments ETransform {N}. Arguments EWorker {N}. Arguments ECmdStart {N}. Arguments ECmdPoll {N}. Arguments ECmdEnd {N}. Arguments EPos {N}.
Arguments EVel {N}. Arguments EState {N}. Arguments EClickedGoal {N}. Arguments EMarkers {N}. Arguments EFcu {N}. Arguments EPx4 {N}. Arguments EReconf {N}.
Arguments upd {A}. Arguments airborne {N P}.
