(** Model of the local planner's WaypointGenerator:
    local_planner/src/nodes/waypoint_generator.cpp, local_planner/include/local_planner/waypoint_generator.h. *)
From Coq Require Import ZArith List Bool.
From Verif Require Import Num Mat CommonModel HistModel PfModel StarModel LpModel UsmModel.
Import ListNotations.

(** waypoint_generator.h:17 *)
Inductive pstate := TRY_PATH | ALTITUDE_CHANGE | LOITER | DIRECT.
Definition pstate_eqb (a b : pstate) : bool :=
  match a, b with TRY_PATH, TRY_PATH | ALTITUDE_CHANGE, ALTITUDE_CHANGE | LOITER, LOITER | DIRECT, DIRECT => true | _, _ => false end.
(** avoidance/common.h:33-41 *)
Inductive nav_state := N_mission | N_takeoff | N_land | N_rtl | N_rtgs | N_offboard | N_loiter | N_none.
Definition nav_eqb (a b : nav_state) : bool :=
  match a, b with
  | N_mission, N_mission | N_takeoff, N_takeoff | N_land, N_land | N_rtl, N_rtl | N_rtgs, N_rtgs | N_offboard, N_offboard
  | N_loiter, N_loiter | N_none, N_none => true | _, _ => false end.

(** local_planner/src/nodes/waypoint_generator.cpp:40-50 *)
Definition wg_table : usm_table pstate :=
  [(TRY_PATH, [(NEXT1, ALTITUDE_CHANGE); (NEXT2, DIRECT); (NEXT3, LOITER)]);
   (LOITER, [(NEXT1, TRY_PATH)]);
   (DIRECT, [(NEXT1, TRY_PATH); (NEXT2, ALTITUDE_CHANGE); (NEXT3, LOITER)]);
   (ALTITUDE_CHANGE, [(NEXT1, TRY_PATH); (NEXT2, LOITER)])].
Definition wg_choose : pstate -> transition -> pstate := chooseNextState pstate pstate_eqb wg_table LOITER.

Section Wg.
Context (N : num) (G : trig N).
Declare Scope wg_scope.
Local Notation "x + y" := (add N x y) : wg_scope.
Local Notation "x - y" := (sub N x y) : wg_scope.
Local Notation "x * y" := (mul N x y) : wg_scope.
Local Notation "x / y" := (div N x y) : wg_scope.
Local Notation "x <? y" := (ltb N x y) : wg_scope.
Local Notation "x <=? y" := (leb N x y) : wg_scope.
Local Notation "# z" := (ofZ N z) (at level 1, format "# z") : wg_scope.
Local Open Scope wg_scope.

(** inputs, written by updateState (waypoint_generator.h:39-41, 45, 49-50, 57-59, 62, 71) *)
Record wg_in := WIn {
  i_pos : vec3 N; i_vel : vec3 N; i_goal : vec3 N; i_yaw : N; i_pitch : N; i_nav : nav_state;
  i_land : bool; i_takeoff : bool; i_desired : vec3 N; i_stay : bool; i_airborne : bool }.
(** memory between calls (waypoint_generator.h:37-38, 46-47, 51-52, 60-61, 63-67, 76-77); prev_slp_state_ is only used for a log line.
    heading_at_goal_rad_ = NAN is [None]. *)
Record wg_mem := WMem {
  m_sloc : vec3 N; m_svel : vec3 N; m_calt : vec3 N; m_hover : vec3 N; m_last : Z; m_cur : Z; m_reach : bool; m_autoland : bool;
  m_yaw : N; m_yawvel : N; m_heading : option N; m_yawreach : N; m_speed : N; m_reset : bool; m_changed : bool }.
(** waypoint_generator.h:20-29 *)
Record wg_out := WOut {
  o_type : pstate; o_pos : vec3 N; o_quat : quat N; o_lin : vec3 N; o_ang : vec3 N;
  o_goto : vec3 N; o_adapted : vec3 N; o_smoothed : vec3 N }.
(** settings (waypoint_generator.h:33, 54-55, 69) *)
Record wg_cfg := WCfg { c_sxy : N; c_sz : N; c_fovs : list (fov N); c_info : output N }.
Record wg := WG { w_state : pstate; w_in : wg_in; w_mem : wg_mem; w_out : wg_out; w_cfg : wg_cfg }.

(** seconds of a duration in nanoseconds, as float; distance travelled in a duration at a velocity:
    (current_time - path_generation_time).toSec() * velocity, a double product rounded to float *)
Context (secs : Z -> N) (travel : Z -> N -> N).

Definition hasNaN (v : vec3 N) : bool := isnanb N (vx v) || isnanb N (vy v) || isnanb N (vz v).
Definition allFinite (v : vec3 N) : bool := finite3 N v.
Definition zero3 : vec3 N := V3 (#0) (#0) (#0).
Definition nan3 : vec3 N := V3 (nanv N) (nanv N) (nanv N).
Definition setz (v : vec3 N) (z : N) : vec3 N := V3 (vx v) (vy v) z.

(* ----------------------------------------------------------------------- isAltitudeChange 418-453 *)
(** result, new auto_land_, new reach_altitude_offboard_ *)
Definition isAltitudeChange (i : wg_in) (reach : bool) : bool * bool * bool :=
  let pz := vz (i_pos i) in
  let gz := vz (i_goal i) in
  let '(rtl_descend, rtl_climb) :=
    if gz - cst N 4 5 <? pz then (false, false)
    else if pz <? gz then (false, true) else (true, false) in
  let is s := nav_eqb (i_nav i) s in
  let offboard_not_reached := is N_offboard && negb reach in
  let auto_takeoff := is N_takeoff || (is N_mission && i_takeoff i) || (is N_rtl && rtl_climb) in
  let auto_land := is N_land || (is N_mission && i_land i) || (is N_rtl && rtl_descend) in
  if offboard_not_reached || auto_takeoff || auto_land then
    if is N_offboard && (gz <=? pz) then (false, auto_land, true) else (true, auto_land, reach)
  else (false, auto_land, reach).

(* ----------------------------------------------------------------------- nextSmoothYaw 308-339 *)
(** new setpoint_yaw_rad_ and setpoint_yaw_velocity_ *)
Definition nextSmoothYaw (st : pstate) (i : wg_in) (m : wg_mem) (sxy : N) (goto : vec3 N) (dt : N) : N * N :=
  let d := v3sub N (i_pos i) goto in
  let desired0 := if cst N 1 10 <? v2norm N (vx d) (vy d) then nextYaw N G (i_pos i) goto else i_yaw i in
  let desired := if pstate_eqb st ALTITUDE_CHANGE then m_yawreach m else desired0 in
  if sxy <=? cst N 1 100 then (desired, m_yawvel m)
  else
    let D := #2 * sqrtv N sxy in
    let yaw_diff := wrapAngleToPlusMinusPI N (if finiteb N desired then desired - m_yaw m else #0) in
    let p := yaw_diff * sxy in
    let dd := (#0 - m_yawvel m) * D in
    let vel := m_yawvel m + (p + dd) * dt in
    (wrapAngleToPlusMinusPI N (m_yaw m + vel * dt), vel).

(* ----------------------------------------------------------------------- adaptSpeed 341-388 *)
(** scaleToFOV never fails (WgProofs.scaleToFOV_total) *)
Definition fovScale (fovs : list (fov N)) (p : polar N) : N := match scaleToFOV N fovs p with Some s => s | None => #1 end.
Definition dirFCU (i : wg_in) (goto : vec3 N) : polar N :=
  let p := cartesianToPolarFCU N G goto (i_pos i) in
  wrapPolar N (Pol (pe p - i_pitch i) (pz p - RAD_TO_DEG N * i_yaw i) (pr p)).
(** new goto_position, speed_, heading_at_goal_rad_, setpoint_yaw_rad_ and adapted_goto_position.
    [yaw] is the setpoint yaw nextSmoothYaw just computed. *)
Definition adaptSpeed (st : pstate) (i : wg_in) (m : wg_mem) (c : wg_cfg) (goto : vec3 N) (yaw dt : N)
    : vec3 N * N * option N * N * vec3 N :=
  let alpha := dt / (cst N 9 10 + dt) in
  let speed0 := if finiteb N (o_cruise (c_info c)) then o_cruise (c_info c) else #2 in
  let goal_dist := v3norm N (v3sub N (i_goal i) (i_pos i)) in
  let '(goto', speed1, heading, yaw') :=
    if goal_dist <? #1 then
      let h := match m_heading m with Some h => if finiteb N h then h else i_yaw i | None => i_yaw i end in (i_goal i, goal_dist, Some h, h)
    else
      (goto, (if pstate_eqb st ALTITUDE_CHANGE then speed0 else speed0 * fovScale (c_fovs c) (dirFCU i goto)), None, yaw) in
  let speed2 := alpha * speed1 + (#1 - alpha) * m_speed m in
  let speed := minv N speed2 goal_dist in
  let d := v3sub N goto' (i_pos i) in
  let u := if cst N 1 10 <? v3norm N d then v3normalized N d else d in
  let adapted := v3add N (i_pos i) (V3 (vx u * speed) (vy u * speed) (vz u * speed)) in
  (goto', speed, heading, yaw', adapted).

(* ----------------------------------------------------------------------- smoothWaypoint 270-306 *)
(** new smoothed_goto_location_, smoothed_goto_location_velocity_ and output smoothed_goto_position.
    (0.1 is a double literal compared with a float norm; modelled in [num].) *)
Definition smoothWaypoint (i : wg_in) (m : wg_mem) (c : wg_cfg) (adapted : vec3 N) (dt : N) : vec3 N * vec3 N * vec3 N :=
  if (c_sxy c <? cst N 1 100) || (c_sz c <? cst N 1 100) then (m_sloc m, m_svel m, adapted)
  else
    let dxy := #2 * sqrtv N (c_sxy c) in
    let dz := #2 * sqrtv N (c_sz c) in
    let desired_velocity := if v3norm N (v3sub N adapted (i_goal i)) <? cst N 1 10 then zero3 else i_vel i in
    let ld0 := v3sub N adapted (m_sloc m) in
    let ld := if allFinite ld0 then ld0 else zero3 in
    let vd0 := v3sub N desired_velocity (m_svel m) in
    let vd := if allFinite vd0 then vd0 else zero3 in
    let upd (l v k dk s : N) := s + (l * k + v * dk) * dt in
    let svel := V3 (upd (vx ld) (vx vd) (c_sxy c) dxy (vx (m_svel m))) (upd (vy ld) (vy vd) (c_sxy c) dxy (vy (m_svel m)))
                   (upd (vz ld) (vz vd) (c_sz c) dz (vz (m_svel m))) in
    let sloc := V3 (vx (m_sloc m) + vx svel * dt) (vy (m_sloc m) + vy svel * dt) (vz (m_sloc m) + vz svel * dt) in
    (sloc, svel, sloc).

(* ----------------------------------------------------------------------- getPathMsg 391-410 *)
(** local_planner/src/nodes/waypoint_generator.cpp:394-395 *)
Definition stepTime (m : wg_mem) : N :=
  let t := secs (m_cur m - m_last m)%Z in if #0 <? t then t else cst N 1 10000.
Definition getPathMsg (w : wg) : wg :=
  let i := w_in w in let m := w_mem w in let o := w_out w in let c := w_cfg w in
  let dt := stepTime m in
  let '(yaw, yawvel) := nextSmoothYaw (w_state w) i m (c_sxy c) (o_goto o) dt in
  if m_autoland m then
    WG (w_state w) i (WMem (m_sloc m) (m_svel m) (m_calt m) (m_hover m) (m_last m) (m_cur m) (m_reach m) (m_autoland m)
                           yaw yawvel (m_heading m) (m_yawreach m) (m_speed m) (m_reset m) (m_changed m))
       (WOut (o_type o) (o_smoothed o) (createPoseQuat N G yaw) (o_lin o) (o_ang o) (o_goto o) (o_goto o) (o_smoothed o)) c
  else
    let '(goto, speed, heading, yaw', adapted) := adaptSpeed (w_state w) i m c (o_goto o) yaw dt in
    let '(sloc, svel, smoothed) := smoothWaypoint i m c adapted dt in
    WG (w_state w) i (WMem sloc svel (m_calt m) (m_hover m) (m_last m) (m_cur m) (m_reach m) (m_autoland m)
                           yaw' yawvel heading (m_yawreach m) speed (m_reset m) (m_changed m))
       (WOut (o_type o) smoothed (createPoseQuat N G yaw') (o_lin o) (o_ang o) goto adapted smoothed) c.

(* ----------------------------------------------------------------------- the four states *)
Definition with_goto (w : wg) (g : vec3 N) : wg :=
  let o := w_out w in
  WG (w_state w) (w_in w) (w_mem w) (WOut (o_type o) (o_pos o) (o_quat o) (o_lin o) (o_ang o) g (o_adapted o) (o_smoothed o)) (w_cfg w).
Definition with_flags (w : wg) (autoland reach : bool) : wg :=
  let m := w_mem w in
  WG (w_state w) (w_in w) (WMem (m_sloc m) (m_svel m) (m_calt m) (m_hover m) (m_last m) (m_cur m) reach autoland (m_yaw m) (m_yawvel m)
     (m_heading m) (m_yawreach m) (m_speed m) (m_reset m) (m_changed m)) (w_out w) (w_cfg w).
(** isAltitudeChange as a member function *)
Definition altitudeChange (w : wg) : bool * wg :=
  let '(b, al, re) := isAltitudeChange (w_in w) (m_reach (w_mem w)) in (b, with_flags w al re).
Definition pathSetpoint (w : wg) (now : Z) : bool * option (vec3 N) :=
  let f := c_info (w_cfg w) in getSetpointFromPath N (o_path f) (travel (now - o_path_time f)%Z (o_cruise f)).

(** local_planner/src/nodes/waypoint_generator.cpp:82-104 *)
Definition runTryPath (w : wg) (now : Z) : transition * wg :=
  let pos := i_pos (w_in w) in
  let '(available, sp) := pathSetpoint w now in
  let setpoint := match sp with Some p => p | None => pos end in
  let g := v3add N pos (v3normalized N (v3sub N setpoint pos)) in
  let w1 := getPathMsg (with_goto w (if hasNaN g then pos else g)) in
  if i_stay (w_in w) then (NEXT3, w1)
  else let '(alt, w2) := altitudeChange w1 in
       if alt then (NEXT1, w2) else if available then (REPEAT, w2) else (NEXT2, w2).

(** local_planner/src/nodes/waypoint_generator.cpp:106-162. position_wp is not assigned here as getPathMsg overwrites it (132-133, then 409). *)
Definition runAltitudeChange (w : wg) : transition * wg :=
  let i := w_in w in let m := w_mem w in let o := w_out w in
  let pos := i_pos i in
  let yawreach := if m_changed m then i_yaw i else m_yawreach m in
  let calt := if m_changed m then pos else m_calt m in
  let mem c := WMem (m_sloc m) (m_svel m) c (m_hover m) (m_last m) (m_cur m) (m_reach m) (m_autoland m) (m_yaw m) (m_yawvel m)
                    (m_heading m) yawreach (m_speed m) (m_reset m) (m_changed m) in
  let w0 :=
    if nav_eqb (i_nav i) N_offboard then
      let z := if i_airborne i then (if vz pos <=? vz (i_goal i) then vz pos + #1 else vz pos - #1) else vz pos in
      WG (w_state w)
         (WIn pos (i_vel i) (V3 (vx pos) (vy pos) (vz (i_goal i))) (i_yaw i) (i_pitch i) (i_nav i) (i_land i) (i_takeoff i) (i_desired i)
              (i_stay i) (i_airborne i)) (mem calt)
         (WOut (o_type o) (o_pos o) (o_quat o) (o_lin o) (o_ang o) (setz pos z) (o_adapted o) (o_smoothed o)) (w_cfg w)
    else if cst N 1 2 <? v2norm N (vx (i_vel i)) (vy (i_vel i)) then
      WG (w_state w) i (mem pos)
         (WOut (o_type o) (V3 (nanv N) (nanv N) (vz pos)) (o_quat o) (V3 (#0) (#0) (nanv N)) (o_ang o) pos pos pos) (w_cfg w)
    else
      let target := setz calt (vz (i_goal i)) in
      WG (w_state w) i (mem calt)
         (WOut (o_type o) (o_pos o) (o_quat o) (i_desired i) (o_ang o) target
               (if m_autoland m then target else o_adapted o) (if m_autoland m then target else o_smoothed o)) (w_cfg w) in
  let w1 := getPathMsg w0 in
  if i_stay i then (NEXT2, w1)
  else let '(alt, w2) := altitudeChange w1 in (if alt then REPEAT else NEXT1, w2).

(** local_planner/src/nodes/waypoint_generator.cpp:163-177 *)
Definition runLoiter (w : wg) : transition * wg :=
  let m := w_mem w in
  let hover := if m_changed m || hasNaN (m_hover m) then i_pos (w_in w) else m_hover m in
  let w0 := WG (w_state w) (w_in w) (WMem (m_sloc m) (m_svel m) (m_calt m) hover (m_last m) (m_cur m) (m_reach m) (m_autoland m) (m_yaw m)
                  (m_yawvel m) (m_heading m) (m_yawreach m) (m_speed m) (m_reset m) (m_changed m)) (w_out w) (w_cfg w) in
  let w1 := getPathMsg (with_goto w0 hover) in
  (if i_stay (w_in w) then REPEAT else NEXT1, w1).

(** local_planner/src/nodes/waypoint_generator.cpp:179-199 *)
Definition runDirect (w : wg) (now : Z) : transition * wg :=
  let pos := i_pos (w_in w) in
  let w1 := getPathMsg (with_goto w (v3add N pos (v3normalized N (v3sub N (i_goal (w_in w)) pos)))) in
  if fst (pathSetpoint w1 now) then (NEXT1, w1)
  else let '(alt, w2) := altitudeChange w1 in
       if alt then (NEXT2, w2) else if i_stay (w_in w) then (NEXT3, w2) else (REPEAT, w2).

Definition with_changed (w : wg) (reset changed : bool) : wg :=
  let m := w_mem w in
  WG (w_state w) (w_in w) (WMem (m_sloc m) (m_svel m) (m_calt m) (m_hover m) (m_last m) (m_cur m) (m_reach m) (m_autoland m) (m_yaw m) (m_yawvel m)
     (m_heading m) (m_yawreach m) (m_speed m) reset changed) (w_out w) (w_cfg w).
(** local_planner/src/nodes/waypoint_generator.cpp:54-80 *)
Definition runCurrentState (w : wg) (now : Z) : transition * wg :=
  if m_reset (w_mem w) then (ERROR, with_changed w false (m_changed (w_mem w)))
  else
    let '(t, w') := match w_state w with
                    | TRY_PATH => runTryPath w now | ALTITUDE_CHANGE => runAltitudeChange w | LOITER => runLoiter w | DIRECT => runDirect w now end in
    (t, with_changed w' (m_reset (w_mem w')) false).

(** local_planner/src/nodes/waypoint_generator.cpp:201-216 and 412-416 with usm.h:64-67 and chooseNextState 35-52; [now] is the time of all clock readings of the call *)
Definition calculateWaypoint (w : wg) (now : Z) : wg :=
  let m := w_mem w in let o := w_out w in
  let w0 := WG (w_state w) (w_in w)
     (WMem (m_sloc m) (m_svel m) (m_calt m) (m_hover m) (m_cur m) now (m_reach m) (m_autoland m) (m_yaw m) (m_yawvel m) (m_heading m) (m_yawreach m)
           (m_speed m) (m_reset m) (m_changed m))
     (WOut (o_type o) (o_pos o) (o_quat o) nan3 (o_ang o) (o_goto o) (o_adapted o) (o_smoothed o)) (w_cfg w) in
  let '(t, w1) := runCurrentState w0 now in
  let w2 := match t with
            | REPEAT => w1
            | _ => with_changed (WG (wg_choose (w_state w1) t) (w_in w1) (w_mem w1) (w_out w1) (w_cfg w1)) (m_reset (w_mem w1)) true
            end in
  let o2 := w_out w2 in
  WG (w_state w2) (w_in w2) (w_mem w2)
     (WOut (w_state w2) (o_pos o2) (o_quat o2) (o_lin o2) (o_ang o2) (o_goto o2) (o_adapted o2) (o_smoothed o2)) (w_cfg w2).

(* ----------------------------------------------------------------------- the public API *)
(** local_planner/src/nodes/waypoint_generator.cpp:226-261 (prev_goal is only stored). The yaw and pitch of the quaternion are computed as in common.cpp:237-254. *)
Definition updateState (w : wg) (pos : vec3 N) (q : quat N) (goal vel : vec3 N) (stay airborne : bool) (nav : nav_state) (land takeoff : bool)
    (desired : vec3 N) : wg :=
  let m := w_mem w in
  let yaw := getYawFromQuaternion N G q * DEG_TO_RAD N in
  let pitch := getPitchFromQuaternion N G q in
  let i := WIn pos vel goal yaw pitch nav land takeoff desired stay airborne in
  let reinit := negb airborne || negb (allFinite (m_sloc m)) || negb (allFinite (m_svel m)) in
  let hold := reinit || m_autoland m in
  WG (w_state w) i
     (WMem (if hold then pos else m_sloc m) (if hold then zero3 else m_svel m) (m_calt m) (m_hover m) (m_last m) (m_cur m)
           (if reinit then false else m_reach m) (m_autoland m) (if reinit then yaw else m_yaw m) (if reinit then #0 else m_yawvel m)
           (m_heading m) (m_yawreach m) (m_speed m) (m_reset m) (m_changed m)) (w_out w) (w_cfg w).
(** local_planner/src/nodes/waypoint_generator.cpp:218-224: resize value-initialises, FOV's default constructor (common.h) sets zeros *)
Definition wg_setFOV (w : wg) (i : nat) (f : fov N) : wg :=
  let fovs := c_fovs (w_cfg w) in
  let pad := if (i <? length fovs)%nat then fovs else fovs ++ repeat (Fov (#0) (#0) (#0) (#0)) (S i - length fovs) in
  WG (w_state w) (w_in w) (w_mem w) (w_out w) (WCfg (c_sxy (w_cfg w)) (c_sz (w_cfg w)) (StarModel.set_nth pad i f) (c_info (w_cfg w))).
(** local_planner/src/nodes/waypoint_generator.cpp:455-458; waypoint_generator.h:175-178 *)
Definition setPlannerInfo (w : wg) (f : output N) : wg :=
  WG (w_state w) (w_in w) (w_mem w) (w_out w) (WCfg (c_sxy (w_cfg w)) (c_sz (w_cfg w)) (c_fovs (w_cfg w)) f).
Definition setSmoothingSpeed (w : wg) (xy z : N) : wg :=
  WG (w_state w) (w_in w) (w_mem w) (w_out w) (WCfg xy z (c_fovs (w_cfg w)) (c_info (w_cfg w))).
(** construction, waypoint_generator.h:33-78 and local_planner/src/nodes/waypoint_generator.cpp:12; the members without initialiser ([output_] and
    [planner_info_.cruise_velocity]) hold arbitrary values: arguments. last_time_ = current_time_ = 99999 s. *)
Definition wg_init (o : wg_out) (cruise : N) : wg :=
  WG LOITER (WIn nan3 nan3 nan3 (nanv N) (nanv N) N_none false false nan3 false false)
     (WMem nan3 zero3 nan3 nan3 99999000000000 99999000000000 false false (#0) (#0) None (nanv N) (#0) false false) o
     (WCfg (#10) (#3) [] (Out cruise 0 [])).

Inductive wg_op :=
| OpUpdate (pos : vec3 N) (q : quat N) (goal vel : vec3 N) (stay airborne : bool) (nav : nav_state) (land takeoff : bool) (desired : vec3 N)
| OpFOV (i : nat) (f : fov N)
| OpInfo (f : output N)
| OpSmoothing (xy z : N)
| OpGet (now : Z).
Definition wg_step (w : wg) (o : wg_op) : wg :=
  match o with
  | OpUpdate pos q goal vel stay air nav land to des => updateState w pos q goal vel stay air nav land to des
  | OpFOV i f => wg_setFOV w i f
  | OpInfo f => setPlannerInfo w f
  | OpSmoothing a b => setSmoothingSpeed w a b
  | OpGet now => calculateWaypoint w now
  end.
Definition wg_run (w : wg) (ops : list wg_op) : wg := fold_left wg_step ops w.
End Wg.
Arguments WIn {N} _ _ _ _ _ _ _ _ _ _ _.
Arguments i_pos {N} _.
Arguments i_vel {N} _.
Arguments i_goal {N} _.
Arguments i_yaw {N} _.
Arguments i_pitch {N} _.
Arguments i_nav {N} _.
Arguments i_land {N} _.
Arguments i_takeoff {N} _.
Arguments i_desired {N} _.
Arguments i_stay {N} _.
Arguments i_airborne {N} _.
Arguments WMem {N} _ _ _ _ _ _ _ _ _ _ _ _ _ _ _.
Arguments m_sloc {N} _.
Arguments m_svel {N} _.
Arguments m_calt {N} _.
Arguments m_hover {N} _.
Arguments m_last {N} _.
Arguments m_cur {N} _.
Arguments m_reach {N} _.
Arguments m_autoland {N} _.
Arguments m_yaw {N} _.
Arguments m_yawvel {N} _.
Arguments m_heading {N} _.
Arguments m_yawreach {N} _.
Arguments m_speed {N} _.
Arguments m_reset {N} _.
Arguments m_changed {N} _.
Arguments WOut {N} _ _ _ _ _ _ _ _.
Arguments o_type {N} _.
Arguments o_pos {N} _.
Arguments o_quat {N} _.
Arguments o_lin {N} _.
Arguments o_ang {N} _.
Arguments o_goto {N} _.
Arguments o_adapted {N} _.
Arguments o_smoothed {N} _.
Arguments WCfg {N} _ _ _ _.
Arguments c_sxy {N} _.
Arguments c_sz {N} _.
Arguments c_fovs {N} _.
Arguments c_info {N} _.
Arguments WG {N} _ _ _ _ _.
Arguments w_state {N} _.
Arguments w_in {N} _.
Arguments w_mem {N} _.
Arguments w_out {N} _.
Arguments w_cfg {N} _.
Arguments OpUpdate {N} _ _ _ _ _ _ _ _ _ _.
Arguments OpFOV {N} _ _.
Arguments OpInfo {N} _.
Arguments OpSmoothing {N} _ _.
Arguments OpGet {N} _.
