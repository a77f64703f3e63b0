(** Model of avoidance/src/common.cpp and avoidance/include/avoidance/common.h:
    angles, polar coordinates, fields of view, cloud sanitising, messages, frame conversions.
    All functions are written over the number interface [num] (see Num.v). *)
From Coq Require Import ZArith List Bool.
From Verif Require Import Num.
Import ListNotations.

(** Trigonometry of the C library, an oracle of the model. For theorems over the reals it is
    instantiated with [Rtrig] (CommonSpec.v). *)
Record trig (N : num) := {
  t_sin : N -> N; t_cos : N -> N; t_atan2 : N -> N -> N; t_asin : N -> N }.
Arguments t_sin {N} _ _.
Arguments t_cos {N} _ _.
Arguments t_atan2 {N} _ _ _.
Arguments t_asin {N} _ _.

(** avoidance/include/avoidance/common.h:50-56 [struct PolarPoint] *)
Record polar (A : Type) := Pol { pe : A; pz : A; pr : A }.
Arguments Pol {A} _ _ _.
Arguments pe {A} _.
Arguments pz {A} _.
Arguments pr {A} _.

(** avoidance/include/avoidance/common.h:63-70 [struct FOV] *)
Record fov (A : Type) := Fov { yaw_deg : A; pitch_deg : A; h_fov_deg : A; v_fov_deg : A }.
Arguments Fov {A} _ _ _ _.
Arguments yaw_deg {A} _.
Arguments pitch_deg {A} _.
Arguments h_fov_deg {A} _.
Arguments v_fov_deg {A} _.

(** avoidance/include/avoidance/histogram.h:14-16 *)
Definition ALPHA_RES : Z := 6.
Definition GRID_LENGTH_Z : Z := 60.
Definition GRID_LENGTH_E : Z := 30.

Section Common.
Context (N : num) (G : trig N).
Declare Scope num_scope.
Local Notation "x + y" := (add N x y) : num_scope.
Local Notation "x - y" := (sub N x y) : num_scope.
Local Notation "x * y" := (mul N x y) : num_scope.
Local Notation "x / y" := (div N x y) : num_scope.
Local Notation "x <? y" := (ltb N x y) : num_scope.
Local Notation "x <=? y" := (leb N x y) : num_scope.
Local Notation "# z" := (ofZ N z) (at level 1, format "# z") : num_scope.
Local Open Scope num_scope.

(** avoidance/include/avoidance/common.h:107-108 *)
Definition DEG_TO_RAD : N := pif N / #180.
Definition RAD_TO_DEG : N := #180 / pif N.

(** common.cpp:256 *)
Definition wrapAngleToPlusMinusPI (angle : N) : N :=
  angle - (#2 * pif N) * floorv N (angle / (#2 * pif N) + cst N 1 2).

(** common.cpp:258 *)
Definition wrapAngleToPlusMinus180 (angle : N) : N :=
  angle - #360 * floorv N (angle / #360 + cst N 1 2).

(** common.cpp:260-263 *)
Definition angleDifference (a b : N) : N :=
  let angle := fmodv N (a - b) (#360) in
  if #0 <=? angle then (if angle <? #180 then angle else angle - #360)
  else (if #(-180) <=? angle then angle else angle + #360).

(** common.cpp:143-145 *)
Definition indexAngleDifference (a b : N) : N :=
  minv N (minv N (absv N (a - b)) (absv N (a - b - #360))) (absv N (a - b + #360)).

(** common.cpp:265-279 (result [0.5 * vel] as a double; modelled in [num]) *)
Definition getAngularVelocity (desired_yaw curr_yaw : N) : N :=
  let desired := wrapAngleToPlusMinusPI desired_yaw in
  let yaw_vel1 := desired - curr_yaw in
  let yaw_vel2 := if #0 <? yaw_vel1 then opp N (#2 * pif N - yaw_vel1) else #2 * pif N + yaw_vel1 in
  let vel := if absv N yaw_vel1 <=? absv N yaw_vel2 then yaw_vel1 else yaw_vel2 in
  cst N 1 2 * vel.

(** common.cpp:197-220 *)
Definition wrapPolar (p : polar N) : polar N :=
  let e := wrapAngleToPlusMinus180 (pe p) in
  let z := wrapAngleToPlusMinus180 (pz p) in
  if #90 <? e then
    Pol (#180 - e) (if z <? #0 then z + #180 else z - #180) (pr p)
  else if e <? #(-90) then
    Pol (opp N (#180 + e)) (if z <? #0 then z + #180 else z - #180) (pr p)
  else Pol e z (pr p).

(** common.cpp:147-151; [e * res + res / 2 - 90] is int arithmetic (res > 0: truncating = floor
    division of a non-negative number), then converted to float *)
Definition histogramIndexToPolar (e z res : Z) (radius : N) : polar N :=
  Pol (ofZ N (e * res + res / 2 - 90)%Z) (ofZ N (z * res + res / 2 - 180)%Z) radius.

(** common.cpp:188-192: the final clamps, on ints *)
Definition clampIndex (i n : Z) : Z :=
  let i1 := if (n <=? i)%Z then (n - 1)%Z else i in
  if (i1 <? 0)%Z then 0%Z else i1.

(** common.cpp:177-195.  [cast] is the conversion static_cast<int>(float): the C++ standard fixes it
    only if the truncated value fits in an int, so it is an arbitrary argument here.
    Result (x, y) = (azimuth index, elevation index). *)
Definition polarToHistogramIndex (cast : N -> Z) (p_pol : polar N) (res : Z) : Z * Z :=
  let p := wrapPolar p_pol in
  let y := cast (floorv N (pe p / ofZ N res + #90 / ofZ N res)) in
  let x := cast (floorv N (pz p / ofZ N res + #180 / ofZ N res)) in
  (clampIndex x (360 / res), clampIndex y (180 / res)).

(** common.cpp:121-123 *)
Definition distance2DPolar (p1 p2 : polar N) : N :=
  sqrtv N ((pe p1 - pe p2) * (pe p1 - pe p2) + (pz p1 - pz p2) * (pz p1 - pz p2)).

(** common.cpp:125-132 *)
Definition polarHistogramToCartesian (p : polar N) (pos : vec3 N) : vec3 N :=
  V3 (vx pos + pr p * t_cos G (pe p * DEG_TO_RAD) * t_sin G (pz p * DEG_TO_RAD))
     (vy pos + pr p * t_cos G (pe p * DEG_TO_RAD) * t_cos G (pz p * DEG_TO_RAD))
     (vz pos + pr p * t_sin G (pe p * DEG_TO_RAD)).

(** common.cpp:134-141 *)
Definition polarFCUToCartesian (p : polar N) (pos : vec3 N) : vec3 N :=
  V3 (vx pos + pr p * t_sin G ((#90 - pe p) * DEG_TO_RAD) * t_cos G (pz p * DEG_TO_RAD))
     (vy pos + pr p * t_sin G ((#90 - pe p) * DEG_TO_RAD) * t_sin G (pz p * DEG_TO_RAD))
     (vz pos + pr p * t_cos G ((#90 - pe p) * DEG_TO_RAD)).

(** common.cpp:153-163 *)
Definition cartesianToPolarHistogram (p pos : vec3 N) : polar N :=
  let den := v2norm N (vx p - vx pos) (vy p - vy pos) in
  Pol (t_atan2 G (vz p - vz pos) den * RAD_TO_DEG)
      (t_atan2 G (vx p - vx pos) (vy p - vy pos) * RAD_TO_DEG)
      (sqrtv N ((vx p - vx pos) * (vx p - vx pos) + (vy p - vy pos) * (vy p - vy pos)
                + (vz p - vz pos) * (vz p - vz pos))).

(** common.cpp:165-171 *)
Definition cartesianToPolarFCU (p origin : vec3 N) : polar N :=
  let q := cartesianToPolarHistogram p origin in
  wrapPolar (Pol (opp N (pe q)) (opp N (pz q) + #90) (pr q)).

(** common.cpp:222-228 *)
Definition nextYaw (u v : vec3 N) : N := t_atan2 G (vy v - vy u) (vx v - vx u).

(** common.cpp:66-69 *)
Definition pointInsideYawFOV (f : fov N) (p : polar N) : bool :=
  (pz p <=? wrapAngleToPlusMinus180 (yaw_deg f + h_fov_deg f / #2)) &&
  (wrapAngleToPlusMinus180 (yaw_deg f - h_fov_deg f / #2) <=? pz p).

(** common.cpp:20-24 *)
Definition pointInsideFOV (f : fov N) (p : polar N) : bool :=
  (pz p <=? wrapAngleToPlusMinus180 (yaw_deg f + h_fov_deg f / #2)) &&
  (wrapAngleToPlusMinus180 (yaw_deg f - h_fov_deg f / #2) <=? pz p) &&
  (pe p <=? pitch_deg f + v_fov_deg f / #2) &&
  (pitch_deg f - v_fov_deg f / #2 <=? pe p).

(** common.cpp:11-18 and 57-64: early-return loops over the cameras *)
Fixpoint pointInsideFOVs (fs : list (fov N)) (p : polar N) : bool :=
  match fs with
  | [] => false
  | f :: r => if pointInsideFOV f p then true else pointInsideFOVs r p
  end.
Fixpoint pointInsideYawFOVs (fs : list (fov N)) (p : polar N) : bool :=
  match fs with
  | [] => false
  | f :: r => if pointInsideYawFOV f p then true else pointInsideYawFOVs r p
  end.

(** common.cpp:71-85.  The loop from camera number [i] with current [retval] and [idx]; returns
    (return value, idx). *)
Fixpoint isInWhichFOV_loop (fs : list (fov N)) (p : polar N) (i : Z) (retval : bool) (idx : Z)
  : bool * Z :=
  match fs with
  | [] => (retval, idx)
  | f :: r =>
      if pointInsideYawFOV f p then
        if retval then (false, (-1)%Z)
        else isInWhichFOV_loop r p (Z.succ i) true i
      else isInWhichFOV_loop r p (Z.succ i) retval idx
  end.
Definition isInWhichFOV (fs : list (fov N)) (p : polar N) : bool * Z :=
  isInWhichFOV_loop fs p 0 false (-1).

(** common.cpp:87-108.  fov_vec[idx] is only evaluated with the index reported by isInWhichFOV;
    an out-of-range access would be undefined behaviour: [None]. *)
Definition isOnEdgeOfFOV (fs : list (fov N)) (p : polar N) : option (bool * Z) :=
  let '(r, idx) := isInWhichFOV fs p in
  if r then
    match (if (idx <? 0)%Z then None else nth_error fs (Z.to_nat idx)) with
    | None => None
    | Some f =>
        let z :=
          if #0 <? wrapAngleToPlusMinus180 (pz p - yaw_deg f)
          then wrapAngleToPlusMinus180 (yaw_deg f + h_fov_deg f / #2 + ofZ N ALPHA_RES / #2)
          else wrapAngleToPlusMinus180 (yaw_deg f - h_fov_deg f / #2 - ofZ N ALPHA_RES / #2) in
        if pointInsideYawFOVs fs (Pol (pe p) z (pr p)) then Some (false, (-1)%Z) else Some (true, idx)
    end
  else Some (false, idx).

(** common.cpp:110-119 *)
Definition scaleToFOV (fs : list (fov N)) (p : polar N) : option N :=
  match isOnEdgeOfFOV fs p with
  | None => None
  | Some (true, i) =>
      match (if (i <? 0)%Z then None else nth_error fs (Z.to_nat i)) with
      | None => None
      | Some f =>
          let d0 := absv N (yaw_deg f - pz p) in
          let d1 := minv N d0 (absv N (#360 - d0)) in
          let d2 := minv N (h_fov_deg f / #2) d1 in
          Some (#1 - #2 * d2 / h_fov_deg f)
      end
  | Some (false, _) => Some (if pointInsideYawFOVs fs p then #1 else #0)
  end.

(** common.cpp:26-40 / 42-55 *)
Definition histogramIndexYawInsideFOV (inside : polar N -> bool) (idx : Z) (position : vec3 N)
    (yaw_fcu_frame : N) : bool :=
  let pol_hist := histogramIndexToPolar (GRID_LENGTH_E / 2) idx ALPHA_RES (#1) in
  let cart := polarHistogramToCartesian pol_hist position in
  let p0 := cartesianToPolarFCU cart position in
  let z := pz p0 - yaw_fcu_frame in
  let plus := wrapPolar (Pol (pe p0) (z + ofZ N ALPHA_RES / #2) (pr p0)) in
  let minus := wrapPolar (Pol (pe p0) (z - ofZ N ALPHA_RES / #2) (pr p0)) in
  inside plus || inside minus.
Definition histogramIndexYawInsideFOVs (fs : list (fov N)) := histogramIndexYawInsideFOV (pointInsideFOVs fs).

(** common.cpp:347-348 *)
Definition finite3 (p : vec3 N) : bool := finiteb N (vx p) && finiteb N (vy p) && finiteb N (vz p).

(** common.cpp:344-345: running maxima with the index of the point that attains them (-1 = none) *)
Record ext6 := E6 {
  x_max : N; i_x_max : Z; y_max : N; i_y_max : Z; z_max : N; i_z_max : Z;
  x_min : N; i_x_min : Z; y_min : N; i_y_min : Z; z_min : N; i_z_min : Z }.
Definition ext6_init : ext6 :=
  E6 (#(-9999)) (-1) (#(-9999)) (-1) (#(-9999)) (-1) (#9999) (-1) (#9999) (-1) (#9999) (-1).

(** common.cpp:351-379 *)
Definition ext6_step (s : ext6) (p : vec3 N) (j : Z) : ext6 :=
  let bx := x_max s <? vx p in
  let by' := y_max s <? vy p in
  let bz := z_max s <? vz p in
  let sx := vx p <? x_min s in
  let sy := vy p <? y_min s in
  let sz := vz p <? z_min s in
  E6 (if bx then vx p else x_max s) (if bx then j else i_x_max s)
     (if by' then vy p else y_max s) (if by' then j else i_y_max s)
     (if bz then vz p else z_max s) (if bz then j else i_z_max s)
     (if sx then vx p else x_min s) (if sx then j else i_x_min s)
     (if sy then vy p else y_min s) (if sy then j else i_y_min s)
     (if sz then vz p else z_min s) (if sz then j else i_z_min s).

(** list update at an index (vector element assignment); out of range is [None] (undefined) *)
Fixpoint set_nth {A} (n : nat) (x : A) (l : list A) : option (list A) :=
  match l, n with
  | [], _ => None
  | _ :: r, O => Some (x :: r)
  | y :: r, S n' => option_map (cons y) (set_nth n' x r)
  end.

(** common.cpp:346-382: the in-place compaction loop.  [fuel] counts the remaining iterations
    (cloud size - i); state: the array, i, j and the extremes. *)
Fixpoint removeNaN_loop (fuel : nat) (pts : list (vec3 N)) (i j : nat) (s : ext6)
  : option (list (vec3 N) * nat * ext6) :=
  match fuel with
  | O => Some (pts, j, s)
  | S fuel' =>
      match nth_error pts i with
      | None => None
      | Some p =>
          if finite3 p then
            match set_nth j p pts with
            | None => None
            | Some pts' =>
                match nth_error pts' j with
                | None => None
                | Some q => removeNaN_loop fuel' pts' (S i) (S j) (ext6_step s q (Z.of_nat j))
                end
            end
          else removeNaN_loop fuel' pts (S i) j s
      end
  end.

(** common.cpp:395-400: [if (i >= 0) maxima.push_back(cloud.points[i])] *)
Definition push_if (pts : list (vec3 N)) (i : Z) (acc : option (list (vec3 N))) : option (list (vec3 N)) :=
  match acc with
  | None => None
  | Some l => if (0 <=? i)%Z then
                match nth_error pts (Z.to_nat i) with Some p => Some (l ++ [p]) | None => None end
              else Some l
  end.

(** A point cloud: points, width, height, is_dense (pcl::PointCloud). *)
Record cloud := Cloud { c_points : list (vec3 N); c_width : Z; c_height : Z; c_dense : bool }.

(** common.cpp:341-403; [None] = out-of-bounds access. Returns (cleaned cloud, maxima). *)
Definition removeNaNAndGetMaxima (c : cloud) : option (cloud * list (vec3 N)) :=
  match removeNaN_loop (length (c_points c)) (c_points c) 0 0 ext6_init with
  | None => None
  | Some (pts, j, s) =>
      let pts' := firstn j pts in                       (* points.resize(j), j <= size *)
      match push_if pts' (i_z_min s) (push_if pts' (i_y_min s) (push_if pts' (i_x_min s)
             (push_if pts' (i_z_max s) (push_if pts' (i_y_max s) (push_if pts' (i_x_max s) (Some [])))))) with
      | None => None
      | Some m => Some (Cloud pts' (Z.of_nat j) 1 true, m)
      end
  end.

(** common.cpp:405-438. The double constants 2.0 of lines 426/428 are modelled in [num]. *)
Definition fovBounds_step (acc : N * N * N * N) (p : vec3 N) : N * N * N * N :=
  let '(h_min, h_max, v_min, v_max) := acc in
  let q := cartesianToPolarFCU p (V3 (#0) (#0) (#0)) in
  let z := pz q + #180 in
  let e := pe q + #90 in
  (minv N z h_min, maxv N z h_max, minv N e v_min, maxv N e v_max).
Definition updateFOVFromMaxima (f : fov N) (maxima : list (vec3 N)) : fov N :=
  let '(h_min, h_max, v_min, v_max) :=
    fold_left fovBounds_step maxima (#9999, #(-9999), #9999, #(-9999)) in
  let h_diff := minv N (h_max - h_min) (#360 - h_max + h_min) in
  let v_diff := minv N (v_max - v_min) (#360 - v_max + v_min) in
  let f1 :=
    if h_fov_deg f <? h_diff then
      Fov (if h_max - h_min <=? h_diff
           then wrapAngleToPlusMinus180 ((h_max + h_min) / #2 - #180)
           else wrapAngleToPlusMinus180 ((h_max + h_min) / #2))
          (pitch_deg f) h_diff (v_fov_deg f)
    else f in
  if v_fov_deg f1 <? v_diff then
    Fov (yaw_deg f1) ((v_max + v_min) / #2 - #90) (h_fov_deg f1) v_diff
  else f1.

(** avoidance/include/avoidance/common.h:477-491 *)
Definition toNED (v : vec3 N) : vec3 N := V3 (vy v) (vx v) (opp N (vz v)).
Definition toENU (v : vec3 N) : vec3 N := V3 (vy v) (vx v) (opp N (vz v)).
(** avoidance/include/avoidance/common.h:493-503 (the radian versions compute M_PI / 2.f - yaw in double and round once) *)
Definition yawToNEDdeg (y : N) : N := #90 - y.
Definition yawToENUdeg (y : N) : N := #90 - y.
Definition yawToNEDrad (y : N) : N := pif N / #2 - y.
Definition yawToENUrad (y : N) : N := pif N / #2 - y.
Definition pitchtoNED (p : N) : N := opp N p.
Definition pitchToENU (p : N) : N := opp N p.

(** Eigen quaternions (w,x,y,z) and their product *)
Record quat := Q4 { qw : N; qx : N; qy : N; qz : N }.
Definition qmul (a b : quat) : quat :=
  Q4 (qw a * qw b - qx a * qx b - qy a * qy b - qz a * qz b)
     (qw a * qx b + qx a * qw b + qy a * qz b - qz a * qy b)
     (qw a * qy b + qy a * qw b + qz a * qx b - qx a * qz b)
     (qw a * qz b + qz a * qw b + qx a * qy b - qy a * qx b).
(** Eigen::AngleAxisd(angle, unit axis) as a quaternion *)
Definition qaxis_x (a : N) : quat := Q4 (t_cos G (a / #2)) (t_sin G (a / #2)) (#0) (#0).
Definition qaxis_y (a : N) : quat := Q4 (t_cos G (a / #2)) (#0) (t_sin G (a / #2)) (#0).
Definition qaxis_z (a : N) : quat := Q4 (t_cos G (a / #2)) (#0) (#0) (t_sin G (a / #2)).
(** common.cpp:440-444 *)
Definition quaternionFromRPY (rpy : vec3 N) : quat :=
  qmul (qmul (qaxis_z (vz rpy)) (qaxis_y (vy rpy))) (qaxis_x (vx rpy)).
(** avoidance/include/avoidance/common.h:508-509 *)
Definition NED_ENU_RPY : vec3 N := V3 (pif N) (#0) (pif N / #2).
Definition AIRCRAFT_BASELINK_RPY : vec3 N := V3 (pif N) (#0) (#0).
(** common.cpp:446-453 *)
Definition orientationToNED (q : quat) : quat :=
  qmul (quaternionFromRPY NED_ENU_RPY) (qmul q (quaternionFromRPY AIRCRAFT_BASELINK_RPY)).
(** common.cpp:455-462 *)
Definition orientationToENU (q : quat) : quat :=
  qmul (qmul (quaternionFromRPY NED_ENU_RPY) q) (quaternionFromRPY AIRCRAFT_BASELINK_RPY).

(** common.cpp:230-235 (roll = pitch = 0) *)
Definition createPoseQuat (yaw : N) : quat :=
  qmul (qmul (qaxis_x (#0)) (qaxis_y (#0))) (qaxis_z yaw).
(** common.cpp:237-243 *)
Definition getYawFromQuaternion (q : quat) : N :=
  let siny := #2 * (qw q * qz q + qx q * qy q) in
  let cosy := #1 - #2 * (qy q * qy q + qz q * qz q) in
  t_atan2 G siny cosy * RAD_TO_DEG.
(** common.cpp:245-254; copysign(pi/2, sinp): for |sinp| >= 1, negative iff sinp < 0 *)
Definition getPitchFromQuaternion (q : quat) : N :=
  let sinp := #2 * (qw q * qy q - qz q * qx q) in
  (if #1 <=? absv N sinp
   then (if sinp <? #0 then opp N (pif N / #2) else pif N / #2)
   else t_asin G sinp) * RAD_TO_DEG.

(** mavros_msgs::PositionTarget fields used here; mavros_msgs::Trajectory *)
Record ptarget := PT { pt_pos : vec3 N; pt_vel : vec3 N; pt_acc : vec3 N; pt_yaw : N; pt_yawrate : N }.
Record traj := Traj {
  tr_type : Z;
  tr_points : list ptarget;         (* point_1 .. point_5 *)
  tr_horizon : list N;              (* time_horizon[5] *)
  tr_valid : list bool }.           (* point_valid[5] *)
(** common.cpp:326-338 *)
Definition unusedPoint : ptarget :=
  let n3 := V3 (nanv N) (nanv N) (nanv N) in PT n3 n3 n3 (nanv N) (nanv N).
(** common.cpp:281-305; [yaw] is tf::getYaw of the pose's orientation *)
Definition transformToTrajectory (pos : vec3 N) (yaw : N) (lin : vec3 N) (ang_z : N) : traj :=
  Traj 0
    [PT pos lin (V3 (nanv N) (nanv N) (nanv N)) yaw (opp N ang_z);
     unusedPoint; unusedPoint; unusedPoint; unusedPoint]
    [nanv N; nanv N; nanv N; nanv N; nanv N]
    [true; false; false; false; false].
(** common.cpp:321-324; other fields of the point keep their previous content [old] *)
Definition fillControlPoint (old : ptarget) (p : vec3 N) (yaw : N) : ptarget :=
  PT (toENU p) (pt_vel old) (pt_acc old) (yawToENUrad yaw) (pt_yawrate old).
(** common.cpp:307-319 *)
Definition transformToBezier (old : list ptarget) (cps : list (vec3 N * N)) (duration : N) : traj :=
  Traj 1
    (map (fun oc => fillControlPoint (fst oc) (fst (snd oc)) (snd (snd oc))) (combine old cps))
    [nanv N; nanv N; nanv N; nanv N; duration]
    [true; true; true; true; true].
End Common.

Arguments set_nth {A} _ _ _.
