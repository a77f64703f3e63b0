(** Property theorems for avoidance/src/common.cpp (C01-C13, C61). *)
From Coq Require Import ZArith Reals List Bool.
From Flocq Require Import Core BinarySingleNaN.
From Verif Require Import Num CommonModel CommonSpec CommonProofs CommonProofs2 F32Err.
Import ListNotations.

(** C01. For every number system (binary32 with NaN and infinities in particular), every behaviour of
    the float-to-int conversion, every polar point and every resolution: the index is in range. *)
Theorem C01_histogram_index_in_range :
  forall (N : num) (cast : N -> Z) (p : polar N) (res x y : Z),
  (1 <= res <= 180)%Z -> polarToHistogramIndex N cast p res = (x, y) ->
  (0 <= x < 360 / res)%Z /\ (0 <= y < 180 / res)%Z.
Proof. exact polarToHistogramIndex_range. Qed.
Print Assumptions C01_histogram_index_in_range.
Example C01_example_nan_inf : exists x y,
  polarToHistogramIndex F32 (f32_cast : F32 -> Z) (Pol (B754_nan : F32) (B754_infinity true : F32) (ofZ F32 1)) 6 = (x, y).
Proof. do 2 eexists. vm_compute. reflexivity. Qed.

(** C01 (second half, common.h:265 "If there is an invalid input, the output index will be 0"). *)
Theorem C01_nan_direction_gives_index_zero :
  forall (cast : F32 -> Z) (r : F32) (res : Z), (1 <= res <= 180)%Z -> (cast (nanv F32) <= 0)%Z ->
  polarToHistogramIndex F32 cast (Pol (nanv F32) (nanv F32) r) res = (0%Z, 0%Z).
Proof. exact polarToHistogramIndex_nan. Qed.
Print Assumptions C01_nan_direction_gives_index_zero.

(** C02. Cell -> centre -> cell is the identity, both in binary32 as executed and over the reals. *)
Theorem C02_cell_centre_roundtrip_float :
  forall (e z res : Z) (rad : f32),
  (1 <= res <= 180)%Z -> (0 <= e < 180 / res)%Z -> (0 <= z < 360 / res)%Z ->
  polarToHistogramIndex F32 (f32_cast : F32 -> Z) (histogramIndexToPolar F32 e z res rad) res = (z, e).
Proof. exact histogramIndex_roundtrip_F32. Qed.
Print Assumptions C02_cell_centre_roundtrip_float.
Theorem C02_cell_centre_roundtrip :
  forall (e z res : Z) (rad : R),
  (1 <= res <= 180)%Z -> (0 <= e < 180 / res)%Z -> (0 <= z < 360 / res)%Z ->
  polarToHistogramIndex Rn (Ztrunc : Rn -> Z) (histogramIndexToPolar Rn e z res rad) res = (z, e).
Proof. exact histogramIndex_roundtrip_R. Qed.
Print Assumptions C02_cell_centre_roundtrip.
Example C02_example : (1 <= 6 <= 180)%Z /\ (0 <= 29 < 180 / 6)%Z /\ (0 <= 59 < 360 / 6)%Z.
Proof. repeat split; vm_compute; congruence. Qed.

Local Open Scope R_scope.
(** C02 (second half). The centre of the cell assigned to a direction is at most half a cell away
    (exactly res/2 when res is even, as ALPHA_RES is). *)
Theorem C02_direction_near_cell_centre :
  forall (p : polar Rn) (res x y : Z) (rad : R),
  (0 < res)%Z -> (180 mod res = 0)%Z ->
  polarToHistogramIndex Rn (Ztrunc : Rn -> Z) p res = (x, y) ->
  let w := wrapPolar Rn p in let c := histogramIndexToPolar Rn y x res rad in
  Rabs (pz w - pz c) <= IZR (res - res / 2) /\ Rabs (pe w - pe c) <= IZR (res - res / 2).
Proof. exact polarToHistogramIndex_near. Qed.
Print Assumptions C02_direction_near_cell_centre.
Example C02_example_res : (180 mod 6 = 0)%Z /\ (6 - 6 / 2 = 3)%Z.
Proof. split; reflexivity. Qed.

(** C03. Ideal arithmetic: canonical representative; idempotent. *)
Theorem C03_wrap180_canonical :
  forall a : R, -180 <= wrapAngleToPlusMinus180 Rn a < 180 /\
    same_heading 360 (wrapAngleToPlusMinus180 Rn a) a /\
    wrapAngleToPlusMinus180 Rn (wrapAngleToPlusMinus180 Rn a) = wrapAngleToPlusMinus180 Rn a.
Proof. intros a. exact (conj (wrap180_range a) (conj (wrap180_congr a) (wrap180_id _ (wrap180_range a)))). Qed.
Print Assumptions C03_wrap180_canonical.
Theorem C03_wrapPI_canonical :
  forall a : R, - PI <= wrapAngleToPlusMinusPI Rn a < PI /\
    same_heading (2 * PI) (wrapAngleToPlusMinusPI Rn a) a /\
    wrapAngleToPlusMinusPI Rn (wrapAngleToPlusMinusPI Rn a) = wrapAngleToPlusMinusPI Rn a.
Proof. intros a. exact (conj (wrapPI_range a) (conj (wrapPI_congr a) (wrapPI_id _ (wrapPI_range a)))). Qed.
Print Assumptions C03_wrapPI_canonical.
(** C03 as executed: up to two turns, the range and the congruence hold up to rounding. *)
Theorem C03_wrap180_float :
  forall a : f32, is_finite a = true -> Rabs (B2R a) <= 720 ->
  is_finite (wrapAngleToPlusMinus180 F32 a : f32) = true /\
  Rabs (B2R (wrapAngleToPlusMinus180 F32 a : f32)) <= 180 + 2 / 10000 /\
  exists k : Z, Rabs (B2R (wrapAngleToPlusMinus180 F32 a : f32) - (B2R a + 360 * IZR k)) <= 2 / 100000.
Proof. exact wrap180_F32. Qed.
Print Assumptions C03_wrap180_float.
(** C03 as executed: the range [-180,180) itself is violated: the largest float below 180 is wrapped
    to a value below -180. *)
Theorem C03_wrap180_float_range_refuted :
  exists a : f32, is_finite a = true /\ ltb F32 a (ofZ F32 180) = true /\ ltb F32 (ofZ F32 0) a = true /\
    ltb F32 (wrapAngleToPlusMinus180 F32 a) (ofZ F32 (-180)) = true.
Proof. exact wrap180_F32_refuted. Qed.
Print Assumptions C03_wrap180_float_range_refuted.
Example C03_example : is_finite (f32_ofZ 500) = true /\ f32_cast (wrapAngleToPlusMinus180 F32 (ofZ F32 500)) = 140%Z /\ f32_cast (wrapAngleToPlusMinus180 F32 (ofZ F32 180)) = (-180)%Z.
Proof. vm_compute. auto. Qed.

(** C04 *)
Theorem C04_wrapPolar_same_point :
  forall (p : polar Rn) (pos : vec3 Rn),
  polarHistogramToCartesian Rn Rtrig (wrapPolar Rn p) pos = polarHistogramToCartesian Rn Rtrig p pos /\
  pr (wrapPolar Rn p) = pr p /\
  -90 <= pe (wrapPolar Rn p) <= 90 /\ -180 <= pz (wrapPolar Rn p) < 180.
Proof.
  intros p pos. exact (conj (wrapPolar_cartesian p pos) (conj (proj2 (wrapPolar_direction p))
    (conj (proj1 (wrapPolar_range p)) (wrapPolar_range_strict p)))).
Qed.
Print Assumptions C04_wrapPolar_same_point.
(** an elevation beyond the pole: the other side of the pole *)
Example C04_example : let q := wrapPolar F32 (Pol (ofZ F32 100) (ofZ F32 20) (ofZ F32 3)) in (f32_cast (pe q), f32_cast (pz q), f32_cast (pr q)) = (80, -160, 3)%Z.
Proof. vm_compute. reflexivity. Qed.

(** C05 *)
Theorem C05_cartesian_polar_cartesian :
  forall p pos : vec3 Rn,
  polarHistogramToCartesian Rn Rtrig (cartesianToPolarHistogram Rn Rtrig p pos) pos = p.
Proof. exact cart_polar_cart. Qed.
Print Assumptions C05_cartesian_polar_cartesian.
Theorem C05_polar_cartesian_polar :
  forall (p : polar Rn) (pos : vec3 Rn),
  0 < pr p -> -90 < pe p < 90 -> -180 < pz p <= 180 ->
  cartesianToPolarHistogram Rn Rtrig (polarHistogramToCartesian Rn Rtrig p pos) pos = p.
Proof. exact polar_cart_polar. Qed.
Print Assumptions C05_polar_cartesian_polar.
Example C05_example : let p := Pol (45 : Rn) (180 : Rn) (2 : Rn) in
  0 < pr p /\ -90 < pe p < 90 /\ -180 < pz p <= 180.
Proof. cbn [pr pe pz]. repeat split; Lra.lra. Qed.

(** C06 *)
Theorem C06_angleDifference :
  forall a b : R, -180 <= angleDifference Rn a b < 180 /\ same_heading 360 (angleDifference Rn a b) (a - b).
Proof. exact angleDifference_spec. Qed.
Print Assumptions C06_angleDifference.
Theorem C06_indexAngleDifference :
  forall a b : R, -540 <= a - b <= 540 ->
  is_circular_distance a b (indexAngleDifference Rn a b) /\
  indexAngleDifference Rn a b = indexAngleDifference Rn b a.
Proof. intros a b H. exact (conj (indexAngleDifference_circular a b H) (indexAngleDifference_sym a b)). Qed.
Print Assumptions C06_indexAngleDifference.
Example C06_example : -540 <= 179 - (-179) <= 540. Proof. split; Lra.lra. Qed.

(** C07 *)
Theorem C07_isInWhichFOV :
  forall (N : num) (fs : list (fov N)) (p : polar N) (r : bool) (j : Z),
  isInWhichFOV N fs p = (r, j) ->
  (r = true <-> exists i f, nth_error fs i = Some f /\ pointInsideYawFOV N f p = true /\
      (forall k g, nth_error fs k = Some g -> pointInsideYawFOV N g p = true -> k = i)) /\
  (r = true -> (0 <= j)%Z /\ exists f, nth_error fs (Z.to_nat j) = Some f /\ pointInsideYawFOV N f p = true) /\
  (r = false -> j = (-1)%Z).
Proof. exact isInWhichFOV_spec. Qed.
Print Assumptions C07_isInWhichFOV.
Theorem C07_isOnEdgeOfFOV :
  forall (N : num) (fs : list (fov N)) (p : polar N),
  exists r j, isOnEdgeOfFOV N fs p = Some (r, j) /\
  (r = true -> isInWhichFOV N fs p = (true, j)) /\ (r = false -> j = (-1)%Z).
Proof. exact isOnEdgeOfFOV_spec. Qed.
Print Assumptions C07_isOnEdgeOfFOV.
Theorem C07_scaleToFOV :
  forall (fs : list (fov Rn)) (p : polar Rn),
  (forall f, In f fs -> 0 < h_fov_deg f) ->
  exists s, scaleToFOV Rn fs p = Some s /\ 0 <= s <= 1 /\
   ((forall f, In f fs -> pointInsideYawFOV Rn f p = false) -> s = 0) /\
   (forall f g i j, nth_error fs i = Some f -> nth_error fs j = Some g -> i <> j ->
      pointInsideYawFOV Rn f p = true -> pointInsideYawFOV Rn g p = true -> s = 1).
Proof. exact scaleToFOV_range. Qed.
Print Assumptions C07_scaleToFOV.
Definition c07_cams : list (fov F32) :=
  [Fov (ofZ F32 0) (ofZ F32 0) (ofZ F32 60) (ofZ F32 40); Fov (ofZ F32 50) (ofZ F32 0) (ofZ F32 60) (ofZ F32 40)].
Example C07_example :
  isInWhichFOV F32 c07_cams (Pol (ofZ F32 0) (ofZ F32 (-20)) (ofZ F32 1)) = (true, 0%Z) /\
  isInWhichFOV F32 c07_cams (Pol (ofZ F32 0) (ofZ F32 25) (ofZ F32 1)) = (false, (-1)%Z) /\
  isInWhichFOV F32 c07_cams (Pol (ofZ F32 0) (ofZ F32 70) (ofZ F32 1)) = (true, 1%Z) /\
  isOnEdgeOfFOV F32 c07_cams (Pol (ofZ F32 0) (ofZ F32 70) (ofZ F32 1)) = Some (true, 1%Z).
Proof. repeat split; vm_compute; reflexivity. Qed.

(** C08. Exact for cameras whose view does not cross +-180 degrees ... *)
Theorem C08_pointInsideFOV_partial :
  forall (f : fov Rn) (p : polar Rn),
  0 <= h_fov_deg f -> -180 <= yaw_deg f - h_fov_deg f / 2 -> yaw_deg f + h_fov_deg f / 2 < 180 ->
  -180 <= pz p < 180 ->
  (pointInsideFOV Rn f p = true <->
   (exists d, is_circular_distance (pz p) (yaw_deg f) d /\ d <= h_fov_deg f / 2) /\
   Rabs (pe p - pitch_deg f) <= v_fov_deg f / 2).
Proof. exact pointInsideFOV_circle. Qed.
Print Assumptions C08_pointInsideFOV_partial.
Example C08_example : let f := Fov (10 : Rn) (0 : Rn) (60 : Rn) (40 : Rn) in
  0 <= h_fov_deg f /\ -180 <= yaw_deg f - h_fov_deg f / 2 /\ yaw_deg f + h_fov_deg f / 2 < 180.
Proof. cbn [h_fov_deg yaw_deg]. repeat split; Lra.lra. Qed.
(** ... and false otherwise: a backward-looking camera does not see the point on its own axis. *)
Theorem C08_pointInsideFOV_refuted :
  exists (f : fov F32) (p : polar F32),
    yaw_deg f = pz p /\ pitch_deg f = pe p /\
    ltb F32 (ofZ F32 0) (h_fov_deg f) = true /\ ltb F32 (ofZ F32 0) (v_fov_deg f) = true /\
    leb F32 (ofZ F32 (-180)) (pz p) = true /\ ltb F32 (pz p) (ofZ F32 180) = true /\
    pointInsideFOV F32 f p = false.
Proof. exact pointInsideFOV_F32_refuted. Qed.
Print Assumptions C08_pointInsideFOV_refuted.

(** C09 *)
Theorem C09_cloud_filter_and_extremes :
  forall c : cloud F32,
  exists c' xM yM zM xm ym zm,
    let pts := filter (finite3 F32) (c_points F32 c) in
    removeNaNAndGetMaxima F32 c =
      Some (c', opt_list xM ++ opt_list yM ++ opt_list zM ++ opt_list xm ++ opt_list ym ++ opt_list zm) /\
    c_points F32 c' = pts /\ c_width F32 c' = Z.of_nat (length pts) /\ c_height F32 c' = 1%Z /\ c_dense F32 c' = true /\
    extreme_of (fun p q => ltb F32 (vx q) (vx p)) (fun p => ltb F32 (ofZ F32 (-9999)) (vx p)) pts xM /\
    extreme_of (fun p q => ltb F32 (vy q) (vy p)) (fun p => ltb F32 (ofZ F32 (-9999)) (vy p)) pts yM /\
    extreme_of (fun p q => ltb F32 (vz q) (vz p)) (fun p => ltb F32 (ofZ F32 (-9999)) (vz p)) pts zM /\
    extreme_of (fun p q => ltb F32 (vx p) (vx q)) (fun p => ltb F32 (vx p) (ofZ F32 9999)) pts xm /\
    extreme_of (fun p q => ltb F32 (vy p) (vy q)) (fun p => ltb F32 (vy p) (ofZ F32 9999)) pts ym /\
    extreme_of (fun p q => ltb F32 (vz p) (vz q)) (fun p => ltb F32 (vz p) (ofZ F32 9999)) pts zm.
Proof. exact removeNaN_spec. Qed.
Print Assumptions C09_cloud_filter_and_extremes.

(** C10 *)
Theorem C10_fov_step :
  forall (N : num) (G : trig N) (f : fov N) (m : list (vec3 N)),
  let f' := updateFOVFromMaxima N G f m in
  (h_fov_deg f' = h_fov_deg f /\ yaw_deg f' = yaw_deg f \/ ltb N (h_fov_deg f) (h_fov_deg f') = true) /\
  (v_fov_deg f' = v_fov_deg f /\ pitch_deg f' = pitch_deg f \/ ltb N (v_fov_deg f) (v_fov_deg f') = true).
Proof. exact updateFOV_step. Qed.
Print Assumptions C10_fov_step.
Theorem C10_fov_never_shrinks :
  forall (G : trig F32) (f : fov F32) (ms : list (list (vec3 F32))),
  is_nan (h_fov_deg f : f32) = false -> is_nan (v_fov_deg f : f32) = false ->
  let f' := fold_left (updateFOVFromMaxima F32 G) ms f in
  leb F32 (h_fov_deg f) (h_fov_deg f') = true /\ leb F32 (v_fov_deg f) (v_fov_deg f') = true.
Proof. exact updateFOV_history. Qed.
Print Assumptions C10_fov_never_shrinks.
Example C10_example : is_nan (h_fov_deg (Fov (ofZ F32 0) (ofZ F32 0) (ofZ F32 0) (ofZ F32 0)) : f32) = false.
Proof. vm_compute. reflexivity. Qed.

(** C11 *)
Theorem C11_waypoint_message :
  forall (pos : vec3 F32) (yaw : F32) (lin : vec3 F32) (wz : F32),
  let m := transformToTrajectory F32 pos yaw lin wz in
  tr_type F32 m = 0%Z /\ tr_valid F32 m = [true; false; false; false; false] /\
  length (tr_points F32 m) = 5%nat /\
  (exists p1, nth_error (tr_points F32 m) 0 = Some p1 /\ pt_pos F32 p1 = pos /\ pt_vel F32 p1 = lin /\
     pt_yaw F32 p1 = yaw /\ pt_yawrate F32 p1 = opp F32 wz) /\
  (forall i q, (1 <= i)%nat -> nth_error (tr_points F32 m) i = Some q ->
     (forall v, In v [vx (pt_pos F32 q); vy (pt_pos F32 q); vz (pt_pos F32 q); vx (pt_vel F32 q); vy (pt_vel F32 q);
        vz (pt_vel F32 q); vx (pt_acc F32 q); vy (pt_acc F32 q); vz (pt_acc F32 q); pt_yaw F32 q; pt_yawrate F32 q] ->
        finiteb F32 v = false)) /\
  (forall h, In h (tr_horizon F32 m) -> finiteb F32 h = false).
Proof. exact waypoint_message_spec. Qed.
Print Assumptions C11_waypoint_message.
Theorem C11_bezier_message :
  forall (old : list (ptarget F32)) (cps : list (vec3 F32 * F32)) (d : F32),
  length old = 5%nat -> length cps = 5%nat ->
  let m := transformToBezier F32 old cps d in
  tr_type F32 m = 1%Z /\ tr_valid F32 m = [true; true; true; true; true] /\
  nth_error (tr_horizon F32 m) 4 = Some d /\
  (forall i h, (i < 4)%nat -> nth_error (tr_horizon F32 m) i = Some h -> finiteb F32 h = false) /\
  (forall i c, nth_error cps i = Some c -> exists q, nth_error (tr_points F32 m) i = Some q /\
     vx (pt_pos F32 q) = vy (fst c) /\ vy (pt_pos F32 q) = vx (fst c) /\ vz (pt_pos F32 q) = opp F32 (vz (fst c))).
Proof. exact bezier_message_spec. Qed.
Print Assumptions C11_bezier_message.

(** C12 *)
Theorem C12_position_involution :
  forall v : vec3 F32, toENU F32 (toNED F32 v) = v /\ toNED F32 (toENU F32 v) = v.
Proof. exact NED_ENU_involution_F32. Qed.
Print Assumptions C12_position_involution.
Theorem C12_yaw_involution :
  forall y : R,
  yawToENUdeg Rn (yawToNEDdeg Rn y) = y /\ yawToNEDdeg Rn (yawToENUdeg Rn y) = y /\
  yawToENUrad Rn (yawToNEDrad Rn y) = y /\ yawToNEDrad Rn (yawToENUrad Rn y) = y.
Proof. exact yaw_roundtrip_R. Qed.
Print Assumptions C12_yaw_involution.
Theorem C12_orientation_involution :
  forall q : quat Rn,
  orientationToENU Rn Rtrig (orientationToNED Rn Rtrig q) = q /\
  orientationToNED Rn Rtrig (orientationToENU Rn Rtrig q) = q.
Proof. exact orientation_roundtrip. Qed.
Print Assumptions C12_orientation_involution.
Theorem C12_pose_quaternion_yaw :
  forall yaw : R, - PI < yaw <= PI ->
  getYawFromQuaternion Rn Rtrig (createPoseQuat Rn Rtrig yaw) = yaw * 180 / PI /\
  getPitchFromQuaternion Rn Rtrig (createPoseQuat Rn Rtrig yaw) = 0.
Proof. exact createPose_yaw. Qed.
Print Assumptions C12_pose_quaternion_yaw.
Example C12_example : - PI < 1 <= PI.
Proof. pose proof PI2_3_2 as H. pose proof PI_RGT_0. split; Lra.lra. Qed.

(** C13 *)
Theorem C13_turns_the_short_way :
  forall d c : R, - PI <= c <= PI ->
  same_heading (2 * PI) (2 * getAngularVelocity Rn d c) (d - c) /\
  Rabs (getAngularVelocity Rn d c) <= PI / 2.
Proof. exact getAngularVelocity_spec. Qed.
Print Assumptions C13_turns_the_short_way.
Example C13_example : - PI <= 1 <= PI.
Proof. pose proof PI2_3_2 as H. pose proof PI_RGT_0. split; Lra.lra. Qed.

(** C61. The FCU-convention conversions are claimed inverse; they mirror the vertical axis. *)
Theorem C61_fcu_roundtrip_partial :
  forall p pos : vec3 Rn,
  polarFCUToCartesian Rn Rtrig (cartesianToPolarFCU Rn Rtrig p pos) pos = V3 (vx p) (vy p) (2 * vz pos - vz p).
Proof. exact fcu_roundtrip_mirror. Qed.
Print Assumptions C61_fcu_roundtrip_partial.
Theorem C61_fcu_roundtrip_refuted :
  exists p pos : vec3 Rn,
  polarFCUToCartesian Rn Rtrig (cartesianToPolarFCU Rn Rtrig p pos) pos <> p.
Proof. exact fcu_roundtrip_refuted. Qed.
Print Assumptions C61_fcu_roundtrip_refuted.
