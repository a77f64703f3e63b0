(** Model of local_planner/src/nodes/local_planner_visualization.cpp: what the local planner shows on its display topics. Marker
    headers, scales, namespaces and the constant colours are not modelled; publishing is returning the value. *)
From Coq Require Import ZArith List Bool.
From Verif Require Import Num Mat CommonModel HistModel PfModel StarModel LpModel WgModel.
Import ListNotations.

Section Lv.
Context (N : num) (G : trig N).
Declare Scope lv_scope.
Local Notation "x + y" := (add N x y) : lv_scope.
Local Notation "x - y" := (sub N x y) : lv_scope.
Local Notation "x * y" := (mul N x y) : lv_scope.
Local Notation "x / y" := (div N x y) : lv_scope.
Local Notation "x <? y" := (ltb N x y) : lv_scope.
Local Notation "# z" := (ofZ N z) (at level 1, format "# z") : lv_scope.
Local Open Scope lv_scope.

(** sensor_msgs::Image: height, width, bytes per row, bytes *)
Record image := Img { im_height : Z; im_width : Z; im_step : Z; im_data : list Z }.

(** [cost_img.data[i] = 255.f]; [None]: outside of the vector *)
Definition paint (img : option (list Z)) (i : Z) : option (list Z) :=
  obind img (fun l => if ((0 <=? i) && (i <? Z.of_nat (length l)))%Z then Some (StarModel.set_nth l (Z.to_nat i) 255%Z) else None).

(** local_planner_visualization.cpp:280-284: the cell drawn for the vehicle's heading *)
Definition headingIndex (cast : N -> Z) (orientation : quat N) : Z * Z :=
  let yaw := getYawFromQuaternion N G orientation in
  polarToHistogramIndex N cast (Pol (#0) (opp N yaw * #180 / pif N + #90) (#1)) ALPHA_RES.
(** local_planner_visualization.cpp:286-290: the cell drawn for a waypoint *)
Definition waypointIndex (cast : N -> Z) (wp position : vec3 N) : Z * Z :=
  polarToHistogramIndex N cast (cartesianToPolarHistogram N G wp position) ALPHA_RES.

(** local_planner_visualization.cpp:265-319: publishDataImages, the cost image and the histogram image. The vectors of the
    indices are (x, y) = (azimuth, elevation). *)
Definition costDisplay (cast : N -> Z) (cost_image_data : list Z) (wp adapted_wp position : vec3 N) (orientation : quat N) : option image :=
  let '(hx, hy) := headingIndex cast orientation in
  let '(wx, wy) := waypointIndex cast wp position in
  let '(ax, ay) := waypointIndex cast adapted_wp position in
  let data :=
    if (Z.of_nat (length cost_image_data) =? 3 * GRID_LENGTH_E * GRID_LENGTH_Z)%Z then
      let d := paint (Some cost_image_data) (colorImageIndex hy hx 2) in
      let d := paint d (colorImageIndex wy wx 0) in
      let d := paint d (colorImageIndex wy wx 1) in
      let d := paint d (colorImageIndex wy wx 2) in
      let d := paint d (colorImageIndex ay ax 1) in
      paint d (colorImageIndex ay ax 2)
    else Some cost_image_data in
  option_map (Img GRID_LENGTH_E GRID_LENGTH_Z (3 * GRID_LENGTH_Z)) data.
Definition histDisplay (histogram_image_data : list Z) : image := Img GRID_LENGTH_E GRID_LENGTH_Z 255 histogram_image_data.

(** local_planner_visualization.cpp:195-241: publishTree: the points of the two line lists. [tree[i]] outside of the vector: [None] *)
Definition treeLines (tree : list (tnode N)) (closed : list nat) : option (list (vec3 N)) :=
  foldM (fun acc i =>
    obind (nth_error tree i) (fun n => obind (nth_error tree (n_origin n)) (fun o => Some (acc ++ [n_pos n; n_pos o])))) [] closed.
Fixpoint pathLines (path : list (vec3 N)) : list (vec3 N) :=
  match path with
  | p :: (q :: _) as r => p :: q :: pathLines r
  | _ => []
  end.

(** local_planner_visualization.cpp:115-163: publishRangeScan. One triangle and one colour (red, green) for each entry of the scan; blue
    is 0. [increment] is scan.angle_increment; [i + 0.5] and the products are doubles rounded to float once, here one operation each. *)
Record sector := Sec { se_apex : vec3 N; se_left : vec3 N; se_right : vec3 N; se_red : N; se_green : N }.
Definition scanSector (increment range_max : N) (position : vec3 N) (i : Z) (r : N) : sector :=
  let az (half : N) := RAD_TO_DEG N * (#i + half) * increment in
  let d := minv N range_max r in
  let p1 := polarHistogramToCartesian N G (Pol (#0) (az (cst N 1 2)) d) position in
  let p2 := polarHistogramToCartesian N G (Pol (#0) (az (opp N (cst N 1 2))) d) position in
  if isnanb N r then Sec position p1 p2 (#1) (#0)
  else if range_max <? r then Sec position p1 p2 (#0) (#1)
  else Sec position p1 p2 (#1 - r / range_max) (r / range_max).
Fixpoint scanSectors (increment range_max : N) (position : vec3 N) (i : Z) (ranges : list N) : list sector :=
  match ranges with
  | [] => []
  | r :: rest => scanSector increment range_max position i r :: scanSectors increment range_max position (i + 1)%Z rest
  end.

(** local_planner_visualization.cpp:68-113: publishFOV: the corners of the pyramid of one camera, in the body frame *)
Definition fovCorners (f : fov N) (max_range : N) : list (vec3 N) :=
  let o := V3 (#0) (#0) (#0) in
  let c e z := polarFCUToCartesian N G (Pol e z max_range) o in
  let lo := pitch_deg f - v_fov_deg f / #2 in
  let hi := pitch_deg f + v_fov_deg f / #2 in
  let l := yaw_deg f + h_fov_deg f / #2 in
  let r := yaw_deg f - h_fov_deg f / #2 in
  [c lo l; c hi l; c hi r; c lo r].
(** the four triangles drawn *)
Definition fovTriangles (f : fov N) (max_range : N) : list (vec3 N) :=
  let o := V3 (#0) (#0) (#0) in
  match fovCorners f max_range with
  | [p1; p2; p3; p4] => [o; p1; p2; o; p2; p3; o; p3; p4; o; p4; p1]
  | _ => []
  end.

(** local_planner_visualization.cpp:389-448: publishPaths: one line for each of the three trails, all with the id [path_length_], which is increased *)
Record trails := Trails { tl_actual : Z * list (vec3 N); tl_waypoint : Z * list (vec3 N); tl_adapted : Z * list (vec3 N) }.
Definition publishTrails (path_length : Z) (last_pos newest_pos last_wp newest_wp last_adapted newest_adapted : vec3 N) : trails * Z :=
  (Trails (path_length, [last_pos; newest_pos]) (path_length, [last_wp; newest_wp]) (path_length, [last_adapted; newest_adapted]), (path_length + 1)%Z).
(** local_planner_visualization.cpp:450-504: publishCurrentSetpoint: the two ends of the arrow and its colour (red, green, blue) *)
Definition setpointArrow (velocity : vec3 N) (type : pstate) (position : vec3 N) : vec3 N * vec3 N * (Z * Z * Z) :=
  (position, v3add N position velocity,
   match type with LOITER => (1, 1, 0) | TRY_PATH => (0, 1, 0) | DIRECT => (0, 0, 1) | ALTITUDE_CHANGE => (1, 0, 1) end%Z).
End Lv.
Arguments Trails {N} _ _ _. Arguments tl_actual {N} _. Arguments tl_waypoint {N} _. Arguments tl_adapted {N} _.
Arguments Sec {N} _ _ _ _ _.
Arguments se_apex {N} _.
Arguments se_left {N} _.
Arguments se_right {N} _.
Arguments se_red {N} _.
Arguments se_green {N} _.
