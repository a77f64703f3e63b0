(** Model of local_planner/src/nodes/planner_functions.cpp.
    [cast] is static_cast<int>(float), [rnd] is static_cast<int>(std::round(float)), [ceilc] is
    static_cast<unsigned int>(ceil(float)): oracles of the model, instantiated in the theorems. *)
From Coq Require Import ZArith List Bool.
From Verif Require Import Num Mat CommonModel HistModel.
Import ListNotations.

(** pcl::PointXYZI: coordinates and intensity (used as the age of the point in seconds) *)
Record xyzi (A : Type) := XYZI { pt : vec3 A; age : A }.
Arguments XYZI {A} _ _.
Arguments pt {A} _.
Arguments age {A} _.

(** local_planner/include/local_planner/cost_parameters.h:5-10 *)
Record costParameters (A : Type) := CostParams {
  yaw_cost_param : A; pitch_cost_param : A; velocity_cost_param : A; obstacle_cost_param : A }.
Arguments CostParams {A} _ _ _ _.
Arguments yaw_cost_param {A} _.
Arguments pitch_cost_param {A} _.
Arguments velocity_cost_param {A} _.
Arguments obstacle_cost_param {A} _.

(** local_planner/include/local_planner/candidate_direction.h:6-18 *)
Record candidate (A : Type) := Cand { c_cost : A; c_e : A; c_z : A }.
Arguments Cand {A} _ _ _.
Arguments c_cost {A} _.
Arguments c_e {A} _.
Arguments c_z {A} _.

(** [for (int i = start; i < n; i += step)] for a positive step *)
Definition strided (start step n : Z) : list Z :=
  map (fun k => start + k * step)%Z (zrange ((n - start + step - 1) / step)).

Declare Scope num_scope.
Section Pf.
Context (N : num) (G : trig N) (cast rnd ceilc : N -> Z).
Local Notation "x + y" := (add N x y) : num_scope.
Local Notation "x - y" := (sub N x y) : num_scope.
Local Notation "x * y" := (mul N x y) : num_scope.
Local Notation "x / y" := (div N x y) : num_scope.
Local Notation "x <? y" := (ltb N x y) : num_scope.
Local Notation "x <=? y" := (leb N x y) : num_scope.
Local Notation "# z" := (ofZ N z) (at level 1, format "# z") : num_scope.
Local Open Scope num_scope.

(** std::isnan: a float is NaN exactly if it differs from itself *)
Definition isnanb (x : N) : bool := negb (eqb N x x).
(** planner_functions.cpp:28 *)
Definition sqr (f : N) : N := f * f.

(* ------------------------------------------------------------------ processPointcloud 12-76 *)
(** planner_functions.cpp:17: SCALE_FACTOR; 38: ALPHA_RES / SCALE_FACTOR *)
Definition FINE_RES : Z := Z.quot ALPHA_RES 3.
(** planner_functions.cpp:34, 50: (position - toEigen(xyz)).squaredNorm() *)
Definition distSq (position p : vec3 N) : N := v3sqnorm N (v3sub N position p).
(** planner_functions.cpp:37-38 / 53, 58 *)
Definition fineIndex (position p : vec3 N) : Z * Z :=
  polarToHistogramIndex N cast (cartesianToPolarHistogram N G p position) FINE_RES.

(** state of the two loops: the counters and the points pushed so far *)
Definition pc_state : Type := mat Z * list (xyzi N).

(** planner_functions.cpp:31-45, body of the loop over the new clouds *)
Definition pc_new_step (position : vec3 N) (min_range max_range : N) (min_num : Z)
    (s : pc_state) (p : vec3 N) : option pc_state :=
  let (counter, out) := s in
  if negb (isnanb (vx p)) && negb (isnanb (vy p)) && negb (isnanb (vz p)) then
    let d := distSq position p in
    if (sqr min_range <? d) && (d <? sqr max_range) then
      let (ix, iy) := fineIndex position p in
      match mget counter iy ix with
      | None => None
      | Some n => match mset counter iy ix (n + 1)%Z with
                  | None => None
                  | Some counter' => Some (counter', if (n + 1 =? min_num)%Z then out ++ [XYZI p (#0)] else out)
                  end
      end
    else Some s
  else Some s.

(** planner_functions.cpp:54-57 *)
Definition fcuDirection (yaw pitch : N) (position p : vec3 N) : polar N :=
  let q := cartesianToPolarFCU N G p position in
  wrapPolar N (Pol (pe q - pitch) (pz q - yaw) (pr q)).

(** planner_functions.cpp:49-69, body of the loop over the remembered points *)
Definition pc_old_step (fovs : list (fov N)) (yaw pitch : N) (position : vec3 N) (max_range max_age elapsed : N)
    (min_num : Z) (s : pc_state) (q : xyzi N) : option pc_state :=
  let (counter, out) := s in
  if distSq position (pt q) <? sqr max_range then
    let (ix, iy) := fineIndex position (pt q) in
    match mget counter iy ix with
    | None => None
    | Some n =>
        if (n <? min_num)%Z && (age q <? max_age) && negb (pointInsideFOVs N fovs (fcuDirection yaw pitch position (pt q)))
        then match mset counter iy ix min_num with
             | None => None
             | Some counter' => Some (counter', out ++ [XYZI (pt q) (age q + elapsed)])
             end
        else Some s
    end
  else Some s.

(** planner_functions.cpp:12-76. [final_cloud] is the previous result; headers are not modelled, but the
    access complete_cloud[0] (72-73) is: it is undefined for an empty vector of clouds. *)
Definition processPointcloud (final_cloud : list (xyzi N)) (complete_cloud : list (list (vec3 N)))
    (fovs : list (fov N)) (yaw pitch : N) (position : vec3 N) (min_range max_range max_age elapsed : N)
    (min_num : Z) : option (list (xyzi N)) :=
  let counter0 := Mat (Z.quot 180 FINE_RES) (Z.quot 360 FINE_RES) (fun _ _ => 0%Z) in
  match foldM (fun s cl => foldM (pc_new_step position min_range max_range min_num) s cl) (counter0, []) complete_cloud with
  | None => None
  | Some s1 =>
      match foldM (pc_old_step fovs yaw pitch position max_range max_age elapsed min_num) s1 final_cloud with
      | None => None
      | Some (_, out) => match complete_cloud with [] => None | _ => Some out end
      end
  end.

(* --------------------------------------------------------------- generateNewHistogram 79-103 *)
(** planner_functions.cpp:83-91 *)
Definition gh_step (position : vec3 N) (s : mat Z * hist N) (q : xyzi N) : option (mat Z * hist N) :=
  let (counter, h) := s in
  let p_pol := cartesianToPolarHistogram N G (pt q) position in
  let (ix, iy) := polarToHistogramIndex N cast p_pol ALPHA_RES in
  match mget counter iy ix with
  | None => None
  | Some n => match mset counter iy ix (n + 1)%Z, h_get N h iy ix with
              | Some counter', Some d => match h_set N h iy ix (d + pr p_pol) with
                                         | Some h' => Some (counter', h')
                                         | None => None end
              | _, _ => None
              end
  end.
(** planner_functions.cpp:96-100 *)
Definition gh_norm_step (counter : mat Z) (h : hist N) (ez : Z * Z) : option (hist N) :=
  let (e, z) := ez in
  match mget counter e z with
  | None => None
  | Some n => if (0 <? n)%Z
              then match h_get N h e z with Some d => h_set N h e z (d / #n) | None => None end
              else h_set N h e z (#0)
  end.
(** all (row, column) index pairs in row-major order: the nested for loops over a grid *)
Definition grid_idx (r c : Z) : list (Z * Z) := flat_map (fun e => map (fun z => (e, z)) (zrange c)) (zrange r).
Definition generateNewHistogram (polar_histogram : hist N) (cropped_cloud : list (xyzi N)) (position : vec3 N)
    : option (hist N) :=
  let counter0 := Mat GRID_LENGTH_E GRID_LENGTH_Z (fun _ _ => 0%Z) in
  match foldM (gh_step position) (counter0, polar_histogram) cropped_cloud with
  | None => None
  | Some (counter, h) => foldM (gh_norm_step counter) h (grid_idx GRID_LENGTH_E GRID_LENGTH_Z)
  end.

(* ---------------------------------------------------------- compressHistogramElevation 105-126 *)
(** planner_functions.cpp:115-123 *)
Definition ce_step (input_hist : hist N) (position : vec3 N) (new_hist : hist N) (ez : Z * Z) : option (hist N) :=
  let (e, z) := ez in
  match h_get N input_hist e z with
  | None => None
  | Some d =>
      if #0 <? d then
        let obstacle := histogramIndexToPolar N e z ALPHA_RES d in
        let cart := polarHistogramToCartesian N G obstacle position in
        let height_difference := absv N (vz position - vz cart) in
        match h_get N new_hist 0 z with
        | None => None
        | Some cur => if (height_difference <? #1) && ((d <? cur) || eqb N cur (#0))
                      then h_set N new_hist 0 z d else Some new_hist
        end
      else Some new_hist
  end.
(** planner_functions.cpp:105-126 *)
Definition compressHistogramElevation (new_hist input_hist : hist N) (position : vec3 N) : option (hist N) :=
  let lower := Pol (#(-1) * #20 / #2) (#0) (#0) in
  let upper := Pol (#20 / #2) (#0) (#0) in
  let e0 := snd (polarToHistogramIndex N cast lower ALPHA_RES) in
  let e1 := snd (polarToHistogramIndex N cast upper ALPHA_RES) in
  foldM (ce_step input_hist position) new_hist
    (flat_map (fun e => map (fun z => (e, z)) (zrange GRID_LENGTH_Z)) (map (fun k => (e0 + k)%Z) (zrange (e1 - e0 + 1)))).

(* -------------------------------------------------------------------------- costFunction 328-363 *)
(** Eigen normalized(): a / norm if squaredNorm > 0, otherwise unchanged *)
Definition v3normalized (a : vec3 N) : vec3 N :=
  let z := v3sqnorm N a in
  if #0 <? z then V3 (vx a / sqrtv N z) (vy a / sqrtv N z) (vz a / sqrtv N z) else a.
(** Eigen dot() *)
Definition v3dot (a b : vec3 N) : N := vx a * vx b + vy a * vy b + vz a * vz b.
(** planner_functions.cpp:328-363; result (distance_cost, other costs).  Line 357 is evaluated in double
    by the C++ (the literal 0.2); here it is evaluated in [N]. *)
Definition costFunction (candidate_polar : polar N) (obstacle_distance : N) (goal position velocity : vec3 N)
    (cp : costParameters N) (closest_pt : vec3 N) (is_obstacle_facing_goal : bool) : N * N :=
  let facing_goal := cartesianToPolarHistogram N G goal position in
  let goal_distance := v3norm N (v3sub N goal position) in
  let cand_cart := polarHistogramToCartesian N G candidate_polar (V3 (#0) (#0) (#0)) in
  let angle_diff := angleDifference N (pz candidate_polar) (pz facing_goal) in
  let facing_line := cartesianToPolarHistogram N G closest_pt position in
  let angle_diff_to_line := angleDifference N (pz candidate_polar) (pz facing_line) in
  let velocity_cost := velocity_cost_param cp * (v3norm N velocity - v3dot (v3normalized cand_cart) velocity) in
  let weight := if is_obstacle_facing_goal then #0 else cst N 1 2 in
  let yaw_cost := (#1 - weight) * yaw_cost_param cp * angle_diff * angle_diff in
  let yaw_to_line_cost := weight * yaw_cost_param cp * angle_diff_to_line * angle_diff_to_line in
  let pitch_cost0 := pitch_cost_param cp * (pe candidate_polar - pe facing_goal) * (pe candidate_polar - pe facing_goal) in
  let pitch_cost := if goal_distance <? #5
                    then pitch_cost0 / ((cst N 1 5 * goal_distance) * (cst N 1 5 * goal_distance)) else pitch_cost0 in
  let d := obstacle_cost_param cp - obstacle_distance in
  let distance_cost := if #0 <? obstacle_distance then #5000 * (#1 + d / sqrtv N (#1 + d * d)) else #0 in
  (distance_cost, velocity_cost + yaw_cost + yaw_to_line_cost + pitch_cost).

(* ---------------------------------------------------------- padding and smoothing 260-325 *)
(** Eigen m.block(i, j, h, w): must lie inside the matrix *)
Definition mblock {A} (m : mat A) (i j h w : Z) : option (mat A) :=
  if ((0 <=? i) && (0 <=? j) && (0 <=? h) && (0 <=? w) && (i + h <=? rows m) && (j + w <=? cols m))%Z
  then Some (Mat h w (fun r c => cell m (i + r)%Z (j + c)%Z)) else None.
(** m.block(i, j, rows b, cols b) = b *)
Definition mset_block {A} (m : mat A) (i j : Z) (b : mat A) : option (mat A) :=
  if ((0 <=? i) && (0 <=? j) && (i + rows b <=? rows m) && (j + cols b <=? cols m))%Z
  then Some (Mat (rows m) (cols m) (fun r c =>
         if ((i <=? r) && (r <? i + rows b) && (j <=? c) && (c <? j + cols b))%Z
         then cell b (r - i)%Z (c - j)%Z else cell m r c))
  else None.
(** Eigen colwise().reverse(): every column upside down *)
Definition mrev {A} (b : mat A) : mat A := Mat (rows b) (cols b) (fun r c => cell b (rows b - 1 - r)%Z c).
Definition mcopy {A} (dst : mat A) (i j : Z) (src : option (mat A)) : option (mat A) :=
  match src with Some b => mset_block dst i j b | None => None end.
Definition obind {A B} (o : option A) (f : A -> option B) : option B := match o with Some a => f a | None => None end.

(** planner_functions.cpp:295-325. The block assignments within [matrix_padded] (319-324) do not alias
    for n <= cols; the model evaluates the right hand side first. *)
Definition padPolarMatrix (matrix : mat N) (n : Z) : option (mat N) :=
  let R := rows matrix in let C := cols matrix in
  let middle_index := Z.quot C 2 in
  let p0 := Mat (R + 2 * n) (C + 2 * n) (fun _ _ => #0) in
  obind (mcopy p0 n n (Some matrix)) (fun p1 =>
  obind (mcopy p1 0 n (option_map mrev (mblock matrix 0 middle_index n middle_index))) (fun p2 =>
  obind (mcopy p2 0 (n + middle_index) (option_map mrev (mblock matrix 0 0 n middle_index))) (fun p3 =>
  obind (mcopy p3 (R + n) n (option_map mrev (mblock matrix (R - n) middle_index n middle_index))) (fun p4 =>
  obind (mcopy p4 (R + n) (n + middle_index) (option_map mrev (mblock matrix (R - n) 0 n middle_index))) (fun p5 =>
  obind (mcopy p5 0 0 (mblock p5 0 (cols p5 - 2 * n) (rows p5) n)) (fun p6 =>
  mcopy p6 0 (n + C) (mblock p6 0 n (rows p6) n))))))).

(** Eigen sum() of an expression of length n: partial sums from the left.  (Eigen may vectorise the sum; over
    the reals, where it is used in theorems, the order does not matter.) *)
Definition zsum (n : Z) (f : Z -> N) : N := fold_left (fun acc k => acc + f k) (zrange n) (#0).
(** planner_functions.cpp:285-293; maxCoeff by left-to-right scan *)
Definition conicRaw (radius row : Z) : N := maxv N (#0) (#1 + #radius - #(Z.abs (row - radius))).
Definition getConicKernel (radius : Z) (row : Z) : N :=
  let mx := fold_left (fun m k => maxv N m (conicRaw radius k)) (zrange (radius * 2 + 1)) (conicRaw radius 0) in
  conicRaw radius row * (#1 / mx).

(** planner_functions.cpp:260-283 *)
Definition smoothPolarMatrix (matrix : mat N) (radius : Z) : option (mat N) :=
  match padPolarMatrix matrix radius with
  | None => None
  | Some padded =>
      let k1 := getConicKernel radius in
      (* columns: rows [radius, radius + rows) of every column, from a copy of the column *)
      let padded1 := Mat (rows padded) (cols padded) (fun r c =>
          if ((radius <=? r) && (r <? radius + rows matrix))%Z
          then zsum (2 * radius + 1) (fun k => cell padded (r - radius + k)%Z c * k1 k)
          else cell padded r c) in
      (* rows *)
      Some (Mat (rows matrix) (cols matrix) (fun r c =>
          zsum (2 * radius + 1) (fun k => cell padded1 (r + radius)%Z (c + k)%Z * k1 k)))
  end.

(* ------------------------------------------------------------------------- getCostMatrix 128-207 *)
(** planner_functions.cpp:140-158 *)
Definition obstacleFacingGoal (h : hist N) (goal position : vec3 N) (max_range min_range : N) : option bool :=
  let goal_polar := cartesianToPolarHistogram N G goal position in
  foldM (fun b ji =>
      let (ix, iy) := polarToHistogramIndex N cast
           (Pol (pe goal_polar + #(fst ji) * #ALPHA_RES) (pz goal_polar + #(snd ji) * #ALPHA_RES) (#0)) ALPHA_RES in
      match h_get N h iy ix with
      | None => None
      | Some d => Some (b || ((min_range <? d) && (d <? max_range)))
      end) false
    (flat_map (fun j => map (fun i => (j - 2, i - 5)%Z) (zrange 11)) (zrange 5)).

(** planner_functions.cpp:164-165: [rnd] is static_cast<int>(std::round(.)) *)
Definition stepSize (e : Z) : Z :=
  rnd (#1 / t_cos G (pe (histogramIndexToPolar N e 0 ALPHA_RES (#1)) * DEG_TO_RAD N)).

Definition two_mats : Type := mat N * mat N.      (* (cost_matrix, distance_matrix) *)
Definition set2 (m : two_mats) (e z : Z) (c d : N) : option two_mats :=
  match mset (fst m) e z c, mset (snd m) e z d with Some a, Some b => Some (a, b) | _, _ => None end.
Definition get2 (m : two_mats) (e z : Z) : option (N * N) :=
  match mget (fst m) e z, mget (snd m) e z with Some a, Some b => Some (a, b) | _, _ => None end.

(** planner_functions.cpp:179-185 and 190-198: fill columns last+1 .. last+width-1 of row e on the straight
    line from column [last] to column [next] *)
Definition interpolate (e last next width : Z) (m : two_mats) : option two_mats :=
  match get2 m e last, get2 m e next with
  | Some (c0, d0), Some (c1, d1) =>
      let gc := (c1 - c0) / #width in
      let gd := (d1 - d0) / #width in
      foldM (fun m k => let i := (k + 1)%Z in
               match get2 m e last with
               | Some (c, d) => set2 m e (last + i) (c + gc * #i) (d + gd * #i)
               | None => None end) m (zrange (width - 1))
  | _, _ => None
  end.

(** planner_functions.cpp:161-200, one row. [cell_cost e z] is the evaluation of lines 168-171. A step that
    is not positive would not terminate. *)
Definition fillRow (cell_cost : Z -> Z -> option (N * N)) (step : Z) (m : two_mats) (e : Z) : option two_mats :=
  if (step <=? 0)%Z then None else
  obind (foldM (fun m z => match cell_cost e z with
                           | Some (d, c) => set2 m e z c d
                           | None => None end) m (strided 0 step GRID_LENGTH_Z)) (fun m1 =>
  if (1 <? step)%Z then
    obind (foldM (fun ml z => obind (interpolate e (snd ml) z step (fst ml)) (fun m' => Some (m', z)))
             (m1, 0%Z) (strided step step GRID_LENGTH_Z)) (fun ml =>
    let last := snd ml in
    interpolate e last 0 (GRID_LENGTH_Z - last) (fst ml))
  else Some m1).

(** planner_functions.cpp:132-137, 161-200 *)
Definition fillMatrices (cell_cost : Z -> Z -> option (N * N)) : option two_mats :=
  let nanm := Mat GRID_LENGTH_E GRID_LENGTH_Z (fun _ _ => nanv N) in
  foldM (fun m e => fillRow cell_cost (stepSize e) m e) (nanm, nanm) (zrange GRID_LENGTH_E).

(** planner_functions.cpp:168-171 *)
Definition cellCost (h : hist N) (goal position velocity : vec3 N) (cp : costParameters N) (closest_pt : vec3 N)
    (facing : bool) (e z : Z) : option (N * N) :=
  match h_get N h e z with
  | None => None
  | Some obstacle_distance =>
      Some (costFunction (histogramIndexToPolar N e z ALPHA_RES (#1)) obstacle_distance goal position velocity cp closest_pt facing)
  end.

(** planner_functions.cpp:209-224. Casting a NaN to uint8_t would be undefined; [max(0, min(255, NaN))] is
    max(0, min(255,NaN)) = max(0, 255) ... std::min(255.f, x) = (x < 255.f) ? x : 255.f = 255 for NaN. *)
Definition maxCoeff (m : mat N) : N :=
  fold_left (fun mx ez => maxv N mx (cell m (fst ez) (snd ez))) (grid_idx (rows m) (cols m)) (cell m 0 0).
Definition byte (x : N) : Z := cast (maxv N (#0) (minv N (#255) x)).
Definition generateCostImage (cost_matrix distance_matrix : mat N) : option (list Z) :=
  let max_val := maxv N (maxCoeff cost_matrix) (maxCoeff distance_matrix) in
  foldM (fun img ez =>
      let e := (GRID_LENGTH_E - 1 - fst ez)%Z in let z := snd ez in
      match mget distance_matrix e z, mget cost_matrix e z with
      | Some d, Some c => Some (img ++ [byte (#255 * d / max_val); byte (#255 * c / max_val); 0%Z])
      | _, _ => None
      end) [] (grid_idx GRID_LENGTH_E GRID_LENGTH_Z).
(** planner_functions.cpp:226-229 *)
Definition colorImageIndex (e_ind z_ind color : Z) : Z :=
  (((GRID_LENGTH_E - e_ind - 1) * GRID_LENGTH_Z + z_ind) * 3 + color)%Z.

(** planner_functions.cpp:128-207 *)
Definition getCostMatrix (h : hist N) (goal position velocity : vec3 N) (cp : costParameters N)
    (smoothing_margin_degrees : N) (closest_pt : vec3 N) (max_range min_range : N) : option (mat N * list Z) :=
  obind (obstacleFacingGoal h goal position max_range min_range) (fun facing =>
  obind (fillMatrices (cellCost h goal position velocity cp closest_pt facing)) (fun m =>
  let smooth_radius := ceilc (smoothing_margin_degrees / #ALPHA_RES) in
  obind (smoothPolarMatrix (snd m) smooth_radius) (fun dist =>
  obind (generateCostImage (fst m) dist) (fun img =>
  Some (Mat GRID_LENGTH_E GRID_LENGTH_Z (fun e z => cell (fst m) e z + cell dist e z), img))))).

(* ------------------------------------------------------- getBestCandidatesFromCostMatrix 231-258 *)
(** std::priority_queue: a bag of candidates with [top], the element that [top()] returns and [pop()]
    removes, together with the bag without it; [None] if the queue is empty (undefined in C++). Which of
    several elements of equal cost is on top is unspecified, so [top] is an argument. *)
Section Best.
Variable top : list (candidate N) -> option (candidate N * list (candidate N)).
(** planner_functions.cpp:235-247 *)
Definition best_step (n : Z) (q : list (candidate N)) (c : candidate N) : option (list (candidate N)) :=
  if (Z.of_nat (length q) <? n)%Z then Some (c :: q)
  else match top q with
       | None => None                                    (* queue.top() of an empty queue *)
       | Some (t, _) => if c_cost c <? c_cost t
                        then match top (c :: q) with Some (_, q') => Some q' | None => None end
                        else Some q
       end.
(** planner_functions.cpp:253-256 *)
Fixpoint drain (fuel : nat) (q : list (candidate N)) : list (candidate N) :=
  match fuel with
  | O => []
  | S fuel' => match top q with Some (t, q') => t :: drain fuel' q' | None => [] end
  end.
(** planner_functions.cpp:236-239: the candidates in the order they are looked at *)
Definition candidates (matrix : mat N) : list (candidate N) :=
  map (fun ez => let p := histogramIndexToPolar N (fst ez) (snd ez) ALPHA_RES (#1) in
                 Cand (cell matrix (fst ez) (snd ez)) (pe p) (pz p)) (grid_idx (rows matrix) (cols matrix)).
Definition getBestCandidatesFromCostMatrix (matrix : mat N) (n : Z) : option (list (candidate N)) :=
  match foldM (best_step n) [] (candidates matrix) with
  | None => None
  | Some q => Some (rev (drain (length q) q))
  end.
End Best.

(* ------------------------------------------------------------------- getSetpointFromPath 365-390 *)
(** setpoint = from + (distance_left / segment.norm()) * segment *)
Definition onSegment (from seg : vec3 N) (distance_left : N) : vec3 N :=
  v3add N from (v3scale N (distance_left / v3norm N seg) seg).
(** planner_functions.cpp:383-387. The path is stored last node first; the loop walks towards index 0. The
    model's [rest] holds path[i-1], path[i-2], ..., path[0] and [here] is path[i]. *)
Fixpoint sp_walk (rest : list (vec3 N)) (here seg : vec3 N) (distance_left : N) (setpoint : vec3 N)
    : bool * vec3 N :=
  match rest with
  | [] => (distance_left <? v3norm N seg, setpoint)
  | next :: rest' =>
      if v3norm N seg <? distance_left then
        let d := distance_left - v3norm N seg in
        let seg' := v3sub N next here in
        sp_walk rest' next seg' d (onSegment here seg' d)
      else (distance_left <? v3norm N seg, setpoint)
  end.
(** planner_functions.cpp:365-390; [dist] is (current_time - path_generation_time).toSec() * velocity.
    The setpoint argument is left untouched on the early exit: [None]. *)
Definition getSetpointFromPath (path : list (vec3 N)) (dist : N) : bool * option (vec3 N) :=
  match rev path with
  | [] | [_] => (false, None)
  | [_; p0] => (true, Some p0)
  | _ :: a :: b :: rest =>
      let seg := v3sub N b a in
      let (ok, sp) := sp_walk rest b seg dist (onSegment a seg dist) in
      (ok, Some sp)
  end.
End Pf.
