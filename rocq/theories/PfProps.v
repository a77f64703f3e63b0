(** Property theorems for local_planner/src/nodes/planner_functions.cpp
    (C23, C24, C25, C26 first half, C27, C28, C29, C30, C33, C62, C63). *)
From Coq Require Import ZArith Reals List Bool Lia Lra Permutation Sorting.Sorted.
From Flocq Require Import Core BinarySingleNaN.
From Verif Require Import Num Mat CommonModel CommonSpec HistModel HistProofs PfModel PfSpec PfProofs PfProofs2 PfProofs3 PfPad PfSmooth PfCost PfMisc PfExtra.
Import ListNotations.
Local Open Scope Z_scope.

(** C23. For every number system, trigonometry and float-to-int conversion. The result is the list of fresh
    points followed by the remembered ones. *)
Theorem C23_processed_cloud :
  forall (N : num) (G : trig N) (cast : N -> Z) (old : list (xyzi N)) (clouds : list (list (vec3 N))) (fovs : list (fov N))
    (yaw pitch : N) (position : vec3 N) (min_range max_range max_age elapsed : N) (min_num : Z),
  clouds <> [] ->
  exists fresh kept,
    processPointcloud N G cast old clouds fovs yaw pitch position min_range max_range max_age elapsed min_num = Some (fresh ++ kept) /\
    NoDup (map (fun q => fineIndex N G cast position (pt q)) (fresh ++ kept)) /\
    (forall q, In q fresh -> age q = ofZ N 0 /\ In (pt q) (concat clouds) /\
       accepted N position min_range max_range (pt q) = true /\
       1 <= min_num <= hits N G cast position min_range max_range (concat clouds) (fineIndex N G cast position (pt q))) /\
    (forall c, 1 <= min_num <= hits N G cast position min_range max_range (concat clouds) c ->
       exists q, In q fresh /\ fineIndex N G cast position (pt q) = c) /\
    (forall q, In q kept -> exists o, In o old /\ pt q = pt o).
Proof.
  intros N G cast old clouds fovs yaw pitch position min_range max_range max_age elapsed min_num Hne.
  destruct (processPointcloud_spec N G cast position min_range max_range min_num fovs yaw pitch max_age elapsed old clouds Hne)
    as (fr & rem & E & ND & F1 & F2 & K1 & _).
  exists fr, rem. split; [exact E|]. split; [exact ND|]. split; [exact F1|]. split; [exact F2|].
  intros q Hq. destruct (K1 q Hq) as (o & Ho & _ & Hp & _). eauto.
Qed.
Print Assumptions C23_processed_cloud.
(** C23: in binary32 an accepted measurement has three finite coordinates, whatever the position and ranges are. *)
Theorem C23_accepted_points_finite :
  forall (position p : vec3 F32) (lo hi : F32), accepted F32 position lo hi p = true ->
  is_finite (vx p : f32) = true /\ is_finite (vy p : f32) = true /\ is_finite (vz p : f32) = true.
Proof. exact accepted_finite. Qed.
Print Assumptions C23_accepted_points_finite.
(** over the reals: accepted = strictly between the two distances *)
Theorem C23_accepted_distance :
  forall (position p : vec3 Rn) (lo hi : R), (0 <= lo)%R -> (0 <= hi)%R ->
  accepted Rn position lo hi p = true <-> (lo < v3norm Rn (v3sub Rn p position) < hi)%R.
Proof. exact accepted_R. Qed.
Print Assumptions C23_accepted_distance.
Definition f32tr : trig F32 := {| t_sin := fun x => x; t_cos := fun _ => ofZ F32 1; t_atan2 := fun a b => div F32 a b; t_asin := fun x => x |}.
Definition fpt (x y z : Z) : vec3 F32 := V3 (ofZ F32 x) (ofZ F32 y) (ofZ F32 z).
(** two measurements in one cell, one NaN, one too far, one remembered point *)
Example C23_example :
  option_map (@length _) (processPointcloud F32 f32tr (f32_cast : F32 -> Z) [XYZI (fpt 0 (-5) 0) (ofZ F32 1)]
    [[fpt 5 0 0; V3 (B754_nan : F32) (ofZ F32 0) (ofZ F32 0)]; [fpt 5 0 0; fpt 100 0 0]] [] (ofZ F32 0) (ofZ F32 0)
    (fpt 0 0 0) (ofZ F32 1) (ofZ F32 20) (ofZ F32 10) (ofZ F32 1) 2) = Some 2%nat /\
  hits F32 f32tr (f32_cast : F32 -> Z) (fpt 0 0 0) (ofZ F32 1) (ofZ F32 20)
    (concat [[fpt 5 0 0; V3 (B754_nan : F32) (ofZ F32 0) (ofZ F32 0)]; [fpt 5 0 0; fpt 100 0 0]])
    (fineIndex F32 f32tr (f32_cast : F32 -> Z) (fpt 0 0 0) (fpt 5 0 0)) = 2.
Proof. split; vm_compute; reflexivity. Qed.

(** C24. One cycle: exactly which remembered points survive (at most one per cell, and at least one if any could). *)
Theorem C24_remembered_points :
  forall (N : num) (G : trig N) (cast : N -> Z) (old : list (xyzi N)) (clouds : list (list (vec3 N))) (fovs : list (fov N))
    (yaw pitch : N) (position : vec3 N) (min_range max_range max_age elapsed : N) (min_num : Z),
  clouds <> [] ->
  let survives o :=
    ltb N (distSq N position (pt o)) (mul N max_range max_range) = true /\ ltb N (age o) max_age = true /\
    pointInsideFOVs N fovs (fcuDirection N G yaw pitch position (pt o)) = false /\
    hits N G cast position min_range max_range (concat clouds) (fineIndex N G cast position (pt o)) < min_num in
  exists fresh kept,
    processPointcloud N G cast old clouds fovs yaw pitch position min_range max_range max_age elapsed min_num = Some (fresh ++ kept) /\
    NoDup (map (fun q => fineIndex N G cast position (pt q)) (fresh ++ kept)) /\
    (forall q, In q kept -> exists o, In o old /\ survives o /\ pt q = pt o /\ age q = add N (age o) elapsed) /\
    (forall o, In o old -> survives o -> exists q, In q kept /\ fineIndex N G cast position (pt q) = fineIndex N G cast position (pt o)).
Proof.
  intros N G cast old clouds fovs yaw pitch position min_range max_range max_age elapsed min_num Hne survives.
  destruct (processPointcloud_spec N G cast position min_range max_range min_num fovs yaw pitch max_age elapsed old clouds Hne)
    as (fr & rem & E & ND & _ & _ & K1 & K2).
  exists fr, rem. split; [exact E|]. split; [exact ND|]. split; [exact K1|exact K2].
Qed.
Print Assumptions C24_remembered_points.
(** C24. Histories: after any number of cycles starting with an empty memory, every remembered point was a real
    measurement of some past cycle, its age is the time elapsed since then, and in every later cycle it was younger
    than max_age, out of all cameras' views and within range. *)
Theorem C24_history :
  forall (N : num) (G : trig N) (cast : N -> Z) (max_age : N) (cs : list (cycle N)) (out : list (xyzi N)),
  foldM (cycle_step N G cast max_age) [] cs = Some out -> forall q, In q out -> traced N G max_age cs q.
Proof. exact history_traced. Qed.
Print Assumptions C24_history.
(** C24. Hence (real arithmetic) a point whose last measurement lies max_age or more before the end of the previous
    cycle is gone. *)
Theorem C24_expires :
  forall (G : trig Rn) (cast : R -> Z) (max_age : R) (cs : list (cycle Rn)) (last : cycle Rn) (old : list (cycle Rn)) (out : list (xyzi Rn)) (p : vec3 Rn),
  foldM (cycle_step Rn G cast max_age) [] (old ++ cs ++ [last]) = Some out ->
  (forall c, In c (old ++ cs ++ [last]) -> (0 <= cy_elapsed Rn c)%R) ->
  (forall c, In c (cs ++ [last]) -> ~ In p (concat (cy_clouds Rn c))) ->
  (max_age <= fold_right (fun c s => cy_elapsed Rn c + s) 0 cs)%R ->
  ~ exists q, In q out /\ pt q = p.
Proof. exact history_expires. Qed.
Print Assumptions C24_expires.
Definition ex_cycle (cl : list (vec3 F32)) : cycle F32 :=
  Cycle F32 [cl] [] (ofZ F32 0) (ofZ F32 0) (fpt 0 0 0) (ofZ F32 1) (ofZ F32 20) (ofZ F32 4) 1.
(** seen once, remembered for three cycles of 4 s with max_age 10 s, then gone *)
Example C24_example :
  let run n := foldM (cycle_step F32 f32tr (f32_cast : F32 -> Z) (ofZ F32 10)) [] (ex_cycle [fpt 5 0 0] :: repeat (ex_cycle []) n) in
  option_map (@length _) (run 3%nat) = Some 1%nat /\ option_map (@length _) (run 4%nat) = Some 0%nat.
Proof. split; vm_compute; reflexivity. Qed.

(** C25. [in_cell e z cloud]: the points whose direction falls in the cell; [dist_of]: their distance. Starting from a
    histogram with zero distances (as a freshly constructed or reset one), for every number system: *)
Theorem C25_mean_distance :
  forall (N : num) (G : trig N) (cast : N -> Z) (position : vec3 N) (h0 : hist N) (cloud : list (xyzi N)),
  reachable N h0 -> h_res h0 = ALPHA_RES ->
  exists h, generateNewHistogram N G cast h0 cloud position = Some h /\
  forall e z, 0 <= e < 30 -> 0 <= z < 60 -> exists d0, h_get N h0 e z = Some d0 /\
    h_get N h e z = Some (match in_cell N G cast position e z cloud with
                          | [] => ofZ N 0
                          | l => div N (sum_from N G position d0 l) (ofZ N (Z.of_nat (length l))) end).
Proof.
  intros N G cast position h0 cloud Hr H6. pose proof (reachable_ghist N h0 Hr H6) as Hg.
  destruct (generateNewHistogram_spec N G cast position h0 cloud Hg) as (h & E & _ & S). exists h. split; [exact E|].
  intros e z He Hz. exists (cell (h_dist h0) e z). split; [now apply ghist_get|now apply S].
Qed.
Print Assumptions C25_mean_distance.
(** C25, real arithmetic: the stored value times the number of points is the sum of the distances of exactly the points
    in that cell; the distance of a point is its Euclidean distance. *)
Theorem C25_mean_distance_real :
  forall (cast : R -> Z) (position : vec3 Rn) (h0 : hist Rn) (cloud : list (xyzi Rn)),
  reachable Rn h0 -> h_res h0 = ALPHA_RES -> (forall e z d, h_get Rn h0 e z = Some d -> d = 0%R) ->
  exists h, generateNewHistogram Rn Rtrig cast h0 cloud position = Some h /\
  forall e z, 0 <= e < 30 -> 0 <= z < 60 ->
    let pts := filter (fun q => same_cell (polarToHistogramIndex Rn cast (cartesianToPolarHistogram Rn Rtrig (pt q) position) ALPHA_RES) (z, e)) cloud in
    exists v : R, h_get Rn h e z = Some v /\ (pts = [] -> v = 0%R) /\
    (v * IZR (Z.of_nat (length pts)) = fold_right (fun q s => v3norm Rn (v3sub Rn (pt q) position) + s) 0 pts)%R.
Proof. exact mean_R. Qed.
Print Assumptions C25_mean_distance_real.
Definition hist_of (ops : list (hop F32)) : hist F32 :=
  match h_new F32 6 with Some h => match h_run F32 h ops with Some h' => h' | None => h end | None => Hist 6 60 30 (Mat 30 60 (fun _ _ => ofZ F32 0)) end.
Definition int_at (h : option (hist F32)) (e z : Z) : option Z :=
  match h with Some h => option_map (f32_cast : F32 -> Z) (h_get F32 h e z) | None => None end.
Example C25_example : reachable F32 (hist_of []) /\ h_res (hist_of []) = ALPHA_RES /\
  int_at (generateNewHistogram F32 f32tr (f32_cast : F32 -> Z) (hist_of []) [XYZI (fpt 0 4 0) (ofZ F32 0); XYZI (fpt 0 8 0) (ofZ F32 0)] (fpt 0 0 0)) 15 30 = Some 6.
Proof.
  split; [exists 6; eexists; exists []; repeat split; reflexivity|]. split; [reflexivity|]. vm_compute. reflexivity.
Qed.

(** C26, first half. Row 0 of the compressed histogram holds, for each azimuth, the nearest level obstacle (see
    [level_obstacle]: a cell of the rows 13..16 whose obstacle is less than 1 m above or below the vehicle), or zero. *)
Theorem C26_compressed_histogram :
  forall (G : trig F32) (position : vec3 F32) (inp h0 : hist F32),
  reachable F32 inp -> h_res inp = ALPHA_RES -> reachable F32 h0 -> h_res h0 = ALPHA_RES ->
  (forall z v, h_get F32 h0 0 z = Some v -> v = (ofZ F32 0 : F32)) ->
  exists h, compressHistogramElevation F32 G (f32_cast : F32 -> Z) h0 inp position = Some h /\
  forall z, 0 <= z < 60 -> exists v, h_get F32 h 0 z = Some v /\ nearest_level F32 G position inp [13; 14; 15; 16] z v.
Proof.
  intros G position inp h0 Ri Hi R0 H0 Hz. pose proof (reachable_ghist F32 inp Ri Hi) as Gi. pose proof (reachable_ghist F32 h0 R0 H0) as G0.
  destruct (compress_spec F32 ordered_F32 G (f32_cast : F32 -> Z) position inp h0 13 16 Gi G0) as (h & E & _ & S).
  - intros z Hr. apply (Hz z). now apply ghist_get.
  - exact (proj1 band_F32).
  - exact (proj2 band_F32).
  - exists h. split; [exact E|]. exact S.
Qed.
Print Assumptions C26_compressed_histogram.
Definition ex_obst : hist F32 := hist_of [HSet 14 7 (ofZ F32 9); HSet 15 7 (ofZ F32 4); HSet 29 8 (ofZ F32 9)].
Example C26_example : reachable F32 ex_obst /\ h_res ex_obst = ALPHA_RES /\ reachable F32 (hist_of []) /\
  (let h := compressHistogramElevation F32 f32tr (f32_cast : F32 -> Z) (hist_of []) ex_obst (fpt 0 0 0) in
   int_at h 0 7 = Some 4 /\ int_at h 0 8 = Some 0).
Proof.
  split; [exists 6; eexists; exists [HSet 14 7 (ofZ F32 9); HSet 15 7 (ofZ F32 4); HSet 29 8 (ofZ F32 9)]; repeat split; reflexivity|].
  split; [reflexivity|]. split; [exists 6; eexists; exists []; repeat split; reflexivity|]. split; vm_compute; reflexivity.
Qed.

(** C27. For every priority queue implementation, every matrix without NaN and every n >= 1: the result has min(n, cells)
    elements, is sorted by cost, and no cell that was not selected is cheaper than a selected one. Holds in binary32 and
    over the reals (both are [ordered_num]). *)
Theorem C27_cheapest :
  forall (N : num) (top : list (candidate N) -> option (candidate N * list (candidate N))) (m : mat N) (n : Z),
  N = F32 \/ N = Rn ->
  is_priority_queue N top -> 1 <= n ->
  (forall e z, 0 <= e < rows m -> 0 <= z < cols m -> isnanb N (cell m e z) = false) ->
  exists out rest, getBestCandidatesFromCostMatrix N top m n = Some out /\
    Permutation (candidates N m) (out ++ rest) /\
    Z.of_nat (length out) = Z.min n (Z.of_nat (Z.to_nat (rows m) * Z.to_nat (cols m))) /\
    StronglySorted (fun a b => ltb N (c_cost b) (c_cost a) = false) out /\
    (forall r c, In r rest -> In c out -> ltb N (c_cost r) (c_cost c) = false).
Proof.
  intros N top m n HN PQ Hn Hnan. assert (O : ordered_num N) by (destruct HN as [->| ->]; [exact ordered_F32|exact ordered_Rn]).
  destruct (getBest_spec N O top PQ m n Hn) as (out & rest & E & P & L & S & M).
  { intros c Hc. unfold candidates in Hc. apply in_map_iff in Hc. destruct Hc as ((e, z) & <- & Hez). cbn [c_cost fst snd].
    apply in_grid_idx in Hez. apply Hnan; apply Hez. }
  exists out, rest. repeat split; auto. rewrite L. unfold candidates. rewrite map_length, length_grid_idx. reflexivity.
Qed.
Print Assumptions C27_cheapest.
(** the candidates are the cells of the matrix with the directions of their centres *)
Theorem C27_candidates_are_the_cells :
  forall (N : num) (m : mat N) (c : candidate N), In c (candidates N m) <->
  exists e z, 0 <= e < rows m /\ 0 <= z < cols m /\ c_cost c = cell m e z /\
    c_e c = pe (histogramIndexToPolar N e z ALPHA_RES (ofZ N 1)) /\ c_z c = pz (histogramIndexToPolar N e z ALPHA_RES (ofZ N 1)).
Proof. exact candidates_cells. Qed.
Print Assumptions C27_candidates_are_the_cells.
(** C27 for n = 0 (children_per_node_ may be configured to 0): top() of an empty queue, undefined behaviour. *)
Theorem C27_zero_requested_refuted :
  forall (N : num) (top : list (candidate N) -> option (candidate N * list (candidate N))) (m : mat N),
  is_priority_queue N top -> 0 < rows m -> 0 < cols m -> getBestCandidatesFromCostMatrix N top m 0 = None.
Proof.
  intros N top m PQ Hr Hc. apply getBest_zero; [exact PQ|]. intros X. apply (f_equal (@length _)) in X.
  unfold candidates in X. rewrite map_length, length_grid_idx in X. cbn in X. nia.
Qed.
Print Assumptions C27_zero_requested_refuted.
Definition ex_m : mat F32 := Mat 2 3 (fun e z => ofZ F32 ((7 * e + 5 * z) mod 11)).
Example C27_example : is_priority_queue F32 (scan_top F32) /\
  (forall e z, 0 <= e < rows ex_m -> 0 <= z < cols ex_m -> isnanb F32 (cell ex_m e z) = false) /\
  option_map (map (fun c => f32_cast (c_cost c))) (getBestCandidatesFromCostMatrix F32 (scan_top F32) ex_m 3) = Some [0; 1; 5].
Proof.
  split; [exact (scan_top_pq F32 ordered_F32)|]. split.
  - intros e z He Hz. change (0 <= e < 2) in He. change (0 <= z < 3) in Hz.
    assert (e = 0 \/ e = 1) as [->| ->] by lia; assert (z = 0 \/ z = 1 \/ z = 2) as [->|[->| ->]] by lia; vm_compute; reflexivity.
  - vm_compute. reflexivity.
Qed.

(** C28 *)
Theorem C28_padding_is_spherical :
  forall (N : num) (m : mat N) (n : Z), 0 <= n <= rows m -> n <= cols m -> cols m mod 2 = 0 -> 0 < cols m ->
  exists p, padPolarMatrix N m n = Some p /\ rows p = rows m + 2 * n /\ cols p = cols m + 2 * n /\
  forall i j, 0 <= i < rows p -> 0 <= j < cols p ->
    cell p i j = let (r, c) := sphere_cell (rows m) (cols m) (i - n) (j - n) in cell m r c.
Proof. exact pad_spec. Qed.
Print Assumptions C28_padding_is_spherical.
(** the cell reached on the sphere is where the direction of the padded index points: elevation e and azimuth z of row i,
    column j of a grid of 180/R by 360/C degree cells, mapped over the poles *)
Theorem C28_sphere_cell_direction :
  forall R C r c : Z, 0 < R -> 0 < C -> C mod 2 = 0 -> - R <= r < 2 * R ->
  let (r', c') := sphere_cell R C r c in 0 <= r' < R /\ 0 <= c' < C /\
  (0 <= r < R -> r' = r /\ (c' - c) mod C = 0) /\
  (r < 0 -> r + r' = -1 /\ (c' - c - C / 2) mod C = 0) /\
  (R <= r -> r + r' = 2 * R - 1 /\ (c' - c - C / 2) mod C = 0).
Proof. exact sphere_cell_direction. Qed.
Print Assumptions C28_sphere_cell_direction.
Example C28_example : let m := Mat 3 6 (fun r c => ofZ Rn (10 * r + c)) in
  0 <= 2 <= rows m /\ 2 <= cols m /\ cols m mod 2 = 0 /\ 0 < cols m /\ sphere_cell 3 6 (-2) 4 = (1, 1) /\ sphere_cell 3 6 4 (-1) = (1, 2).
Proof. cbn. repeat split; lia. Qed.

(** C29, real arithmetic, with the C++ rounding functions. [evaluated e z] is the cost of the direction of cell (e,z). Every
    cell of both matrices lies on the straight line between the evaluated values of the neighbouring evaluated columns a and b, w columns apart
    (a = z if column z is evaluated itself; b = 0 after the last one: azimuth wraps around). *)
Theorem C29_every_cell_filled :
  forall (cast : R -> Z) (h : hist Rn) goal position velocity cp (margin : R) closest max_range min_range,
  reachable Rn h -> h_res h = ALPHA_RES -> (0 <= margin <= 180)%R ->
  exists facing (cm dm sm : mat Rn) img out,
    obstacleFacingGoal Rn Rtrig cast h goal position max_range min_range = Some facing /\
    getCostMatrix Rn Rtrig cast (ZnearestA : Rn -> Z) (Zceil : Rn -> Z) h goal position velocity cp margin closest max_range min_range = Some (out, img) /\
    rows out = 30 /\ cols out = 60 /\ rows dm = 30 /\ cols dm = 60 /\
    smoothPolarMatrix Rn dm (Zceil (margin / 6)%R) = Some sm /\ generateCostImage Rn cast cm sm = Some img /\
    forall e z, 0 <= e < 30 -> 0 <= z < 60 ->
      let step := ZnearestA (1 / cos (IZR (6 * e + 3 - 90) * (PI / 180)))%R in
      let evaluated z' := costFunction Rn Rtrig (histogramIndexToPolar Rn e z' ALPHA_RES 1%R)
                            (match h_get Rn h e z' with Some d => d | None => 0%R end) goal position velocity cp closest facing in
      let a := z - z mod step in let w := Z.min step (60 - a) in let b := (a + w) mod 60 in
      1 <= step /\
      cell out e z = (cell cm e z + cell sm e z)%R /\
      cell dm e z = (fst (evaluated a) + IZR (z - a) / IZR w * (fst (evaluated b) - fst (evaluated a)))%R /\
      cell cm e z = (snd (evaluated a) + IZR (z - a) / IZR w * (snd (evaluated b) - snd (evaluated a)))%R.
Proof. exact every_cell_filled. Qed.
Print Assumptions C29_every_cell_filled.
Example C29_example : exists h : hist Rn, reachable Rn h /\ h_res h = ALPHA_RES /\ (0 <= 40 <= 180)%R.
Proof. eexists. split; [exists 6; eexists; exists [HSet 3 7 (ofZ Rn 5)]; repeat split; reflexivity|]. split; [reflexivity|lra]. Qed.

(** C30 *)
Theorem C30_obstacle_cost :
  forall cand (d : R) goal position velocity cp closest facing,
  let c := fst (costFunction Rn Rtrig cand d goal position velocity cp closest facing) in
  (0 <= c < 10000)%R /\ ((d <= 0)%R -> c = 0%R) /\ ((0 < d)%R -> (0 < c)%R).
Proof. exact distance_cost_range. Qed.
Print Assumptions C30_obstacle_cost.
Theorem C30_farther_is_cheaper :
  forall cand cand' (d1 d2 : R) goal goal' position position' velocity velocity' cp closest closest' facing facing', (0 < d1 <= d2)%R ->
  (fst (costFunction Rn Rtrig cand d2 goal position velocity cp closest facing) <=
   fst (costFunction Rn Rtrig cand' d1 goal' position' velocity' cp closest' facing'))%R.
Proof. intros. exact (distance_cost_mono cand d1 d2 goal position velocity cp closest facing H). Qed.
Print Assumptions C30_farther_is_cheaper.
Theorem C30_other_costs_nonneg :
  forall cand (d : R) goal position velocity (cp : costParameters Rn) closest facing,
  (0 <= yaw_cost_param cp)%R /\ (0 <= pitch_cost_param cp)%R /\ (0 <= velocity_cost_param cp)%R -> goal <> position ->
  (0 <= snd (costFunction Rn Rtrig cand d goal position velocity cp closest facing))%R.
Proof. exact other_cost_nonneg. Qed.
Print Assumptions C30_other_costs_nonneg.
(** As executed the claim fails at the goal itself: the pitch cost is divided by zero and the cost of every direction is
    infinite or not a number. *)
Theorem C30_at_the_goal_refuted :
  forall (G : trig F32) cand d (p : vec3 F32) velocity cp closest facing,
  is_finite (vx p : f32) = true -> is_finite (vy p : f32) = true -> is_finite (vz p : f32) = true ->
  is_finite (snd (costFunction F32 G cand d p p velocity cp closest facing) : f32) = false.
Proof. exact cost_at_goal_nonfinite. Qed.
Print Assumptions C30_at_the_goal_refuted.
Example C30_example : let cp := CostParams 3%R 25%R 6000%R 8%R in
  (0 <= yaw_cost_param cp)%R /\ (0 <= pitch_cost_param cp)%R /\ (0 <= velocity_cost_param cp)%R /\ (0 < 2 <= 5)%R.
Proof. cbn. lra. Qed.

(** C33, real arithmetic. The path is stored last node first; flown in order it is first, a, b, rest...; [dist] is time since
    generation times velocity. If the function succeeds, the setpoint is the point at that distance along the path from a. It
    succeeds exactly before the end of the path, except at the instants at which an inner node is reached. *)
Theorem C33_setpoint_on_path :
  forall (first a b : vec3 Rn) (rest : list (vec3 Rn)) (dist : R), (0 <= dist)%R -> no_zero_segment a (b :: rest) ->
  exists ok sp, getSetpointFromPath Rn (rev (first :: a :: b :: rest)) dist = (ok, Some sp) /\
  (ok = true -> at_distance a (b :: rest) dist sp) /\
  (ok = true <-> (dist < path_length a (b :: rest))%R /\ ~ In dist (node_distances a (b :: rest))).
Proof. exact setpoint_spec. Qed.
Print Assumptions C33_setpoint_on_path.
Theorem C33_short_paths :
  forall (N : num) (dist : N) (p q : vec3 N),
  fst (getSetpointFromPath N [] dist) = false /\ fst (getSetpointFromPath N [p] dist) = false /\
  getSetpointFromPath N [q; p] dist = (true, Some q).
Proof. intros. repeat split. Qed.
Print Assumptions C33_short_paths.
(** The call fails although the path is not flown through: exactly when the vehicle's nominal progress hits an inner node. *)
Theorem C33_fails_at_nodes_refuted :
  exists (path : list (vec3 Rn)) (dist : R), (0 < dist < path_length (V3 0 0 0)%R [(V3 1 0 0)%R; (V3 3 0 0)%R])%R /\
    path = rev [(V3 (-1) 0 0)%R; (V3 0 0 0)%R; (V3 1 0 0)%R; (V3 3 0 0)%R] /\
    no_zero_segment (V3 0 0 0)%R [(V3 1 0 0)%R; (V3 3 0 0)%R] /\
    fst (getSetpointFromPath Rn path dist) = false.
Proof. exact setpoint_fails_at_node. Qed.
Print Assumptions C33_fails_at_nodes_refuted.
Example C33_example : no_zero_segment (V3 0 0 0)%R [(V3 1 0 0)%R; (V3 3 0 0)%R].
Proof. cbn. repeat split; intros [=]; lra. Qed.

(** C62. The image has three channels per cell; the accessor colorImageIndex addresses each channel of each cell exactly once
    and finds there the (scaled) obstacle cost, other cost, and zero. *)
Theorem C62_image_layout :
  forall (N : num) (cast : N -> Z) (c d : mat N) (img : list Z), generateCostImage N cast c d = Some img ->
  Z.of_nat (length img) = 3 * 30 * 60 /\
  forall e z col, 0 <= e < 30 -> 0 <= z < 60 -> 0 <= col < 3 ->
    0 <= colorImageIndex e z col < 3 * 30 * 60 /\
    nth_error img (Z.to_nat (colorImageIndex e z col)) =
      nth_error [byte N cast (div N (mul N (ofZ N 255) (cell d e z)) (maxv N (maxCoeff N c) (maxCoeff N d)));
                 byte N cast (div N (mul N (ofZ N 255) (cell c e z)) (maxv N (maxCoeff N c) (maxCoeff N d))); 0] (Z.to_nat col).
Proof. exact image_spec. Qed.
Print Assumptions C62_image_layout.
Theorem C62_index_injective :
  forall e z k e' z' k', 0 <= z < 60 -> 0 <= k < 3 -> 0 <= z' < 60 -> 0 <= k' < 3 ->
  colorImageIndex e z k = colorImageIndex e' z' k' -> e = e' /\ z = z' /\ k = k'.
Proof. exact colorIndex_inj. Qed.
Print Assumptions C62_index_injective.
Theorem C62_bytes_in_range :
  forall x : f32, 0 <= byte F32 (f32_cast : F32 -> Z) x <= 255.
Proof. exact byte_F32. Qed.
Print Assumptions C62_bytes_in_range.
Example C62_example : let m := Mat 30 60 (fun e z => ofZ F32 (e + z)) in
  colorImageIndex 29 5 1 = 16 /\
  match generateCostImage F32 (f32_cast : F32 -> Z) m m with Some img => nth_error img 16 | None => None end = Some 98.
Proof. split; [reflexivity|]. vm_compute. reflexivity. Qed.

(** C63 *)
Theorem C63_smoothing_is_cone_average :
  forall (m : mat Rn) (radius : Z), 0 <= radius <= rows m -> radius <= cols m -> cols m mod 2 = 0 -> 0 < cols m ->
  exists o, smoothPolarMatrix Rn m radius = Some o /\ rows o = rows m /\ cols o = cols m /\
  forall r c, 0 <= r < rows m -> 0 <= c < cols m ->
    cell o r c = zsum Rn (2 * radius + 1) (fun k =>
       (zsum Rn (2 * radius + 1) (fun l => (sphere_at m (r - radius + l) (c - radius + k) * cone radius l)%R : Rn) * cone radius k)%R : Rn).
Proof. exact smooth_spec. Qed.
Print Assumptions C63_smoothing_is_cone_average.
Theorem C63_never_lowers_obstacle_cost :
  forall (m o : mat Rn) (radius : Z), 0 <= radius <= rows m -> radius <= cols m -> cols m mod 2 = 0 -> 0 < cols m ->
  (forall i j, 0 <= i < rows m -> 0 <= j < cols m -> (0 <= cell m i j)%R) ->
  smoothPolarMatrix Rn m radius = Some o ->
  forall r c, 0 <= r < rows m -> 0 <= c < cols m -> (cell m r c <= cell o r c)%R.
Proof. exact smooth_bounds. Qed.
Print Assumptions C63_never_lowers_obstacle_cost.
(** ... and every obstacle within the smoothing radius raises the cost of the cells around it *)
Theorem C63_obstacle_raises_neighbourhood :
  forall (m o : mat Rn) (radius : Z), 0 <= radius <= rows m -> radius <= cols m -> cols m mod 2 = 0 -> 0 < cols m ->
  (forall i j, 0 <= i < rows m -> 0 <= j < cols m -> (0 <= cell m i j)%R) ->
  smoothPolarMatrix Rn m radius = Some o ->
  forall r c k l, 0 <= r < rows m -> 0 <= c < cols m -> - radius <= l <= radius -> - radius <= k <= radius ->
    (0 < sphere_at m (r + l) (c + k))%R -> (0 < cell o r c)%R.
Proof. exact smooth_raises. Qed.
Print Assumptions C63_obstacle_raises_neighbourhood.
Example C63_example : let m := Mat 30 60 (fun r c => if (r =? 3) && (c =? 0) then 1%R else 0%R) : mat Rn in
  0 <= 7 <= rows m /\ 7 <= cols m /\ cols m mod 2 = 0 /\ 0 < cols m /\ (0 < sphere_at m (-4) 30)%R.
Proof. cbn. repeat split; try lia. lra. Qed.
