(** Property theorems for local_planner/src/nodes/local_planner.cpp and trajectory_simulator.cpp (C26, C34, C35, C65, C66, C67). *)
From Coq Require Import ZArith Reals List Bool Lia Lra.
From Flocq Require Import Core BinarySingleNaN.
From Verif Require Import Num Mat CommonModel CommonSpec HistModel HistProofs PfModel PfSpec PfProofs PfProofs2 PfProofs3 PfMisc PfExtra PfProps
  StarModel StarSpec StarProofs LpModel LpSpec LpProofs LpProofs2.
Import ListNotations.

(** C26, second half: the obstacle distance scan, binary32, any histogram built by the planner. Entry i is about the azimuth
    column j half a turn away (see C26_scan_direction); it is NaN if no camera covers that column, the distance of the nearest
    level obstacle if that is beyond the minimum range, and slightly more than the maximum range otherwise. *)
Lemma plus_fin_nan (x y : f32) : is_nan x = false -> is_finite y = true -> is_nan (Bplus mode_NE x y : f32) = false.
Proof.
  intros Hx Hy. destruct x as [s|s| |s m e p]; try discriminate; destruct y as [s'|s'| |s' m' e' p']; try discriminate; try reflexivity.
  - cbn. destruct (Bool.eqb s s'); reflexivity.
  - apply is_nan_binary_normalize.
Qed.
Lemma plus_const_nan (x : f32) : is_nan x = false -> is_nan (add F32 x (cst F32 1 100) : f32) = false.
Proof. intros H. apply plus_fin_nan; [exact H|vm_compute; reflexivity]. Qed.
Theorem C26_scan :
  forall (G : trig F32) (position : vec3 F32) (yaw min_range max_range : F32) (fovs : list (fov F32)) (inp h0 : hist F32),
  reachable F32 inp -> h_res inp = ALPHA_RES -> reachable F32 h0 -> h_res h0 = ALPHA_RES ->
  (forall z v, h_get F32 h0 0 z = Some v -> v = (ofZ F32 0 : F32)) ->
  exists h scan, compressHistogramElevation F32 G (f32_cast : F32 -> Z) h0 inp position = Some h /\
    updateObstacleDistanceMsg F32 G h fovs position yaw min_range max_range = Some scan /\ length scan = 60%nat /\
    forall i, (0 <= i < 60)%Z -> exists j v out, (0 <= j < 60)%Z /\ ((j - i) mod 60 = 30)%Z /\ nearest_level F32 G position inp [13; 14; 15; 16]%Z j v /\
      nth_error scan (Z.to_nat i) = Some out /\
      let covered := histogramIndexYawInsideFOVs F32 G fovs j position yaw in
      (covered = false -> out = nanv F32) /\
      (covered = true -> ltb F32 min_range v = true -> out = v) /\
      (covered = true -> ltb F32 min_range v = false -> out = add F32 max_range (cst F32 1 100)) /\
      (is_nan (max_range : f32) = false -> (is_nan (out : f32) = true <-> covered = false)).
Proof.
  intros G position yaw mn mx fovs inp h0 Ri Hi R0 H0 Hz.
  pose proof (reachable_ghist F32 inp Ri Hi) as Gi. pose proof (reachable_ghist F32 h0 R0 H0) as G0.
  destruct (compress_spec F32 ordered_F32 G (f32_cast : F32 -> Z) position inp h0 13 16 Gi G0) as (h & E & Gh & S).
  - intros z Hr. apply (Hz z). now apply ghist_get.
  - exact (proj1 band_F32).
  - exact (proj2 band_F32).
  - destruct (scan_spec F32 G h fovs position yaw mn mx Gh) as (scan & Es & Ls & Is). exists h, scan.
    split; [exact E|]. split; [exact Es|]. split; [exact Ls|]. intros i Hir. destruct (Is i Hir) as (j & d & Hj & Hji & Hd & En).
    destruct (S j Hj) as (v & Ev & Nv). assert (d = v) as -> by congruence. exists j, v. eexists. split; [exact Hj|]. split; [exact Hji|]. split; [exact Nv|].
    split; [exact En|]. cbv zeta. destruct (histogramIndexYawInsideFOVs F32 G fovs j position yaw).
    + split; [discriminate|]. destruct (ltb F32 mn v) eqn:L.
      * split; [reflexivity|]. split; [discriminate|]. intros _. cbn [ltb F32] in L. apply f32_ltb_true in L. destruct L as (_ & L & _). split; congruence.
      * split; [discriminate|]. split; [reflexivity|]. intros Hm. rewrite (plus_const_nan mx Hm). split; discriminate.
    + split; [reflexivity|]. split; [discriminate|]. split; [discriminate|]. intros _. split; reflexivity.
Qed.
Print Assumptions C26_scan.
(** entry i covers the azimuths 6 i .. 6 i + 6 degrees: its column's centre is 6 i + 3 up to full turns *)
Theorem C26_scan_direction : forall i j : Z, (0 <= j < 60)%Z -> ((j - i) mod 60 = 30)%Z ->
  exists k : Z, pz (histogramIndexToPolar Rn 0 j ALPHA_RES (ofZ Rn 1)) = (IZR (6 * i + 3) + 360 * IZR k)%R.
Proof.
  intros i j Hj H. unfold histogramIndexToPolar. cbn [pz ofZ Rn]. exists ((j - i) / 60)%Z.
  rewrite <- mult_IZR, <- plus_IZR. f_equal. change ALPHA_RES with 6%Z. change (6 / 2)%Z with 3%Z.
  pose proof (Z.div_mod (j - i) 60 ltac:(lia)). lia.
Qed.
Print Assumptions C26_scan_direction.
(** covered: over the reals, one of the two edges of the column (3 degrees above or below its centre) at elevation -3 lies in the
    field of view of one of the cameras *)
Theorem C26_coverage : forall (fs : list (fov Rn)) (j : Z) position (yaw : R), (0 <= j < 60)%Z ->
  histogramIndexYawInsideFOVs Rn Rtrig fs j position yaw = true <->
  exists f edge, In f fs /\ (edge = 3 \/ edge = -3)%R /\
    pointInsideFOV Rn f (Pol (-3) (wrapAngleToPlusMinus180 Rn (90 - IZR (6 * j + 3 - 180) + edge - yaw)) 1 : polar Rn)%R = true.
Proof. exact cover_spec. Qed.
Print Assumptions C26_coverage.
Example C26_scan_example : let h := hist_of [HSet 0 37 (ofZ F32 4)] in let fs := [Fov (ofZ F32 0) (ofZ F32 0) (ofZ F32 340) (ofZ F32 180)] in
  option_map (fun l => map (fun i => option_map (fun x : f32 => f32_cast x) (nth_error l i)) [7; 8]%nat)
    (updateObstacleDistanceMsg F32 f32tr h fs (fpt 0 0 0) (ofZ F32 0) (ofZ F32 1) (ofZ F32 12)) = Some [Some 4%Z; Some 12%Z].
Proof. vm_compute. reflexivity. Qed.

(** C34, real arithmetic, positive acceleration and jerk limits. *)
Theorem C34_cruise_speed :
  forall (g : lp_config Rn) (s : lp_state Rn), (0 < g_acc_hor g)%R -> (0 < g_jerk_max g)%R -> (0 <= g_max_range g)%R ->
  let v := o_cruise (getAvoidanceOutput Rn g s) in
  (v <= g_mission_speed g)%R /\
  ((0 <= v)%R -> (stopping_distance v (g_acc_hor g) (g_jerk_max g) <= g_max_range g)%R) /\
  (v = g_mission_speed g \/ (v < g_mission_speed g)%R /\ stopping_distance v (g_acc_hor g) (g_jerk_max g) = g_max_range g) /\
  ((0 <= g_mission_speed g)%R -> (0 <= v)%R).
Proof. intros g s Ha Hj Hr. exact (cruise_R (g_mission_speed g) (g_xy_cruise g) (g_acc_hor g) (g_jerk_max g) (g_max_range g) Ha Hj Hr). Qed.
Print Assumptions C34_cruise_speed.
(** ... and in binary32, all parameter values: the speed of the mission item if there is one, MPC_XY_CRUISE otherwise, is never
    exceeded, nor is the computed limit when it is a number. *)
Theorem C34_cruise_speed_binary32 :
  forall (g : lp_config F32) (s : lp_state F32),
  let v : F32 := o_cruise (getAvoidanceOutput F32 g s) in
  let wanted : F32 := if finiteb F32 (g_mission_speed g) then g_mission_speed g else g_xy_cruise g in
  let limit : F32 := limitedSpeed F32 (g_acc_hor g) (g_jerk_max g) (g_max_range g) in
  is_nan (wanted : f32) = false ->
  leb F32 v wanted = true /\ (is_nan (limit : f32) = false -> leb F32 v limit = true) /\ (v = wanted \/ v = limit).
Proof.
  intros g s v wanted limit H. destruct (minv_F32 wanted limit H) as (A & B & _). split; [exact A|]. split; [exact B|].
  unfold v, getAvoidanceOutput, cruiseVelocity. cbn [o_cruise]. fold wanted limit. unfold minv. destruct (ltb F32 limit wanted); auto.
Qed.
Print Assumptions C34_cruise_speed_binary32.
(** But when the acceleration limit is not known (NaN, the initial value of the autopilot parameters) or the jerk limit is zero
    the computed limit is NaN and the sensor range does not limit the speed at all. *)
Theorem C34_no_limit_refuted :
  forall (mission xy jerk range : F32),
  cruiseVelocity F32 mission xy (nanv F32) jerk range = (if finiteb F32 mission then mission else xy) /\
  eqb F32 (cruiseVelocity F32 (ofZ F32 20) xy (ofZ F32 5) (ofZ F32 0) (ofZ F32 15)) (ofZ F32 20) = true.
Proof.
  intros mission xy jerk range. split; [|vm_compute; reflexivity]. unfold cruiseVelocity.
  assert (E : limitedSpeed F32 (nanv F32) jerk range = nanv F32) by (destruct jerk; reflexivity).
  rewrite E. unfold minv. cbn [ltb F32 nanv]. match goal with |- (if ?b then _ else _) = _ => assert (X : b = false); [|now rewrite X] end.
  apply not_true_is_false. intros X. apply f32_ltb_true in X. destruct X as (X & _). discriminate.
Qed.
Print Assumptions C34_no_limit_refuted.
Example C34_example : (* acceleration 5, jerk 8, range 15, mission speed 20: limited to 9 m/s (and a bit) *)
  f32_cast (cruiseVelocity F32 (ofZ F32 20) (ofZ F32 3) (ofZ F32 5) (ofZ F32 8) (ofZ F32 15)) = 9%Z /\
  f32_cast (cruiseVelocity F32 (nanv F32) (ofZ F32 3) (ofZ F32 5) (ofZ F32 8) (ofZ F32 15)) = 3%Z.
Proof. split; vm_compute; reflexivity. Qed.

(** C35, real arithmetic. *)
Theorem C35_trajectory :
  forall (lim : sim_limits Rn) (start : sim_state Rn) (step duration : R) (direction : vec3 Rn),
  (0 < step)%R -> (0 <= duration)%R -> (0 <= max_jerk lim)%R ->
  exists l P D, generateTrajectory Rn Rhypot (Zceil : Rn -> Z) lim start step direction duration = Some l /\
  Z.of_nat (length l) = Zceil (duration / step) /\
  (forall k a b, nth_error (start :: l) k = Some a -> nth_error l k = Some b -> exists j dt,
     (0 < dt <= step)%R /\ (v3norm Rn j <= max_jerk lim)%R /\ moves a b j dt /\
     steers P D (desiredVelocity Rn Rhypot lim direction) a j) /\
  ((v3norm Rn (s_acc start) <= Rmin (2 * sqrt (max_jerk lim)) (max_acceleration lim))%R ->
     forall b, In b l -> (v3norm Rn (s_acc b) <= Rmin (2 * sqrt (max_jerk lim)) (max_acceleration lim))%R).
Proof.
  intros lim start step duration direction Hs Hd Hj. unfold generateTrajectory.
  assert (Hn : (0 <= Zceil (duration / step))%Z).
  { rewrite <- (Zceil_IZR 0). apply Zceil_le. apply Rmult_le_pos; [exact Hd|left; apply Rinv_0_lt_compat; exact Hs]. }
  cbv zeta. change (div Rn duration step) with (duration / step)%R.
  destruct (Z.ltb_spec (Zceil (duration / step)) 0) as [X|_]; [lia|].
  match goal with |- context [simulate Rn ?P ?D ?a lim step ?vd ?n start] => exists (simulate Rn P D a lim step vd n start), P, D;
     destruct (simulate_R P D a step lim vd Hs Hj n start) as (L & I & A) end.
  split; [reflexivity|]. split; [rewrite L; apply Z2Nat.id; exact Hn|]. split.
  - intros k a b Ha Hb. destruct (I k a b Ha Hb) as (j & dt & H1 & H2 & H3 & H4). exists j, dt. auto.
  - rewrite <- (accLimit_R lim). exact A.
Qed.
Print Assumptions C35_trajectory.
(** the velocity steered to respects the velocity limits and points in the goal direction seen from above *)
Theorem C35_desired_velocity :
  forall (lim : sim_limits Rn) (dir : vec3 Rn), (0 <= max_xy_velocity lim)%R -> (min_z_velocity lim <= max_z_velocity lim)%R ->
  let v := desiredVelocity Rn Rhypot lim dir in
  (dist2 v (V3 0 0 0 : vec3 Rn) <= max_xy_velocity lim)%R /\ (min_z_velocity lim <= vz v <= max_z_velocity lim)%R /\
  exists k, (0 <= k)%R /\ vx v = (k * vx dir)%R /\ vy v = (k * vy dir)%R.
Proof. exact desired_R. Qed.
Print Assumptions C35_desired_velocity.
(** every number system: a negative number of steps throws (vector::reserve), otherwise exactly that many states are returned *)
Theorem C35_number_of_states :
  forall (N : num) (hyp : N -> N -> N) (ceil_int : N -> Z) lim start step dir duration,
  let n := ceil_int (div N duration step) in
  ((n < 0)%Z -> generateTrajectory N hyp ceil_int lim start step dir duration = None) /\
  ((0 <= n)%Z -> exists l, generateTrajectory N hyp ceil_int lim start step dir duration = Some l /\ Z.of_nat (length l) = n).
Proof.
  intros N hyp ceil_int lim start step dir duration n. unfold generateTrajectory. fold n. cbv zeta. destruct (Z.ltb_spec n 0); split; intros H'; try lia; [reflexivity|].
  eexists. split; [reflexivity|]. match goal with |- context [simulate N ?P ?D ?a lim step ?vd ?m ?s] => 
    assert (L : forall k t, length (simulate N P D a lim step vd k t) = k) end.
  { induction k as [|k IH]; intros t; cbn [simulate]; [reflexivity|]. destruct (stepChoice _ _ _ _ _ _ _ _). cbn [length]. now rewrite IH. }
  rewrite L. apply Z2Nat.id. exact H'.
Qed.
Print Assumptions C35_number_of_states.
(** binary32: without a direction to go to (zero vector) the desired velocity is zero, the controller gain is 0/0 and every state
    of the trajectory is NaN *)
Definition f32_ceil (x : F32) : Z := f32_cast (@Bnearbyint 24 128 _ mode_UP x).
Definition ex_lim : sim_limits F32 := Lim (ofZ F32 3) (ofZ F32 (-1)) (ofZ F32 10) (ofZ F32 5) (ofZ F32 20).
Definition ex_start : sim_state F32 := Sim (ofZ F32 0) (fpt 0 0 0) (fpt 1 0 0) (fpt 0 0 0).
Theorem C35_zero_direction_refuted :
  forall hyp : F32 -> F32 -> F32, (forall a b : F32, is_finite (hyp a b : f32) = true /\ Bsign (hyp a b : f32) = false) ->
  option_map (map (fun s : sim_state F32 => is_nan (vx (s_pos s) : f32))) (generateTrajectory F32 hyp f32_ceil ex_lim ex_start (cst F32 1 2) (fpt 0 0 0) (ofZ F32 1))
  = Some [true; true].
Proof.
  intros hyp H. unfold generateTrajectory.
  assert (E : desiredVelocity F32 hyp ex_lim (fpt 0 0 0) = fpt 0 0 0).
  { unfold desiredVelocity. change (v3normalized F32 (fpt 0 0 0)) with (fpt 0 0 0). cbn [vx vy vz fpt].
    match goal with |- context [hyp ?a ?b] => destruct (H a b) as (F & S); destruct (hyp a b) as [s|s| |s m e p]; try discriminate; cbn in S; subst s; vm_compute; reflexivity end. }
  rewrite E. vm_compute. reflexivity.
Qed.
Print Assumptions C35_zero_direction_refuted.
Example C35_example :
  option_map (map (fun s : sim_state F32 => (f32_cast (mul F32 (ofZ F32 10) (s_time s)), f32_cast (mul F32 (ofZ F32 100) (vx (s_vel s))))))
    (generateTrajectory F32 (fun a _ => a) f32_ceil ex_lim ex_start (cst F32 1 10) (fpt 10 0 0) (cst F32 3 10)) = Some [(1, 110); (2, 140); (2, 162)]%Z.
Proof. vm_compute. reflexivity. Qed.

(** C65. One planning cycle; every number system, trigonometry and priority queue. [cloud] of the next state is the output of
    processPointcloud (C23, C24). Either the obstacle histogram of that cloud is empty and path and path time stay as they were,
    or the cycle yields a path that ends at the vehicle and is stamped with the time of the cycle. *)
Theorem C65_cycle_effect :
  forall (N : num) (G : trig N) (secs : Z -> N) (cast rnd ceilc : N -> Z) top (huge : N) (g : lp_config N) (s s' : lp_state N) clouds (now : Z),
  (0 <= g_children g)%Z -> runPlanner N G secs cast rnd ceilc top huge g s clouds now = Some s' ->
  processPointcloud N G cast (l_cloud s) clouds (l_fovs s) (l_yaw s) (l_pitch s) (l_pos s) (g_min_range g) (g_max_range g)
    (g_max_age g) (secs (now - l_process_time s)%Z) (g_min_num g) = Some (l_cloud s') /\
  l_process_time s' = now /\ l_pos s' = l_pos s /\ l_vel s' = l_vel s /\ l_goal s' = l_goal s /\ l_fovs s' = l_fovs s /\
  l_yaw s' = l_yaw s /\ l_pitch s' = l_pitch s /\ l_prev_goal s' = l_prev_goal s /\
  exists h0 h empty, h_new N ALPHA_RES = Some h0 /\ generateNewHistogram N G cast h0 (l_cloud s') (l_pos s) = Some h /\ h_isEmpty N h = Some empty /\
  let out := getAvoidanceOutput N g s' in
  (empty = true -> o_path out = l_path s /\ o_path_time out = l_path_time s) /\
  (empty = false -> o_path_time out = now /\ exists p, o_path out = p ++ [l_pos s]).
Proof.
  intros N G secs cast rnd ceilc top huge g s s' clouds now Hc E.
  destruct (cycle_inv N G secs cast rnd ceilc top huge g s clouds now s' Hc E) as (H1 & H2 & H3 & H4 & H5 & H6 & H7 & H8 & H9 & H10 & _ & h0 & h & b & B1 & B2 & B3 & _ & B4).
  split; [exact H1|]. repeat (split; [assumption|]). exists h0, h, b. repeat (split; [assumption|]). cbn [getAvoidanceOutput o_path o_path_time].
  destruct b; split; intros Hb; try discriminate.
  - destruct B4 as (B4 & B5 & _). auto.
  - destruct B4 as (B4 & r & B5 & B6 & _). split; [exact B4|]. rewrite B6.
    exact (cycle_path N G secs cast rnd ceilc top huge g s clouds now s' r Hc E B5).
Qed.
Print Assumptions C65_cycle_effect.
(** Real arithmetic: the cycle always completes (at least one cloud, at least one child per node, margin 0..180 degrees) ... *)
Theorem C65_cycle_completes :
  forall (secs : Z -> R) (cast : R -> Z) (top : list (candidate Rn) -> option (candidate Rn * list (candidate Rn))) (huge : R)
    (g : lp_config Rn) (s : lp_state Rn) clouds (now : Z),
  is_priority_queue Rn top -> (0 <= g_margin g <= 180)%R -> (1 <= g_children g)%Z -> clouds <> [] ->
  exists s', runPlanner Rn Rtrig secs cast (ZnearestA : Rn -> Z) (Zceil : Rn -> Z) top huge g s clouds now = Some s'.
Proof. exact cycle_total. Qed.
Print Assumptions C65_cycle_completes.
(** ... with a fresh path whenever a point is remembered and none is at the vehicle itself, and with the old path, however old,
    when nothing is remembered. *)
Theorem C65_fresh_or_stale :
  forall (secs : Z -> R) (cast rnd ceilc : R -> Z) top (huge : R) (g : lp_config Rn) (s s' : lp_state Rn) clouds (now : Z),
  (0 <= g_children g)%Z -> runPlanner Rn Rtrig secs cast rnd ceilc top huge g s clouds now = Some s' ->
  (l_cloud s' = [] -> l_path s' = l_path s /\ l_path_time s' = l_path_time s) /\
  (l_cloud s' <> [] -> (forall q, In q (l_cloud s') -> (flt_min Rn < v3norm Rn (v3sub Rn (pt q) (l_pos s)))%R) ->
     l_path_time s' = now /\ exists p, l_path s' = p ++ [l_pos s]).
Proof.
  intros secs cast rnd ceilc top huge g s s' clouds now Hc E.
  destruct (C65_cycle_effect Rn Rtrig secs cast rnd ceilc top huge g s s' clouds now Hc E)
    as (_ & _ & _ & _ & _ & _ & _ & _ & _ & h0 & h & b & B1 & B2 & B3 & Bt & Bf). cbn [getAvoidanceOutput o_path o_path_time] in Bt, Bf.
  destruct (new_ghist Rn) as (h0' & E0 & G0 & Z0). assert (h0' = h0) as -> by congruence.
  destruct (generateNewHistogram_spec Rn Rtrig cast (l_pos s) h0 (l_cloud s') G0) as (h' & E1 & G1 & S1).
  assert (h' = h) as -> by congruence.
  destruct (isEmpty_wf Rn h (proj1 G1)) as (b' & E3 & I). assert (b' = b) as -> by congruence.
  assert (R6 : h_res h = 6%Z) by apply G1. rewrite R6 in I. change (180 / 6)%Z with 30%Z in I. change (360 / 6)%Z with 60%Z in I.
  assert (Hfm : (0 < flt_min Rn)%R). { cbn [flt_min Rn]. apply Rinv_0_lt_compat, IZR_lt. reflexivity. }
  split.
  - intros En. apply Bt. apply I. intros e z He Hz. pose proof (S1 e z He Hz) as X. rewrite (ghist_get Rn h e z G1 He Hz) in X.
    rewrite En in X. cbn [in_cell filter] in X. injection X as X. apply R_ltb_false. eapply Rle_trans; [apply Req_le; exact X|]. left. exact Hfm.
  - intros Hne Hfar. apply Bf. destruct b; [|reflexivity]. exfalso. destruct (l_cloud s') as [|q l] eqn:Ec; [congruence|].
    rewrite <- Ec in *. set (c := coarse Rn Rtrig cast (l_pos s) (pt q)).
    assert (Hr : (0 <= fst c < 60 /\ 0 <= snd c < 30)%Z) by apply coarse_range.
    assert (Hin : In q (in_cell Rn Rtrig cast (l_pos s) (snd c) (fst c) (l_cloud s'))).
    { unfold in_cell. apply filter_In. split; [rewrite Ec; now left|]. apply same_cell_true. fold c. destruct c; reflexivity. }
    pose proof (S1 (snd c) (fst c) (proj2 Hr) (proj1 Hr)) as X. rewrite (ghist_get Rn h _ _ G1 (proj2 Hr) (proj1 Hr)) in X.
    pose proof (proj1 I eq_refl (snd c) (fst c) (proj2 Hr) (proj1 Hr)) as Y. apply R_ltb_false in Y.
    assert (Hall : forall q', In q' (in_cell Rn Rtrig cast (l_pos s) (snd c) (fst c) (l_cloud s')) -> (flt_min Rn < v3norm Rn (v3sub Rn (pt q') (l_pos s)))%R).
    { intros q' Hq. apply Hfar. unfold in_cell in Hq. apply filter_In in Hq. apply Hq. }
    destruct (in_cell Rn Rtrig cast (l_pos s) (snd c) (fst c) (l_cloud s')) as [|q0 l0] eqn:El; [destruct Hin|].
    injection X as X. rewrite Z0 in X.
    assert (K : forall (k : list (xyzi Rn)) (a : R), (forall q', In q' k -> (flt_min Rn < v3norm Rn (v3sub Rn (pt q') (l_pos s)))%R) ->
      (a + IZR (Z.of_nat (length k)) * flt_min Rn <= sum_from Rn Rtrig (l_pos s) a k)%R).
    { clear. induction k as [|q k IH]; intros a H; unfold sum_from in *; cbn [fold_left length]; [cbn; tR; lra|].
      eapply Rle_trans; [|apply IH; intros; apply H; now right]. specialize (H q (or_introl eq_refl)).
      change (dist_of Rn Rtrig (l_pos s) (pt q)) with (v3norm Rn (v3sub Rn (pt q) (l_pos s))). cbn [add Rn].
      rewrite Nat2Z.inj_succ, succ_IZR. tR. lra. }
    assert (K0 : forall q', In q' l0 -> (flt_min Rn < v3norm Rn (v3sub Rn (pt q') (l_pos s)))%R) by (intros; apply Hall; now right).
    assert (K1 : (flt_min Rn * IZR (Z.of_nat (length (q0 :: l0))) < sum_from Rn Rtrig (l_pos s) (ofZ Rn 0) (q0 :: l0))%R).
    { unfold sum_from. cbn [fold_left]. eapply Rlt_le_trans; [|apply (K l0 _ K0)].
      specialize (Hall q0 (or_introl eq_refl)). change (dist_of Rn Rtrig (l_pos s) (pt q0)) with (v3norm Rn (v3sub Rn (pt q0) (l_pos s))).
      cbn [add Rn ofZ length]. rewrite Nat2Z.inj_succ, succ_IZR. tR. lra. }
    assert (Hl : (0 < IZR (Z.of_nat (length (q0 :: l0))))%R) by (apply IZR_lt; cbn [length]; lia).
    assert (Y' : (cell (h_dist h) (snd c) (fst c) * IZR (Z.of_nat (length (q0 :: l0))) = sum_from Rn Rtrig (l_pos s) (ofZ Rn 0) (q0 :: l0))%R).
    { match type of X with ?l = _ => transitivity (l * IZR (Z.of_nat (length (q0 :: l0))))%R; [reflexivity|] end.
      transitivity (sum_from Rn Rtrig (l_pos s) (ofZ Rn 0) (q0 :: l0) / IZR (Z.of_nat (length (q0 :: l0))) * IZR (Z.of_nat (length (q0 :: l0))))%R;
      [apply (f_equal (fun x : R => x * IZR (Z.of_nat (length (q0 :: l0))))%R); exact X|]. tR. field. lra. }
    tR. nra.
Qed.
Print Assumptions C65_fresh_or_stale.
(** without any cloud in the buffer the planner dereferences the first one: undefined behaviour *)
Theorem C65_no_cloud_refuted :
  forall (N : num) (G : trig N) (secs : Z -> N) (cast rnd ceilc : N -> Z) top (huge : N) (g : lp_config N) (s : lp_state N) (now : Z),
  runPlanner N G secs cast rnd ceilc top huge g s [] now = None.
Proof.
  intros. unfold runPlanner, processPointcloud. cbn [foldM]. match goal with |- context [foldM ?f ?a ?b] => destruct (foldM f a b) as [(?, ?)|] end; reflexivity.
Qed.
Print Assumptions C65_no_cloud_refuted.
Definition ex_g : lp_config Rn := @LpCfg Rn 1 (1 / 5)%R 15%R 40%R 20%R (@CostParams R 3 20 6 3)%R 4 10 2%R 35%R 1%R 3%R 5%R 8%R 5%R.
Example C65_example : (0 <= g_margin ex_g <= 180)%R /\ (1 <= g_children ex_g)%Z /\ [[V3 1 2 0 : vec3 Rn]]%R <> [].
Proof. cbn. split; [lra|split; [lia|discriminate]]. Qed.

(** C66. The histogram image: one byte per cell, bottom row last; brighter = nearer, 0 = no obstacle. *)
Theorem C66_histogram_image :
  forall (N : num) (cast : N -> Z) (max_range : N) (h : hist N), reachable N h -> h_res h = ALPHA_RES ->
  exists img, generateHistogramImage N cast max_range h = Some img /\ length img = 1800%nat /\
  forall e z, (0 <= e < 30)%Z -> (0 <= z < 60)%Z -> exists d, h_get N h e z = Some d /\
    nth_error img (Z.to_nat ((29 - e) * 60 + z)) = Some (imageByte N cast max_range d).
Proof.
  intros N cast mx h Hr H6. pose proof (reachable_ghist N h Hr H6) as Hg. destruct (hist_image_spec N cast mx h Hg) as (img & E & L & I).
  exists img. split; [exact E|]. split; [exact L|]. intros e z He Hz. exists (cell (h_dist h) e z). split; [now apply ghist_get|auto].
Qed.
Print Assumptions C66_histogram_image.
Theorem C66_brightness :
  forall (max_range d : R), (0 < max_range)%R ->
  let b := imageByte Rn (Ztrunc : Rn -> Z) max_range d in
  (0 <= b <= 255)%Z /\ ((d <= 1 / 100)%R -> b = 0%Z) /\ ((max_range <= d)%R -> b = 0%Z) /\
  (forall d', (1 / 100 < d)%R -> (d <= d')%R -> (imageByte Rn (Ztrunc : Rn -> Z) max_range d' <= b)%Z).
Proof.
  intros mx d Hm b. assert (V : forall d, imageByte Rn (Ztrunc : Rn -> Z) mx d = Ztrunc (Rmax 0 (Rmin 255 (if R_ltb (1 / 100) d then 255 - 255 * d / mx else 0)))%R).
  { intros x. unfold imageByte. rewrite maxv_Rn, minv_Rn, cst_Rn. reflexivity. }
  unfold b. rewrite !V. clear b.
  assert (T0 : forall x : R, (x <= 0)%R -> Ztrunc (Rmax 0 (Rmin 255 x)) = 0%Z).
  { intros x Hx. replace (Rmax 0 (Rmin 255 x)) with 0%R; [apply (Ztrunc_IZR 0)|]. unfold Rmax, Rmin. destruct (Rle_dec 255 x); destruct (Rle_dec 0 _); lra. }
  split; [|split; [|split]].
  - assert (B : forall x : R, (0 <= Rmax 0 (Rmin 255 x) <= 255)%R).
    { intros x. unfold Rmax, Rmin. destruct (Rle_dec 255 x); destruct (Rle_dec 0 _); lra. }
    match goal with |- context [Ztrunc (Rmax 0 (Rmin 255 ?x))] => specialize (B x) end. destruct B as (B1 & B2).
    split; [apply Z.le_trans with (Ztrunc (IZR 0)); [rewrite Ztrunc_IZR; lia|]|apply Z.le_trans with (Ztrunc (IZR 255)); [|rewrite Ztrunc_IZR; lia]]; apply Ztrunc_le; assumption.
  - intros H. apply T0. destruct (R_ltb_spec (1 / 100) d); lra.
  - intros H. apply T0. destruct (R_ltb_spec (1 / 100) d); [|lra].
    assert (1 <= d / mx)%R. { apply (Rmult_le_reg_r mx); [exact Hm|]. unfold Rdiv. rewrite Rmult_assoc, Rinv_l by lra. lra. } unfold Rdiv in *. lra.
  - intros d' H1 H2. rewrite V. apply Ztrunc_le. apply Rle_max_compat_l. apply Rle_min_compat_l.
    destruct (R_ltb_spec (1 / 100) d); [|contradiction]. destruct (R_ltb_spec (1 / 100) d'); [|lra].
    assert (d / mx <= d' / mx)%R. { unfold Rdiv. apply Rmult_le_compat_r; [left; apply Rinv_0_lt_compat; exact Hm|exact H2]. } unfold Rdiv in *. lra.
Qed.
Print Assumptions C66_brightness.
Example C66_example : option_map (fun l => (nth 427 l 0, nth 428 l 7))%Z (generateHistogramImage F32 (f32_cast : F32 -> Z) (ofZ F32 15) (hist_of [HSet 22 7 (ofZ F32 3)])) = Some (204, 0)%Z.
Proof. vm_compute. reflexivity. Qed.

(** C67. The point on the goal line used by the cost function, real arithmetic: the goal itself when the vehicle is within
    MPC_XY_CRUISE metres of the line seen from above, or when the line is degenerate (goals less than 1 mm apart); otherwise the
    foot of the perpendicular, at the height of the goal. *)
Theorem C67_closest_point :
  forall (goal prev position : vec3 Rn) (xy : R),
  let q := closestPoint Rn goal prev position xy in
  ((dist2 goal prev < 1 / 1000)%R -> q = goal) /\
  ((1 / 1000 <= dist2 goal prev)%R -> exists f, is_foot prev goal position f /\ vz f = vz goal /\
     ((dist2 position f < xy)%R -> q = goal) /\ ((xy <= dist2 position f)%R -> q = f)).
Proof. exact closest_R. Qed.
Print Assumptions C67_closest_point.
(** the foot of the perpendicular is the nearest point of the line *)
Theorem C67_foot_is_nearest :
  forall a b p f r : vec3 Rn, is_foot a b p f -> (exists t, vx r = vx a + t * (vx b - vx a) /\ vy r = vy a + t * (vy b - vy a))%R ->
  (dist2 p f <= dist2 p r)%R.
Proof.
  intros a b p f r ((t & Fx & Fy) & Fo) (u & Rx & Ry). unfold dist2. apply sqrt_le_1_alt. tR.
  set (dx := (vx b - vx a)%R) in *. set (dy := (vy b - vy a)%R) in *.
  assert (Ex : (vx p - vx r = (vx p - vx f) + (t - u) * dx)%R) by (rewrite Rx, Fx; ring).
  assert (Ey : (vy p - vy r = (vy p - vy f) + (t - u) * dy)%R) by (rewrite Ry, Fy; ring).
  rewrite Ex, Ey. set (A := (vx p - vx f)%R) in *. set (B := (vy p - vy f)%R) in *.
  assert (Z : ((A + (t - u) * dx) * (A + (t - u) * dx) + (B + (t - u) * dy) * (B + (t - u) * dy) =
    A * A + B * B + 2 * (t - u) * (A * dx + B * dy) + (t - u) * (t - u) * (dx * dx + dy * dy))%R) by ring.
  rewrite Z, Fo. pose proof (Rle_0_sqr (t - u)) as Q1. pose proof (Rle_0_sqr dx). pose proof (Rle_0_sqr dy). unfold Rsqr in *. nra.
Qed.
Print Assumptions C67_foot_is_nearest.
Example C67_example : let q := closestPoint F32 (fpt 10 0 5) (fpt 0 0 5) (fpt 4 7 2) (ofZ F32 3) in
  (f32_cast (vx q), f32_cast (vy q), f32_cast (vz q)) = (4, 0, 5)%Z.
Proof. vm_compute. reflexivity. Qed.
