From Coq Require Import ZArith Reals List Bool Lia Lra Psatz.
From Flocq Require Import Core BinarySingleNaN.
From Verif Require Import Num Mat CommonModel CommonSpec CommonProofs HistModel HistProofs PfModel PfSpec PfProofs PfProofs2 PfProofs3 PfCost PfExtra PfMisc StarModel StarSpec StarProofs StarProofs2 LpModel LpSpec LpProofs.
Import ListNotations.
Local Open Scope R_scope.

(* ------------------------------------------------------------------- speed limit *)
Lemma sqrt_quad_root (b c : R) : 0 <= b -> c <= 0 ->
  let u := (- b + sqrt (b * b - 4 * c)) / 2 in 0 <= u /\ u * u + b * u + c = 0.
Proof.
  intros Hb Hc u. set (s := sqrt (b * b - 4 * c)) in *.
  assert (Hs : s * s = b * b - 4 * c) by (apply sqrt_sqrt; nra).
  assert (Hs0 : 0 <= s) by apply sqrt_pos.
  assert (b <= s) by nra. split; [unfold u; lra|]. unfold u. nra.
Qed.
Lemma limitedSpeed_R (acc jerk range : R) : 0 < acc -> 0 < jerk -> 0 <= range ->
  0 <= limitedSpeed Rn acc jerk range /\ stopping_distance (limitedSpeed Rn acc jerk range) acc jerk = range.
Proof.
  intros Ha Hj Hr. unfold limitedSpeed. rn.
  assert (Hb : 0 <= 2 * acc * (acc / jerk)).
  { assert (0 < acc / jerk) by (apply Rdiv_lt_0_compat; assumption). nra. }
  assert (Hc : 2 * - acc * range <= 0) by nra.
  destruct (sqrt_quad_root _ _ Hb Hc) as (H1 & H2).
  replace (2 * 1) with 2 by ring. replace (4 * 1 * (2 * - acc * range)) with (4 * (2 * - acc * range)) by ring.
  set (u := (- (2 * acc * (acc / jerk)) + sqrt (2 * acc * (acc / jerk) * (2 * acc * (acc / jerk)) - 4 * (2 * - acc * range))) / 2) in *.
  split; [exact H1|]. unfold stopping_distance. set (k := acc / jerk) in *.
  assert (E : u * u = 2 * acc * range - 2 * acc * k * u) by lra. rewrite E. field. lra.
Qed.
Lemma stopping_mono acc jerk v w : 0 < acc -> 0 < jerk -> 0 <= v <= w -> stopping_distance v acc jerk <= stopping_distance w acc jerk.
Proof.
  intros Ha Hj H. unfold stopping_distance.
  assert (0 < acc / jerk) by (apply Rdiv_lt_0_compat; assumption).
  assert (v * v / (2 * acc) <= w * w / (2 * acc)).
  { unfold Rdiv. apply Rmult_le_compat_r; [left; apply Rinv_0_lt_compat; lra|nra]. }
  nra.
Qed.
Lemma cruise_R (speed xy acc jerk range : R) : 0 < acc -> 0 < jerk -> 0 <= range ->
  let v := cruiseVelocity Rn speed xy acc jerk range in
  v <= speed /\ (0 <= v -> stopping_distance v acc jerk <= range) /\
  (v = speed \/ (v < speed /\ stopping_distance v acc jerk = range)) /\ (0 <= speed -> 0 <= v).
Proof.
  intros Ha Hj Hr v. unfold v, cruiseVelocity. cbn [finiteb Rn]. rewrite minv_Rn.
  destruct (limitedSpeed_R acc jerk range Ha Hj Hr) as (L1 & L2). set (l := limitedSpeed Rn acc jerk range) in *.
  pose proof (Rmin_l speed l). pose proof (Rmin_r speed l). split; [assumption|]. split; [|split].
  - intros H1. rewrite <- L2. apply stopping_mono; auto.
  - unfold Rmin. destruct (Rle_dec speed l); [now left|right]. split; [lra|exact L2].
  - intros H1. apply Rmin_glb; assumption.
Qed.
(** binary32, any inputs *)
Lemma f32_le_of_not_lt (x y : f32) : f32_ltb y x = false -> is_nan x = false -> is_nan y = false -> f32_leb x y = true.
Proof.
  intros H Hx Hy. apply f32_leb_true. split; [exact Hx|]. split; [exact Hy|].
  apply Rnot_lt_le. intros K. assert (X : f32_ltb y x = true) by (apply f32_ltb_true; auto). congruence.
Qed.
Lemma f32_lt_le (x y : f32) : f32_ltb x y = true -> f32_leb x y = true.
Proof. intros H. apply f32_ltb_true in H. destruct H as (A & B & C). apply f32_leb_true. repeat split; auto. now left. Qed.
Lemma f32_le_refl (x : f32) : is_nan x = false -> f32_leb x x = true.
Proof. intros H. apply f32_leb_true. repeat split; auto. apply Rle_refl. Qed.
Lemma minv_F32 (a b : f32) : is_nan a = false ->
  f32_leb (minv F32 a b : f32) a = true /\ (is_nan b = false -> f32_leb (minv F32 a b : f32) b = true) /\ (is_nan b = true -> minv F32 a b = a).
Proof.
  intros Ha. unfold minv. cbn [ltb F32]. destruct (f32_ltb b a) eqn:E.
  - split; [now apply f32_lt_le|]. split; [intros; now apply f32_le_refl|]. intros X. apply f32_ltb_true in E. destruct E as (E & _). congruence.
  - split; [now apply f32_le_refl|]. split; [intros; now apply f32_le_of_not_lt|reflexivity].
Qed.

(* ------------------------------------------------------------------- closest point *)
Lemma closest_R goal prev position (xy : R) :
  let q := closestPoint Rn goal prev position xy in
  (dist2 goal prev < 1 / 1000 -> q = goal) /\
  (1 / 1000 <= dist2 goal prev -> exists f, is_foot prev goal position f /\ vz f = vz goal /\
     (dist2 position f < xy -> q = goal) /\ (xy <= dist2 position f -> q = f)).
Proof.
  intros q. unfold q, closestPoint, v2normalized, dist2. unfold v2norm. rn. tR. rewrite cst_Rn.
  set (dx := vx goal - vx prev). set (dy := vy goal - vy prev).
  assert (Hs0 : 0 <= dx * dx + dy * dy) by nra. split.
  - intros H. destruct (R_ltb _ _); (destruct (R_ltb_spec (sqrt (dx * dx + dy * dy)) (1 / 1000)) as [_|X]; [rewrite orb_true_r; reflexivity|contradiction]).
  - intros H. assert (Hs : 0 < dx * dx + dy * dy).
    { destruct Hs0 as [|E]; [assumption|]. rewrite <- E, sqrt_0 in H. lra. }
    destruct (R_ltb_spec 0 (dx * dx + dy * dy)) as [_|X]; [|contradiction].
    set (n := sqrt (dx * dx + dy * dy)) in *.
    assert (Hn : n * n = dx * dx + dy * dy) by (apply sqrt_sqrt; lra). assert (0 < n) by lra.
    set (px := vx position - vx prev). set (py := vy position - vy prev).
    set (d := dx / n * px + dy / n * py).
    exists (V3 (vx prev + dx / n * d) (vy prev + dy / n * d) (vz goal)). cbn [vx vy vz].
    split.
    { split.
      - exists (d / n). cbn [vx vy]. split; [unfold dx|unfold dy]; tR; field; lra.
      - cbn [vx vy]. tR. fold dx dy. replace (vx position - (vx prev + dx / n * d)) with (px - dx / n * d) by (unfold px; ring).
        replace (vy position - (vy prev + dy / n * d)) with (py - dy / n * d) by (unfold py; ring).
        unfold d. set (a := dx / n). set (b := dy / n).
        assert (Ha : dx = a * n) by (unfold a; field; lra). assert (Hb : dy = b * n) by (unfold b; field; lra).
        assert (Hab : a * a + b * b = 1). { apply (Rmult_eq_reg_r (n * n)); [|nra]. rewrite Hn. rewrite Ha, Hb. rewrite Ha, Hb in Hn. nra. }
        rewrite Ha, Hb. replace ((px - a * (a * px + b * py)) * (a * n) + (py - b * (a * px + b * py)) * (b * n))
          with (n * (a * px + b * py) * (1 - (a * a + b * b))) by ring. rewrite Hab. ring. }
    split; [reflexivity|].
    split; intros H1.
    + match goal with |- context [R_ltb ?a ?b || _] => destruct (R_ltb_spec a b) as [_|X] end; [reflexivity|contradiction].
    + match goal with |- context [R_ltb ?a ?b || R_ltb ?c ?d] => destruct (R_ltb_spec a b) as [X|_]; [lra|]; destruct (R_ltb_spec c d) as [X|_]; [lra|] end. reflexivity.
Qed.

(* ------------------------------------------------------------------- trajectory *)
Lemma sqn_nonneg (v : vec3 Rn) : 0 <= v3sqnorm Rn v.
Proof. unfold v3sqnorm. rn. tR. nra. Qed.
Lemma norm_sq (v : vec3 Rn) : v3norm Rn v * v3norm Rn v = v3sqnorm Rn v.
Proof. apply sqrt_sqrt, sqn_nonneg. Qed.
Lemma norm_nonneg (v : vec3 Rn) : 0 <= v3norm Rn v.
Proof. apply sqrt_pos. Qed.
Lemma norm_le (v : vec3 Rn) (m : R) : 0 <= m -> v3sqnorm Rn v <= m * m -> v3norm Rn v <= m.
Proof. intros Hm H. unfold v3norm. cbn [sqrtv Rn]. rewrite <- (sqrt_square m Hm). apply sqrt_le_1_alt. exact H. Qed.
Lemma norm_triangle (a b : vec3 Rn) (t : R) : 0 <= t ->
  v3norm Rn (V3 (vx a + t * vx b) (vy a + t * vy b) (vz a + t * vz b) : vec3 Rn) <= v3norm Rn a + t * v3norm Rn b.
Proof.
  intros Ht. pose proof (norm_nonneg a). pose proof (norm_nonneg b). pose proof (norm_sq a) as Sa. pose proof (norm_sq b) as Sb.
  apply norm_le; [nra|].
  pose proof (cauchy3 (vx a) (vy a) (vz a) (vx b) (vy b) (vz b)) as C.
  change (sqrt (vx a * vx a + vy a * vy a + vz a * vz a)) with (v3norm Rn a) in C.
  change (sqrt (vx b * vx b + vy b * vy b + vz b * vz b)) with (v3norm Rn b) in C.
  set (na := v3norm Rn a) in *. set (nb := v3norm Rn b) in *.
  unfold v3sqnorm in *. cbn [vx vy vz]. rn. tR. nra.
Qed.
Lemma normClamp3_R (v : vec3 Rn) (m : R) : 0 <= m ->
  exists k, 0 <= k <= 1 /\ normClamp3 Rn v m = V3 (vx v * k) (vy v * k) (vz v * k) /\ v3norm Rn (normClamp3 Rn v m) <= m.
Proof.
  intros Hm. unfold normClamp3. pose proof (sqn_nonneg v) as H0. set (n := v3sqnorm Rn v) in *. rn. destruct (R_ltb_spec (m * m) n) as [H|H].
  - assert (Hn : 0 < n) by nra. set (s := sqrt n). assert (Es : s * s = n) by (apply sqrt_sqrt; lra).
    assert (Hs : 0 < s) by (apply sqrt_lt_R0; assumption). exists (m / s). split; [split|split].
    + apply Rmult_le_pos; [exact Hm|left; apply Rinv_0_lt_compat; exact Hs].
    + apply (Rmult_le_reg_r s); [assumption|]. unfold Rdiv. rewrite Rmult_assoc, Rinv_l by lra. nra.
    + reflexivity.
    + apply norm_le; [exact Hm|]. unfold v3sqnorm. cbn [vx vy vz]. rn. tR.
      assert (E : m / s * (m / s) * n = m * m) by (rewrite <- Es; field; lra).
      apply Req_le. rewrite <- E. unfold n, v3sqnorm. rn. tR. ring.
  - exists 1. split; [lra|]. split; [destruct v as (x1, x2, x3); cbn [vx vy vz]; tR; f_equal; ring|]. apply norm_le; [exact Hm|]. fold n. lra.
Qed.

Section Traj.
Context (P D maxa step : R) (lim : sim_limits Rn) (vd : vec3 Rn).
Hypothesis (Hstep : 0 < step) (Hj : 0 <= max_jerk lim).
(** the jerk is a damped steering towards the desired velocity, scaled down *)
Definition steers (s : sim_state Rn) (j : vec3 Rn) : Prop :=
  exists k, 0 <= k <= 1 /\ forall c : vec3 Rn -> R, c = (fun v => vx v) \/ c = (fun v => vy v) \/ c = (fun v => vz v) ->
    c j = k * (P * (c vd - c (s_vel s)) - D * c (s_acc s)).
Lemma eps_pos : 0 < flt_eps Rn.
Proof. cbn [flt_eps Rn]. apply Rinv_0_lt_compat. apply IZR_lt. reflexivity. Qed.
Lemma step_R s : let (j, dt) := stepChoice Rn P D maxa lim step vd s in
  0 < dt <= step /\ v3norm Rn j <= max_jerk lim /\ steers s j /\ moves s (stepConstantJerk Rn s j dt) j dt /\
  (v3norm Rn (s_acc s) <= maxa -> v3norm Rn (s_acc (stepConstantJerk Rn s j dt)) <= maxa).
Proof.
  assert (M : forall j dt, moves s (stepConstantJerk Rn s j dt) j dt).
  { intros j dt. unfold moves, stepConstantJerk. cbn [s_time s_pos s_vel s_acc vx vy vz]. rewrite cst_Rn. rn. split; [reflexivity|].
    intros c [->|[->| ->]]; unfold motion_pos, motion_vel, motion_acc; cbn [vx vy vz]; tR; repeat split; field. }
  unfold stepChoice, jerkForVelocity.
  match goal with |- context [normClamp3 Rn ?w _] => set (v := w) end.
  destruct (normClamp3_R v (max_jerk lim) Hj) as (k & Hk & Ev & Hn). set (damped := normClamp3 Rn v (max_jerk lim)) in *.
  assert (Sd : steers s damped).
  { exists k. split; [exact Hk|]. rewrite Ev. unfold v. intros c [->|[->| ->]]; cbn [vx vy vz]; rn; tR; ring. }
  assert (S0 : steers s (V3 0 0 0 : vec3 Rn)).
  { exists 0. split; [lra|]. intros c [->|[->| ->]]; cbn [vx vy vz]; tR; ring. }
  assert (N0 : v3norm Rn (V3 0 0 0 : vec3 Rn) <= max_jerk lim).
  { apply norm_le; [exact Hj|]. unfold v3sqnorm. cbn [vx vy vz]. rn. tR. nra. }
  assert (A0 : forall dt : R, v3norm Rn (s_acc s) <= maxa -> v3norm Rn (s_acc (stepConstantJerk Rn s (V3 0 0 0 : vec3 Rn) dt)) <= maxa).
  { intros dt H. unfold stepConstantJerk. cbn [s_acc vx vy vz]. rn.
    replace (V3 _ _ _) with (s_acc s); [exact H|]. destruct (s_acc s) as (x1, x2, x3); cbn [vx vy vz]; tR; f_equal; ring. }
  cbn [ltb leb ofZ Rn]. match goal with |- context [R_ltb ?a ?b] => destruct (R_ltb_spec a b) as [H|H] end.
  2:{ split; [lra|]. split; [exact Hn|]. split; [exact Sd|]. split; [apply M|]. intros Ha.
      apply norm_le; [|apply Rnot_lt_le in H; exact H]. pose proof (norm_nonneg (s_acc s)). lra. }
  match goal with |- context [R_leb ?a ?b] => destruct (R_leb_spec a b) as [H1|H1] end; cbn [orb].
  { split; [lra|]. auto. }
  match goal with |- context [R_ltb ?a ?b] => destruct (R_ltb_spec a b) as [H2|H2] end.
  { split; [lra|]. auto. }
  rn. set (t := (maxa - v3norm Rn (s_acc s)) / v3norm Rn damped) in *. pose proof eps_pos as He. cbn [flt_eps Rn] in He.
  split; [lra|]. split; [exact Hn|]. split; [exact Sd|]. split; [apply M|]. intros Ha.
  unfold stepConstantJerk. cbn [s_acc]. rn. eapply Rle_trans; [apply norm_triangle; lra|].
  assert (Hd : v3norm Rn damped <> 0).
  { intros E. assert (t = 0). { unfold t. rewrite E. unfold Rdiv. rewrite Rinv_0. ring. } lra. }
  apply Req_le. unfold t. field. exact Hd.
Qed.
Lemma simulate_R n : forall s, let l := simulate Rn P D maxa lim step vd n s in
  length l = n /\
  (forall k a b, nth_error (s :: l) k = Some a -> nth_error l k = Some b -> exists j dt,
     0 < dt <= step /\ v3norm Rn j <= max_jerk lim /\ steers a j /\ moves a b j dt) /\
  (v3norm Rn (s_acc s) <= maxa -> forall b, In b l -> v3norm Rn (s_acc b) <= maxa).
Proof.
  induction n as [|n IH]; intros s; cbn [simulate].
  - split; [reflexivity|]. split; [intros [|k] a b _ X; discriminate|intros _ b []].
  - pose proof (step_R s) as S. destruct (stepChoice Rn P D maxa lim step vd s) as (j, dt). destruct S as (S1 & S2 & S3 & S4 & S5).
    destruct (IH (stepConstantJerk Rn s j dt)) as (L & I & A). split; [cbn [length]; now rewrite L|]. split.
    + intros [|k] a b Ha Hb.
      * cbn in Ha, Hb. injection Ha as <-. injection Hb as <-. exists j, dt. auto.
      * cbn [nth_error] in Ha, Hb. exact (I k a b Ha Hb).
    + intros Ha b [<-|Hb]; [auto|]. exact (A (S5 Ha) b Hb).
Qed.
End Traj.
Definition Rhypot (a b : R) : R := sqrt (a * a + b * b).
Lemma normClamp2_R (x y m : R) : 0 <= m -> exists k, 0 <= k <= 1 /\ normClamp2 Rn x y m = (x * k, y * k) /\ sqrt (x * k * (x * k) + y * k * (y * k)) <= m.
Proof.
  intros Hm. unfold normClamp2. rn. assert (H0 : 0 <= x * x + y * y) by nra. set (n := x * x + y * y) in *. destruct (R_ltb_spec (m * m) n) as [H|H].
  - assert (Hn : 0 < n) by nra. set (s := sqrt n). assert (Es : s * s = n) by (apply sqrt_sqrt; lra).
    assert (Hs : 0 < s) by (apply sqrt_lt_R0; assumption). exists (m / s). split; [split|split].
    + apply Rmult_le_pos; [exact Hm|left; apply Rinv_0_lt_compat; exact Hs].
    + apply (Rmult_le_reg_r s); [assumption|]. unfold Rdiv. rewrite Rmult_assoc, Rinv_l by lra. nra.
    + reflexivity.
    + apply Rle_trans with (sqrt (m * m)); [|rewrite (sqrt_square m Hm); apply Rle_refl]. apply sqrt_le_1_alt. assert (E : m / s * (m / s) * n = m * m) by (rewrite <- Es; field; lra).
      apply Req_le. rewrite <- E. unfold n. ring.
  - exists 1. split; [lra|]. split; [f_equal; ring|]. apply Rle_trans with (sqrt (m * m)); [|rewrite (sqrt_square m Hm); apply Rle_refl]. apply sqrt_le_1_alt. unfold n in *. nra.
Qed.
Lemma desired_R (lim : sim_limits Rn) (dir : vec3 Rn) : 0 <= max_xy_velocity lim -> min_z_velocity lim <= max_z_velocity lim ->
  let v := desiredVelocity Rn Rhypot lim dir in
  dist2 v (V3 0 0 0 : vec3 Rn) <= max_xy_velocity lim /\ min_z_velocity lim <= vz v <= max_z_velocity lim /\
  exists k, 0 <= k /\ vx v = k * vx dir /\ vy v = k * vy dir.
Proof.
  intros Hm Hz v. unfold v, desiredVelocity, xyNormZClamp.
  set (h := Rhypot _ _). assert (Hh : 0 <= h) by apply sqrt_pos.
  assert (U : exists c, 0 <= c /\ vx (v3normalized Rn dir) = c * vx dir /\ vy (v3normalized Rn dir) = c * vy dir).
  { unfold v3normalized. rn. destruct (R_ltb_spec 0 (v3sqnorm Rn dir)) as [L|L].
    - exists (/ sqrt (v3sqnorm Rn dir)). cbn [vx vy]. split; [left; apply Rinv_0_lt_compat, sqrt_lt_R0; exact L|]. split; unfold Rdiv; tR; ring.
    - exists 1. split; [lra|]. split; tR; ring. }
  destruct U as (c & Hc & Ux & Uy).
  change (normClamp2 Rn) with (normClamp2 Rn). cbn [vx vy vz].
  match goal with |- context [normClamp2 Rn ?a ?b ?m] => destruct (normClamp2_R a b m Hm) as (k & Hk & E & B); rewrite E end.
  cbn [vx vy vz]. rewrite minv_Rn, maxv_Rn. split; [|split].
  - unfold dist2. cbn [vx vy]. rn. tR. rewrite !Rminus_0_r. exact B.
  - split; [apply Rmin_glb; [exact Hz|apply Rmax_l]|apply Rmin_l].
  - exists (c * h * k). split; [apply Rmult_le_pos; [apply Rmult_le_pos|]; lra|]. rn. tR. rewrite Ux, Uy. split; ring.
Qed.
Lemma accLimit_R (lim : sim_limits Rn) : simAccLimit Rn lim = Rmin (2 * sqrt (max_jerk lim)) (max_acceleration lim).
Proof. unfold simAccLimit. rewrite minv_Rn. reflexivity. Qed.

(* ------------------------------------------------------------------- one planning cycle *)
Section Cycle.
Context (N : num) (O : ordered_num N) (G : trig N) (secs : Z -> N) (cast rnd ceilc : N -> Z)
        (top : list (candidate N) -> option (candidate N * list (candidate N))) (huge : N).
Notation runPlanner := (runPlanner N G secs cast rnd ceilc top huge).
Local Open Scope Z_scope.
(** what one cycle does to the remembered cloud: C23/C24 describe the result *)
Definition cloud_of (g : lp_config N) (s : lp_state N) clouds now :=
  processPointcloud N G cast (l_cloud s) clouds (l_fovs s) (l_yaw s) (l_pitch s) (l_pos s) (g_min_range g) (g_max_range g)
    (g_max_age g) (secs (now - l_process_time s)) (g_min_num g).
Lemma new_ghist : exists h0, h_new N ALPHA_RES = Some h0 /\ ghist N h0 /\ forall e z, cell (h_dist h0) e z = ofZ N 0.
Proof using.
  clear.
  destruct (h_new N ALPHA_RES) as [h0|] eqn:E0; [|discriminate E0]. exists h0. split; [reflexivity|]. split.
  - apply reachable_ghist; [exists 6, h0, []; split; [lia|split; [exact E0|reflexivity]]|]. cbn in E0. injection E0 as <-. reflexivity.
  - cbn in E0. injection E0 as <-. reflexivity.
Qed.
Lemma cycle_inv g s clouds now s' : 0 <= g_children g -> runPlanner g s clouds now = Some s' ->
  cloud_of g s clouds now = Some (l_cloud s') /\ l_process_time s' = now /\
  l_fovs s' = l_fovs s /\ l_pos s' = l_pos s /\ l_vel s' = l_vel s /\ l_yaw s' = l_yaw s /\ l_pitch s' = l_pitch s /\
  l_goal s' = l_goal s /\ l_prev_goal s' = l_prev_goal s /\
  l_closest s' = closestPoint N (l_goal s) (l_prev_goal s) (l_pos s) (g_xy_cruise g) /\
  (ltb N (ofZ N 0) (g_cp_dist g) = false -> l_scan s' = l_scan s) /\
  exists h0 h empty, h_new N ALPHA_RES = Some h0 /\ generateNewHistogram N G cast h0 (l_cloud s') (l_pos s) = Some h /\ h_isEmpty N h = Some empty /\
  (ltb N (ofZ N 0) (g_cp_dist g) = true -> exists ch, compressHistogramElevation N G cast h0 h (l_pos s) = Some ch /\
       updateObstacleDistanceMsg N G ch (l_fovs s) (l_pos s) (l_yaw s) (g_min_range g) (g_max_range g) = Some (l_scan s')) /\
  if empty then l_path s' = l_path s /\ l_path_time s' = l_path_time s /\ l_tree s' = l_tree s /\ l_closed s' = l_closed s
  else l_path_time s' = now /\ exists r, buildLookAheadTree N G huge
         (starCandidates N G cast rnd ceilc top (l_cloud s') (l_goal s) (g_cost g) (g_margin g) (l_closest s') (g_max_range g) (g_min_range g) (g_children g))
         (starParams N g s) = Some r /\ l_path s' = r_path r /\ l_tree s' = r_tree r /\ l_closed s' = r_closed r.
Proof.
  intros Hc. unfold LpModel.runPlanner, cloud_of. destruct (processPointcloud _ _ _ _ _ _ _ _ _ _ _ _ _ _) as [cloud|]; [|discriminate]. cbn [obind].
  destruct (h_new N ALPHA_RES) as [h0|] eqn:E0; [|discriminate]. cbn [obind].
  destruct (generateNewHistogram N G cast h0 cloud (l_pos s)) as [h|] eqn:E1; [|discriminate]. cbn [obind].
  match goal with |- obind ?e _ = _ -> _ => destruct e as [scan|] eqn:E2; [|discriminate] end. cbn [obind].
  destruct (generateHistogramImage _ _ _ _) as [img|]; [|discriminate]. cbn [obind]. cbv zeta.
  destruct (h_isEmpty N h) as [empty|] eqn:E3; [|discriminate]. cbn [obind].
  assert (S1 : ltb N (ofZ N 0) (g_cp_dist g) = false -> scan = l_scan s). { intros X. rewrite X in E2. congruence. }
  assert (S2 : ltb N (ofZ N 0) (g_cp_dist g) = true -> exists ch, compressHistogramElevation N G cast h0 h (l_pos s) = Some ch /\
       updateObstacleDistanceMsg N G ch (l_fovs s) (l_pos s) (l_yaw s) (g_min_range g) (g_max_range g) = Some scan).
  { intros X. rewrite X in E2. destruct (compressHistogramElevation _ _ _ _ _ _) as [ch|]; [|discriminate]. cbn [obind] in E2. eauto. }
  destruct empty.
  - intros [= <-]. cbn [l_cloud l_process_time l_fovs l_pos l_vel l_yaw l_pitch l_goal l_prev_goal l_closest l_scan l_path l_path_time l_tree l_closed].
    repeat (split; [reflexivity || assumption|]). exists h0, h, true. auto 10.
  - match goal with |- obind ?e _ = _ -> _ => destruct e as [cm|]; [|discriminate] end. cbn [obind].
    match goal with |- obind ?e _ = _ -> _ => destruct e as [r|] eqn:E4; [|discriminate] end. cbn [obind].
    intros [= <-]. cbn [l_cloud l_process_time l_fovs l_pos l_vel l_yaw l_pitch l_goal l_prev_goal l_closest l_scan l_path l_path_time l_tree l_closed].
    repeat (split; [reflexivity || assumption|]). exists h0, h, false. split; [reflexivity|]. split; [exact E1|]. split; [exact E3|]. split; [exact S2|].
    split; [reflexivity|]. exists r. auto.
Qed.
(** a new path ends at the vehicle *)
Lemma cycle_path g s clouds now s' r : 0 <= g_children g -> runPlanner g s clouds now = Some s' ->
  buildLookAheadTree N G huge
         (starCandidates N G cast rnd ceilc top (l_cloud s') (l_goal s) (g_cost g) (g_margin g) (l_closest s') (g_max_range g) (g_min_range g) (g_children g))
         (starParams N g s) = Some r -> exists p, r_path r = p ++ [l_pos s].
Proof.
  intros Hc _ E. destruct (build_inv N G huge _ (starParams N g s) r Hc E) as (l & I & L & R & Ep).
  destruct (chain_last _ _ _ _ _ _ _ _ _ _ _ I R) as (l' & q & -> & Hq). rewrite Ep, map_app. cbn [map]. rewrite Hq. exists (map n_pos l'). reflexivity.
Qed.
Lemma cycle_front g s clouds now : clouds <> [] -> exists cloud h0 h scan empty img,
  cloud_of g s clouds now = Some cloud /\ h_new N ALPHA_RES = Some h0 /\ generateNewHistogram N G cast h0 cloud (l_pos s) = Some h /\ ghist N h /\
  (if ltb N (ofZ N 0) (g_cp_dist g)
         then obind (compressHistogramElevation N G cast h0 h (l_pos s)) (fun ch =>
              updateObstacleDistanceMsg N G ch (l_fovs s) (l_pos s) (l_yaw s) (g_min_range g) (g_max_range g))
         else Some (l_scan s)) = Some scan /\ generateHistogramImage N cast (g_max_range g) h = Some img /\
  h_isEmpty N h = Some empty.
Proof.
  intros Hne. unfold cloud_of.
  match goal with |- context [processPointcloud _ _ _ ?o ?c ?f ?y ?p ?pos ?a ?b ?m ?e ?n] =>
    destruct (processPointcloud_spec N G cast pos a b n f y p m e o c Hne) as (fr & rem & E & _) end.
  destruct new_ghist as (h0 & E0 & G0 & Z0).
  destruct (generateNewHistogram_spec N G cast (l_pos s) h0 (fr ++ rem) G0) as (h & E1 & G1 & _).
  destruct (compress_spec N O G cast (l_pos s) h h0 _ _ G1 G0 (fun z _ => Z0 0 z) eq_refl eq_refl) as (ch & E2 & G2 & _).
  destruct (scan_spec N G ch (l_fovs s) (l_pos s) (l_yaw s) (g_min_range g) (g_max_range g) G2) as (scan & E3 & _).
  destruct (hist_image_spec N cast (g_max_range g) h G1) as (img & E4 & _).
  destruct (isEmpty_wf N h (proj1 G1)) as (b & E5 & _).
  exists (fr ++ rem), h0, h, (if ltb N (ofZ N 0) (g_cp_dist g) then scan else l_scan s), b, img.
  split; [exact E|]. split; [exact E0|]. split; [exact E1|]. split; [exact G1|]. split; [|split; [exact E4|exact E5]].
  destruct (ltb N (ofZ N 0) (g_cp_dist g)); [|reflexivity]. rewrite E2. exact E3.
Qed.
End Cycle.
Lemma cycle_total (secs : Z -> R) (cast : R -> Z) (top : list (candidate Rn) -> option (candidate Rn * list (candidate Rn))) (huge : R)
    (g : lp_config Rn) (s : lp_state Rn) clouds now :
  is_priority_queue Rn top -> 0 <= g_margin g <= 180 -> (1 <= g_children g)%Z -> clouds <> [] ->
  exists s', runPlanner Rn Rtrig secs cast (ZnearestA : Rn -> Z) (Zceil : Rn -> Z) top huge g s clouds now = Some s'.
Proof.
  intros PQ Hm Hc Hne. destruct (cycle_front Rn ordered_Rn Rtrig secs cast g s clouds now Hne) as (cloud & h0 & h & scan & empty & img & E1 & E2 & E3 & G1 & E4 & E5 & E6).
  unfold runPlanner. unfold cloud_of in E1. rewrite E1. cbn [obind]. rewrite E2. cbn [obind]. rewrite E3. cbn [obind]. rewrite E4. cbn [obind]. rewrite E5. cbn [obind]. cbv zeta.
  rewrite E6. cbn [obind]. destruct empty; [eauto|].
  assert (Hcl : (0 <= Zceil (g_margin g / 6)%R <= 30)%Z).
  { split; [rewrite <- (Zceil_IZR 0)|rewrite <- (Zceil_IZR 30)]; apply Zceil_le; lra. }
  match goal with |- context [getCostMatrix _ _ _ _ _ h ?go ?p ?v ?cp ?m ?cl ?mx ?mn] =>
    destruct (costMatrix_R cast ZnearestA Zceil h go p v cp m cl mx mn G1 ZnearestA_ge1 Hcl) as (facing & cm & dm & sm & im & out & _ & E7 & _) end.
  match type of E7 with ?lhs = _ => match goal with |- context [obind ?x _] => change x with lhs end end. rewrite E7. cbn [obind].
  destruct (build_total Rn Rtrig huge (starCandidates Rn Rtrig cast (ZnearestA : Rn -> Z) (Zceil : Rn -> Z) top cloud (l_goal s) (g_cost g) (g_margin g)
      (closestPoint Rn (l_goal s) (l_prev_goal s) (l_pos s) (g_xy_cruise g)) (g_max_range g) (g_min_range g) (g_children g)) (starParams Rn g s)) as (r & Er).
  - cbn [starParams children_per_node]. lia.
  - intros p v X. match type of X with starCandidates _ _ _ _ _ _ ?cl ?go ?cp ?m ?c ?mx ?mn ?n _ _ = _ =>
      destruct (starCandidates_total cast top cl go cp m c mx mn n p v PQ Hm Hc) as (cs & E & _) end. congruence.
  - rewrite Er. cbn [obind]. eauto.
Qed.
