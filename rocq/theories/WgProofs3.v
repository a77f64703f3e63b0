(** Numeric facts of the waypoint generator: NaN handling (binary32), speed and yaw (reals). *)
From Coq Require Import ZArith Reals List Bool Lia Lra.
From Flocq Require Import Core BinarySingleNaN.
From Verif Require Import Num Mat CommonModel CommonSpec CommonProofs CommonProofs2 HistModel PfModel PfProofs3 PfMisc StarModel LpModel LpProofs2 UsmModel WgModel WgSpec WgProofs WgProofs2.
Import ListNotations.

(* ------------------------------------------------------------------- NaN, binary32 *)
Lemma sub_nan_l (y : f32) : sub F32 (nanv F32) y = nanv F32. Proof. destruct y; reflexivity. Qed.
Lemma is_nan_eq (x : f32) : is_nan x = true -> x = nanv F32. Proof. destruct x; try discriminate; reflexivity. Qed.
Lemma add_nan_r (x : f32) : add F32 x (nanv F32) = nanv F32. Proof. destruct x; reflexivity. Qed.
Lemma add_nan_l (x : f32) : add F32 (nanv F32) x = nanv F32. Proof. destruct x; reflexivity. Qed.
Lemma norm_nan (v : vec3 F32) : hasNaN F32 v = true -> v3norm F32 v = nanv F32.
Proof.
  unfold hasNaN, v3norm, v3sqnorm. rewrite !isnan_F32. destruct v as (x, y, z). cbn [vx vy vz].
  intros H. assert (E : add F32 (add F32 (mul F32 x x) (mul F32 y y)) (mul F32 z z) = nanv F32).
  { destruct (is_nan x) eqn:A; [|destruct (is_nan y) eqn:B; [|destruct (is_nan z) eqn:C; [|discriminate]]];
      [rewrite (is_nan_eq x A)|rewrite (is_nan_eq y B)|rewrite (is_nan_eq z C)].
    - change (mul F32 (nanv F32) (nanv F32)) with (nanv F32). now rewrite !add_nan_l.
    - change (mul F32 (nanv F32) (nanv F32)) with (nanv F32). now rewrite add_nan_r, add_nan_l.
    - change (mul F32 (nanv F32) (nanv F32)) with (nanv F32). now rewrite add_nan_r. }
  rewrite E. reflexivity.
Qed.
Lemma ltb_nan_l (x : f32) : ltb F32 (nanv F32) x = false.
Proof. apply not_true_is_false. intros H. apply f32_ltb_true in H. destruct H as (H & _). discriminate. Qed.
Lemma close_no_nan (g p : vec3 F32) (d : f32) : ltb F32 (v3norm F32 (v3sub F32 g p)) d = true -> hasNaN F32 g = false.
Proof.
  intros H. apply not_true_is_false. intros Hn. rewrite norm_nan, ltb_nan_l in H; [discriminate|]. unfold hasNaN in *. rewrite !isnan_F32 in *.
  destruct g as (x, y, z). cbn [vx vy vz v3sub] in *.
  destruct (is_nan x) eqn:A; [|destruct (is_nan y) eqn:B; [|destruct (is_nan z) eqn:C; [|discriminate]]];
    [rewrite (is_nan_eq x A)|rewrite (is_nan_eq y B)|rewrite (is_nan_eq z C)]; rewrite sub_nan_l; cbn [nanv F32 is_nan]; rewrite ?orb_true_r; reflexivity.
Qed.
Lemma try_path_no_nan G secs travel (w : wg F32) now : m_reset (w_mem w) = false -> w_state w = TRY_PATH -> hasNaN F32 (i_pos (w_in w)) = false ->
  hasNaN F32 (o_goto (w_out (calculateWaypoint F32 G secs travel w now))) = false.
Proof.
  intros R S P. rewrite calc_eq by exact R. unfold runState. change (w_state (prep F32 w now)) with (w_state w). rewrite S.
  unfold runTryPath. change (i_pos (w_in (prep F32 w now))) with (i_pos (w_in w)). change (i_stay (w_in (prep F32 w now))) with (i_stay (w_in w)).
  destruct (pathSetpoint F32 travel (prep F32 w now) now) as [av sp].
  set (g := if hasNaN F32 _ then i_pos (w_in w) else _).
  assert (Hg : hasNaN F32 g = false) by (unfold g; destruct (hasNaN F32 (v3add F32 _ _)) eqn:E; assumption).
  clearbody g. set (w0 := with_goto F32 _ g).
  assert (Go : hasNaN F32 (o_goto (w_out (getPathMsg F32 G secs w0))) = false).
  { rewrite getPathMsg_goto. destruct (negb _ && _) eqn:C; [|exact Hg]. apply andb_true_iff in C as [_ C]. eapply close_no_nan, C. }
  set (w2 := getPathMsg F32 G secs w0) in *. clearbody w2.
  destruct (i_stay (w_in w)); [exact Go|].
  destruct (altitudeChange F32 w2) as [alt w3] eqn:Al. destruct (altitudeChange_frame F32 _ _ _ Al) as (_ & _ & _ & _ & A4 & _). rewrite <- A4 in Go.
  destruct alt; [exact Go|]. destruct av; exact Go.
Qed.

(* ------------------------------------------------------------------- speed, reals *)
Local Open Scope R_scope.
Lemma normalized_R (d : vec3 Rn) : v3norm Rn d <> 0 ->
  v3normalized Rn d = V3 (vx d / v3norm Rn d) (vy d / v3norm Rn d) (vz d / v3norm Rn d).
Proof.
  intros H. unfold v3normalized. rn. destruct (R_ltb_spec 0 (v3sqnorm Rn d)) as [H1|H1]; [reflexivity|].
  exfalso. apply H. unfold v3norm. cbn [sqrtv Rn]. replace (v3sqnorm Rn d) with 0; [apply sqrt_0|]. pose proof (sqn_nonneg d). lra.
Qed.
Lemma norm_scale (d : vec3 Rn) (k : R) : 0 <= k -> v3norm Rn (V3 (k * vx d) (k * vy d) (k * vz d) : vec3 Rn) = k * v3norm Rn d.
Proof.
  intros Hk. unfold v3norm. cbn [sqrtv Rn]. unfold v3sqnorm. cbn [vx vy vz]. rn. tR.
  replace (k * vx d * (k * vx d) + k * vy d * (k * vy d) + k * vz d * (k * vz d)) with ((k * k) * (vx d * vx d + vy d * vy d + vz d * vz d)) by ring.
  rewrite sqrt_mult_alt by nra. rewrite sqrt_square by exact Hk. reflexivity.
Qed.
Definition along (pos target adapted : vec3 Rn) (k : R) : Prop :=
  vx adapted = vx pos + k * (vx target - vx pos) /\ vy adapted = vy pos + k * (vy target - vy pos) /\ vz adapted = vz pos + k * (vz target - vz pos).
Lemma scaled_R (pos g : vec3 Rn) (sp : R) : 0 <= sp ->
  let d := v3sub Rn g pos in let u := if ltb Rn (cst Rn 1 10) (v3norm Rn d) then v3normalized Rn d else d in
  let adapted := v3add Rn pos (V3 (mul Rn (vx u) sp) (mul Rn (vy u) sp) (mul Rn (vz u) sp)) in
  (exists k, 0 <= k /\ along pos g adapted k) /\ v3norm Rn (v3sub Rn adapted pos) <= sp.
Proof.
  intros Hsp d u. assert (K : exists k, 0 <= k /\ u = V3 (k * vx d) (k * vy d) (k * vz d) /\ k * v3norm Rn d <= 1).
  { unfold u. rewrite cst_Rn. cbn [ltb Rn]. destruct (R_ltb_spec (1 / 10) (v3norm Rn d)) as [H|H].
    - assert (v3norm Rn d <> 0) by lra. exists (/ v3norm Rn d). split; [left; apply Rinv_0_lt_compat; lra|]. rewrite normalized_R by assumption.
      split; [unfold Rdiv; tR; f_equal; ring|rewrite Rinv_l by assumption; lra].
    - exists 1. split; [lra|]. split; [destruct d as (d1, d2, d3); cbn [vx vy vz]; tR; f_equal; ring|lra]. }
  destruct K as (k & Hk & Ek & Hk1). rewrite Ek. cbn [vx vy vz mul Rn]. split.
  - exists (k * sp). split; [apply Rmult_le_pos; assumption|]. unfold along, v3add, d, v3sub; cbn [vx vy vz add sub Rn]; tR; repeat split; ring.
  - assert (En : v3norm Rn (v3sub Rn (v3add Rn pos (V3 (k * vx d * sp) (k * vy d * sp) (k * vz d * sp) : vec3 Rn)) pos) = (k * sp) * v3norm Rn d).
    { rewrite <- norm_scale by (apply Rmult_le_pos; assumption). f_equal. unfold v3add, v3sub. cbn [vx vy vz add sub Rn]. tR. f_equal; ring. }
    eapply Rle_trans; [right; exact En|]. pose proof (norm_nonneg d). tR. nra.
Qed.
Lemma adapt_R (st : pstate) (i : wg_in Rn) (m : wg_mem Rn) (c : wg_cfg Rn) (goto : vec3 Rn) (yaw dt : R) : 0 < dt -> 0 <= m_speed m -> 0 <= o_cruise (c_info c) -> (forall f, In f (c_fovs c) -> 0 < h_fov_deg f) ->
  forall goto' speed heading yaw' adapted, adaptSpeed Rn Rtrig st i m c goto yaw dt = (goto', speed, heading, yaw', adapted) ->
  0 <= speed <= v3norm Rn (v3sub Rn (i_goal i) (i_pos i)) /\ speed <= Rmax (m_speed m) (Rmax 1 (o_cruise (c_info c))) /\
  (exists k, 0 <= k /\ along (i_pos i) goto' adapted k) /\ v3norm Rn (v3sub Rn adapted (i_pos i)) <= speed /\
  (v3norm Rn (v3sub Rn (i_goal i) (i_pos i)) < 1 -> speed <= v3norm Rn (v3sub Rn (i_goal i) (i_pos i))).
Proof.
  intros Hdt Hs Hc Hf goto' speed heading yaw' adapted. unfold adaptSpeed. cbn [finiteb Rn].
  set (gd := v3norm Rn (v3sub Rn (i_goal i) (i_pos i))). assert (Hgd : 0 <= gd) by apply norm_nonneg.
  set (cr := o_cruise (c_info c)) in *.
  set (sc := fovScale Rn (c_fovs c) (dirFCU Rn Rtrig i goto)).
  assert (Hsc : 0 <= sc <= 1).
  { unfold sc, fovScale. destruct (scaleToFOV_range (c_fovs c) (dirFCU Rn Rtrig i goto) Hf) as (s & E & Hr & _). rewrite E. exact Hr. }
  set (alpha := div Rn dt (add Rn (cst Rn 9 10) dt)).
  assert (Ha : 0 <= alpha <= 1).
  { unfold alpha. rewrite cst_Rn. cbn [div add Rn]. split.
    - apply Rmult_le_pos; [lra|]. left. apply Rinv_0_lt_compat. lra.
    - apply (Rmult_le_reg_r (9 / 10 + dt)); [lra|]. unfold Rdiv at 1. rewrite Rmult_assoc, Rinv_l by lra. lra. }
  clearbody alpha sc.
  pose proof (Rmax_l (m_speed m) (Rmax 1 cr)) as M1. pose proof (Rmax_r (m_speed m) (Rmax 1 cr)) as M2. pose proof (Rmax_l 1 cr) as M3. pose proof (Rmax_r 1 cr) as M4.
  set (M := Rmax (m_speed m) (Rmax 1 cr)) in *.
  destruct (ltb Rn gd (ofZ Rn 1)) eqn:Close.
  - intros [= <- <- _ _ <-]. match goal with |- context [minv Rn ?a ?b] => set (sp := minv Rn a b) end.
    assert (Hsp : 0 <= sp <= gd /\ sp <= M).
    { unfold sp. rewrite minv_Rn. cbn [add mul sub ofZ Rn]. cbn [ltb ofZ Rn] in Close. apply R_ltb_true in Close. split; [split; [apply Rmin_glb; nra|apply Rmin_r]|].
      eapply Rle_trans; [apply Rmin_l|]. assert (gd <= M) by lra. assert (m_speed m <= M) by lra. tR. nra. }
    clearbody sp. destruct Hsp as [Hsp Hsp2]. destruct (scaled_R (i_pos i) (i_goal i) sp (proj1 Hsp)) as (K1 & K2).
    split; [exact Hsp|]. split; [exact Hsp2|]. split; [exact K1|]. split; [exact K2|]. intros _. apply Hsp.
  - set (sp1 := if pstate_eqb st ALTITUDE_CHANGE then cr else mul Rn cr sc).
    assert (Hs1 : 0 <= sp1 <= cr) by (unfold sp1; destruct (pstate_eqb st ALTITUDE_CHANGE); [lra|]; cbn [mul Rn]; nra). clearbody sp1.
    intros [= <- <- _ _ <-]. match goal with |- context [minv Rn ?a ?b] => set (sp := minv Rn a b) end.
    assert (Hsp : 0 <= sp <= gd /\ sp <= M).
    { unfold sp. rewrite minv_Rn. cbn [add mul sub ofZ Rn]. split; [split; [apply Rmin_glb; nra|apply Rmin_r]|].
      eapply Rle_trans; [apply Rmin_l|]. assert (sp1 <= M) by lra. assert (m_speed m <= M) by lra. tR. nra. }
    clearbody sp. destruct Hsp as [Hsp Hsp2]. destruct (scaled_R (i_pos i) goto sp (proj1 Hsp)) as (K1 & K2).
    split; [exact Hsp|]. split; [exact Hsp2|]. split; [exact K1|]. split; [exact K2|]. intros _. apply Hsp.
Qed.

(* ------------------------------------------------------------------- one control cycle as: prepare a target, getPathMsg, evaluate flags *)
Section Decomp.
Context (N : num) (G : trig N) (secs : Z -> N) (travel : Z -> N -> N).
Record target_of (w w0 : wg N) : Prop := {
  tg_state : w_state w0 = w_state w; tg_cfg : w_cfg w0 = w_cfg w; tg_pos : i_pos (w_in w0) = i_pos (w_in w); tg_vel : i_vel (w_in w0) = i_vel (w_in w);
  tg_yaw0 : i_yaw (w_in w0) = i_yaw (w_in w); tg_pitch : i_pitch (w_in w0) = i_pitch (w_in w);
  tg_goal : i_goal (w_in w0) = i_goal (w_in w) \/ i_goal (w_in w0) = setz N (i_pos (w_in w)) (vz (i_goal (w_in w)));
  tg_auto : m_autoland (w_mem w0) = m_autoland (w_mem w);
  tg_sloc : m_sloc (w_mem w0) = m_sloc (w_mem w); tg_svel : m_svel (w_mem w0) = m_svel (w_mem w); tg_speed : m_speed (w_mem w0) = m_speed (w_mem w);
  tg_yaw : m_yaw (w_mem w0) = m_yaw (w_mem w); tg_yawvel : m_yawvel (w_mem w0) = m_yawvel (w_mem w); tg_heading : m_heading (w_mem w0) = m_heading (w_mem w);
  tg_cur : m_cur (w_mem w0) = m_cur (w_mem w); tg_last : m_last (w_mem w0) = m_last (w_mem w);
  tg_yawreach : m_yawreach (w_mem w0) = m_yawreach (w_mem w) \/ m_yawreach (w_mem w0) = i_yaw (w_in w);
  tg_reach : m_yawreach (w_mem w0) = (if pstate_eqb (w_state w) ALTITUDE_CHANGE && m_changed (w_mem w) then i_yaw (w_in w) else m_yawreach (w_mem w)) }.
Record same_result (w2 w1 : wg N) : Prop := {
  sr_out : w_out w1 = w_out w2; sr_in : w_in w1 = w_in w2; sr_speed : m_speed (w_mem w1) = m_speed (w_mem w2); sr_yaw : m_yaw (w_mem w1) = m_yaw (w_mem w2);
  sr_heading : m_heading (w_mem w1) = m_heading (w_mem w2); sr_yawreach : m_yawreach (w_mem w1) = m_yawreach (w_mem w2);
  sr_state : w_state w1 = w_state w2; sr_cfg : w_cfg w1 = w_cfg w2 }.
Lemma same_refl w : same_result w w. Proof. constructor; reflexivity. Qed.
Lemma same_alt w b w' : altitudeChange N w = (b, w') -> same_result w w'.
Proof. intros H. apply altitudeChange_frame in H. constructor; apply H. Qed.
Lemma runState_decomp w now t w1 : runState N G secs travel w now = (t, w1) -> exists w0, target_of w w0 /\ same_result (getPathMsg N G secs w0) w1.
Proof.
  unfold runState. destruct (w_state w) eqn:S.
  - unfold runTryPath. destruct (pathSetpoint N travel w now) as [av sp]. set (w0 := with_goto N w _). intros E. exists w0. split; [constructor; cbn; rewrite ?S; auto|].
    destruct (i_stay (w_in w)); [injection E as _ <-; apply same_refl|]. destruct (altitudeChange N _) as [alt w3] eqn:Al. apply same_alt in Al.
    assert (w1 = w3) as -> by (destruct alt; [|destruct av]; congruence). exact Al.
  - unfold runAltitudeChange. set (w0 := if nav_eqb _ _ then _ else _). intros E. exists w0. split.
    + unfold w0. destruct (nav_eqb (i_nav (w_in w)) N_offboard); [|destruct (ltb N (cst N 1 2) _)]; constructor; cbn; rewrite ?S; cbn; auto;
        destruct (m_changed (w_mem w)); auto.
    + destruct (i_stay (w_in w)); [injection E as _ <-; apply same_refl|]. destruct (altitudeChange N _) as [alt w3] eqn:Al. apply same_alt in Al.
      assert (w1 = w3) as -> by congruence. exact Al.
  - unfold runLoiter. set (w0 := with_goto N _ _). intros E. exists w0. split; [constructor; cbn; rewrite ?S; auto|]. injection E as _ <-. apply same_refl.
  - unfold runDirect. set (w0 := with_goto N _ _). intros E. exists w0. split; [constructor; cbn; rewrite ?S; auto|].
    destruct (fst _); [injection E as _ <-; apply same_refl|]. destruct (altitudeChange N _) as [alt w3] eqn:Al. apply same_alt in Al.
    assert (w1 = w3) as -> by (destruct alt; [|destruct (i_stay (w_in w))]; congruence). exact Al.
Qed.
(** the whole control cycle *)
Lemma calc_decomp w now : m_reset (w_mem w) = false -> exists w0, target_of (prep N w now) w0 /\
  let w2 := getPathMsg N G secs w0 in let w' := calculateWaypoint N G secs travel w now in
  o_pos (w_out w') = o_pos (w_out w2) /\ o_quat (w_out w') = o_quat (w_out w2) /\ o_lin (w_out w') = o_lin (w_out w2) /\
  o_goto (w_out w') = o_goto (w_out w2) /\ o_adapted (w_out w') = o_adapted (w_out w2) /\ o_smoothed (w_out w') = o_smoothed (w_out w2) /\
  w_in w' = w_in w2 /\ m_speed (w_mem w') = m_speed (w_mem w2) /\ m_yaw (w_mem w') = m_yaw (w_mem w2) /\ m_heading (w_mem w') = m_heading (w_mem w2) /\
  m_yawreach (w_mem w') = m_yawreach (w_mem w2).
Proof.
  intros R. destruct (runState N G secs travel (prep N w now) now) as [t w1] eqn:E. destruct (runState_decomp _ _ _ _ E) as (w0 & T0 & [A B C D E1 F H I]).
  exists w0. split; [exact T0|]. rewrite calc_eq by exact R. rewrite E. cbv zeta. destruct t; cbn; rewrite ?A, ?B, ?C, ?D, ?E1, ?F; auto 20.
Qed.
End Decomp.

(* ------------------------------------------------------------------- speed of a cycle, reals *)
Lemma stepTime_pos secs (m : wg_mem Rn) : 0 < stepTime Rn secs m.
Proof. unfold stepTime. rn. destruct (R_ltb_spec 0 (secs (m_cur m - m_last m)%Z)); [assumption|]. rewrite cst_Rn. lra. Qed.
Lemma getPathMsg_R secs (w : wg Rn) : m_autoland (w_mem w) = false -> 0 <= m_speed (w_mem w) -> 0 <= o_cruise (c_info (w_cfg w)) ->
  (forall f, In f (c_fovs (w_cfg w)) -> 0 < h_fov_deg f) ->
  let w' := getPathMsg Rn Rtrig secs w in let pos := i_pos (w_in w) in let gd := v3norm Rn (v3sub Rn (i_goal (w_in w)) pos) in
  0 <= m_speed (w_mem w') <= gd /\ m_speed (w_mem w') <= Rmax (m_speed (w_mem w)) (Rmax 1 (o_cruise (c_info (w_cfg w)))) /\
  (exists k, 0 <= k /\ along pos (o_goto (w_out w')) (o_adapted (w_out w')) k) /\ v3norm Rn (v3sub Rn (o_adapted (w_out w')) pos) <= m_speed (w_mem w') /\
  (c_sxy (w_cfg w) < 1 / 100 \/ c_sz (w_cfg w) < 1 / 100 -> o_pos (w_out w') = o_adapted (w_out w')).
Proof.
  intros A Hs Hc Hf. unfold WgModel.getPathMsg. destruct (nextSmoothYaw Rn Rtrig _ _ _ _ _ _) as [yaw yv]. rewrite A.
  destruct (adaptSpeed Rn Rtrig _ _ _ _ _ _ _) as [[[[g sp] h] y'] ad] eqn:E.
  destruct (adapt_R _ _ _ _ _ _ _ (stepTime_pos secs (w_mem w)) Hs Hc Hf _ _ _ _ _ E) as (B1 & B2 & B3 & B4 & _).
  destruct (smoothWaypoint _ _ _ _ _ _) as [[sl sv] sm] eqn:F. cbn [w_mem w_out m_speed o_goto o_adapted o_pos].
  repeat (split; [assumption|]). unfold smoothWaypoint in F. rewrite !cst_Rn in F. cbn [ltb Rn] in F.
  intros [X|X]; apply R_ltb_true in X; rewrite X in F; rewrite ?orb_true_r in F; cbn in F; congruence.
Qed.
Lemma getPathMsg_auto_speed secs (w : wg Rn) : m_autoland (w_mem w) = true -> m_speed (w_mem (getPathMsg Rn Rtrig secs w)) = m_speed (w_mem w).
Proof. intros A. unfold WgModel.getPathMsg. destruct (nextSmoothYaw _ _ _ _ _ _ _ _) as [yaw yv]. rewrite A. reflexivity. Qed.
Lemma goal_sub (g p : vec3 Rn) : v3norm Rn (v3sub Rn (setz Rn p (vz g)) p) <= v3norm Rn (v3sub Rn g p).
Proof.
  unfold v3norm. cbn [sqrtv Rn]. apply sqrt_le_1_alt. unfold v3sqnorm, v3sub, setz. cbn [vx vy vz add mul sub Rn]. destruct g as (g1, g2, g3), p as (p1, p2, p3). cbn [vx vy vz]. tR.
  pose proof (Rle_0_sqr (g1 - p1)). pose proof (Rle_0_sqr (g2 - p2)). unfold Rsqr in *. rewrite !Rminus_diag_eq by reflexivity. lra.
Qed.
Lemma calc_R secs travel (w : wg Rn) now : m_reset (w_mem w) = false -> m_autoland (w_mem w) = false -> 0 <= m_speed (w_mem w) ->
  0 <= o_cruise (c_info (w_cfg w)) -> (forall f, In f (c_fovs (w_cfg w)) -> 0 < h_fov_deg f) ->
  let w' := calculateWaypoint Rn Rtrig secs travel w now in let pos := i_pos (w_in w) in let gd := v3norm Rn (v3sub Rn (i_goal (w_in w)) pos) in
  0 <= m_speed (w_mem w') <= gd /\ m_speed (w_mem w') <= Rmax (m_speed (w_mem w)) (Rmax 1 (o_cruise (c_info (w_cfg w)))) /\
  (exists k, 0 <= k /\ along pos (o_goto (w_out w')) (o_adapted (w_out w')) k) /\ v3norm Rn (v3sub Rn (o_adapted (w_out w')) pos) <= m_speed (w_mem w') /\
  (c_sxy (w_cfg w) < 1 / 100 \/ c_sz (w_cfg w) < 1 / 100 -> o_pos (w_out w') = o_adapted (w_out w')).
Proof.
  intros R A Hs Hc Hf. destruct (calc_decomp Rn Rtrig secs travel w now R) as (w0 & T0 & P1 & _ & _ & P4 & P5 & _ & _ & P8 & _).
  cbv zeta in *. rewrite P1, P4, P5, P8. destruct T0. cbn [prep w_cfg w_in w_mem m_autoland m_speed i_pos] in *.
  destruct (getPathMsg_R secs w0) as (B1 & B2 & B3 & B4 & B5).
  - congruence.
  - rewrite tg_speed0. exact Hs.
  - rewrite tg_cfg0. exact Hc.
  - rewrite tg_cfg0. exact Hf.
  - cbv zeta in *. rewrite tg_pos0, tg_cfg0, tg_speed0 in *. repeat split; try assumption; try apply B1.
    destruct tg_goal0 as [Eg|Eg]; rewrite Eg in B1; [apply B1|]. eapply Rle_trans; [apply B1|]. apply goal_sub.
Qed.
Lemma calc_auto_speed secs travel (w : wg Rn) now : m_reset (w_mem w) = false -> m_autoland (w_mem w) = true ->
  m_speed (w_mem (calculateWaypoint Rn Rtrig secs travel w now)) = m_speed (w_mem w).
Proof.
  intros R A. destruct (calc_decomp Rn Rtrig secs travel w now R) as (w0 & T0 & _ & _ & _ & _ & _ & _ & _ & P8 & _). cbv zeta in *. rewrite P8. destruct T0.
  cbn [prep w_mem m_autoland m_speed] in *. rewrite getPathMsg_auto_speed by congruence. exact tg_speed0.
Qed.

(** invariant of the speed over histories *)
Definition speed_ok (n : nat) (vmax : R) (w : wg Rn) : Prop :=
  m_reset (w_mem w) = false /\ 0 <= m_speed (w_mem w) <= vmax /\ 0 <= o_cruise (c_info (w_cfg w)) <= vmax /\
  length (c_fovs (w_cfg w)) = n /\ forall f, In f (c_fovs (w_cfg w)) -> 0 < h_fov_deg f.
Definition op_ok (n : nat) (vmax : R) (o : wg_op Rn) : Prop :=
  match o with
  | OpFOV i f => (i < n)%nat /\ 0 < h_fov_deg f
  | OpInfo f => 0 <= o_cruise f <= vmax
  | _ => True
  end.
Lemma set_nth_spec {A} (l : list A) i x y : In y (StarModel.set_nth l i x) -> y = x \/ In y l.
Proof. revert i. induction l as [|z l IH]; intros [|i]; cbn; auto; intros [E|I]; auto. destruct (IH _ I); auto. Qed.
Lemma set_nth_len {A} (l : list A) i x : length (StarModel.set_nth l i x) = length l.
Proof. revert i. induction l as [|z l IH]; intros [|i]; cbn; auto. Qed.
Lemma speed_step secs travel n vmax w o : 1 <= vmax -> speed_ok n vmax w -> op_ok n vmax o -> speed_ok n vmax (wg_step Rn Rtrig secs travel w o).
Proof.
  intros Hv (R & S & C & L & F) O. destruct o as [| i f | f | |]; cbn [wg_step].
  - repeat split; try assumption; try apply S; try apply C.
  - destruct O as [O1 O2]. unfold wg_setFOV. cbn [c_fovs w_cfg]. destruct (Nat.ltb_spec i (length (c_fovs (w_cfg w)))) as [H|H]; [|lia].
    repeat split; cbn; try apply S; try apply C; try assumption.
    + now rewrite set_nth_len.
    + intros g I. apply set_nth_spec in I as [->|I]; [exact O2|exact (F g I)].
  - repeat split; cbn; try assumption; try apply S; try apply O.
  - repeat split; cbn; try assumption; try apply S; try apply C.
  - pose proof (calc_next Rn Rtrig secs travel w now R) as (_ & _ & A3 & _ & _ & A6 & _). unfold speed_ok. rewrite A6.
    assert (Sp : 0 <= m_speed (w_mem (calculateWaypoint Rn Rtrig secs travel w now)) <= vmax).
    { destruct (m_autoland (w_mem w)) eqn:Al; [rewrite (calc_auto_speed secs travel w now R Al); exact S|].
      destruct (calc_R secs travel w now R Al (proj1 S) (proj1 C) F) as (B1 & B2 & _). split; [apply B1|]. eapply Rle_trans; [exact B2|].
      apply Rmax_lub; [apply S|]. apply Rmax_lub; [exact Hv|apply C]. }
    repeat split; try assumption; try apply Sp; try apply C.
Qed.
Lemma speed_run secs travel n vmax l : 1 <= vmax -> forall w, speed_ok n vmax w -> Forall (op_ok n vmax) l -> speed_ok n vmax (wg_run Rn Rtrig secs travel w l).
Proof.
  intros Hv. induction l as [|o l IH]; intros w H F; [exact H|]. rewrite run_cons. inversion F; subst. apply IH; [apply speed_step; assumption|assumption].
Qed.

(* ------------------------------------------------------------------- yaw, reals *)
Definition inpi (x : R) : Prop := - PI <= x <= PI.
Definition yaw_ok (w : wg Rn) : Prop :=
  m_reset (w_mem w) = false /\ inpi (m_yaw (w_mem w)) /\ inpi (m_yawreach (w_mem w)) /\ inpi (i_yaw (w_in w)) /\ (forall h, m_heading (w_mem w) = Some h -> inpi h).
Lemma nextYaw_inpi u v : inpi (nextYaw Rn Rtrig u v).
Proof. unfold nextYaw, inpi. cbn [t_atan2 Rtrig]. pose proof (Ratan2_range (sub Rn (vy v) (vy u)) (sub Rn (vx v) (vx u))). lra. Qed.
Lemma smoothYaw_inpi st (i : wg_in Rn) (m : wg_mem Rn) (sxy : R) goto (dt : R) : inpi (i_yaw i) -> inpi (m_yawreach m) -> inpi (fst (nextSmoothYaw Rn Rtrig st i m sxy goto dt)).
Proof.
  intros A B. unfold nextSmoothYaw. set (des := if pstate_eqb st ALTITUDE_CHANGE then _ else _).
  assert (D : inpi des).
  { unfold des. destruct (pstate_eqb st ALTITUDE_CHANGE); [exact B|]. destruct (ltb Rn _ _); [apply nextYaw_inpi|exact A]. }
  clearbody des. destruct (leb Rn sxy _); [exact D|]. cbn [fst]. unfold inpi. match goal with |- context [wrapAngleToPlusMinusPI Rn ?x] => pose proof (wrapPI_range x) end. lra.
Qed.
Lemma getPathMsg_yaw secs (w : wg Rn) : inpi (i_yaw (w_in w)) -> inpi (m_yawreach (w_mem w)) -> (forall h, m_heading (w_mem w) = Some h -> inpi h) ->
  let w' := getPathMsg Rn Rtrig secs w in
  inpi (m_yaw (w_mem w')) /\ (forall h, m_heading (w_mem w') = Some h -> inpi h) /\ o_quat (w_out w') = createPoseQuat Rn Rtrig (m_yaw (w_mem w')).
Proof.
  intros A B C. unfold WgModel.getPathMsg. pose proof (smoothYaw_inpi (w_state w) (w_in w) (w_mem w) (c_sxy (w_cfg w)) (o_goto (w_out w)) (stepTime Rn secs (w_mem w)) A B) as D.
  destruct (nextSmoothYaw Rn Rtrig _ _ _ _ _ _) as [yaw yv]. cbn [fst] in D. destruct (m_autoland (w_mem w)).
  - cbn. auto.
  - unfold adaptSpeed. destruct (ltb Rn _ (ofZ Rn 1)); destruct (smoothWaypoint _ _ _ _ _ _) as [[sl sv] sm]; cbn [w_mem w_out m_yaw m_heading o_quat].
    + cbn [finiteb Rn]. set (h := match m_heading (w_mem w) with Some h => h | None => i_yaw (w_in w) end).
      assert (H : inpi h) by (unfold h; destruct (m_heading (w_mem w)) as [h'|] eqn:E; [apply C; reflexivity|exact A]).
      split; [exact H|]. split; [|reflexivity]. intros h' [= <-]. exact H.
    + split; [exact D|]. split; [discriminate|reflexivity].
Qed.
Lemma quat_yaw_inpi q : inpi (mul Rn (getYawFromQuaternion Rn Rtrig q) (DEG_TO_RAD Rn)).
Proof.
  unfold getYawFromQuaternion, RAD_TO_DEG, DEG_TO_RAD, inpi. cbn [t_atan2 Rtrig mul div ofZ pif Rn].
  match goal with |- context [Ratan2 ?a ?b] => pose proof (Ratan2_range a b) as H; set (r := Ratan2 a b) in * end.
  replace (r * (180 / PI) * (PI / 180)) with r by (field; apply PI_neq0). lra.
Qed.
Lemma yaw_step secs travel w o : yaw_ok w -> yaw_ok (wg_step Rn Rtrig secs travel w o).
Proof.
  intros (R & A & B & C & D). destruct o as [pos q goal vel stay air nav land to des| | | |now]; cbn [wg_step].
  2-4: exact (conj R (conj A (conj B (conj C D)))).
  - unfold updateState. pose proof (quat_yaw_inpi q) as Q. set (y := mul Rn _ (DEG_TO_RAD Rn)) in *. clearbody y. unfold yaw_ok. cbn [w_mem w_in m_reset m_yaw m_yawreach i_yaw m_heading].
    split; [exact R|]. split; [|auto]. match goal with |- context [if ?b then _ else _] => destruct b end; assumption.
  - destruct (calc_decomp Rn Rtrig secs travel w now R) as (w0 & T0 & _ & _ & _ & _ & _ & _ & P7 & _ & P9 & P10 & P11). cbv zeta in *. destruct T0.
    cbn [prep w_in w_mem m_yawreach m_heading i_yaw] in *.
    assert (Bw : inpi (m_yawreach (w_mem w0))) by (destruct tg_yawreach0 as [->|E]; [exact B|rewrite E; exact C]).
    destruct (getPathMsg_yaw secs w0) as (Y1 & Y2 & _); [rewrite tg_yaw1; exact C|exact Bw|rewrite tg_heading0; exact D|].
    pose proof (getPathMsg_frame Rn Rtrig secs w0) as F. unfold yaw_ok. rewrite P7, P9, P10, P11, (fr_in F), (fr_yawreach F), tg_yaw1.
    split; [apply calc_next, R|]. auto.
Qed.
Lemma yaw_run secs travel l : forall w, yaw_ok w -> yaw_ok (wg_run Rn Rtrig secs travel w l).
Proof. induction l as [|o l IH]; intros w H; [exact H|]. rewrite run_cons. apply IH, yaw_step, H. Qed.
Lemma calc_quat secs travel w now : yaw_ok w -> let w' := calculateWaypoint Rn Rtrig secs travel w now in
  exists yaw, inpi yaw /\ o_quat (w_out w') = createPoseQuat Rn Rtrig yaw.
Proof.
  intros (R & A & B & C & D). destruct (calc_decomp Rn Rtrig secs travel w now R) as (w0 & T0 & _ & P2 & _). cbv zeta in *. destruct T0.
  cbn [prep w_in w_mem m_yawreach m_heading i_yaw] in *.
  assert (Bw : inpi (m_yawreach (w_mem w0))) by (destruct tg_yawreach0 as [->|E]; [exact B|rewrite E; exact C]).
  destruct (getPathMsg_yaw secs w0) as (Y1 & _ & Y3); [rewrite tg_yaw1; exact C|exact Bw|rewrite tg_heading0; exact D|].
  eexists. split; [exact Y1|]. rewrite P2. exact Y3.
Qed.

(* ------------------------------------------------------------------- altitude change target *)
Section AltTarget.
Context (N : num) (G : trig N) (secs : Z -> N) (travel : Z -> N -> N).
Lemma alt_target w now : m_reset (w_mem w) = false -> w_state w = ALTITUDE_CHANGE ->
  let i := w_in w in let pos := i_pos i in let w' := calculateWaypoint N G secs travel w now in
  let offboard := nav_eqb (i_nav i) N_offboard in let fast := ltb N (cst N 1 2) (v2norm N (vx (i_vel i)) (vy (i_vel i))) in
  let hold := if m_changed (w_mem w) then pos else m_calt (w_mem w) in
  let goal' := if offboard then setz N pos (vz (i_goal i)) else i_goal i in
  let target := if offboard then setz N pos (if i_airborne i then (if leb N (vz pos) (vz (i_goal i)) then add N (vz pos) (ofZ N 1) else sub N (vz pos) (ofZ N 1)) else vz pos)
                else if fast then pos else setz N hold (vz (i_goal i)) in
  o_goto (w_out w') = (if negb (m_autoland (w_mem w)) && ltb N (v3norm N (v3sub N goal' pos)) (ofZ N 1) then goal' else target) /\
  m_calt (w_mem w') = (if offboard then hold else if fast then pos else hold) /\
  o_lin (w_out w') = (if offboard then nan3 N else if fast then V3 (ofZ N 0) (ofZ N 0) (nanv N) else i_desired i) /\
  (m_autoland (w_mem w) = true -> offboard = false -> o_pos (w_out w') = target).
Proof.
  intros R S. cbv zeta. rewrite calc_eq by exact R. unfold runState. change (w_state (prep N w now)) with (w_state w). rewrite S.
  unfold runAltitudeChange. cbn [prep w_in w_mem w_out m_changed m_calt m_autoland m_yawreach m_sloc m_svel m_hover m_last m_cur m_reach m_yaw m_yawvel m_heading m_speed m_reset w_state w_cfg o_type o_pos o_quat o_ang o_adapted o_smoothed].
  match goal with |- context [getPathMsg N G secs ?x] => set (w0 := x) end.
  pose proof (getPathMsg_goto N G secs w0) as Go. pose proof (getPathMsg_frame N G secs w0) as F. pose proof (getPathMsg_auto_pos N G secs w0) as Au. set (w2 := getPathMsg N G secs w0) in *. clearbody w2.
  set (i := w_in w) in *. set (m := w_mem w) in *.
  assert (W : o_goto (w_out w2) = (if negb (m_autoland m) && ltb N (v3norm N (v3sub N (if nav_eqb (i_nav i) N_offboard then setz N (i_pos i) (vz (i_goal i)) else i_goal i) (i_pos i))) (ofZ N 1)
       then (if nav_eqb (i_nav i) N_offboard then setz N (i_pos i) (vz (i_goal i)) else i_goal i)
       else if nav_eqb (i_nav i) N_offboard then setz N (i_pos i) (if i_airborne i then (if leb N (vz (i_pos i)) (vz (i_goal i)) then add N (vz (i_pos i)) (ofZ N 1) else sub N (vz (i_pos i)) (ofZ N 1)) else vz (i_pos i))
                else if ltb N (cst N 1 2) (v2norm N (vx (i_vel i)) (vy (i_vel i))) then i_pos i else setz N (if m_changed m then i_pos i else m_calt m) (vz (i_goal i))) /\
     m_calt (w_mem w2) = (if nav_eqb (i_nav i) N_offboard then (if m_changed m then i_pos i else m_calt m) else if ltb N (cst N 1 2) (v2norm N (vx (i_vel i)) (vy (i_vel i))) then i_pos i else (if m_changed m then i_pos i else m_calt m)) /\
     o_lin (w_out w2) = (if nav_eqb (i_nav i) N_offboard then nan3 N else if ltb N (cst N 1 2) (v2norm N (vx (i_vel i)) (vy (i_vel i))) then V3 (ofZ N 0) (ofZ N 0) (nanv N) else i_desired i) /\
     (m_autoland m = true -> nav_eqb (i_nav i) N_offboard = false -> o_pos (w_out w2) = (if ltb N (cst N 1 2) (v2norm N (vx (i_vel i)) (vy (i_vel i))) then i_pos i else setz N (if m_changed m then i_pos i else m_calt m) (vz (i_goal i))))).
  { rewrite Go, (fr_calt F), (fr_lin F). unfold w0. clear Go F. split; [|split; [|split]].
    - destruct (nav_eqb (i_nav i) N_offboard); [|destruct (ltb N (cst N 1 2) _)]; reflexivity.
    - destruct (nav_eqb (i_nav i) N_offboard); [|destruct (ltb N (cst N 1 2) _)]; reflexivity.
    - destruct (nav_eqb (i_nav i) N_offboard); [|destruct (ltb N (cst N 1 2) _)]; reflexivity.
    - intros A B. assert (Aw : m_autoland (w_mem w0) = true) by (unfold w0; rewrite B; destruct (ltb N (cst N 1 2) _); exact A).
      destruct (Au Aw) as [E _]. rewrite E. unfold w0. rewrite B. destruct (ltb N (cst N 1 2) _); [reflexivity|]. cbn [w_out o_smoothed]. rewrite A. reflexivity. }
  clear Go F Au. clearbody w0. destruct W as (W1 & W2 & W3 & W4).
  assert (Fin : forall (t : transition) (w1 : wg N), w_out w1 = w_out w2 -> m_calt (w_mem w1) = m_calt (w_mem w2) ->
     let w' := match t with REPEAT => finish N (w_state w1) false w1 | _ => finish N (wg_choose (w_state w1) t) true w1 end in
     o_goto (w_out w') = o_goto (w_out w2) /\ m_calt (w_mem w') = m_calt (w_mem w2) /\ o_lin (w_out w') = o_lin (w_out w2) /\ o_pos (w_out w') = o_pos (w_out w2)).
  { intros t w1 E1 E2. destruct t; cbn; rewrite E1, E2; auto. }
  destruct (i_stay i).
  - destruct (Fin NEXT2 w2 eq_refl eq_refl) as (F1 & F2 & F3 & F4). cbv zeta in *. rewrite F1, F2, F3. split; [exact W1|]. split; [exact W2|]. split; [exact W3|].
    intros A B. rewrite F4, B. exact (W4 A B).
  - destruct (altitudeChange N w2) as [alt w3] eqn:Al. destruct (altitudeChange_frame N _ _ _ Al) as (_ & _ & _ & _ & A4 & _ & _ & _ & _ & _ & _ & A5 & _).
    destruct (Fin (if alt then REPEAT else NEXT1) w3 A4 A5) as (F1 & F2 & F3 & F4). cbv zeta in *.
    rewrite F1, F2, F3. split; [exact W1|]. split; [exact W2|]. split; [exact W3|].
    intros A B. rewrite F4, B. exact (W4 A B).
Qed.
End AltTarget.
