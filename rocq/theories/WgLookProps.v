(** Property theorems C123 and C124: where the vehicle looks, and how the smoothed setpoint follows its target
    (local planner's waypoint generator, landing planner's waypoint generator). *)
From Coq Require Import ZArith Reals List Bool Lia Lra.
From Flocq Require Import Core BinarySingleNaN.
From Verif Require Import Num Mat CommonModel CommonSpec CommonProofs CommonProofs2 HistModel PfModel PfProps StarModel LpModel LpProofs2 UsmModel
  WgModel WgSpec WgProofs WgProofs2 WgProofs3 WgProps SlModel SlSpec SlProps SwModel SwSpec SwProofs SwProofs2 SwProps WgLookSpec WgLookProofs.
Import ListNotations.
Local Open Scope R_scope.
Notation wgcalc := (WgModel.calculateWaypoint Rn Rtrig).

(** C123, local planner without smoothing: in every history, a control cycle that is not an altitude change, with the vehicle landing or at
    least 1 m from its goal, commands the yaw that points from the vehicle to the target of the cycle, and, if the target is not more than 0.1 m away
    horizontally, the vehicle's own yaw. *)
Theorem C123_looks_where_it_flies :
  forall secs travel (o : wg_out Rn) (cruise : R) (l : list (wg_op Rn)) (now : Z),
  let w := history Rn Rtrig secs travel o cruise l in
  let w' := history Rn Rtrig secs travel o cruise (l ++ [OpGet now]) in
  let pos := i_pos (w_in w) in let goto := o_goto (w_out w') in
  w_state w <> ALTITUDE_CHANGE -> away w -> c_sxy (w_cfg w) <= 1 / 100 ->
  exists y, o_quat (w_out w') = Q4 Rn (cos (y / 2)) 0 0 (sin (y / 2)) /\
    (1 / 10 < sqrt ((vx pos - vx goto) * (vx pos - vx goto) + (vy pos - vy goto) * (vy pos - vy goto)) -> heads pos goto y) /\
    (sqrt ((vx pos - vx goto) * (vx pos - vx goto) + (vy pos - vy goto) * (vy pos - vy goto)) <= 1 / 10 -> y = i_yaw (w_in w)).
Proof.
  intros secs travel o cruise l now w w' pos goto S A K.
  assert (R : m_reset (w_mem w) = false) by (unfold w; apply history_reset).
  assert (Ew : w' = wgcalc secs travel w now) by (unfold w', w, history; rewrite run_app; reflexivity).
  destruct (cycle_yaw secs travel w now R S A) as (Q & E). rewrite <- Ew in Q, E. cbv zeta in E. fold goto in E.
  assert (Lb : leb Rn (c_sxy (w_cfg w)) (1 / 100) = true) by (cbn [leb Rn]; apply R_leb_true; exact K). rewrite Lb in E. injection E as E1 E2.
  exists (wanted w goto). split.
  { etransitivity; [exact Q|]. rewrite E1. unfold createPoseQuat, qmul, qaxis_x, qaxis_y, qaxis_z. cbn [qw qx qy qz t_cos t_sin Rtrig add sub mul div ofZ Rn]. tR.
    replace (0 / 2) with 0 by lra. rewrite cos_0, sin_0. f_equal; ring. }
  pose proof (wanted_heads w goto) as W. cbv zeta in W. fold pos in W. unfold v2norm in W. cbn [add mul sub sqrtv ltb Rn] in W.
  match type of W with context [R_ltb ?x ?y] => destruct (R_ltb_spec x y) as [Hd|Hd] end; (split; intros D; [|]).
  - exact W.
  - exfalso. apply (Rlt_not_le _ _ Hd). exact D.
  - exfalso. apply Hd. exact D.
  - exact W.
Qed.
Print Assumptions C123_looks_where_it_flies.

(** C123, with smoothing, any number of cycles: while the target stays in direction [d] as seen from the vehicle, the commanded yaw comes closer to [d] the
    short way round. [e] is the turn that is missing at first and [v] the yaw rate; [e2] is the turn that is missing in the end. *)
Theorem C123_turns_towards_target :
  forall secs travel (d : R) (w w2 : wg Rn) (hs : list R) (e : R),
  let k := c_sxy (w_cfg w) in
  flies_towards secs travel d w hs w2 -> 0 < k -> turn (m_yaw (w_mem w)) d e -> lag k e (m_yawvel (w_mem w)) < PI ->
  exists e2, turn (m_yaw (w_mem w2)) d e2 /\ Rabs e2 <= decay hs * lag k e (m_yawvel (w_mem w)).
Proof.
  intros secs travel d w w2 hs e k F K T L. destruct (flies_run secs travel d w hs w2 F e K T L) as (_ & e2 & T2 & L2).
  exists e2. split; [exact T2|]. eapply Rle_trans; [apply (lag_error k); exact K|exact L2].
Qed.
Print Assumptions C123_turns_towards_target.
(** at rest at first: the missing turn is multiplied by at most 1 - h^2 in each cycle, and the yaw commanded in the last cycle is the one spoken of *)
Theorem C123_turn_shrinks :
  forall secs travel (d : R) (w w2 : wg Rn) (hs : list R) (e : R),
  flies_towards secs travel d w hs w2 -> 0 < c_sxy (w_cfg w) -> turn (m_yaw (w_mem w)) d e -> m_yawvel (w_mem w) = 0 -> - PI < e ->
  exists e2, turn (m_yaw (w_mem w2)) d e2 /\ Rabs e2 <= decay hs * Rabs e.
Proof.
  intros secs travel d w w2 hs e F K T V B. assert (Ba : Rabs e < PI) by (destruct T as (_ & T1 & T2); apply Rabs_def1; lra).
  destruct (C123_turns_towards_target secs travel d w w2 hs e F K T) as (e2 & T2 & L2); [rewrite V, lag_rest; exact Ba|].
  rewrite V, lag_rest in L2. eauto.
Qed.
Print Assumptions C123_turn_shrinks.
Theorem C123_commanded_yaw :
  forall secs travel (w : wg Rn) (now : Z), m_reset (w_mem w) = false -> w_state w <> ALTITUDE_CHANGE -> away w ->
  let w' := wgcalc secs travel w now in let y := m_yaw (w_mem w') in o_quat (w_out w') = Q4 Rn (cos (y / 2)) 0 0 (sin (y / 2)).
Proof.
  intros secs travel w now R S A. cbv zeta. destruct (cycle_yaw secs travel w now R S A) as (Q & _). etransitivity; [exact Q|].
  unfold createPoseQuat, qmul, qaxis_x, qaxis_y, qaxis_z. cbn [qw qx qy qz t_cos t_sin Rtrig add sub mul div ofZ Rn]. tR.
  replace (0 / 2) with 0 by lra. rewrite cos_0, sin_0. f_equal; ring.
Qed.
Print Assumptions C123_commanded_yaw.
(** n cycles of 0.1 s with the default smoothing speed 10 (h^2 = 0.1) leave at most 0.9^n of the turn *)
Theorem C123_decay_default : forall n, decay (repeat (sqrt 10 * (1 / 10)) n) = (9 / 10) ^ n.
Proof.
  induction n as [|n IH]; [reflexivity|]. cbn [repeat decay fold_right pow]. fold (decay (repeat (sqrt 10 * (1 / 10)) n)). rewrite IH.
  replace (sqrt 10 * (1 / 10) * (sqrt 10 * (1 / 10))) with (sqrt 10 * sqrt 10 / 100) by field. rewrite sqrt_sqrt by lra. lra.
Qed.
Print Assumptions C123_decay_default.
(** a hovering vehicle that has drifted 5 m from its hover position and looks 1 rad away from it *)
Definition look_w : wg Rn :=
  WG LOITER (WIn (V3 (0 : Rn) (0 : Rn) (5 : Rn)) (zero3 Rn) (V3 (50 : Rn) (0 : Rn) (5 : Rn)) (1 : Rn) (0 : Rn) N_mission false false (zero3 Rn) true true)
     (WMem (zero3 Rn) (zero3 Rn) (zero3 Rn) (V3 (5 : Rn) (0 : Rn) (5 : Rn)) 0 0 false false (1 : Rn) (0 : Rn) None (0 : Rn) (0 : Rn) false false)
     (WOut LOITER (zero3 Rn) (Q4 Rn (1 : Rn) (0 : Rn) (0 : Rn) (0 : Rn)) (zero3 Rn) (zero3 Rn) (zero3 Rn) (zero3 Rn) (zero3 Rn))
     (WCfg (10 : Rn) (3 : Rn) [] (Out (3 : Rn) 0 [])).
Definition look_secs (n : Z) : Rn := IZR n / 1000000000.
Definition look_travel (n : Z) (v : Rn) : Rn := look_secs n * v.
Example C123_example :
  flies_towards look_secs look_travel 0 look_w [sqrt 10 * (1 / 10)] (wgcalc look_secs look_travel look_w 100000000) /\
  0 < c_sxy (w_cfg look_w) /\ turn (m_yaw (w_mem look_w)) 0 (-1) /\ m_yawvel (w_mem look_w) = 0 /\ - PI < -1 /\ decay [sqrt 10 * (1 / 10)] * Rabs (-1) = 9 / 10.
Proof.
  assert (P3 : 3 < PI) by (pose proof PI2_3_2; lra).
  assert (Ct : cycle_time look_secs look_w 100000000 = 1 / 10).
  { unfold cycle_time, look_secs. cbn [look_w w_mem m_cur ltb Rn]. rewrite Z.sub_0_r. destruct (R_ltb_spec 0 (100000000 / 1000000000)); lra. }
  assert (Aw : away look_w).
  { right. unfold look_w. cbn [w_in i_goal i_pos]. unfold v3norm, v3sqnorm, v3sub. cbn [vx vy vz sub add mul sqrtv Rn].
    replace ((50 - 0) * (50 - 0) + (0 - 0) * (0 - 0) + (5 - 5) * (5 - 5)) with (50 * 50) by ring. rewrite sqrt_square; lra. }
  assert (S10 : sqrt 10 <= 5) by (replace 5 with (sqrt (5 * 5)) by (apply sqrt_square; lra); apply sqrt_le_1_alt; lra).
  assert (Go : o_goto (w_out (wgcalc look_secs look_travel look_w 100000000)) = V3 (5 : Rn) (0 : Rn) (5 : Rn)).
  { destruct (loiter_calc Rn Rtrig look_secs look_travel look_w 100000000) as (_ & _ & _ & X & _); [reflexivity|reflexivity|]. etransitivity; [exact X|]. clear X.
    assert (NN : forall x : Rn, isnanb Rn x = false) by (intros x; unfold isnanb; rn; destruct (R_eqb_spec x x); [reflexivity|congruence]).
    unfold hasNaN. rewrite !NN. cbn [look_w w_mem m_changed m_hover m_autoland orb negb andb].
    destruct Aw as [Aw|Aw]; [discriminate|]. cbn [look_w w_in i_goal i_pos] in Aw.
    destruct (ltb Rn _ (ofZ Rn 1)) eqn:E; [|reflexivity]. cbn [ltb ofZ Rn] in E. apply R_ltb_true in E. cbn [look_w w_in i_goal i_pos] in E. exfalso. apply (Rlt_not_le _ _ E). exact Aw. }
  split.
  { replace (sqrt 10 * (1 / 10)) with (sqrt (c_sxy (w_cfg look_w)) * cycle_time look_secs look_w 100000000) by (rewrite Ct; reflexivity).
    apply ft_cycle; [reflexivity|discriminate|exact Aw|cbn; tR; lra|rewrite Ct; cbn [look_w w_cfg c_sxy]; tR; lra| |apply ft_end].
    rewrite Go. cbn [look_w w_in i_pos vx vy]. destruct (ltb Rn (1 / 10) _) eqn:E.
    - exists 0. split; [|exists 0%Z; lra]. exists 5. rewrite cos_0, sin_0. cbn [vx vy]. lra.
    - exfalso. cbn [ltb Rn] in E. apply R_ltb_false in E. unfold v2norm in E. cbn [add mul sqrtv Rn] in E.
      replace ((0 - 5) * (0 - 5) + (0 - 0) * (0 - 0)) with (5 * 5) in E by ring. rewrite sqrt_square in E; lra. }
  split; [cbn; lra|]. split; [split; [exists 0%Z; cbn; lra|lra]|]. split; [reflexivity|]. split; [lra|].
  change [sqrt 10 * (1 / 10)] with (repeat (sqrt 10 * (1 / 10)) 1). rewrite (C123_decay_default 1). rewrite (Rabs_left (-1)) by lra. lra.
Qed.

(** C123, landing planner: while it flies to a landing site, and while it explores, the commanded yaw points from the vehicle to the goal that is
    commanded with it; otherwise, on the way to a goal, it is the yaw the autopilot asked for last. *)
Theorem C123_landing_planner :
  forall ceilc rnd cast (n : node Rn) n' out, nstep Rn Rtrig ceilc rnd cast n OCycle = Some (n', out) ->
  n_received n = true -> x_reset (n_x n) = false ->
  let x := n_x n in
  (x_state x = GOTO_LAND \/ (x_state x = GOTO /\ x_explore x = true /\ x_island x = true) ->
   vx (x_pos x) <> vx (x_goal x) \/ vy (x_pos x) <> vy (x_goal x) ->
   exists s, out = [s] /\ sp_pos s = x_goal x /\ heads (x_pos x) (x_goal x) (sp_yaw s)) /\
  (x_state x = GOTO -> x_explore x = false -> exists s, out = [s] /\ sp_pos s = x_goal x /\ sp_yaw s = x_yaw_sp x).
Proof.
  intros ceilc rnd cast n n' out E Rc Rs x. destruct (cycle_inv Rn Rtrig ceilc rnd cast n n' out E Rc) as (C & _).
  destruct (calc_cases Rn Rtrig rnd cast (n_x n) (n_x n') out C) as [(X & _)|(_ & t & y & RS & _)]; [congruence|].
  destruct (update_frame Rn (n_x n)) as (U1 & _ & _ & U4 & _ & _ & _ & U8 & U9 & _ & _ & _ & _ & _ & _ & U16 & _ & Ui & Un). cbv zeta in *.
  set (u := updateSLPState Rn (n_x n)) in *. clearbody u. fold x in U1, U4, U8, U9, U16, Ui, Un. unfold SwProofs2.run_state in RS. rewrite U1 in RS.
  assert (Gt : x_state x = GOTO -> exists s, out = [s] /\ sp_pos s = x_goal x /\
            sp_yaw s = (if x_explore u then nextYaw Rn Rtrig (x_pos x) (x_goal x) else x_yaw_sp x)).
  { intros S. rewrite S in RS. unfold SwModel.runGoTo in RS. set (x0 := if x_explore u then _ else u) in RS.
    assert (F : out = [Setp (x_goal x0) (x_vel x0) (x_yaw_sp x0) (x_yawrate_sp x0)]).
    { destruct (landingAreaHeightPercentile Rn rnd (x_grid x0) _ _) as [alt|]; cbn [obind] in RS; [|discriminate].
      set (x1 := x_matrices Rn (x_alt_upd Rn x0 alt) _ _) in RS. clearbody x1.
      destruct (_ && _ && negb (x_decision x1)); [congruence|]. destruct (_ && _ && _ && _); [|congruence].
      destruct (nextExploration Rn x1); cbn [obind] in RS; congruence. }
    eexists. split; [exact F|]. cbn [sp_pos sp_yaw]. unfold x0. destruct (x_explore u); cbn [x_goal x_yaw_sp]; rewrite ?U8, ?U9, ?U16; split; reflexivity. }
  split.
  - intros S D. assert (H : heads (x_pos x) (x_goal x) (nextYaw Rn Rtrig (x_pos x) (x_goal x))) by (apply bearing_ne; exact D).
    destruct S as [S|(S & Ex & Is)].
    + rewrite S in RS. unfold SwModel.runGoToLand in RS. injection RS as _ _ <-. eexists. split; [reflexivity|]. cbn [sp_pos sp_yaw]. rewrite U8, U9. split; [reflexivity|exact H].
    + destruct (Gt S) as (s & O & P & Y). destruct (Ui Is) as (_ & _ & U & _). rewrite U, Ex in Y. exists s. rewrite Y. auto.
  - intros S Ex. destruct (Gt S) as (s & O & P & Y). assert (Eu : x_explore u = false).
    { destruct (x_island x) eqn:I; [destruct (Ui eq_refl) as (_ & _ & U & _); congruence|destruct (Un eq_refl) as (_ & _ & U & _); exact U]. }
    rewrite Eu in Y. eauto.
Qed.
Print Assumptions C123_landing_planner.
(** the run of C46, 3 m away from the landing site *)
Example C123_landing_example :
  let os := f_to_goto ++ [OPose (fp (3, 0)%Z (0, 0)%Z (4, 0)%Z) (f32_me 0 0); OGrid (f_msg 25 1)] in
  in_state GOTO_LAND (flander os) = true /\ obind (flander os) (fun r => let n := fst r in Some (n_received n, x_reset (n_x n), f32_cast (vx (x_pos (n_x n))), f32_cast (vx (x_goal (n_x n))))) = Some (true, false, 3%Z, 0%Z) /\ obind (flander (os ++ [OCycle])) (fun r => Some (length (snd r))) = obind (flander os) (fun r => Some (S (length (snd r)))).
Proof. split; [|split]; vm_compute; reflexivity. Qed.

(** C124. The smoothed position follows the speed-adapted target: per coordinate, with gain k (smoothing speed), cycle length dt, h = sqrt k * dt, the
    distance (with the rate) from the target shrinks by the factor 1 - h^2 in each cycle no longer than half the time constant, the target moving on with
    the velocity of the vehicle (0 at the goal) until the next cycle. *)
Theorem C124_follows_target :
  forall secs travel axis gain (w : wg Rn) (now : Z),
  In (axis, gain) [(vx, c_sxy); (vy, c_sxy); (vz, c_sz)] ->
  m_reset (w_mem w) = false -> m_autoland (w_mem w) = false -> w_state w <> ALTITUDE_CHANGE -> smoothing_on w ->
  let w' := wgcalc secs travel w now in let k := gain (w_cfg w) in let dt := cycle_time secs w now in let h := sqrt k * dt in
  let t := axis (o_adapted (w_out w')) in let v := axis (target_velocity w w') in
  h <= 1 / 2 ->
  o_pos (w_out w') = m_sloc (w_mem w') /\
  lag k (t + v * dt - axis (o_pos (w_out w'))) (axis (m_svel (w_mem w')) - v) <= (1 - h * h) * lag k (t - axis (m_sloc (w_mem w))) (axis (m_svel (w_mem w)) - v).
Proof. intros. apply cycle_follows; assumption. Qed.
Print Assumptions C124_follows_target.
(** any number of cycles with the coordinate of the target unchanged: the coordinate of the setpoint converges to it *)
Theorem C124_converges :
  forall secs travel axis gain (t : R) (w w2 : wg Rn) (hs : list R),
  In (axis, gain) [(vx, c_sxy); (vy, c_sxy); (vz, c_sz)] -> 0 < gain (w_cfg w) ->
  approaches secs travel axis gain t w hs w2 ->
  Rabs (t - axis (m_sloc (w_mem w2))) <= decay hs * lag (gain (w_cfg w)) (t - axis (m_sloc (w_mem w))) (axis (m_svel (w_mem w))).
Proof.
  intros secs travel axis gain t w w2 hs Hin K A. destruct (approaches_run secs travel axis gain t w hs w2 Hin A) as (_ & L).
  eapply Rle_trans; [apply (lag_error (gain (w_cfg w))); exact K|exact L].
Qed.
Print Assumptions C124_converges.
(** the hovering vehicle of C123_example, its smoothed setpoint being 5 m too low *)
Example C124_example :
  let hs := [sqrt 3 * (1 / 10)] in
  approaches look_secs look_travel vz c_sz 5 look_w hs (wgcalc look_secs look_travel look_w 100000000) /\ 0 < c_sz (w_cfg look_w) /\ vz (m_sloc (w_mem look_w)) = 0 /\ decay hs * lag (c_sz (w_cfg look_w)) (5 - vz (m_sloc (w_mem look_w))) (vz (m_svel (w_mem look_w))) = 97 / 100 * 5.
Proof.
  assert (Ct : cycle_time look_secs look_w 100000000 = 1 / 10).
  { unfold cycle_time, look_secs. cbn [look_w w_mem m_cur ltb Rn]. rewrite Z.sub_0_r. destruct (R_ltb_spec 0 (100000000 / 1000000000)); lra. }
  assert (S3 : sqrt 3 <= 5) by (replace 5 with (sqrt (5 * 5)) by (apply sqrt_square; lra); apply sqrt_le_1_alt; lra).
  assert (So : smoothing_on look_w) by (unfold smoothing_on, look_w; cbn [w_cfg c_sxy c_sz]; tR; lra).
  assert (Z5 : vz (o_goto (w_out (wgcalc look_secs look_travel look_w 100000000))) = 5).
  { destruct (loiter_calc Rn Rtrig look_secs look_travel look_w 100000000) as (_ & _ & _ & X & _); [reflexivity|reflexivity|]. rewrite X. clear X.
    assert (NN : forall x : Rn, isnanb Rn x = false) by (intros x; unfold isnanb; rn; destruct (R_eqb_spec x x); [reflexivity|congruence]).
    unfold hasNaN. rewrite !NN. cbn [look_w w_mem m_changed m_hover m_autoland orb negb andb w_in i_goal]. destruct (ltb Rn _ (ofZ Rn 1)); reflexivity. }
  split; [|split; [cbn; lra|split; [reflexivity|]]].
  - replace (sqrt 3 * (1 / 10)) with (sqrt (c_sz (w_cfg look_w)) * cycle_time look_secs look_w 100000000) by (rewrite Ct; reflexivity).
    apply ap_cycle; [reflexivity|reflexivity|discriminate|exact So|rewrite Ct; cbn [look_w w_cfg c_sz]; tR; lra| | |apply ap_end].
    + destruct (calc_R look_secs look_travel look_w 100000000) as (_ & _ & (k & _ & (_ & _ & K)) & _);
        [reflexivity|reflexivity|cbn; lra|cbn; lra|intros f []|]. etransitivity; [exact K|]. cbn [look_w w_in i_pos vz]. cbn [look_w] in Z5. rewrite Z5. ring.
    + unfold target_velocity. destruct (ltb Rn _ _); reflexivity.
  - cbn [look_w w_mem w_cfg c_sz m_sloc m_svel zero3 vz decay fold_right ofZ Rn]. rewrite lag_rest. rewrite Rabs_pos_eq by lra.
    replace (sqrt 3 * (1 / 10) * (sqrt 3 * (1 / 10))) with (sqrt 3 * sqrt 3 / 100) by field. rewrite sqrt_sqrt by lra. lra.
Qed.
(** with long cycles the setpoint runs away: a take-off from 5 m to 50 m with the default smoothing and cycles of 1 s. The speed-adapted target is between
    5 m and 8 m all the time; the setpoint is 391 m below the ground in the sixth cycle and further away in every other one. *)
Theorem C124_long_cycles_refuted :
  let run n := frun (upd (fpt 0 0 5) (fpt 0 0 50) false N_takeoff :: map secs0 (map Z.of_nat (seq 0 n))) in
  f32_cast (c_sxy (w_cfg (run 1%nat))) = 10%Z /\ f32_cast (c_sz (w_cfg (run 1%nat))) = 3%Z /\
  map (fun n => f32_cast (vz (o_adapted (w_out (run n))))) [1; 2; 3; 4; 6; 8; 10]%nat = [5; 5; 6; 7; 7; 7; 7]%Z /\
  map (fun n => f32_cast (vz (o_pos (w_out (run n))))) [1; 2; 3; 4; 6; 8; 10]%nat = [5; 5; 9; -9; -391; -9819; -241848]%Z.
Proof. vmall. Qed.
Print Assumptions C124_long_cycles_refuted.
