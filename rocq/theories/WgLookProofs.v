(** Proofs for C123 and C124: the smoothed yaw and the smoothed position of the local planner's waypoint generator. *)
From Coq Require Import ZArith Reals List Bool Lia Lra.
From Flocq Require Import Core.
From Verif Require Import Num Mat CommonModel CommonSpec CommonProofs CommonProofs2 HistModel PfModel StarModel LpModel LpProofs2 UsmModel
  WgModel WgSpec WgProofs WgProofs2 WgProofs3 WgLookSpec.
Import ListNotations.
Local Open Scope R_scope.

(* ------------------------------------------------------------------- one cycle, every number system *)
Section Decomp.
Context (N : num) (G : trig N) (secs : Z -> N) (travel : Z -> N -> N).
Record same2 (w2 w1 : wg N) : Prop := {
  s2_out : w_out w1 = w_out w2; s2_yaw : m_yaw (w_mem w1) = m_yaw (w_mem w2); s2_yawvel : m_yawvel (w_mem w1) = m_yawvel (w_mem w2);
  s2_sloc : m_sloc (w_mem w1) = m_sloc (w_mem w2); s2_svel : m_svel (w_mem w1) = m_svel (w_mem w2) }.
Lemma same2_refl w : same2 w w. Proof. constructor; reflexivity. Qed.
Lemma same2_alt w b w' : altitudeChange N w = (b, w') -> same2 w w'.
Proof. unfold altitudeChange. destruct (isAltitudeChange N _ _) as [[x y] z]. intros [= _ <-]. constructor; reflexivity. Qed.
Lemma runState_decomp2 w now t w1 : runState N G secs travel w now = (t, w1) -> exists w0, target_of N w w0 /\ same2 (getPathMsg N G secs w0) w1 /\
  (w_state w <> ALTITUDE_CHANGE -> i_goal (w_in w0) = i_goal (w_in w)).
Proof.
  unfold runState. destruct (w_state w) eqn:S.
  - unfold runTryPath. destruct (pathSetpoint N travel w now) as [av sp]. set (w0 := with_goto N w _). intros E. exists w0. split; [constructor; cbn; rewrite ?S; auto|].
    split; [|reflexivity].
    destruct (i_stay (w_in w)); [injection E as _ <-; apply same2_refl|]. destruct (altitudeChange N _) as [alt w3] eqn:Al. apply same2_alt in Al.
    assert (w1 = w3) as -> by (destruct alt; [|destruct av]; congruence). exact Al.
  - unfold runAltitudeChange. set (w0 := if nav_eqb _ _ then _ else _). intros E. exists w0. split; [|split; [|congruence]].
    + unfold w0. destruct (nav_eqb (i_nav (w_in w)) N_offboard); [|destruct (ltb N (cst N 1 2) _)]; constructor; cbn; rewrite ?S; cbn; auto;
        destruct (m_changed (w_mem w)); auto.
    + destruct (i_stay (w_in w)); [injection E as _ <-; apply same2_refl|]. destruct (altitudeChange N _) as [alt w3] eqn:Al. apply same2_alt in Al.
      assert (w1 = w3) as -> by congruence. exact Al.
  - unfold runLoiter. set (w0 := with_goto N _ _). intros E. exists w0. split; [constructor; cbn; rewrite ?S; auto|]. split; [|reflexivity]. injection E as _ <-. apply same2_refl.
  - unfold runDirect. set (w0 := with_goto N _ _). intros E. exists w0. split; [constructor; cbn; rewrite ?S; auto|]. split; [|reflexivity].
    destruct (fst _); [injection E as _ <-; apply same2_refl|]. destruct (altitudeChange N _) as [alt w3] eqn:Al. apply same2_alt in Al.
    assert (w1 = w3) as -> by (destruct alt; [|destruct (i_stay (w_in w))]; congruence). exact Al.
Qed.
Lemma calc_decomp2 w now : m_reset (w_mem w) = false -> exists w0, target_of N (prep N w now) w0 /\
  (w_state w <> ALTITUDE_CHANGE -> i_goal (w_in w0) = i_goal (w_in w)) /\
  let w2 := getPathMsg N G secs w0 in let w' := calculateWaypoint N G secs travel w now in
  o_pos (w_out w') = o_pos (w_out w2) /\ o_quat (w_out w') = o_quat (w_out w2) /\ o_goto (w_out w') = o_goto (w_out w2) /\
  o_adapted (w_out w') = o_adapted (w_out w2) /\ m_yaw (w_mem w') = m_yaw (w_mem w2) /\ m_yawvel (w_mem w') = m_yawvel (w_mem w2) /\
  m_sloc (w_mem w') = m_sloc (w_mem w2) /\ m_svel (w_mem w') = m_svel (w_mem w2).
Proof.
  intros R. destruct (runState N G secs travel (prep N w now) now) as [t w1] eqn:E. destruct (runState_decomp2 _ _ _ _ E) as (w0 & T0 & [A B C D F] & Hg).
  exists w0. split; [exact T0|]. split; [exact Hg|]. rewrite calc_eq by exact R. rewrite E. cbv zeta. destruct t; cbn; rewrite ?A, ?B, ?C, ?D, ?F; auto 20.
Qed.
End Decomp.

(* ------------------------------------------------------------------- the filter, reals *)
Lemma contraction (s h a w : R) : 0 <= h <= 1 / 2 ->
  Rabs (a * (1 - h - h * h) + h * h * w) + Rabs ((1 - h) * w + h * a) <= (1 - h * h) * (Rabs a + Rabs w).
Proof.
  intros [H0 H1]. assert (HH : h * h <= 1 / 2 * h) by (apply Rmult_le_compat_r; lra). assert (H2 : 0 <= h * h) by (apply Rmult_le_pos; lra).
  assert (A1 : Rabs (a * (1 - h - h * h) + h * h * w) <= (1 - h - h * h) * Rabs a + h * h * Rabs w).
  { eapply Rle_trans; [apply Rabs_triang|]. rewrite (Rabs_mult a), (Rabs_mult (h * h)). rewrite (Rabs_pos_eq (1 - h - h * h)) by lra. rewrite (Rabs_pos_eq (h * h)) by lra. lra. }
  assert (A2 : Rabs ((1 - h) * w + h * a) <= (1 - h) * Rabs w + h * Rabs a).
  { eapply Rle_trans; [apply Rabs_triang|]. rewrite (Rabs_mult (1 - h)), (Rabs_mult h). rewrite (Rabs_pos_eq (1 - h)) by lra. rewrite (Rabs_pos_eq h) by lra. lra. }
  pose proof (Rabs_pos a). pose proof (Rabs_pos w).
  assert ((1 - h + h * h) * Rabs w <= (1 - h * h) * Rabs w) by (apply Rmult_le_compat_r; lra). lra.
Qed.
(** error [e], rate [u] of the filter before, [u'], [e - u' dt] after a step *)
Lemma filter_step (k dt e u : R) : 0 < k -> 0 <= dt -> sqrt k * dt <= 1 / 2 ->
  let u' := u + (e * k + (0 - u) * (2 * sqrt k)) * dt in
  lag k (e - u' * dt) u' <= (1 - (sqrt k * dt) * (sqrt k * dt)) * lag k e u.
Proof.
  intros Hk Hdt Hh. cbv zeta. unfold lag. set (s := sqrt k) in *. assert (Hs : 0 < s) by (apply sqrt_lt_R0; exact Hk).
  assert (Ks : k = s * s) by (unfold s; rewrite sqrt_sqrt; lra). rewrite Ks.
  set (h := s * dt) in *. assert (Hh0 : 0 <= h) by (unfold h; apply Rmult_le_pos; lra).
  set (w := u / s). set (a := e - w).
  assert (Eu : u = s * w) by (unfold w; field; lra). assert (Ee : e = a + w) by (unfold a; ring).
  rewrite Eu, Ee. clearbody w a. pose proof (contraction s h a w (conj Hh0 Hh)) as K.
  replace (a + w - (s * w + ((a + w) * (s * s) + (0 - s * w) * (2 * s)) * dt) * dt - (s * w + ((a + w) * (s * s) + (0 - s * w) * (2 * s)) * dt) / s)
    with (a * (1 - h - h * h) + h * h * w) by (unfold h; field; lra).
  replace ((s * w + ((a + w) * (s * s) + (0 - s * w) * (2 * s)) * dt) / s) with ((1 - h) * w + h * a) by (unfold h; field; lra).
  exact K.
Qed.
Lemma lag_error k e u : 0 < k -> Rabs e <= lag k e u.
Proof. intros Hk. unfold lag. replace e with ((e - u / sqrt k) + u / sqrt k) at 1 by ring. apply Rabs_triang. Qed.
Lemma lag_rest k e : lag k e 0 = Rabs e.
Proof. unfold lag, Rdiv. rewrite Rmult_0_l, Rminus_0_r, Rabs_R0. ring. Qed.
Lemma lag_nonneg k e u : 0 <= lag k e u.
Proof. unfold lag. pose proof (Rabs_pos (e - u / sqrt k)). pose proof (Rabs_pos (u / sqrt k)). lra. Qed.

(* ------------------------------------------------------------------- yaw of a cycle, reals *)
Lemma getPathMsg_look secs (w : wg Rn) :
  m_autoland (w_mem w) = true \/ 1 <= v3norm Rn (v3sub Rn (i_goal (w_in w)) (i_pos (w_in w))) ->
  let w' := getPathMsg Rn Rtrig secs w in
  (m_yaw (w_mem w'), m_yawvel (w_mem w')) =
    nextSmoothYaw Rn Rtrig (w_state w) (w_in w) (w_mem w) (c_sxy (w_cfg w)) (o_goto (w_out w)) (stepTime Rn secs (w_mem w)) /\
  o_goto (w_out w') = o_goto (w_out w) /\ o_quat (w_out w') = createPoseQuat Rn Rtrig (m_yaw (w_mem w')).
Proof.
  intros F. unfold WgModel.getPathMsg. destruct (nextSmoothYaw Rn Rtrig _ _ _ _ _ _) as [yaw yv]. destruct (m_autoland (w_mem w)); [cbn; auto|].
  destruct F as [F|F]; [discriminate|]. unfold adaptSpeed.
  destruct (ltb Rn (v3norm Rn (v3sub Rn (i_goal (w_in w)) (i_pos (w_in w)))) (ofZ Rn 1)) eqn:E.
  { cbn [ltb ofZ Rn] in E. apply R_ltb_true in E. exfalso. apply (Rlt_not_le _ _ E). exact F. }
  destruct (smoothWaypoint _ _ _ _ _ _) as [[sl sv] sm]. cbn. auto.
Qed.
Lemma bearing_nextYaw (p t : vec3 Rn) : 1 / 10 < v2norm Rn (vx (v3sub Rn p t)) (vy (v3sub Rn p t)) -> heads p t (nextYaw Rn Rtrig p t).
Proof.
  intros H. unfold heads, nextYaw. cbn [t_atan2 Rtrig]. unfold v2norm, v3sub in H. cbn [vx vy add mul sub sqrtv Rn] in H.
  destruct p as (px, py, pz0), t as (tx, ty, tz). cbn [vx vy sub Rn] in *. tR.
  set (r := sqrt ((px - tx) * (px - tx) + (py - ty) * (py - ty))) in *.
  assert (Hr : r = sqrt ((tx - px) * (tx - px) + (ty - py) * (ty - py))) by (unfold r; f_equal; ring).
  assert (Hne : tx - px <> 0 \/ ty - py <> 0).
  { destruct (Req_dec (tx - px) 0) as [A|A]; [|left; exact A]. destruct (Req_dec (ty - py) 0) as [B|B]; [|right; exact B].
    exfalso. rewrite A, B in Hr. replace (0 * 0 + 0 * 0) with 0 in Hr by ring. rewrite sqrt_0 in Hr. lra. }
  destruct (Ratan2_spec (tx - px) (ty - py) Hne) as [C S]. rewrite <- Hr in C, S. exists r. split; [lra|]. rewrite C, S. split; field; lra.
Qed.
Lemma bearing_ne (p t : vec3 Rn) : vx p <> vx t \/ vy p <> vy t -> heads p t (nextYaw Rn Rtrig p t).
Proof.
  intros D. unfold heads, nextYaw. cbn [t_atan2 Rtrig]. destruct p as (px, py, pz0), t as (tx, ty, tz). cbn [vx vy sub Rn] in *. tR.
  assert (Hne : tx - px <> 0 \/ ty - py <> 0) by (destruct D; [left|right]; lra).
  assert (P : 0 < (tx - px) * (tx - px) + (ty - py) * (ty - py)).
  { destruct Hne as [H|H]; pose proof (Rsqr_pos_lt _ H); pose proof (Rle_0_sqr (tx - px)); pose proof (Rle_0_sqr (ty - py)); unfold Rsqr in *; lra. }
  destruct (Ratan2_spec (tx - px) (ty - py) Hne) as [C S]. set (r := sqrt _) in *. assert (Hr : 0 < r) by (apply sqrt_lt_R0; exact P).
  exists r. split; [exact Hr|]. rewrite C, S. split; field; lra.
Qed.
Lemma wrap_error (d y v e : R) : turn y d e -> Rabs (e - v) < PI -> turn (wrapAngleToPlusMinusPI Rn (y + v)) d (e - v).
Proof.
  intros ((k & K) & B) A. split; [|apply Rabs_def2 in A as [A1 A2]; lra]. destruct (wrapPI_congr (y + v)) as [j J]. exists (k + j)%Z. rewrite J, plus_IZR. tR. lra.
Qed.
Lemma turn_wrap y d : turn y d (wrapAngleToPlusMinusPI Rn (d - y)).
Proof. split; [apply wrapPI_congr|apply wrapPI_range]. Qed.
Lemma turn_unique y d e f : turn y d e -> turn y d f -> e = f.
Proof.
  intros ((j & J) & B) ((k & K) & C). pose proof PI_RGT_0 as P.
  assert (E : e - f = 2 * PI * IZR (j - k)) by (rewrite minus_IZR; lra).
  destruct (Z.eq_dec (j - k) 0) as [Z0|Z0]; [rewrite Z0 in E; lra|].
  exfalso. destruct (Z.lt_gt_cases (j - k) 0) as [X _]. destruct (X Z0) as [L|L].
  - assert (IZR (j - k) <= -1) by (apply IZR_le; lia). nra.
  - assert (1 <= IZR (j - k)) by (apply IZR_le; lia). nra.
Qed.
(** the yaw and its rate after a smoothed step towards [d] *)
Lemma smooth_turn (y v k dt d e : R) : 0 < k -> 0 < dt -> sqrt k * dt <= 1 / 2 -> turn y d e -> lag k e v < PI ->
  let v' := v + (wrapAngleToPlusMinusPI Rn (d - y) * k + (0 - v) * (2 * sqrt k)) * dt in
  exists e', turn (wrapAngleToPlusMinusPI Rn (y + v' * dt)) d e' /\ lag k e' v' <= (1 - (sqrt k * dt) * (sqrt k * dt)) * lag k e v.
Proof.
  intros Hk Hdt Hh T L. rewrite (turn_unique _ _ _ _ (turn_wrap y d) T). cbv zeta.
  pose proof (filter_step k dt e v Hk (Rlt_le _ _ Hdt) Hh) as F. cbv zeta in F. set (v' := v + _) in *. clearbody v'.
  exists (e - v' * dt). split; [|exact F]. apply wrap_error; [exact T|]. eapply Rle_lt_trans; [apply (lag_error k); exact Hk|].
  eapply Rle_lt_trans; [exact F|]. assert (0 <= sqrt k * dt) by (apply Rmult_le_pos; [apply sqrt_pos|lra]). pose proof (lag_nonneg k e v).
  assert (0 <= sqrt k * dt * (sqrt k * dt) * lag k e v) by (apply Rmult_le_pos; [apply Rmult_le_pos|]; assumption). lra.
Qed.

(* ------------------------------------------------------------------- cycles *)
Section Cycles.
Context (secs : Z -> Rn) (travel : Z -> Rn -> Rn).
Notation calc := (calculateWaypoint Rn Rtrig secs travel).
Lemma cycle_time_pos (w : wg Rn) now : 0 < cycle_time secs w now.
Proof. unfold cycle_time. cbn [ltb Rn]. destruct (R_ltb_spec 0 (secs (now - m_cur (w_mem w))%Z)); tR; lra. Qed.
Lemma stepTime_cycle (w w0 : wg Rn) now : target_of Rn (prep Rn w now) w0 -> stepTime Rn secs (w_mem w0) = cycle_time secs w now.
Proof.
  intros T. unfold stepTime, cycle_time. rewrite (tg_cur Rn _ _ T), (tg_last Rn _ _ T). cbn [prep w_mem m_cur m_last]. rewrite cst_Rn. reflexivity.
Qed.
(** the desired yaw *)
Definition wanted (w : wg Rn) (goto : vec3 Rn) : R :=
  if ltb Rn (1 / 10) (v2norm Rn (vx (i_pos (w_in w)) - vx goto) (vy (i_pos (w_in w)) - vy goto)) then nextYaw Rn Rtrig (i_pos (w_in w)) goto else i_yaw (w_in w).
Lemma cycle_yaw (w : wg Rn) now : m_reset (w_mem w) = false -> w_state w <> ALTITUDE_CHANGE -> away w ->
  let w' := calc w now in let k := c_sxy (w_cfg w) in let dt := cycle_time secs w now in let d := wanted w (o_goto (w_out w')) in
  o_quat (w_out w') = createPoseQuat Rn Rtrig (m_yaw (w_mem w')) /\
  (m_yaw (w_mem w'), m_yawvel (w_mem w')) =
    (if leb Rn k (1 / 100) then (d, m_yawvel (w_mem w))
     else let v' := m_yawvel (w_mem w) + (wrapAngleToPlusMinusPI Rn (d - m_yaw (w_mem w)) * k + (0 - m_yawvel (w_mem w)) * (2 * sqrt k)) * dt in
          (wrapAngleToPlusMinusPI Rn (m_yaw (w_mem w) + v' * dt), v')).
Proof.
  intros R S A. destruct (calc_decomp2 Rn Rtrig secs travel w now R) as (w0 & T & Hg & _ & Q & Go & _ & Y & V & _). cbv zeta in *.
  assert (F : m_autoland (w_mem w0) = true \/ 1 <= v3norm Rn (v3sub Rn (i_goal (w_in w0)) (i_pos (w_in w0)))).
  { rewrite (tg_auto Rn _ _ T), (Hg S), (tg_pos Rn _ _ T). exact A. }
  destruct (getPathMsg_look secs w0 F) as (L1 & L2 & L3). rewrite Q, Y, V, Go, L3, L1, L2. split; [reflexivity|].
  rewrite (stepTime_cycle _ _ _ T), (tg_cfg Rn _ _ T), (tg_state Rn _ _ T). cbn [prep w_state w_cfg].
  unfold nextSmoothYaw, wanted. rewrite (tg_pos Rn _ _ T), (tg_yaw0 Rn _ _ T), (tg_yaw Rn _ _ T), (tg_yawvel Rn _ _ T). cbn [prep w_in w_mem m_yaw m_yawvel].
  rewrite !cst_Rn. cbn [finiteb Rn ofZ sqrtv].
  assert (E : pstate_eqb (w_state w) ALTITUDE_CHANGE = false) by (destruct (w_state w); try reflexivity; congruence). rewrite E. reflexivity.
Qed.
Lemma wanted_heads (w : wg Rn) goto : let pos := i_pos (w_in w) in
  if ltb Rn (1 / 10) (v2norm Rn (vx pos - vx goto) (vy pos - vy goto)) then heads pos goto (wanted w goto) else wanted w goto = i_yaw (w_in w).
Proof.
  cbv zeta. unfold wanted. destruct (ltb Rn (1 / 10) _) eqn:E; [|reflexivity]. apply bearing_nextYaw. cbn [ltb Rn] in E. apply R_ltb_true in E. exact E.
Qed.
Lemma heads_unique p t y z : heads p t y -> heads p t z -> same_heading (2 * PI) y z.
Proof.
  intros (r & Hr & X1 & Y1) (s & Hs & X2 & Y2). pose proof (sin2_cos2 y) as U. pose proof (sin2_cos2 z) as V. unfold Rsqr in *.
  assert (E1 : r * cos y = s * cos z) by (apply (Rplus_eq_reg_l (vx p)); rewrite <- X1; exact X2).
  assert (E2 : r * sin y = s * sin z) by (apply (Rplus_eq_reg_l (vy p)); rewrite <- Y1; exact Y2).
  assert (r * r = s * s).
  { replace (r * r) with ((r * sin y) * (r * sin y) + (r * cos y) * (r * cos y)) by (replace (r * sin y * (r * sin y) + r * cos y * (r * cos y)) with (r * r * (sin y * sin y + cos y * cos y)) by ring; rewrite U; ring).
    rewrite E1, E2. replace (s * sin z * (s * sin z) + s * cos z * (s * cos z)) with (s * s * (sin z * sin z + cos z * cos z)) by ring. rewrite V. ring. }
  assert (r = s) by nra. subst s.
  assert (C : cos (y - z) = 1).
  { rewrite cos_minus. apply Rmult_eq_reg_l in E1; [|lra]. apply Rmult_eq_reg_l in E2; [|lra]. rewrite E1, E2. lra. }
  replace (y - z) with (2 * ((y - z) / 2)) in C by field. rewrite cos_2a_sin in C.
  assert (H0 : sin ((y - z) / 2) = 0) by nra. destruct (sin_eq_0_0 _ H0) as (k & K). exists k. lra.
Qed.

Lemma decay_nonneg_cons h hs : 0 <= h <= 1 / 2 -> 0 <= decay hs -> 0 <= decay (h :: hs).
Proof. intros H D. cbn [decay fold_right]. apply Rmult_le_pos; [nra|exact D]. Qed.
Lemma turn_congr y d d' e : same_heading (2 * PI) d' d -> turn y d e -> turn y d' e.
Proof. intros (j & J) ((k & K) & B). split; [|exact B]. exists (k - j)%Z. rewrite minus_IZR. lra. Qed.
Lemma heading_sym a b : same_heading (2 * PI) a b -> same_heading (2 * PI) b a.
Proof. intros (k & K). exists (- k)%Z. rewrite opp_IZR. lra. Qed.
Lemma heading_trans a b c : same_heading (2 * PI) a b -> same_heading (2 * PI) b c -> same_heading (2 * PI) a c.
Proof. intros (k & K) (j & J). exists (k + j)%Z. rewrite plus_IZR. lra. Qed.
Lemma cycle_cfg (w : wg Rn) now : m_reset (w_mem w) = false -> w_cfg (calc w now) = w_cfg w.
Proof. intros R. apply (calc_next Rn Rtrig secs travel w now R). Qed.
Lemma cycle_turn d (w : wg Rn) now e : m_reset (w_mem w) = false -> w_state w <> ALTITUDE_CHANGE -> away w ->
  1 / 100 < c_sxy (w_cfg w) -> sqrt (c_sxy (w_cfg w)) * cycle_time secs w now <= 1 / 2 ->
  let w' := calc w now in let goto := o_goto (w_out w') in let pos := i_pos (w_in w) in
  (if ltb Rn (1 / 10) (v2norm Rn (vx pos - vx goto) (vy pos - vy goto)) then exists y, heads pos goto y /\ same_heading (2 * PI) y d
   else i_yaw (w_in w) = d) ->
  let k := c_sxy (w_cfg w) in let h := sqrt k * cycle_time secs w now in
  turn (m_yaw (w_mem w)) d e -> lag k e (m_yawvel (w_mem w)) < PI ->
  exists e', turn (m_yaw (w_mem w')) d e' /\ lag k e' (m_yawvel (w_mem w')) <= (1 - h * h) * lag k e (m_yawvel (w_mem w)).
Proof.
  intros R S A K H w' goto pos D k h T L. destruct (cycle_yaw w now R S A) as (_ & E). fold w' in E. fold goto in E. fold k in E.
  assert (W : same_heading (2 * PI) (wanted w goto) d).
  { pose proof (wanted_heads w goto) as W. cbv zeta in W. fold pos in W. destruct (ltb Rn (1 / 10) _).
    - destruct D as (y & Y1 & Y2). eapply heading_trans; [exact (heads_unique _ _ _ _ W Y1)|exact Y2].
    - rewrite W, D. exists 0%Z. lra. }
  destruct (leb Rn k (1 / 100)) eqn:Lb; [cbn [leb Rn] in Lb; apply R_leb_true in Lb; exfalso; unfold k in Lb; lra|]. cbv zeta in E. injection E as E1 E2.
  destruct (smooth_turn (m_yaw (w_mem w)) (m_yawvel (w_mem w)) k (cycle_time secs w now) (wanted w goto) e) as (e' & T' & L').
  { unfold k. lra. }
  { apply cycle_time_pos. }
  { exact H. }
  { eapply turn_congr; [exact W|exact T]. }
  { exact L. }
  exists e'. rewrite E1, E2. split; [eapply turn_congr; [apply heading_sym, W|exact T']|exact L'].
Qed.
Lemma flies_run d w hs w2 : flies_towards secs travel d w hs w2 -> forall e, 0 < c_sxy (w_cfg w) -> turn (m_yaw (w_mem w)) d e ->
  let k := c_sxy (w_cfg w) in lag k e (m_yawvel (w_mem w)) < PI ->
  0 <= decay hs /\ exists e', turn (m_yaw (w_mem w2)) d e' /\ lag k e' (m_yawvel (w_mem w2)) <= decay hs * lag k e (m_yawvel (w_mem w)).
Proof.
  intros F. induction F as [w|w now hs w2 R S A K H w' goto pos D F IH|w pos q goal vel stay nav land to des hs w2 F IH|w i f hs w2 F IH|w f hs w2 F IH];
    intros e K0 T k L.
  - cbn [decay fold_right]. split; [lra|]. exists e. split; [exact T|lra].
  - destruct (cycle_turn d w now e R S A K H D T L) as (e1 & T1 & L1). fold w' in T1, L1. fold k in L1.
    assert (Ek : c_sxy (w_cfg w') = k) by (unfold w'; rewrite cycle_cfg by exact R; reflexivity).
    pose proof (cycle_time_pos w now) as Cp. set (h := sqrt (c_sxy (w_cfg w)) * cycle_time secs w now) in *.
    assert (Hh : 0 <= h <= 1 / 2) by (split; [unfold h; apply Rmult_le_pos; [apply sqrt_pos|lra]|exact H]).
    fold k in h. fold h in L1. pose proof (lag_nonneg k e (m_yawvel (w_mem w))) as Ln.
    assert (L2 : lag k e1 (m_yawvel (w_mem w')) < PI).
    { eapply Rle_lt_trans; [exact L1|]. assert (0 <= h * h * lag k e (m_yawvel (w_mem w))) by (apply Rmult_le_pos; [apply Rmult_le_pos; lra|exact Ln]). lra. }
    destruct (IH e1) as (D2 & e2 & T2 & L3); [rewrite Ek; exact K0|exact T1|rewrite Ek; exact L2|]. rewrite Ek in L3.
    split; [apply decay_nonneg_cons; assumption|]. exists e2. split; [exact T2|]. cbn [decay fold_right]. fold (decay hs).
    eapply Rle_trans; [exact L3|]. eapply Rle_trans; [apply Rmult_le_compat_l; [exact D2|exact L1]|]. right. ring.
  - exact (IH e K0 T L).
  - exact (IH e K0 T L).
  - exact (IH e K0 T L).
Qed.

(* position *)
Lemma cycle_pos (axis : vec3 Rn -> R) (gain : wg_cfg Rn -> R) (w : wg Rn) now :
  In (axis, gain) [(vx, c_sxy); (vy, c_sxy); (vz, c_sz)] ->
  m_reset (w_mem w) = false -> m_autoland (w_mem w) = false -> w_state w <> ALTITUDE_CHANGE -> smoothing_on w ->
  let w' := calc w now in let k := gain (w_cfg w) in let dt := cycle_time secs w now in
  axis (m_svel (w_mem w')) = axis (m_svel (w_mem w)) +
    ((axis (o_adapted (w_out w')) - axis (m_sloc (w_mem w))) * k + (axis (target_velocity w w') - axis (m_svel (w_mem w))) * (2 * sqrt k)) * dt /\
  axis (m_sloc (w_mem w')) = axis (m_sloc (w_mem w)) + axis (m_svel (w_mem w')) * dt /\
  o_pos (w_out w') = m_sloc (w_mem w').
Proof.
  intros Hin R Al S [S1 S2]. destruct (calc_decomp2 Rn Rtrig secs travel w now R) as (w0 & T & Hg & P & _ & _ & Ad & _ & _ & Sl & Sv). cbv zeta in *.
  unfold target_velocity. rewrite P, Ad, Sl, Sv. pose proof (stepTime_cycle _ _ _ T) as St.
  unfold WgModel.getPathMsg. destruct (nextSmoothYaw Rn Rtrig _ _ _ _ _ _) as [yaw yv]. rewrite (tg_auto Rn _ _ T). cbn [prep w_mem m_autoland]. rewrite Al.
  destruct (adaptSpeed Rn Rtrig _ _ _ _ _ _ _) as [[[[g sp] hd] y'] ad]. rewrite (tg_cfg Rn _ _ T), St. cbn [prep w_cfg].
  unfold smoothWaypoint. rewrite !cst_Rn.
  assert (X : ltb Rn (c_sxy (w_cfg w)) (1 / 100) || ltb Rn (c_sz (w_cfg w)) (1 / 100) = false).
  { cbn [ltb Rn]. destruct (R_ltb_spec (c_sxy (w_cfg w)) (1 / 100)); [lra|]. destruct (R_ltb_spec (c_sz (w_cfg w)) (1 / 100)); [lra|reflexivity]. }
  replace (IZR 1) with 1 in * by reflexivity. rewrite X. rewrite (tg_sloc Rn _ _ T), (tg_svel Rn _ _ T), (Hg S), (tg_vel Rn _ _ T).
  cbn [prep w_in w_mem w_out m_sloc m_svel o_adapted o_pos i_vel i_goal].
  unfold allFinite, finite3. cbn [finiteb Rn andb]. cbv zeta.
  assert (Z0 : zero3 Rn = (V3 (0 : Rn) (0 : Rn) (0 : Rn))) by reflexivity. rewrite <- Z0.
  set (V := if ltb Rn _ (1 / 10) then zero3 Rn else i_vel (w_in w)). clearbody V.
  cbn [In] in Hin. destruct Hin as [E|[E|[E|[]]]]; injection E as <- <-; cbn [vx vy vz v3sub add mul sub sqrtv ofZ Rn]; auto.
Qed.
Lemma cycle_follows axis gain (w : wg Rn) now :
  In (axis, gain) [(vx, c_sxy); (vy, c_sxy); (vz, c_sz)] ->
  m_reset (w_mem w) = false -> m_autoland (w_mem w) = false -> w_state w <> ALTITUDE_CHANGE -> smoothing_on w ->
  let w' := calc w now in let k := gain (w_cfg w) in let dt := cycle_time secs w now in let h := sqrt k * dt in
  let t := axis (o_adapted (w_out w')) in let v := axis (target_velocity w w') in
  h <= 1 / 2 ->
  o_pos (w_out w') = m_sloc (w_mem w') /\
  lag k (t + v * dt - axis (o_pos (w_out w'))) (axis (m_svel (w_mem w')) - v) <= (1 - h * h) * lag k (t - axis (m_sloc (w_mem w))) (axis (m_svel (w_mem w)) - v).
Proof.
  intros Hin R Al S So w' k dt h t v Hh. destruct (cycle_pos axis gain w now Hin R Al S So) as (E1 & E2 & E3). fold w' in E1, E2, E3. fold k in E1. fold dt in E1, E2. fold t in E1. fold v in E1.
  split; [exact E3|]. rewrite E3.
  assert (Hk : 0 < k) by (unfold k; destruct So as [So1 So2]; cbn [In] in Hin; destruct Hin as [E|[E|[E|[]]]]; injection E as <- <-; lra).
  pose proof (filter_step k dt (t - axis (m_sloc (w_mem w))) (axis (m_svel (w_mem w)) - v) Hk (Rlt_le _ _ (cycle_time_pos w now)) Hh) as F. cbv zeta in F.
  replace (axis (m_svel (w_mem w)) - v + ((t - axis (m_sloc (w_mem w))) * k + (0 - (axis (m_svel (w_mem w)) - v)) * (2 * sqrt k)) * dt)
    with (axis (m_svel (w_mem w')) - v) in F by (rewrite E1; ring).
  replace (t + v * dt - axis (m_sloc (w_mem w'))) with (t - axis (m_sloc (w_mem w)) - (axis (m_svel (w_mem w')) - v) * dt) by (rewrite E2; ring).
  exact F.
Qed.
Lemma approaches_run axis gain t w hs w2 : In (axis, gain) [(vx, c_sxy); (vy, c_sxy); (vz, c_sz)] ->
  approaches secs travel axis gain t w hs w2 ->
  let k := gain (w_cfg w) in
  0 <= decay hs /\ lag k (t - axis (m_sloc (w_mem w2))) (axis (m_svel (w_mem w2))) <= decay hs * lag k (t - axis (m_sloc (w_mem w))) (axis (m_svel (w_mem w))).
Proof.
  intros Hin F. induction F as [w|w now hs w2 R Al S So H w' Et Ev F IH|w pos q goal vel stay nav land to des hs w2 Al F IH|w i f hs w2 F IH|w f hs w2 F IH]; intros k.
  - cbn [decay fold_right]. split; [lra|]. lra.
  - destruct (cycle_follows axis gain w now Hin R Al S So H) as (P & L). fold w' in P, L. rewrite Et, Ev, P in L. fold k in L.
    assert (Ek : gain (w_cfg w') = k) by (unfold w'; rewrite cycle_cfg by exact R; reflexivity). cbv zeta in IH. rewrite Ek in IH. destruct IH as (D2 & L2).
    pose proof (cycle_time_pos w now) as Cp. fold k in H |- *. set (h := sqrt k * cycle_time secs w now) in *.
    assert (Hh : 0 <= h <= 1 / 2) by (split; [unfold h; apply Rmult_le_pos; [apply sqrt_pos|lra]|exact H]).
    split; [apply decay_nonneg_cons; assumption|]. cbn [decay fold_right]. fold (decay hs).
    eapply Rle_trans; [exact L2|]. rewrite !Rminus_0_r in L. rewrite Rmult_0_l, Rplus_0_r in L.
    eapply Rle_trans; [apply Rmult_le_compat_l; [exact D2|exact L]|]. right. ring.
  - assert (E : m_sloc (w_mem (updateState Rn Rtrig w pos q goal vel stay true nav land to des)) = m_sloc (w_mem w) /\
                m_svel (w_mem (updateState Rn Rtrig w pos q goal vel stay true nav land to des)) = m_svel (w_mem w)).
    { unfold updateState. cbn [w_mem m_sloc m_svel]. rewrite Al. split; reflexivity. }
    destruct E as [E1 E2]. cbv zeta in IH. rewrite E1, E2 in IH. exact IH.
  - assert (Eg : gain (w_cfg (wg_setFOV Rn w i f)) = gain (w_cfg w)) by (cbn [In] in Hin; destruct Hin as [E|[E|[E|[]]]]; injection E as <- <-; reflexivity).
    cbv zeta in IH. rewrite Eg in IH. exact IH.
  - assert (Eg : gain (w_cfg (setPlannerInfo Rn w f)) = gain (w_cfg w)) by (cbn [In] in Hin; destruct Hin as [E|[E|[E|[]]]]; injection E as <- <-; reflexivity).
    cbv zeta in IH. rewrite Eg in IH. exact IH.
Qed.
End Cycles.
