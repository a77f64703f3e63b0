(** C125: a vehicle yaw that is not a number does not turn the vehicle. *)
From Coq Require Import ZArith Reals List Bool Lia Lra.
From Flocq Require Import Core BinarySingleNaN.
From Verif Require Import Num CommonModel PfMisc WgModel.

Lemma f32_sub_self (y : F32) : finiteb F32 y = true -> sub F32 y y = ofZ F32 0.
Proof. exact (PfMisc.sub_self y). Qed.
(** the same vehicle state with another yaw *)
Definition with_yaw (i : wg_in F32) (y : F32) : wg_in F32 :=
  WIn (i_pos i) (i_vel i) (i_goal i) y (i_pitch i) (i_nav i) (i_land i) (i_takeoff i) (i_desired i) (i_stay i) (i_airborne i).
(** [yaw] is not a number (or infinite) and the vehicle is where it is to go, so that its own yaw is the one wanted: the yaw of the setpoint and its rate are those for
    a vehicle that already looks where the setpoint does. *)
Theorem C125_unknown_yaw_keeps_heading :
  forall G (st : pstate) (i : wg_in F32) (m : wg_mem F32) (sxy : F32) (goto : vec3 F32) (dt yaw : F32),
  finiteb F32 (m_yaw m) = true -> finiteb F32 yaw = false -> st <> ALTITUDE_CHANGE ->
  ltb F32 (cst F32 1 10) (v2norm F32 (sub F32 (vx (i_pos i)) (vx goto)) (sub F32 (vy (i_pos i)) (vy goto))) = false -> leb F32 sxy (cst F32 1 100) = false ->
  nextSmoothYaw F32 G st (with_yaw i yaw) m sxy goto dt = nextSmoothYaw F32 G st (with_yaw i (m_yaw m)) m sxy goto dt.
Proof.
  intros G st i m sxy goto dt yaw Fm Fy St Hn Hs. unfold nextSmoothYaw. cbv zeta. cbn [with_yaw i_pos i_yaw v3sub vx vy]. rewrite Hn, Hs.
  replace (pstate_eqb st ALTITUDE_CHANGE) with false by (destruct st; try reflexivity; congruence). rewrite Fy, Fm, (f32_sub_self _ Fm). reflexivity.
Qed.
Print Assumptions C125_unknown_yaw_keeps_heading.
(** the hypotheses are met: the yaw of the vehicle is NaN, the vehicle hovers at its goal *)
Example C125_unknown_yaw_example : exists w : wg_mem F32,
  finiteb F32 (m_yaw w) = true /\ finiteb F32 (nanv F32) = false /\ TRY_PATH <> ALTITUDE_CHANGE /\
  ltb F32 (cst F32 1 10) (v2norm F32 (sub F32 (ofZ F32 3) (ofZ F32 3)) (sub F32 (ofZ F32 4) (ofZ F32 4))) = false /\ leb F32 (ofZ F32 10) (cst F32 1 100) = false.
Proof.
  exists (WMem (V3 (ofZ F32 3) (ofZ F32 4) (ofZ F32 5)) (V3 (ofZ F32 0) (ofZ F32 0) (ofZ F32 0)) (V3 (ofZ F32 3) (ofZ F32 4) (ofZ F32 5)) (V3 (ofZ F32 0) (ofZ F32 0) (ofZ F32 0))
    0%Z 0%Z false false (ofZ F32 1) (ofZ F32 0) None (ofZ F32 0) (ofZ F32 0) false false).
  split; [vm_compute; reflexivity|]. split; [vm_compute; reflexivity|]. split; [discriminate|]. split; vm_compute; reflexivity.
Qed.
