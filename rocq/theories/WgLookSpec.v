(** Specification vocabulary for C123 and C124. *)
From Coq Require Import ZArith Reals List.
From Verif Require Import Num CommonModel CommonSpec UsmModel StarModel LpModel WgModel.
Local Open Scope R_scope.

(** the yaw [y] points from [p] to [t]: horizontally, [t] lies straight ahead *)
Definition heads (p t : vec3 Rn) (y : R) : Prop := exists r, 0 < r /\ vx t = vx p + r * cos y /\ vy t = vy p + r * sin y.
(** [e] is the turn that leads from heading [y] to heading [d] the short way round *)
Definition turn (y d e : R) : Prop := same_heading (2 * PI) e (d - y) /\ - PI <= e < PI.
(** How far a second order filter with gain [k] (natural frequency sqrt k) is from rest at its target: error [e], rate [u].
    It is at least the error, and equal to it when the rate is 0. *)
Definition lag (k e u : R) : R := Rabs (e - u / sqrt k) + Rabs (u / sqrt k).
(** the product of the 1 - h^2 *)
Definition decay (hs : list R) : R := fold_right (fun h x => (1 - h * h) * x) 1 hs.

Section Runs.
Context (secs : Z -> Rn) (travel : Z -> Rn -> Rn).
(** the seconds since the cycle before, as used by the cycle at time [now] *)
Definition cycle_time (w : wg Rn) (now : Z) : R :=
  let t := secs (now - m_cur (w_mem w))%Z in if ltb Rn 0 t then t else 1 / 10000.
(** landing, or at least 1 m from the goal: the heading is not held *)
Definition away (w : wg Rn) : Prop := m_autoland (w_mem w) = true \/ 1 <= v3norm Rn (v3sub Rn (i_goal (w_in w)) (i_pos (w_in w))).
(** A flight in the course of which the target is always in direction [d] as seen from the vehicle: control cycles no longer than half the
    smoothing's time constant, and, in between, vehicle states of the flying vehicle, fields of view and results of the planner.
    [hs] are the lengths of the cycles in units of the time constant. *)
Inductive flies_towards (d : R) : wg Rn -> list R -> wg Rn -> Prop :=
| ft_end w : flies_towards d w nil w
| ft_cycle w now hs w2 :
    m_reset (w_mem w) = false -> w_state w <> ALTITUDE_CHANGE -> away w ->
    1 / 100 < c_sxy (w_cfg w) -> sqrt (c_sxy (w_cfg w)) * cycle_time w now <= 1 / 2 ->
    let w' := calculateWaypoint Rn Rtrig secs travel w now in
    let goto := o_goto (w_out w') in let pos := i_pos (w_in w) in
    (if ltb Rn (1 / 10) (v2norm Rn (vx pos - vx goto) (vy pos - vy goto)) then exists y, heads pos goto y /\ same_heading (2 * PI) y d
     else i_yaw (w_in w) = d) ->
    flies_towards d w' hs w2 -> flies_towards d w (sqrt (c_sxy (w_cfg w)) * cycle_time w now :: hs) w2
| ft_update w pos q goal vel stay nav land takeoff desired hs w2 :
    flies_towards d (updateState Rn Rtrig w pos q goal vel stay true nav land takeoff desired) hs w2 -> flies_towards d w hs w2
| ft_fov w i f hs w2 : flies_towards d (wg_setFOV Rn w i f) hs w2 -> flies_towards d w hs w2
| ft_info w f hs w2 : flies_towards d (setPlannerInfo Rn w f) hs w2 -> flies_towards d w hs w2.

(** The same for one coordinate of the position: in each cycle that coordinate of the speed-adapted target is [t], and the target does not move
    (the speed of the vehicle in this coordinate is 0, or the target is within 0.1 m of the goal). *)
Definition smoothing_on (w : wg Rn) : Prop := 1 / 100 <= c_sxy (w_cfg w) /\ 1 / 100 <= c_sz (w_cfg w).
(** the velocity the filter assumes for the target: that of the vehicle, except at the goal *)
Definition target_velocity (w w' : wg Rn) : vec3 Rn :=
  if ltb Rn (v3norm Rn (v3sub Rn (o_adapted (w_out w')) (i_goal (w_in w)))) (1 / 10) then V3 (0 : Rn) (0 : Rn) (0 : Rn) else i_vel (w_in w).
Inductive approaches (axis : vec3 Rn -> R) (gain : wg_cfg Rn -> R) (t : R) : wg Rn -> list R -> wg Rn -> Prop :=
| ap_end w : approaches axis gain t w nil w
| ap_cycle w now hs w2 :
    m_reset (w_mem w) = false -> m_autoland (w_mem w) = false -> w_state w <> ALTITUDE_CHANGE -> smoothing_on w ->
    sqrt (gain (w_cfg w)) * cycle_time w now <= 1 / 2 ->
    let w' := calculateWaypoint Rn Rtrig secs travel w now in
    axis (o_adapted (w_out w')) = t -> axis (target_velocity w w') = 0 ->
    approaches axis gain t w' hs w2 -> approaches axis gain t w (sqrt (gain (w_cfg w)) * cycle_time w now :: hs) w2
| ap_update w pos q goal vel stay nav land takeoff desired hs w2 :
    m_autoland (w_mem w) = false ->
    approaches axis gain t (updateState Rn Rtrig w pos q goal vel stay true nav land takeoff desired) hs w2 -> approaches axis gain t w hs w2
| ap_fov w i f hs w2 : approaches axis gain t (wg_setFOV Rn w i f) hs w2 -> approaches axis gain t w hs w2
| ap_info w f hs w2 : approaches axis gain t (setPlannerInfo Rn w f) hs w2 -> approaches axis gain t w hs w2.
End Runs.
