(** Specification vocabulary for the avoidance node. *)
From Coq Require Import ZArith List Bool String.
From Verif Require Import Num NodeModel.
Import ListNotations.

(** no planner result for more than 15 s (both since the last one and since start); more than 0.5 s after a 5 s start-up *)
Definition stale_15s (cloud start : Z) : Prop := (15 * 10 ^ 9 < cloud /\ 15 * 10 ^ 9 < start)%Z.
Definition stale_half_s (cloud start : Z) : Prop := (5 * 10 ^ 8 < cloud /\ 5 * 10 ^ 9 < start)%Z.

Section S.
Variable N : num.
Variable D : Type.
Variable tofloat : D -> N.

(** which autopilot parameter each member stores *)
Definition float_members : list (string * (px4params N -> N)) :=
  [("MPC_JERK_MIN", jerk_min); ("MPC_JERK_MAX", jerk_max); ("MPC_ACC_UP_MAX", acc_up_max);
   ("MPC_Z_VEL_MAX_UP", z_vel_max_up); ("MPC_ACC_DOWN_MAX", acc_down_max); ("MPC_Z_VEL_MAX_DN", z_vel_max_dn);
   ("MPC_ACC_HOR", acc_hor); ("MPC_XY_CRUISE", xy_cruise); ("MPC_TKO_SPEED", tko_speed); ("MPC_LAND_SPEED", land_speed);
   ("MPC_YAWRAUTO_MAX", yawrauto_max); ("NAV_ACC_RAD", nav_acc_rad); ("CP_DIST", cp_dist)]%string.
Definition float_member (name : string) : option (px4params N -> N) :=
  match find (fun e => String.eqb name (fst e)) float_members with Some (_, g) => Some g | None => None end.

(** parameters that are also polled *)
Definition polled (name : string) : bool :=
  existsb (String.eqb name)
    ["MPC_ACC_HOR"; "MPC_ACC_DOWN_MAX"; "MPC_ACC_UP_MAX"; "MPC_XY_CRUISE"; "MPC_Z_VEL_MAX_DN"; "MPC_Z_VEL_MAX_UP";
     "CP_DIST"; "MPC_LAND_SPEED"; "MPC_JERK_MAX"; "NAV_ACC_RAD"; "MPC_YAWRAUTO_MAX"]%string.

(** the value an event delivers for a parameter, if any *)
Definition delivers (name : string) (e : pevent D) : option N :=
  match e with
  | EMsg m => if String.eqb (p_id m) name then Some (tofloat (p_real m)) else None
  | EPoll r => if polled name then match r name with Some d => Some (tofloat d) | None => None end else None
  end.
(** the last value delivered in a history *)
Definition last_delivered (name : string) (init : N) (es : list (pevent D)) : N :=
  fold_left (fun v e => match delivers name e with Some v' => v' | None => v end) es init.

(** mission items: the current item is the first one flagged current *)
Definition is_current_index (items : list (wpt N)) (i : nat) : Prop :=
  (exists w, nth_error items i = Some w /\ w_current w = true) /\
  forall j w, (j < i)%nat -> nth_error items j = Some w -> w_current w = false.
(** MAV_CMD_DO_CHANGE_SPEED (178) with a positive speed and an acceptable speed type *)
Definition speed_change (type_ok : N -> bool) (w : wpt N) : Prop :=
  w_command w = 178%Z /\ type_ok (w_param1 w) = true /\ ltb N (ofZ N 0) (w_param2 w) = true.
(** [v] is the speed of the closest speed change at or before item i *)
Definition closest_speed_change (type_ok : N -> bool) (items : list (wpt N)) (i : nat) (v : N) : Prop :=
  exists k w, (k <= i)%nat /\ nth_error items k = Some w /\ speed_change type_ok w /\ v = w_param2 w /\
    forall j w', (k < j <= i)%nat -> nth_error items j = Some w' -> ~ speed_change type_ok w'.
End S.
Arguments float_member {N}. Arguments delivers {N D}. Arguments last_delivered {N D}.
Arguments is_current_index {N}. Arguments speed_change {N}. Arguments closest_speed_change {N}.
