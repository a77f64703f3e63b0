(** Model of avoidance/src/avoidance_node.cpp. Durations are integers in nanoseconds. *)
From Coq Require Import ZArith List Bool String.
From Verif Require Import Num.
Import ListNotations.
Local Open Scope Z_scope.

(** common.h:21-31 *)
Inductive mav_state := UNINIT | BOOT | CALIBRATING | STANDBY | ACTIVE | CRITICAL | EMERGENCY | POWEROFF | TERMINATION.

(** avoidance_node.cpp:10-12, in nanoseconds *)
Definition timeout_termination : Z := 15000000000.
Definition timeout_critical : Z := 500000000.
Definition timeout_startup : Z := 5000000000.

(** avoidance_node.cpp:62-83; [pos] is position_received_ (true since construction, line 7).
    Result: new companion state and new value of the in/out parameter hover. *)
Definition checkFailsafe (pos : bool) (status : mav_state) (since_last_cloud since_start : Z) (hover : bool)
  : mav_state * bool :=
  if (timeout_termination <? since_last_cloud) && (timeout_termination <? since_start)
  then (TERMINATION, hover)
  else if (timeout_critical <? since_last_cloud) && (timeout_startup <? since_start)
  then (if pos then (CRITICAL, true) else (status, hover))
  else (if negb hover then (ACTIVE, hover) else (status, hover)).

Section Params.
Variable N : num.
Variable D : Type.                   (* double carried by mavros_msgs::Param::value.real *)
Variable tofloat : D -> N.           (* narrowing conversion double -> float *)

(** common.h:82-102 *)
Record px4params := Px4 {
  auto_mode : Z; jerk_min : N; jerk_max : N; acc_up_max : N; z_vel_max_up : N; acc_down_max : N;
  z_vel_max_dn : N; acc_hor : N; xy_cruise : N; tko_speed : N; land_speed : N; yawrauto_max : N;
  nav_acc_rad : N; cp_dist : N }.
Definition px4_init : px4params :=
  let n := nanv N in Px4 (-1) n n n n n n n n n n n n n.

(** val = msg.value.integer: int64 to int, modular (implementation defined before C++20) *)
Definition to_int32 (z : Z) : Z := (z + 2 ^ 31) mod 2 ^ 32 - 2 ^ 31.

(** a parameter message: name, value.real, value.integer *)
Record pmsg := Pmsg { p_id : string; p_real : D; p_int : Z }.

(** avoidance_node.cpp:85-124: the [||] chain stops at the first name that matches *)
Definition px4ParamsCallback (p : px4params) (m : pmsg) : px4params :=
  let v := tofloat (p_real m) in
  let '(Px4 am jmi jma aup vup adn vdn ah xy tko land yr nav cp) := p in
  if String.eqb (p_id m) "MPC_ACC_DOWN_MAX" then Px4 am jmi jma aup vup v vdn ah xy tko land yr nav cp
  else if String.eqb (p_id m) "MPC_ACC_HOR" then Px4 am jmi jma aup vup adn vdn v xy tko land yr nav cp
  else if String.eqb (p_id m) "MPC_ACC_UP_MAX" then Px4 am jmi jma v vup adn vdn ah xy tko land yr nav cp
  else if String.eqb (p_id m) "MPC_AUTO_MODE" then Px4 (to_int32 (p_int m)) jmi jma aup vup adn vdn ah xy tko land yr nav cp
  else if String.eqb (p_id m) "MPC_JERK_MIN" then Px4 am v jma aup vup adn vdn ah xy tko land yr nav cp
  else if String.eqb (p_id m) "MPC_JERK_MAX" then Px4 am jmi v aup vup adn vdn ah xy tko land yr nav cp
  else if String.eqb (p_id m) "MPC_LAND_SPEED" then Px4 am jmi jma aup vup adn vdn ah xy tko v yr nav cp
  else if String.eqb (p_id m) "MPC_TKO_SPEED" then Px4 am jmi jma aup vup adn vdn ah xy v land yr nav cp
  else if String.eqb (p_id m) "MPC_XY_CRUISE" then Px4 am jmi jma aup vup adn vdn ah v tko land yr nav cp
  else if String.eqb (p_id m) "MPC_Z_VEL_MAX_DN" then Px4 am jmi jma aup vup adn v ah xy tko land yr nav cp
  else if String.eqb (p_id m) "MPC_Z_VEL_MAX_UP" then Px4 am jmi jma aup v adn vdn ah xy tko land yr nav cp
  else if String.eqb (p_id m) "CP_DIST" then Px4 am jmi jma aup vup adn vdn ah xy tko land yr nav v
  else if String.eqb (p_id m) "NAV_ACC_RAD" then Px4 am jmi jma aup vup adn vdn ah xy tko land yr v cp
  else if String.eqb (p_id m) "MPC_YAWRAUTO_MAX" then Px4 am jmi jma aup vup adn vdn ah xy tko land v nav cp
  else p.

(** avoidance_node.cpp:126-158: one polling round under the parameter mutex. [resp name] is the value the
    autopilot returns, None when the service call fails. Second component: is_param_not_initialized. *)
Definition pollParameters (resp : string -> option D) (p : px4params) : px4params * bool :=
  let rq n old := match resp n with Some d => tofloat d | None => old end in
  let '(Px4 am jmi jma aup vup adn vdn ah xy tko land yr nav cp) := p in
  let p' := Px4 am jmi (rq "MPC_JERK_MAX" jma)%string (rq "MPC_ACC_UP_MAX" aup)%string (rq "MPC_Z_VEL_MAX_UP" vup)%string
                (rq "MPC_ACC_DOWN_MAX" adn)%string (rq "MPC_Z_VEL_MAX_DN" vdn)%string (rq "MPC_ACC_HOR" ah)%string
                (rq "MPC_XY_CRUISE" xy)%string tko (rq "MPC_LAND_SPEED" land)%string (rq "MPC_YAWRAUTO_MAX" yr)%string
                (rq "NAV_ACC_RAD" nav)%string (rq "CP_DIST" cp)%string in
  let nf x := negb (finiteb N x) in
  (p', nf (xy_cruise p') || nf (cp_dist p') || nf (land_speed p') || nf (nav_acc_rad p') || nf (acc_hor p') ||
       nf (jerk_max p') || nf (acc_down_max p') || nf (acc_up_max p') || nf (z_vel_max_dn p') || nf (z_vel_max_up p') ||
       nf (yawrauto_max p')).

(** events that touch the parameters *)
Inductive pevent := EMsg (m : pmsg) | EPoll (resp : string -> option D).
Definition pstep (p : px4params) (e : pevent) : px4params :=
  match e with EMsg m => px4ParamsCallback p m | EPoll r => fst (pollParameters r p) end.

(** mavros_msgs::Waypoint, the fields read by missionCallback *)
Record wpt := Wpt { w_current : bool; w_command : Z; w_param1 : N; w_param2 : N }.
(** avoidance_node.cpp:172-173 *)
Definition speed_item (w : wpt) : bool :=
  (w_command w =? 178) && ltb N (sub N (w_param1 w) (ofZ N 1)) (flt_min N) && ltb N (ofZ N 0) (w_param2 w).
(** avoidance_node.cpp:171-178: from [index] down to 0; [rev_prefix] is the list of items 0..index reversed *)
Fixpoint scan_back (rev_prefix : list wpt) (speed : N) : N :=
  match rev_prefix with
  | [] => speed
  | w :: l => if speed_item w then w_param2 w else scan_back l speed
  end.
(** avoidance_node.cpp:168-182: [seen] are the items already passed, newest first *)
Fixpoint mission_loop (seen rest : list wpt) (speed : N) : N :=
  match rest with
  | [] => speed
  | w :: rest' => if w_current w then scan_back (w :: seen) speed else mission_loop (w :: seen) rest' speed
  end.
Definition missionCallback (items : list wpt) (speed : N) : N := mission_loop [] items speed.
End Params.
Arguments Px4 {N}. Arguments auto_mode {N}. Arguments jerk_min {N}. Arguments jerk_max {N}. Arguments acc_up_max {N}.
Arguments z_vel_max_up {N}. Arguments acc_down_max {N}. Arguments z_vel_max_dn {N}. Arguments acc_hor {N}.
Arguments xy_cruise {N}. Arguments tko_speed {N}. Arguments land_speed {N}. Arguments yawrauto_max {N}.
Arguments nav_acc_rad {N}. Arguments cp_dist {N}.
Arguments Pmsg {D}. Arguments p_id {D}. Arguments p_real {D}. Arguments p_int {D}.
Arguments EMsg {D}. Arguments EPoll {D}.
Arguments Wpt {N}. Arguments w_current {N}. Arguments w_command {N}. Arguments w_param1 {N}. Arguments w_param2 {N}.
