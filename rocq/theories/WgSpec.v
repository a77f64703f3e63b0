(** Specification vocabulary for the local planner's waypoint generator. *)
From Coq Require Import ZArith Reals List Bool.
From Verif Require Import Num Mat CommonModel HistModel PfModel StarModel LpModel UsmModel WgModel.
Import ListNotations.

(** The documented state machine: the next state as a function of "loiter requested", "altitude change needed" and
    "planner path available". *)
Definition documented_next (s : pstate) (stay alt path : bool) : pstate :=
  match s with
  | TRY_PATH => if stay then LOITER else if alt then ALTITUDE_CHANGE else if path then TRY_PATH else DIRECT
  | ALTITUDE_CHANGE => if stay then LOITER else if alt then ALTITUDE_CHANGE else TRY_PATH
  | LOITER => if stay then LOITER else TRY_PATH
  | DIRECT => if path then TRY_PATH else if alt then ALTITUDE_CHANGE else if stay then LOITER else DIRECT
  end.

(** When the autopilot wants an altitude change: takeoff or land mode or mission item; return-to-land more than 0.8 m
    below the goal altitude (or with an undefined altitude); offboard mode below the goal altitude unless the goal altitude was
    already reached on this flight. *)
Definition altitude_wanted (N : num) (nav : nav_state) (posz goalz : N) (land_item takeoff_item reached : bool) : bool :=
  match nav with
  | N_takeoff | N_land => true
  | N_mission => land_item || takeoff_item
  | N_rtl => negb (ltb N (sub N goalz (cst N 4 5)) posz)
  | N_offboard => negb reached && negb (leb N goalz posz)
  | _ => false
  end.

(** the planner's current path is usable at time [now] *)
Definition path_usable (N : num) (travel : Z -> N -> N) (f : output N) (now : Z) : bool :=
  fst (getSetpointFromPath N (o_path f) (travel (now - o_path_time f)%Z (o_cruise f))).

Definition is_get {N : num} (o : wg_op N) : bool := match o with OpGet _ => true | _ => false end.
Definition no_get {N : num} (l : list (wg_op N)) : Prop := forall o, In o l -> is_get o = false.
(** the generator is in state s before each of the operations of l *)
Definition stays_in {N : num} G secs travel (w : wg N) (s : pstate) (l : list (wg_op N)) : Prop :=
  forall a b, l = a ++ b -> b <> [] -> w_state (wg_run N G secs travel w a) = s.
(** every vehicle state update of l requests to loiter *)
Definition always_stay {N : num} (l : list (wg_op N)) : Prop :=
  forall pos q goal vel stay air nav land to des, In (OpUpdate pos q goal vel stay air nav land to des) l -> stay = true.
