(** Specification vocabulary for LocalPlanner and the trajectory simulator. *)
From Coq Require Import ZArith Reals List.
From Verif Require Import Num Mat CommonModel HistModel PfModel StarModel LpModel.
Import ListNotations.
Local Open Scope R_scope.

(** distance needed to stop from speed v: reaction while the acceleration builds up, then constant deceleration *)
Definition stopping_distance (v acc jerk : R) : R := v * (acc / jerk) + v * v / (2 * acc).

(** exact motion under constant jerk j for time dt, one coordinate: position, velocity, acceleration *)
Definition motion_pos (p v a j dt : R) : R := p + v * dt + a * dt ^ 2 / 2 + j * dt ^ 3 / 6.
Definition motion_vel (v a j dt : R) : R := v + a * dt + j * dt ^ 2 / 2.
Definition motion_acc (a j dt : R) : R := a + j * dt.
Definition moves (s s' : sim_state Rn) (j : vec3 Rn) (dt : R) : Prop :=
  s_time s' = s_time s + dt /\
  (forall c : vec3 Rn -> R, c = (fun v => vx v) \/ c = (fun v => vy v) \/ c = (fun v => vz v) ->
     c (s_pos s') = motion_pos (c (s_pos s)) (c (s_vel s)) (c (s_acc s)) (c j) dt /\
     c (s_vel s') = motion_vel (c (s_vel s)) (c (s_acc s)) (c j) dt /\
     c (s_acc s') = motion_acc (c (s_acc s)) (c j) dt).

(** horizontal (x, y) geometry *)
Definition dist2 (a b : vec3 Rn) : R := sqrt ((vx a - vx b) * (vx a - vx b) + (vy a - vy b) * (vy a - vy b)).
(** foot of the perpendicular from p to the horizontal line through a and b *)
Definition is_foot (a b p q : vec3 Rn) : Prop :=
  (exists t, vx q = vx a + t * (vx b - vx a) /\ vy q = vy a + t * (vy b - vy a)) /\
  (vx p - vx q) * (vx b - vx a) + (vy p - vy q) * (vy b - vy a) = 0.
