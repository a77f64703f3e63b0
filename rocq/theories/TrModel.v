(** Model of the trails two nodes leave on their displays: which lines publishPaths draws over a history of pose messages and command cycles. *)
From Coq Require Import ZArith List Bool.
From Verif Require Import Num CommonModel PfModel WgModel LvModel SlModel SlvModel.
Import ListNotations.

Section Tr.
Context (N : num).

(** safe_landing_planner_node.hpp: current_pose_ and previous_pose_ (zero at construction), path_length_ (visualization.hpp:38), lines drawn so far *)
Record strail := ST { st_cur : vec3 N; st_prev : vec3 N; st_id : Z; st_lines : list (Z * list (vec3 N)) }.
Definition st_init : strail := let o := V3 (ofZ N 0) (ofZ N 0) (ofZ N 0) in ST o o 0%Z [].
Inductive sev := SPose (p : vec3 N) | SRun.
(** safe_landing_planner_node.cpp:46-50; 109-110 with safe_landing_planner_visualization.cpp:25, 226-245 *)
Definition st_step (s : strail) (e : sev) : strail :=
  match e with
  | SPose p => ST p (st_cur s) (st_id s) (st_lines s)
  | SRun => let '(l, n) := publishPaths N (st_id s) (st_cur s) (st_prev s) in ST (st_cur s) (st_prev s) n (st_lines s ++ [l])
  end.

(** local_planner_nodelet.h:213-220: positions and waypoints (not initialised: [lt_init] takes what is found there), position_received_, path_length_, lines *)
Record ltrail := LT {
  lt_new : vec3 N; lt_last : vec3 N; lt_wp : vec3 N; lt_lastwp : vec3 N; lt_ad : vec3 N; lt_lastad : vec3 N; lt_received : bool; lt_id : Z;
  lt_lines : list (trails N) }.
Definition lt_init (a b c d e f : vec3 N) : ltrail := LT a b c d e f false 0%Z [].
Inductive lev := LPose (p : vec3 N) | LCmd (active : bool) (wp adapted : vec3 N).
(** local_planner_nodelet.cpp:199-205; cmdLoopCallback 233-277 (it waits for a position: [None] without one) with calculateWaypoints 295-303;
    [active]: the system status is MAV_STATE_ACTIVE *)
Definition lt_step (s : ltrail) (e : lev) : option ltrail :=
  match e with
  | LPose p => Some (LT p (lt_new s) (lt_wp s) (lt_lastwp s) (lt_ad s) (lt_lastad s) true (lt_id s) (lt_lines s))
  | LCmd active wp ad =>
      if lt_received s then
        if active then
          let '(t, n) := publishTrails N (lt_id s) (lt_last s) (lt_new s) (lt_wp s) wp (lt_ad s) ad in
          Some (LT (lt_new s) (lt_last s) wp (lt_wp s) ad (lt_ad s) false n (lt_lines s ++ [t]))
        else Some (LT (lt_new s) (lt_last s) (lt_wp s) (lt_lastwp s) (lt_ad s) (lt_lastad s) false (lt_id s) (lt_lines s))
      else None
  end.
Fixpoint lt_run (s : ltrail) (es : list lev) : option ltrail :=
  match es with [] => Some s | e :: es' => match lt_step s e with Some s' => lt_run s' es' | None => None end end.
End Tr.
Arguments ST {N} _ _ _ _. Arguments st_cur {N} _. Arguments st_prev {N} _. Arguments st_id {N} _. Arguments st_lines {N} _.
Arguments SPose {N} _. Arguments SRun {N}.
Arguments lt_new {N} _. Arguments lt_last {N} _. Arguments lt_wp {N} _. Arguments lt_ad {N} _. Arguments lt_id {N} _. Arguments lt_lines {N} _. Arguments lt_received {N} _.
Arguments LPose {N} _. Arguments LCmd {N} _ _ _.
