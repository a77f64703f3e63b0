(** Model of the companion status of the safe landing planner node: safe_landing_planner/src/nodes/safe_landing_planner_node.cpp:81-135.
    Times and timeouts are integers in nanoseconds (ros::Time); the two timeouts are the reconfigurable parameters. The rest of the command loop (the planner
    itself, SlModel.v) does not touch the status. *)
From Coq Require Import ZArith List Bool.
From Verif Require Import NodeModel.
Import ListNotations.
Local Open Scope Z_scope.

(** safe_landing_planner.hpp:24-25 *)
Record sln_cfg := SlnCfg { to_critical : Z; to_termination : Z }.
(** safe_landing_planner_node.hpp:80-82 and status_msg_.state *)
Record sln := Sln { sn_status : mav_state; sn_start : Z; sn_last : Z (* last_algo_time_ *); sn_sent : Z (* t_status_sent_ *) }.
(** safe_landing_planner_node.cpp:119-128 *)
Definition slnCheckFailsafe (c : sln_cfg) (st : mav_state) (since_last since_start : Z) : mav_state :=
  if (to_termination c <? since_last) && (to_termination c <? since_start) then TERMINATION
  else if (to_critical c <? since_last) && (to_critical c <? since_start) then CRITICAL
  else st.
(** one run of cmdLoopCallback: the time it starts, the times read in the waiting loop (85-92; each also stamps the status published then), the time read
    after it, and the time at its end. *)
Record tick := Tick { t_begin : Z; t_polls : list Z; t_now : Z; t_end : Z }.
(** safe_landing_planner_node.cpp:85-92: status and publications (time, status) of the waiting loop *)
Fixpoint waitLoop (c : sln_cfg) (t0 : Z) (st : mav_state) (sent : Z) (polls : list Z) : mav_state * Z * list (Z * mav_state) :=
  match polls with
  | [] => (st, sent, [])
  | p :: ps =>
      if to_termination c <? p - t0 then let '(st', sent', out) := waitLoop c t0 TERMINATION p ps in (st', sent', (p, TERMINATION) :: out)
      else waitLoop c t0 st sent ps
  end.
(** safe_landing_planner_node.cpp:81-117, 130-135 *)
Definition slnTick (c : sln_cfg) (s : sln) (t : tick) : sln * list (Z * mav_state) :=
  let '(st, sent, out) := waitLoop c (t_begin t) ACTIVE (sn_sent s) (t_polls t) in
  let st' := slnCheckFailsafe c st (t_now t - sn_last s) (t_now t - sn_start s) in
  if 200000000 <? t_now t - sent
  then (Sln st' (sn_start s) (t_end t) (t_end t), out ++ [(t_end t, st')])
  else (Sln st' (sn_start s) (t_end t) sent, out).
(** a history of cycles *)
Fixpoint slnRun (c : sln_cfg) (s : sln) (ts : list tick) : sln * list (Z * mav_state) :=
  match ts with
  | [] => (s, [])
  | t :: ts' => let '(s1, o1) := slnTick c s t in let '(s2, o2) := slnRun c s1 ts' in (s2, o1 ++ o2)
  end.
(** safe_landing_planner_node.hpp:80-82, safe_landing_planner_node.cpp:36 *)
Definition sln_init (start : Z) : sln := Sln UNINIT start 0 0.
