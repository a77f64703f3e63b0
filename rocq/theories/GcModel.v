(** Model of the two threads of the global planner node that share the goal and the path: the main thread (all message callbacks, global_planner_node.cpp:
    204-262) and the planning thread (plannerLoopCallback 335-353 with popNextGoal 113-124, planPath 127-144, setIntermediateGoal 147-155, setCurrentPath
    307-320; global_planner.cpp:42-48 setGoal, 484-512 getGlobalPath, 534-537 stop). plannerLoopCallback holds mutex_, but of the message callbacks only the
    map's takes it. Goals are numbers; what a search finds, whether the vehicle is within the goal's radius, and the cell in the middle of a path are inputs.
    Simplifications: the accesses of one statement are one step; setCurrentPath is called once per cycle (in the program twice with different paths); path_
    is represented by its length; torn reads of goal_pos_ are not modelled. *)
From Coq Require Import ZArith List Bool.
Import ListNotations.
Local Open Scope Z_scope.

(** where the planning thread is *)
Inductive kpc :=
| KIdle | KPop (* 339 *) | KPlan (* 342 *) | KSearch (target : Z) (* 503 *) | KHalf (mid : Z) (* 151 *) | KHalf2 (mid : Z) (* 153 *)
| KPublish (* 309 *) | KFill (* 315-319 *).
(** what a search for the target read at 486 yields: no search since the own cell is occupied; no path; a good path; a poor path of more than 10 cells with this
    middle cell *)
Inductive found := FOwnCell | FNone | FGood | FPoor (mid : Z).
Record gcs := Gcs {
  q_goal : Z; q_blocked : bool; q_wps : list Z; q_pc : kpc;
  q_len : nat;            (* path_.size() *)
  q_close : bool;         (* the main thread is between the test of path_.size() and path_[0] (223-235) *)
  q_tried : list Z;       (* targets of all searches so far *)
  q_reached : list Z;     (* goals found to be reached so far *)
  q_crashed : bool }.     (* path_[0] of an empty vector was read *)
Definition gcs_init (g : Z) : gcs := Gcs g false [] KIdle 0 false [] [] false.
Inductive glab :=
| GStart (in_goal : bool) | GPop (here : Z) | GRead | GFound (r : found) | GHalf | GHalf2 | GClear | GFill (n : nat)   (* planning thread *)
| GGoal (g : Z) | GCheck | GTake.                                                                                 (* main thread *)
Definition gc_step (s : gcs) (l : glab) : option gcs :=
  let '(Gcs goal blocked wps pc len close tried reached crashed) := s in
  if crashed then None else
  match l, pc with
  (* 337-338 *)
  | GStart in_goal, KIdle =>
      Some (Gcs goal blocked wps (if in_goal || blocked then KPop else KPlan) len close tried (if in_goal then reached ++ [goal] else reached) false)
  (* 113-124 *)
  | GPop here, KPop =>
      Some (match wps with
            | g :: ws => Gcs g false ws KPlan len close tried reached false
            | [] => if blocked then Gcs here false [] KPlan len close tried reached false else Gcs goal blocked [] KPlan len close tried reached false
            end)
  (* global_planner.cpp:486 *)
  | GRead, KPlan => Some (Gcs goal blocked wps (KSearch goal) len close (tried ++ [goal]) reached false)
  (* global_planner.cpp:487-511, 133-142 *)
  | GFound r, KSearch _ =>
      Some (match r with
            | FOwnCell | FGood => Gcs goal blocked wps KPublish len close tried reached false
            | FNone => Gcs goal true wps KPublish len close tried reached false
            | FPoor mid => Gcs goal blocked wps (KHalf mid) len close tried reached false
            end)
  (* 151 *)
  | GHalf, KHalf mid => Some (Gcs goal blocked (goal :: wps) (KHalf2 mid) len close tried reached false)
  (* 153 *)
  | GHalf2, KHalf2 mid => Some (Gcs mid false wps KPublish len close tried reached false)
  (* 307-313 *)
  | GClear, KPublish => Some (Gcs goal blocked wps KFill 0 close tried reached false)
  (* 314-319 *)
  | GFill n, KFill => Some (Gcs goal blocked wps KIdle n close tried reached false)
  (* 251-261, 106-110 *)
  | GGoal g, _ => if close then None else Some (Gcs g false wps pc len close tried reached false)
  (* 223 *)
  | GCheck, _ => match len with O => None | S _ => if close then None else Some (Gcs goal blocked wps pc len true tried reached false) end
  (* 235-236 *)
  | GTake, _ => if close then Some (Gcs goal blocked wps pc (pred len) false tried reached (Nat.eqb len 0)) else None
  | _, _ => None
  end.
Fixpoint gc_run (s : gcs) (ls : list glab) : option gcs :=
  match ls with [] => Some s | l :: ls' => match gc_step s l with Some s' => gc_run s' ls' | None => None end end.
