(** Specification vocabulary for the global planner node. *)
From Coq Require Import ZArith List Bool.
From Verif Require Import Num CommonModel GpModel GpPlan GpNode.
Import ListNotations.

(** the goals the node still has to serve: the current one, then the waiting ones *)
Definition agenda {N : num} (s : nstate N) : list (goalcell N) := g_goal (ns_pl s) :: ns_wps s.
(** those that are not intermediate goals invented by the node *)
Definition real {N : num} (s : nstate N) : list (goalcell N) := filter (fun g => negb (gc_temp g)) (agenda s).
(** the last goal is not an intermediate one *)
Definition has_final {N : num} (s : nstate N) : Prop := match rev (agenda s) with g :: _ => gc_temp g = false | [] => False end.
(** the recorded way back *)
Definition trail {N : num} (s : nstate N) : list gcell := g_back (ns_pl s).
(** events that are not a goal given by the user *)
Definition auto_event {N : num} (e : nev N) : bool := match e with EGoal _ _ | EFcu _ _ => false | _ => true end.
(** The goals after the current one was reached or found blocked; with no further goal and the current one blocked, the goal is the
    present cell. *)
Definition served {N : num} (reached blocked : bool) (here : gcell) (a : list (goalcell N)) : list (goalcell N) :=
  if reached || blocked then
    match a with
    | _ :: w :: ws => w :: ws
    | [g] => if blocked then [GC here (ofZ N 1) false] else [g]
    | [] => []
    end
  else a.
(** the poses received in a list of events *)
Fixpoint poses_of {N : num} (es : list (nev N)) : list (gpose N) :=
  match es with [] => [] | EPose p :: es' => p :: poses_of es' | _ :: es' => poses_of es' end.
