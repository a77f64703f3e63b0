(** Model of the point-cloud handover between the two threads of the safe landing planner node:
    safe_landing_planner/src/nodes/safe_landing_planner_node.cpp:52-59 (pointCloudCallback), 67-79 (startNode), 81-117 (cmdLoopCallback), 208-245
    (pointCloudTransformThread), safe_landing_planner_node_main.cpp (the main thread only joins the worker).
    Messages are numbered by arrival; number 0 is the empty message the node starts with (its frame is empty, so it is never transformable).
    Simplifications: sections under a mutex are one step; the three objects made by startNode appear in one step; the time between two cycles of the command
    loop is not modelled (a cycle may start at once); playback of recorded grids (rawGridCallback) and should_exit_ (never set) are left out. *)
From Coq Require Import ZArith List Bool.
Import ListNotations.

(** where the worker thread is: started; in wait() (212); at the loop condition (214); holding the message lock (217); between the two locks, with the
    points of a message (224-232) *)
Inductive wpc := WNew | WWait | WLoop | WHold | WConv (id : nat).
(** where the command thread is: at the loop condition (85); serving callbacks (86) *)
Inductive ppc := PCheck | PServe.
Record slw := Slw {
  w_made : bool;        (* startNode made the mutexes and the condition variable *)
  w_recv : nat;         (* messages received so far *)
  w_newest : nat;       (* newest_cloud_msg_ *)
  w_flag : bool;        (* cloud_transformed_ *)
  w_cloud : nat;        (* message whose points are in safe_landing_planner_->cloud_ *)
  w_pc : wpc; w_cmd : ppc;
  w_log : list nat;     (* messages the planner was run on *)
  w_crashed : bool }.   (* a null unique_ptr was dereferenced *)
(** safe_landing_planner_node.hpp:57-83, safe_landing_planner_node.cpp:69 (the worker is started first) *)
Definition slw_init : slw := Slw false 0 0 false 0 WNew PCheck [] false.

Inductive lab :=
| LMake                 (* startNode:70-72 *)
| LWorker (ok : bool)   (* the worker's next step; ok: the transformation is available *)
| LSpurious             (* wait() returns without a notification, as the C++ standard allows *)
| LRecv                 (* pointCloudCallback, called from the command thread's callAvailable *)
| LCmd.                 (* the command thread's next step *)
Definition slw_step (s : slw) (l : lab) : option slw :=
  let '(Slw made recv newest flag cloud pc cmd log crashed) := s in
  if crashed then None else
  match l with
  | LMake => if made then None else Some (Slw true recv newest flag cloud pc cmd log false)
  | LWorker ok =>
      match pc with
      | WNew => Some (Slw made recv newest flag cloud (if made then WWait else WNew) cmd log (negb made))
      | WWait => None
      | WLoop => Some (Slw made recv newest flag cloud (if flag then WWait else WHold) cmd log false)
      | WHold => Some (Slw made recv newest flag cloud (if ok && Nat.ltb 0 newest then WConv newest else WLoop) cmd log false)
      | WConv id => Some (if ok then Slw made recv newest true id WLoop cmd log false else Slw made recv newest flag cloud WLoop cmd log false)
      end
  | LSpurious => match pc with WWait => Some (Slw made recv newest flag cloud WLoop cmd log false) | _ => None end
  | LRecv =>
      match made, cmd, pc with
      | true, PServe, WHold => None
      | true, PServe, WWait => Some (Slw made (S recv) (S recv) flag cloud WLoop cmd log false)
      | true, PServe, _ => Some (Slw made (S recv) (S recv) flag cloud pc cmd log false)
      | _, _, _ => None
      end
  | LCmd =>
      match made, cmd with
      | true, PCheck => Some (if flag then Slw made recv newest false cloud pc PCheck (log ++ [cloud]) false
                              else Slw made recv newest flag cloud pc PServe log false)
      | true, PServe => Some (Slw made recv newest flag cloud pc PCheck log false)
      | _, _ => None
      end
  end.
Fixpoint slw_run (s : slw) (ls : list lab) : option slw :=
  match ls with [] => Some s | l :: ls' => match slw_step s l with Some s' => slw_run s' ls' | None => None end end.
