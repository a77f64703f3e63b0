(** Model of how the three planner processes end: the std::threads they start, the flags that end those threads, and what main does when ROS shuts down.
    A thread's loop ends only after its flag has been set (every loop is [while (!should_exit_)]: local_planner_nodelet.cpp:369, 454, 496, avoidance_node.cpp:135,
    safe_landing_planner_node.cpp:209); joining waits for the thread's end; destroying a std::thread that has neither been joined nor is empty calls
    std::terminate (C++11 30.3.1.3).
    Simplifications: spinners and timers (library threads, joined by their own destructors) are left out; a thread is allowed to end at any time after its
    flag is set (that it does not hang on a mutex is in NtModel.v). *)
From Coq Require Import Arith List Bool Lia.
Import ListNotations.

(** the flags: LocalPlannerNodelet::should_exit_ (local_planner_nodelet.h:87), AvoidanceNode::should_exit_ (avoidance_node.h:80),
    SafeLandingPlannerNode::should_exit_ (safe_landing_planner_node.hpp:40) *)
Inductive flag := FNodelet | FAvoid | FLanding.
(** the threads: transform_thread_ of a camera, worker, worker_tf_listener (local_planner_nodelet.h:69, 93, 94), AvoidanceNode::worker_ (avoidance_node.h:72),
    SafeLandingPlannerNode::worker_ (safe_landing_planner_node.hpp:42) *)
Inductive thr := TTransform (i : nat) | TWorker | TTf | TPoll | TLanding.
Definition thr_eq_dec (a b : thr) : {a = b} + {a <> b}.
Proof. decide equality. apply Nat.eq_dec. Defined.
Definition flag_of (t : thr) : flag := match t with TTransform _ | TWorker | TTf => FNodelet | TPoll => FAvoid | TLanding => FLanding end.
Definition flag_eq_dec (a b : flag) : {a = b} + {a <> b}.
Proof. decide equality. Defined.

Inductive instr := ISet (f : flag) | IJoin (t : thr) | IDestroy (t : thr).
(** avoidance_node.cpp:18: the destructor does nothing; its member worker_ is destroyed *)
Definition avoidance_dtor : list instr := [IDestroy TPoll].
(** local_planner_nodelet.cpp:20-45, then the members in reverse order of declaration (local_planner_nodelet.h): cameras_ (242), avoidance_node_ (97),
    worker_tf_listener (94), worker (93). [n]: number of cameras *)
Definition local_planner_end (n : nat) : list instr :=
  ISet FNodelet :: map (fun i => IJoin (TTransform i)) (seq 0 n) ++ [IJoin TWorker; IJoin TTf] ++
  map (fun i => IDestroy (TTransform i)) (seq 0 n) ++ avoidance_dtor ++ [IDestroy TTf; IDestroy TWorker].
(** global_planner_node_main.cpp:11-13, global_planner_node.cpp:72, member avoidance_node_ (global_planner_node.h:122; started at global_planner_node.cpp:22) *)
Definition global_planner_end : list instr := avoidance_dtor.
(** safe_landing_planner_node_main.cpp:10-13, safe_landing_planner_node.hpp:32 *)
Definition landing_planner_end : list instr := [IJoin TLanding; IDestroy TLanding].

Inductive outcome := Ending | Ended | Aborted.
Record sh := Sh { h_todo : list instr; h_flag : flag -> bool; h_over : thr -> bool; h_joined : thr -> bool; h_out : outcome }.
Definition sh_init (p : list instr) : sh := Sh p (fun _ => false) (fun _ => false) (fun _ => false) Ending.
Definition set_flag (g : flag -> bool) (f : flag) : flag -> bool := fun x => if flag_eq_dec x f then true else g x.
Definition set_thr (g : thr -> bool) (t : thr) : thr -> bool := fun x => if thr_eq_dec x t then true else g x.

Inductive sh_step : sh -> sh -> Prop :=
| HSet : forall f p g o j, sh_step (Sh (ISet f :: p) g o j Ending) (Sh p (set_flag g f) o j Ending)
| HJoin : forall t p g o j, o t = true -> sh_step (Sh (IJoin t :: p) g o j Ending) (Sh p g o (set_thr j t) Ending)
| HDestroy : forall t p g o j, j t = true -> sh_step (Sh (IDestroy t :: p) g o j Ending) (Sh p g o j Ending)
| HTerminate : forall t p g o j, j t = false -> sh_step (Sh (IDestroy t :: p) g o j Ending) (Sh p g o j Aborted)
| HReturn : forall g o j, sh_step (Sh [] g o j Ending) (Sh [] g o j Ended)
| HOver : forall t p g o j, g (flag_of t) = true -> o t = false -> sh_step (Sh p g o j Ending) (Sh p g (set_thr o t) j Ending).
Inductive sh_steps : sh -> sh -> Prop :=
| HNil : forall s, sh_steps s s
| HCons : forall s s' s'', sh_step s s' -> sh_steps s' s'' -> sh_steps s s''.
