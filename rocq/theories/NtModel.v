(** Model of the locking of the local planner node: which thread takes which mutex in which order, for any number of cameras.
    Threads: the planning thread (local_planner_nodelet.cpp:453-489), one transform thread per camera (495-549), the tf thread (368-390), the parameter
    polling thread (avoidance_node.cpp:126-167), the main thread (ros::spin, local_planner_node_main.cpp:12: callbacks of the global queue, and in the end
    the destructor 20-45), the command thread (own queue and spinner, 96-105; cmdLoopCallback 233-277) and the thread serving reconfiguration requests
    (435-440; node handle of the nodelet, 57). What a thread does between two mutex operations is not modelled here (NlModel.v does that): every script a
    thread could run through is allowed at any time, whatever the data. A condition variable's wait_for releases its mutex and takes it again, in between
    any time may pass; since every wait has a time limit nobody has to notify it.
    Simplification: the recursive mutex that the reconfiguration server takes inside of the dynamic_reconfigure library is left out (it is not taken by any
    function of the repository); publishers and tf do not take the node's mutexes. *)
From Coq Require Import Arith List Bool Lia.
Import ListNotations.

(** the mutexes: running_mutex_ (local_planner_nodelet.h:103), waypoints_mutex_ (213), camera_mutex_ of a camera (65), buffered_transforms_mutex_ (234),
    transformed_cloud_mutex_ (237), TransformBuffer::mutex_ (transform_buffer.h:46), param_cb_mutex_ (avoidance_node.h:70), WaypointGenerator::running_mutex_
    (waypoint_generator.h:36) *)
Inductive lock := Running | Waypoints | Cam (i : nat) | Tf | Cloud | Buf | Param | Wg.
Definition lock_eq_dec (a b : lock) : {a = b} + {a <> b}.
Proof. decide equality. apply Nat.eq_dec. Defined.

Inductive tid := Worker | Xf (i : nat) | TfT | Check | Main | Cmd | Recf.
Definition tid_eq_dec (a b : tid) : {a = b} + {a <> b}.
Proof. decide equality. apply Nat.eq_dec. Defined.

(** what the outside world has to do: send a pose (or shut ROS down: the waiting loop also ends then, 240), answer a service call (or let it fail) *)
Inductive ext := Pose | Reply.
Inductive act := Acq (l : lock) | Rel (l : lock) | Ext (e : ext) | Join (t : tid).

(** [cv.wait_for] with the mutex held *)
Definition wait_for (l : lock) : list act := [Rel l; Acq l].
(** a function that takes the mutex for its duration *)
Definition guard (l : lock) (body : list act) : list act := Acq l :: body ++ [Rel l].

(** numTransformedClouds, local_planner_nodelet.cpp:153-160 *)
Definition num_transformed (n : nat) : list act := flat_map (fun i => guard (Cam i) []) (seq 0 n).
(** updatePlannerInfo, 162-197: setFOV (waypoint_generator.cpp:218-219) inside of the camera's lock, getPX4Parameters (avoidance_node.cpp:184-185) *)
Definition update_info (n : nat) : list act := flat_map (fun i => guard (Cam i) (guard Wg [])) (seq 0 n) ++ guard Param [].
(** one check of the planning thread's waiting loop, 458-461, and one planner run, 465-478 (setPlannerInfo waypoint_generator.cpp:455-456) *)
Definition worker_wait (n : nat) : list act := num_transformed n ++ guard Cloud (wait_for Cloud).
Definition worker_plan (n : nat) : list act := num_transformed n ++ guard Running (update_info n ++ guard Waypoints (guard Wg [])).
(** getTransform, transform_buffer.cpp:57-59; insertTransform 34-36 *)
Definition buf : list act := guard Buf [].
(** the ways through one round of a transform thread, 498-547: no cloud; a transform is missing (the first or the second one); success. [ex]: it leaves at
    536-538 instead of waiting *)
Definition xf_wait_cloud (i : nat) (ex : bool) : list act := if ex then [] else guard (Cam i) (wait_for (Cam i)).
Definition xf_wait_tf (ex : bool) : list act := if ex then [] else guard Tf (wait_for Tf).
Definition xf_nothing (i : nat) (ex : bool) : list act := guard (Cam i) [] ++ xf_wait_cloud i ex.
Definition xf_missing1 (i : nat) (ex : bool) : list act := guard (Cam i) buf ++ xf_wait_tf ex.
Definition xf_missing2 (i : nat) (ex : bool) : list act := guard (Cam i) (buf ++ buf) ++ xf_wait_tf ex.
Definition xf_done (i : nat) (ex : bool) : list act := guard (Cam i) (buf ++ buf ++ guard Cloud []) ++ xf_wait_cloud i ex.
(** one round of the tf thread with k known transforms, 372-387 *)
Definition tf_round (k : nat) : list act := guard Tf (flat_map (fun _ => buf) (seq 0 k)).
(** one round of the polling thread: eleven service calls with the mutex held, avoidance_node.cpp:138-149 *)
Definition check_round : list act := guard Param (repeat (Ext Reply) 11).
(** the callbacks of the global queue: pointCloudCallback 406-433 (the first cloud registers its transforms), px4ParamsCallback avoidance_node.cpp:108, and
    the callbacks that take no lock *)
Definition cb_cloud (i : nat) (first : bool) : list act := guard (Cam i) (if first then guard Tf [] else []).
Definition cb_param : list act := guard Param [].
Inductive callback (n : nat) : list act -> Prop :=
| CbCloud : forall i first, i < n -> callback n (cb_cloud i first)
| CbParam : callback n cb_param
| CbOther : callback n [].
(** cmdLoopCallback, 233-277 (calculateWaypoints 283-291: updateState waypoint_generator.cpp:231, getWaypoints 413, getOfftrackPointsForVisualization 461).
    [wait]: no pose yet, the loop 240-260 is entered; [active]: waypoints are calculated *)
Definition cmd_loop (wait active : bool) : list act :=
  guard Waypoints ((if wait then [Ext Pose] else []) ++ (if active then guard Wg [] ++ guard Wg [] ++ guard Wg [] else [])).
(** dynamicReconfigureCallback, 435-440 *)
Definition reconfigure : list act := guard Running [].
(** the destructor, 20-42 (thread handles declared in local_planner_nodelet.h) *)
Definition destructor (n : nat) : list act :=
  guard Tf [] ++ guard Cloud [] ++ flat_map (fun i => guard (Cam i) [] ++ [Join (Xf i)]) (seq 0 n) ++ [Join Worker; Join TfT].

(** what a thread may start when it has nothing under way *)
Inductive script (n : nat) : tid -> list act -> Prop :=
| SWait : script n Worker (worker_wait n)
| SPlan : script n Worker (worker_plan n)
| SNothing : forall i ex, i < n -> script n (Xf i) (xf_nothing i ex)
| SMissing1 : forall i ex, i < n -> script n (Xf i) (xf_missing1 i ex)
| SMissing2 : forall i ex, i < n -> script n (Xf i) (xf_missing2 i ex)
| SDone : forall i ex, i < n -> script n (Xf i) (xf_done i ex)
| STf : forall k, script n TfT (tf_round k)
| SCheck : script n Check check_round
| SCallback : forall cb, callback n cb -> script n Main cb
| SCmd : forall w a, script n Cmd (cmd_loop w a)
| SReconf : script n Recf reconfigure
| SDestroy : script n Main (destructor n).
(** the threads whose loop tests should_exit_ (369, 454, 496) *)
Definition loops (n : nat) (t : tid) : bool := match t with Worker | TfT => true | Xf i => i <? n | _ => false end.

Record nts := Nts {
  rest : tid -> list act;          (* what a thread has still to do of the script under way *)
  owner : lock -> option tid;
  exited : tid -> bool;            (* the thread's function has returned *)
  should_exit : bool }.
Definition nts_init : nts := Nts (fun _ => []) (fun _ => None) (fun _ => false) false.
Definition upd_t {X} (f : tid -> X) (t : tid) (x : X) : tid -> X := fun u => if tid_eq_dec u t then x else f u.
Definition upd_l {X} (f : lock -> X) (l : lock) (x : X) : lock -> X := fun u => if lock_eq_dec u l then x else f u.

Inductive step (n : nat) : nts -> nts -> Prop :=
(* a thread takes the next step of what it is doing: take a free mutex, give one back, join a thread that has ended *)
| TAcq : forall s t l r, rest s t = Acq l :: r -> owner s l = None ->
    step n s (Nts (upd_t (rest s) t r) (upd_l (owner s) l (Some t)) (exited s) (should_exit s))
| TRel : forall s t l r, rest s t = Rel l :: r -> owner s l = Some t ->
    step n s (Nts (upd_t (rest s) t r) (upd_l (owner s) l None) (exited s) (should_exit s))
| TJoin : forall s t u r, rest s t = Join u :: r -> exited s u = true ->
    step n s (Nts (upd_t (rest s) t r) (owner s) (exited s) (should_exit s))
(* a thread whose loop is told to end ends *)
| TQuit : forall s t, loops n t = true -> rest s t = [] -> exited s t = false -> should_exit s = true ->
    step n s (Nts (rest s) (owner s) (upd_t (exited s) t true) (should_exit s)).
(** the outside world gives thread t what it waits for *)
Inductive answered : nts -> tid -> nts -> Prop :=
| TExt : forall s t e r, rest s t = Ext e :: r -> answered s t (Nts (upd_t (rest s) t r) (owner s) (exited s) (should_exit s)).
(** something new begins: a script, or a callback that is called from within the waiting loop of cmdLoopCallback (241) *)
Inductive begins (n : nat) : nts -> nts -> Prop :=
| TStart : forall s t c, rest s t = [] -> exited s t = false -> (loops n t = true -> should_exit s = false) -> script n t c -> c <> destructor n ->
    begins n s (Nts (upd_t (rest s) t c) (owner s) (exited s) (should_exit s))
| TDestroy : forall s, rest s Main = [] ->
    begins n s (Nts (upd_t (rest s) Main (destructor n)) (owner s) (exited s) true)
| TNest : forall s t cb r, rest s t = Ext Pose :: r -> callback n cb ->
    begins n s (Nts (upd_t (rest s) t (cb ++ Ext Pose :: r)) (owner s) (exited s) (should_exit s)).

Inductive reachable (n : nat) : nts -> Prop :=
| RInit : reachable n nts_init
| RStep : forall s s', reachable n s -> step n s s' -> reachable n s'
| RExt : forall s t s', reachable n s -> answered s t s' -> reachable n s'
| RBegin : forall s s', reachable n s -> begins n s s' -> reachable n s'.

(** thread t cannot go on before thread u does something *)
Definition waits_for (s : nts) (t u : tid) : Prop :=
  (exists l r, rest s t = Acq l :: r /\ owner s l = Some u) \/ (exists r, rest s t = Join u :: r /\ exited s u = false).
(** thread u has something to do, or to end, and can *)
Definition can_move (n : nat) (s : nts) (u : tid) : Prop :=
  (exists l r, rest s u = Acq l :: r /\ owner s l = None) \/ (exists l r, rest s u = Rel l :: r /\ owner s l = Some u) \/
  (exists v r, rest s u = Join v :: r /\ exited s v = true) \/
  (rest s u = [] /\ loops n u = true /\ exited s u = false /\ should_exit s = true).
Definition needs_answer (s : nts) (u : tid) : Prop := exists e r, rest s u = Ext e :: r.

(** one step of any thread that is under way, or an answer from outside *)
Definition goes_on (n : nat) (s s' : nts) : Prop := step n s s' \/ exists t, answered s t s'.
Inductive goes_on_for (n : nat) : nat -> nts -> nts -> Prop :=
| GoNone : forall s, goes_on_for n 0 s s
| GoMore : forall k s s' s'', goes_on n s s' -> goes_on_for n k s' s'' -> goes_on_for n (S k) s s''.
(** the threads there are, and how much they have still to do *)
Definition threads (n : nat) : list tid := [Worker; TfT; Check; Main; Cmd; Recf] ++ map Xf (seq 0 n).
Definition todo (n : nat) (s : nts) : nat :=
  fold_right (fun t a => length (rest s t) + (if exited s t then 0 else 1) + a) 0 (threads n).
