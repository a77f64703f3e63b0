(** Model of the accesses of the safe landing planner node's threads to the data they share, in the model of RcModel.v: the main thread (startNode, then it waits
    for the transform thread), the transform thread, and the thread of the command loop, which also runs the callbacks of the global queue, from within its
    waiting loop (safe_landing_planner_node.cpp:86). There is nobody else who serves that queue.
    Simplifications: what is done before startNode is not looked at; should_exit_ is std::atomic; publishers, tf's listener, ROS' parameters and time are
    libraries with their own synchronisation. The landing waypoint generator node has one thread besides the main thread, which only sleeps
    (waypoint_generator_node.cpp:30-36, 263-275), so it shares nothing. *)
From Coq Require Import List Bool.
From Verif Require Import RcModel.
Import ListNotations.

Inductive srvar :=
(* safe_landing_planner_node.hpp:57-91. cloud_msg_mutex_, transformed_cloud_mutex_ and cloud_ready_cv_ themselves: unique_ptrs *)
| SPointers
(* cloud_transformed_; newest_cloud_msg_; the planner's cloud_ and its raw_grid_ *)
| SFlag | SCloudMsg | SCloud | SRawGrid
(* current_pose_, previous_pose_ and position_received_; status_msg_ and t_status_sent_; last_algo_time_; start_time_; rqt_param_config_; the remaining members of the planner and the visualiser *)
| SPose | SStatus | SLastAlgo | SStartTime | SConfig | SPlanner.
Inductive srlock := SMsg | SXf.
Inductive srtid := SMain | SCmd | SWorker.
Definition srvar_dec (a b : srvar) : {a = b} + {a <> b}.
Proof. decide equality. Defined.
Definition srlock_dec (a b : srlock) : {a = b} + {a <> b}.
Proof. decide equality. Defined.
Definition srtid_dec (a b : srtid) : {a = b} + {a <> b}.
Proof. decide equality. Defined.
Definition srcode := code srvar srlock srtid.

(** dynamicReconfigureCallback, safe_landing_planner_node.cpp:40-44; positionCallback, 46-50; pointCloudCallback, 52-59; rawGridCallback, 61-65 *)
Definition sr_cb_reconfigure : srcode := writes [SConfig; SPlanner].
Definition sr_cb_pose : srcode := seqs [Read SPose; Write SPose].
Definition sr_cb_cloud : srcode := seqs [Read SPointers; Guard SMsg (Write SCloudMsg); Read SPointers].
Definition sr_cb_grid : srcode := seqs [Read SPointers; Guard SXf (writes [SRawGrid; SFlag])].
Definition sr_callbacks : srcode := alts [sr_cb_reconfigure; sr_cb_pose; sr_cb_cloud; sr_cb_grid].
(** publishSystemStatus, 130-135; checkFailsafe, 119-128 *)
Definition sr_status : srcode := seqs [Write SStatus; Read SStatus; Write SStatus].
Definition sr_failsafe : srcode := Seq (Read SPlanner) (opt (Write SStatus)).
(** runSafeLandingPlanner, safe_landing_planner.cpp:6-22: the cloud or, if a rosbag is played, the grid *)
Definition sr_run : srcode := seqs [Read SPlanner; Write SPlanner; Alt (Read SCloud) (Read SRawGrid); Write SPlanner].
(** cmdLoopCallback, safe_landing_planner_node.cpp:81-117 (visualizeSafeLandingPlanner: safe_landing_planner_visualization.cpp:18-26; publishSerialGrid 137-206) *)
Definition sr_cmd : srcode :=
  seqs [Write SStatus; Star (seqs [Read SFlag; Star sr_callbacks; Read SPlanner; opt (Seq (Write SStatus) sr_status)]); Read SFlag;
        Read SLastAlgo; Read SStartTime; sr_failsafe; Read SPose; Write SPlanner;
        Read SPointers; Guard SXf (Seq sr_run (Write SFlag)); Read SPlanner; Read SPose; Read SConfig; Read SPlanner; Write SLastAlgo; Read SStatus; opt sr_status].
(** one turn of pointCloudTransformThread, 208-245: it waits for a cloud (the condition variable lets go of the mutex and takes it again), then goes round the
    inner loop: the transform is not there; it is, and the conversion fails; it is, and the cloud is handed over *)
Definition sr_worker : srcode :=
  seqs [Read SPointers; Guard SMsg (Read SPointers); Guard SMsg Skip;
        Star (seqs [Read SFlag; Read SPointers; Guard SMsg (Read SCloudMsg); opt (Seq (Read SPointers) (Guard SXf (Seq (Write SFlag) (Write SCloud))))]); Read SFlag].
(** startNode, 67-79 *)
Definition sr_start : srcode := seqs [Spawn SWorker; Write SPointers; Spawn SCmd].
Definition sr_body (t : srtid) : srcode := match t with SMain => Skip | SCmd => sr_cmd | SWorker => sr_worker end.
Definition sr_node : system srvar srlock srtid := System srlock_dec srtid_dec SMain sr_start sr_body.
