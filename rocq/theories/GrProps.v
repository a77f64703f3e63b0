(** C118: which data of the global planner node are raced for. *)
From Coq Require Import List Bool.
From Verif Require Import RcModel RcProofs GrModel.
Import ListNotations.

(** the members that are shared without protection, although the node has a mutex *)
Definition gr_racy (v : grvar) : bool :=
  match v with
  | GOctree | GRiskCache | GBubbleCache | GHeurCache | GOccupied | GSeenCount          (* the map and the caches: containers, freed and rehashed while others read them *)
  | GCurrPos | GCurrYaw | GCurrVel | GLastPos | GActualPath                            (* where the vehicle is *)
  | GGoalPos | GGoingBack | GGoalBlocked | GCurrentGoal | GLastGoal | GPath | GSpeed   (* where it has to go *)
  | GOverestimate | GRiskParams | GSpeedParams | GUseSpeedup | GMaxIterations | GNodeType | GPlanParams | GSimplifyParams   (* parameters *)
  | GStartTime | GLastWpTime | GNodeStatus => true                                     (* the failsafe's times and state *)
  | GPathBack | GCellBlocked | GCurrPath | GSeen | GUnusedParam | GConstants | GWaypoints | GClickedPoints | GNumPos | GPosReceived | GClickedParams
  | GHover | GCellScale | GPx4 | GMissionSpeed => false
  end.

Definition gr_prot (v : grvar) : protection grlock grtid :=
  match v with
  | GPathBack | GUnusedParam | GClickedPoints | GNumPos | GPosReceived | GClickedParams | GCellScale | GMissionSpeed => Confined GMain
  | GCellBlocked | GCurrPath | GSeen | GWaypoints => Confined GPlan
  | GHover => Confined GCmd
  | GPx4 => Guarded GParam
  | GConstants => Constant
  | _ => Unprotected
  end.
Lemma gr_bodies t : check gr_node gr_prot t [] (body gr_node t) = true.
Proof. destruct t; vm_compute; reflexivity. Qed.
Lemma gr_begin : check gr_node gr_prot (main gr_node) [] (first gr_node) = true.
Proof. vm_compute. reflexivity. Qed.
Ltac later t u := apply (find_later_race gr_node grvar_dec _ t u); vm_compute; reflexivity.
Ltac at_start u := apply (find_first_race gr_node grvar_dec _ u); vm_compute; reflexivity.

(** C118. Whatever the branches taken, the number of turns of the loops and the schedule: a member can be raced for if and only if it is in the list. *)
Theorem C118_races_exactly :
  forall v : grvar, (exists s, reachable gr_node s /\ race s v) <-> gr_racy v = true.
Proof.
  intros v. split.
  - intros (s & R & C). destruct (gr_racy v) eqn:E; [reflexivity|]. exfalso.
    apply (protected gr_node gr_prot gr_bodies gr_begin s v R); [|exact C]. destruct v; cbn in E |- *; discriminate.
  - intros E. destruct v; try discriminate E; first [later GMain GPlan | later GMain GCmd | later GCmd GPlan | later GCmd GStatusT | at_start GCmd].
Qed.
Print Assumptions C118_races_exactly.

(** the mutex of the node guards nothing: whatever the planning thread does under it, the map callback under it, somebody else gets at without it. Witness: the
    command thread reads the map and the risk cache while the map callback, with the mutex, replaces the one and empties the other; and it fills in the risk
    cache while the planning thread, with the mutex, does the same. *)
Theorem C118_map_freed_while_read_refuted :
  (exists s, reachable gr_node s /\ holder s GMap = Some GMain /\ next_is s GMain (Wr GOctree) /\ next_is s GCmd (Rd GOctree)) /\
  (exists s, reachable gr_node s /\ holder s GMap = Some GMain /\ next_is s GMain (Wr GRiskCache) /\ next_is s GCmd (Wr GRiskCache)) /\
  (exists s, reachable gr_node s /\ holder s GMap = Some GPlan /\ next_is s GPlan (Wr GRiskCache) /\ next_is s GCmd (Wr GRiskCache)).
Proof. split; [|split]; apply (find_holding_meet gr_node grvar_dec); vm_compute; reflexivity. Qed.
Print Assumptions C118_map_freed_while_read_refuted.

(** The one member that a mutex does protect: while a thread has param_cb_mutex_, nobody else is about to look at the PX4 parameters or to change them. *)
Theorem C118_px4_parameters_stable :
  forall s t u, reachable gr_node s -> holder s GParam = Some t -> u <> t -> ~ next_is s u (Rd GPx4) /\ ~ next_is s u (Wr GPx4).
Proof. intros s t u R H D. exact (guarded_stable gr_node gr_prot gr_bodies gr_begin s GPx4 GParam t u R eq_refl H D). Qed.
Print Assumptions C118_px4_parameters_stable.

(** Example: the polling thread holds the mutex and is about to write the parameters, the planning thread being in the middle of a search. *)
Example C118_ex : exists s, reachable gr_node s /\ holder s GParam = Some GCheckT /\ next_is s GCheckT (Wr GPx4) /\ next_is s GPlan (Wr GHeurCache).
Proof. apply (find_holding_meet gr_node grvar_dec). vm_compute. reflexivity. Qed.
