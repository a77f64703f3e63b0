(** C119: which data of the safe landing planner node are raced for. *)
From Coq Require Import List Bool.
From Verif Require Import RcModel RcProofs SrModel.
Import ListNotations.

(** the flag that a cloud is ready, and the pointers to the mutexes *)
Definition sr_racy (v : srvar) : bool := match v with SFlag | SPointers => true | _ => false end.
Definition sr_prot (v : srvar) : protection srlock srtid :=
  match v with
  | SPointers | SFlag => Unprotected
  | SCloudMsg => Guarded SMsg
  | SCloud | SRawGrid => Guarded SXf
  | SStartTime => Constant
  | SPose | SStatus | SLastAlgo | SConfig | SPlanner => Confined SCmd
  end.
Lemma sr_bodies t : check sr_node sr_prot t [] (body sr_node t) = true.
Proof. destruct t; vm_compute; reflexivity. Qed.
Lemma sr_begin : check sr_node sr_prot (main sr_node) [] (first sr_node) = true.
Proof. vm_compute. reflexivity. Qed.

(** C119. Whatever the branches taken, the number of turns of the loops and the schedule: only the flag and the pointers can be raced for, and both are. *)
Theorem C119_races_exactly :
  forall v : srvar, (exists s, reachable sr_node s /\ race s v) <-> sr_racy v = true.
Proof.
  intros v. split.
  - intros (s & R & C). destruct (sr_racy v) eqn:E; [reflexivity|]. exfalso.
    apply (protected sr_node sr_prot sr_bodies sr_begin s v R); [|exact C]. destruct v; cbn in E |- *; discriminate.
  - intros E. destruct v; try discriminate E.
    + apply (find_first_race sr_node srvar_dec _ SWorker). vm_compute. reflexivity.
    + apply (find_later_race sr_node srvar_dec _ SCmd SWorker). vm_compute. reflexivity.
Qed.
Print Assumptions C119_races_exactly.

(** The grid is computed from one cloud: while the command thread holds the mutex of the transformed cloud (or grid), nobody else is about to look at either or to
    replace it; likewise the newest message is left alone while it is converted. *)
Theorem C119_cloud_stable :
  forall s t u, reachable sr_node s -> u <> t ->
  (holder s SXf = Some t -> ~ next_is s u (Rd SCloud) /\ ~ next_is s u (Wr SCloud) /\ ~ next_is s u (Rd SRawGrid) /\ ~ next_is s u (Wr SRawGrid)) /\
  (holder s SMsg = Some t -> ~ next_is s u (Rd SCloudMsg) /\ ~ next_is s u (Wr SCloudMsg)).
Proof.
  intros s t u R D. split; intros H.
  - destruct (guarded_stable sr_node sr_prot sr_bodies sr_begin s SCloud SXf t u R eq_refl H D) as (A & B).
    destruct (guarded_stable sr_node sr_prot sr_bodies sr_begin s SRawGrid SXf t u R eq_refl H D) as (A' & B'). auto.
  - exact (guarded_stable sr_node sr_prot sr_bodies sr_begin s SCloudMsg SMsg t u R eq_refl H D).
Qed.
Print Assumptions C119_cloud_stable.

(** Refuted: the transform thread is started before the mutexes and the condition variable exist; it may be about to use the pointer to the first one while the main
    thread is about to set it. *)
Theorem C119_mutexes_exist_refuted :
  exists s, reachable sr_node s /\ next_is s SMain (Wr SPointers) /\ next_is s SWorker (Rd SPointers).
Proof.
  destruct (meet_first sr_node [Fork SWorker] [] (Wr SPointers) (Rd SPointers) [] [] SWorker) as (s & R & A & B).
  - vm_compute. auto. - vm_compute. auto. - discriminate. - reflexivity. - reflexivity. - reflexivity.
  - exists s. auto.
Qed.
Print Assumptions C119_mutexes_exist_refuted.

(** Example: the transform thread hands over a cloud under the mutex while the command thread, which reads the flag without it, is in its waiting loop. *)
Example C119_ex : exists s, reachable sr_node s /\ holder s SXf = Some SWorker /\ next_is s SWorker (Wr SFlag) /\ next_is s SCmd (Rd SFlag).
Proof. apply (find_holding_meet sr_node srvar_dec). vm_compute. reflexivity. Qed.
