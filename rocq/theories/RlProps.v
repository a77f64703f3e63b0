(** C120: waiting for the mutexes of the global planner node and of the safe landing planner node. *)
From Coq Require Import List Bool.
From Verif Require Import RcModel RcProofs RcLive GrModel SrModel.
Import ListNotations.

Lemma gr_flat t : flat false (body gr_node t) = true.
Proof. destruct t; vm_compute; reflexivity. Qed.
Lemma gr_flat_first : flat false (first gr_node) = true.
Proof. vm_compute. reflexivity. Qed.
Lemma sr_flat t : flat false (body sr_node t) = true.
Proof. destruct t; vm_compute; reflexivity. Qed.
Lemma sr_flat_first : flat false (first sr_node) = true.
Proof. vm_compute. reflexivity. Qed.

(** C120. In every state the node can get into: a thread that waits for a mutex can have it at once, or some other thread has it, and that one can let go of it by
    going on alone (it waits for nobody meanwhile), after which the first can have it. So no circle of threads that wait for each other, and no thread that waits
    for itself. *)
Theorem C120_every_mutex_can_be_had :
  (forall s l t, reachable gr_node s -> next_is s t (Take l) ->
     exists s' s'', (s' = s \/ exists u, u <> t /\ holder s l = Some u /\ own_steps gr_node u s s') /\ rc_step gr_node s' s'' /\ holder s'' l = Some t) /\
  (forall s l t, reachable sr_node s -> next_is s t (Take l) ->
     exists s' s'', (s' = s \/ exists u, u <> t /\ holder s l = Some u /\ own_steps sr_node u s s') /\ rc_step sr_node s' s'' /\ holder s'' l = Some t).
Proof. split; intros s l t; [exact (gets_it gr_node gr_flat gr_flat_first s l t)|exact (gets_it sr_node sr_flat sr_flat_first s l t)]. Qed.
Print Assumptions C120_every_mutex_can_be_had.

(** and who has a mutex can always let go of it *)
Theorem C120_every_mutex_is_let_go :
  (forall s l u, reachable gr_node s -> holder s l = Some u -> exists s', own_steps gr_node u s s' /\ holder s' l = None) /\
  (forall s l u, reachable sr_node s -> holder s l = Some u -> exists s', own_steps sr_node u s s' /\ holder s' l = None).
Proof. split; intros s l u; [exact (gives_back gr_node gr_flat gr_flat_first s l u)|exact (gives_back sr_node sr_flat sr_flat_first s l u)]. Qed.
Print Assumptions C120_every_mutex_is_let_go.

(** Refuted: that the global planner's command loop works with the vehicle's latest position. While a path is planned, the map callback waits for the mutex, and with
    it all the other callbacks of that thread, the position's among them. Meanwhile the command loop can go round as often as you like, each time reading the last
    position, that no one writes. *)
Theorem C120_position_kept_up_to_date_refuted :
  exists s0 c, reachable gr_node s0 /\ holder s0 GMap = Some GPlan /\ next_is s0 GMain (Take GMap) /\ In (Rd GLastPos) c /\ ~ In (Wr GLastPos) c /\
  forall n, exists s, turns gr_node GCmd c n s0 s /\ reachable gr_node s /\ holder s GMap = Some GPlan /\ next_is s GMain (Take GMap).
Proof.
  destruct (run_prefix gr_node (main gr_node) [] (quick (first gr_node)) _ [] [] [] (RInit gr_node _ (Init gr_node _ (quick_runs (first gr_node)))))
    as (s & R & E & U & N & H & O & A).
  - rewrite app_nil_r. reflexivity. - vm_compute. reflexivity. - constructor. - intros l. cbn. split; [discriminate|contradiction]. - intros l v _ F. discriminate F.
  - assert (T : forall v, todo s v = []). { intros v. destruct (grtid_dec v GMain) as [->|Dv]; [exact E|]. rewrite (U v Dv). destruct v; [contradiction|reflexivity..]. }
    assert (Hs : forall l, holder s l = None).
    { intros l. destruct (holder s l) as [v|] eqn:F; [|reflexivity]. exfalso. destruct (grtid_dec v GMain) as [->|Dv]; [apply H in F; contradiction|]. apply (O l v Dv) in F. discriminate F. }
    assert (Al : forall v, alive s v = true) by (intros v; rewrite A; destruct v; vm_compute; reflexivity).
    destruct (quick gr_plan) as [|[k|k|v|v|w] r] eqn:Q; try (vm_compute in Q; discriminate Q).
    assert (k = GMap) by (vm_compute in Q; congruence). subst k.
    pose proof (quick_runs (body gr_node GPlan)) as Rp. change (body gr_node GPlan) with gr_plan in Rp at 2. rewrite Q in Rp.
    pose proof (RMore gr_node _ _ R (XStart gr_node s GPlan _ (T GPlan) (Al GPlan) Rp)) as R1.
    set (s1 := Rcs _ _ _) in R1. assert (E1 : todo s1 GPlan = Take GMap :: r) by reflexivity.
    pose proof (RMore gr_node _ _ R1 (XTake gr_node s1 GPlan GMap r E1 (Hs GMap))) as R2.
    set (s2 := Rcs _ _ _) in R2.
    assert (Rm : runs (body gr_node GMain) (quick gr_cb_octomap)).
    { change (body gr_node GMain) with gr_callbacks. unfold gr_callbacks, alts. cbn [fold_right]. do 6 apply RunRight. apply RunLeft. exact (quick_runs gr_cb_octomap). }
    assert (T2 : todo s2 GMain = []). { unfold s2. cbn. exact (T GMain). }
    assert (A2 : forall v, alive s2 v = true) by exact Al.
    pose proof (RMore gr_node _ _ R2 (XStart gr_node s2 GMain _ T2 (A2 GMain) Rm)) as R3.
    set (s3 := Rcs _ _ _) in R3.
    assert (H3 : holder s3 GMap = Some GPlan) by reflexivity.
    assert (N3 : todo s3 GMain = quick gr_cb_octomap) by reflexivity.
    assert (M3 : next_is s3 GMain (Take GMap)) by (eexists; rewrite N3; reflexivity).
    exists s3, (quick gr_cmd). split; [exact R3|split; [exact H3|split; [exact M3|split; [|split]]]].
    + vm_compute. auto 20.
    + vm_compute. intuition discriminate.
    + intros n. destruct (many_turns gr_node GCmd (quick gr_cmd)) with (n := n) (s := s3) as (s' & Tn & R' & U' & H'); [apply (quick_runs gr_cmd)|vm_compute; reflexivity|exact R3|exact (T GCmd)|exact (Al GCmd)|].
      exists s'. split; [exact Tn|split; [exact R'|split; [rewrite H'; exact H3|]]]. destruct M3 as (r' & M3). exists r'. rewrite U' by discriminate. exact M3.
Qed.
Print Assumptions C120_position_kept_up_to_date_refuted.

(** Example: the hypotheses of C120_every_mutex_can_be_had, with the mutex in another thread's hands. *)
Example C120_ex : exists s, reachable gr_node s /\ next_is s GMain (Take GMap) /\ holder s GMap = Some GPlan.
Proof. destruct C120_position_kept_up_to_date_refuted as (s & c & R & H & N & _). exists s. auto. Qed.
