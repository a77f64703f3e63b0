(** Property theorems for the local planner node (C41, C42, C72-C74). *)
From Coq Require Import ZArith Reals List Bool String.
From Flocq Require Import Core BinarySingleNaN.
From Verif Require Import Num Mat CommonModel HistModel PfModel StarModel LpModel UsmModel WgModel NodeModel NodeSpec NodeProofs NlModel NlSpec NlProofs NlProofs2 NlProofs3.
Import ListNotations.
Local Open Scope Z_scope.

(** C41. In every history of callbacks, planner and transform steps, a command cycle that completes at [now] sends the two setpoint
    messages exactly if the last planner result is not stale; otherwise it sends nothing and reports the failure state. *)
Theorem C41_cycle_publishes_iff_fresh :
  forall (N : num) (G : trig N) (secs : Z -> N) (travel : Z -> N -> N) (getyaw : quat N -> N) (P : Type) (pl_run : P -> plan_in N -> Z -> P)
    (pl_out : P -> output N) (pl_scan : P -> N * list N) n start goal acc lp l w jv jq es s q now s',
  run N G secs travel getyaw P pl_run pl_out pl_scan (init N P n start goal acc lp l w jv jq) es = Some s ->
  s_cmd s = Some q -> s_posrec s = true -> step N G secs travel getyaw P pl_run pl_out pl_scan s (ECmdEnd now) = Some s' ->
  let since_result := now - last_result (s_log s) in let since_start := now - start in
  (stale_15s since_result since_start -> s_status s' = TERMINATION /\ s_log s' = s_log s) /\
  (~ stale_15s since_result since_start -> stale_half_s since_result since_start -> s_status s' = CRITICAL /\ s_log s' = s_log s) /\
  (~ stale_15s since_result since_start -> ~ stale_half_s since_result since_start ->
     s_status s' = ACTIVE /\ s_log s' = sp_of N G secs travel getyaw P s now ++ s_log s).
Proof. exact cmd_end_cases. Qed.
Print Assumptions C41_cycle_publishes_iff_fresh.
(** nothing else ever sends a setpoint *)
Theorem C41_only_active_cycles_publish :
  forall (N : num) (G : trig N) (secs : Z -> N) (travel : Z -> N -> N) (getyaw : quat N -> N) (P : Type) (pl_run : P -> plan_in N -> Z -> P)
    (pl_out : P -> output N) (pl_scan : P -> N * list N) (s : nl N P) e s',
  step N G secs travel getyaw P pl_run pl_out pl_scan s e = Some s' -> setpoints (s_log s') <> setpoints (s_log s) ->
  exists now q, e = ECmdEnd now /\ s_cmd s = Some q /\ s_posrec s = true /\ s_status s' = ACTIVE.
Proof. exact only_cmd_publishes. Qed.
Print Assumptions C41_only_active_cycles_publish.
(** what is sent: the waypoint generator's result on the newest data, never asking it to hover *)
Theorem C41_setpoint_contents :
  forall (N : num) (G : trig N) (secs : Z -> N) (travel : Z -> N -> N) (getyaw : quat N -> N) (P : Type) (s : nl N P) (now : Z),
  let r := w_out (wg_run N G secs travel (s_wg s)
     [OpUpdate (s_pos s) (s_quat s) (s_goal s) (s_vel s) false (s_armed s && negb (nav_eqb (s_nav s) N_none)) (s_nav s) (s_land s) (s_takeoff s)
        (s_desired s); OpGet now]) in
  exists t, sp_of N G secs travel getyaw P s now = [OTraj now t; OPose now (o_pos r) (o_quat r)] /\
    tr_valid N t = [true; false; false; false; false] /\
    exists p1 rest, tr_points N t = p1 :: rest /\ pt_pos N p1 = o_pos r /\ pt_vel N p1 = o_lin r /\ pt_yaw N p1 = getyaw (o_quat r).
Proof. intros. eexists; split; [reflexivity|split; [reflexivity|]]. eexists _, _; split; [reflexivity|]. repeat split. Qed.
Print Assumptions C41_setpoint_contents.

(** C42. Every planner run gets one cloud per camera, and the clouds a camera contributes to successive runs are distinct messages of that
    camera in order of arrival (none is used twice), reduced to their finite points and moved by a transform looked up for that camera. *)
Theorem C42_clouds_used_once_in_order :
  forall (G : trig F32) (secs : Z -> F32) (travel : Z -> F32 -> F32) (getyaw : quat F32 -> F32) (P : Type) (pl_run : P -> plan_in F32 -> Z -> P)
    (pl_out : P -> output F32) (pl_scan : P -> F32 * list F32) i n start goal acc lp l w jv jq es,
  exists s, run F32 G secs travel getyaw P pl_run pl_out pl_scan (init F32 P n start goal acc lp l w jv jq) es = Some s /\
  (forall f, In f (feeds (s_log s)) -> List.length (n_clouds f) = n /\ (0 < n)%nat) /\
  subseq (is_message i es) (consumed i (feeds (s_log s))) (received i es).
Proof.
  intros G secs travel getyaw P pl_run pl_out pl_scan i n start goal acc lp l w jv jq es.
  destruct (run_total F32 G secs travel getyaw P pl_run pl_out pl_scan removeNaN_F32_total es (init F32 P n start goal acc lp l w jv jq)) as [s R].
  exists s. split; [exact R|]. exact (pipeline_spec F32 G secs travel getyaw P pl_run pl_out pl_scan removeNaN_F32_points i n start goal acc lp l w jv jq es s R).
Qed.
Print Assumptions C42_clouds_used_once_in_order.
(** a cloud waiting for its transform is only replaced by one that is at least 0.3 s newer *)
Theorem C42_waiting_cloud_kept :
  forall (N : num) (G : trig N) (secs : Z -> N) (travel : Z -> N -> N) (getyaw : quat N -> N) (P : Type) (pl_run : P -> plan_in N -> Z -> P)
    (pl_out : P -> output N) (pl_scan : P -> N * list N) i m es s s',
  pending N P s i m -> run N G secs travel getyaw P pl_run pl_out pl_scan s es = Some s' ->
  (forall m', In m' (received i es) -> cm_stamp m' - cm_stamp m / 1000 * 1000 < 300000000) ->
  (forall tf, ~ In (ETransform i tf) es) -> pending N P s' i m.
Proof. intros; eapply pending_run; eassumption. Qed.
Print Assumptions C42_waiting_cloud_kept.
Theorem C42_waiting_cloud_replaced :
  forall (N : num) (G : trig N) (secs : Z -> N) (travel : Z -> N -> N) (getyaw : quat N -> N) (P : Type) (pl_run : P -> plan_in N -> Z -> P)
    (pl_out : P -> output N) (pl_scan : P -> N * list N) s i m m' s',
  pending N P s i m -> step N G secs travel getyaw P pl_run pl_out pl_scan s (ECloud i m') = Some s' ->
  pending N P s' i (if cm_stamp m' - cm_stamp m / 1000 * 1000 <? 300000000 then m else m').
Proof. intros; eapply pending_step; eassumption. Qed.
Print Assumptions C42_waiting_cloud_replaced.
(** once every camera has a transformed cloud and the planner thread starts looking, it feeds the planner within 2n+8 of its own steps,
    whatever the other threads do in between *)
Theorem C42_feed_happens :
  forall (N : num) (G : trig N) (secs : Z -> N) (travel : Z -> N -> N) (getyaw : quat N -> N) (P : Type) (pl_run : P -> plan_in N -> Z -> P)
    (pl_out : P -> output N) (pl_scan : P -> N * list N) (s : nl N P) es s',
  (0 < List.length (s_cams s))%nat -> s_wpc s = PScan 0 0 -> (forall k, In k (s_cams s) -> k_transformed k = true) ->
  run N G secs travel getyaw P pl_run pl_out pl_scan s es = Some s' ->
  (2 * List.length (s_cams s) + 8 <= List.length (filter is_worker es))%nat ->
  (List.length (feeds (s_log s)) < List.length (feeds (s_log s')))%nat.
Proof.
  intros N G secs travel getyaw P pl_run pl_out pl_scan s es s' Hn W T R L.
  refine (progress N G secs travel getyaw P pl_run pl_out pl_scan (List.length (s_cams s)) es Hn s s' _ R _).
  - split; [reflexivity|]. unfold pc_inv. rewrite W. cbn. repeat split; try apply le_n; try apply Nat.le_0_l.
    + intros _ j k X. inversion X.
    + intros j k X. apply T. eapply nth_error_In; exact X.
  - rewrite W. cbn [rank]. unfold nworker. rewrite PeanoNat.Nat.sub_0_r.
    replace (2 * List.length (s_cams s) + 9)%nat with (2 * List.length (s_cams s) + 8 + 1)%nat by (rewrite <- PeanoNat.Nat.add_assoc; reflexivity).
    apply PeanoNat.Nat.add_le_mono_r. exact L.
Qed.
Print Assumptions C42_feed_happens.

(** C72. Two setpoints are never sent without a new vehicle pose in between, and while the node waits for a pose nothing is handed over. *)
Theorem C72_fresh_pose_per_setpoint :
  forall (N : num) (G : trig N) (secs : Z -> N) (travel : Z -> N -> N) (getyaw : quat N -> N) (P : Type) (pl_run : P -> plan_in N -> Z -> P)
    (pl_out : P -> output N) (pl_scan : P -> N * list N) s now s1 es s2,
  step N G secs travel getyaw P pl_run pl_out pl_scan s (ECmdEnd now) = Some s1 -> setpoints (s_log s1) <> setpoints (s_log s) ->
  run N G secs travel getyaw P pl_run pl_out pl_scan s1 es = Some s2 -> setpoints (s_log s2) <> setpoints (s_log s1) ->
  exists p q, In (EPos p q) es.
Proof. exact fresh_pose_per_setpoint. Qed.
Print Assumptions C72_fresh_pose_per_setpoint.
(** ... in particular a missing pose blocks the planner thread: results are not handed over while the command loop waits *)
Theorem C72_waiting_blocks_planner :
  forall (N : num) (G : trig N) (secs : Z -> N) (travel : Z -> N -> N) (getyaw : quat N -> N) (P : Type) (pl_run : P -> plan_in N -> Z -> P)
    (pl_out : P -> output N) (pl_scan : P -> N * list N) es s s' q,
  run N G secs travel getyaw P pl_run pl_out pl_scan s es = Some s' -> forallb (fun e => negb (is_pos e)) es = true ->
  s_cmd s = Some q -> s_posrec s = false -> s_cmd s' = Some q /\ last_result (s_log s') = last_result (s_log s).
Proof. exact waiting_blocks_planner. Qed.
Print Assumptions C72_waiting_blocks_planner.

(** C73. If no goal is announced while the planner thread is between reading and clearing its flag, and no message replaces the goal
    silently, then every planner run uses the current goal and previous goal (up to the height set by reconfiguration), unless a goal was
    announced after the planner thread's last step. *)
Theorem C73_goal_reaches_planner_partial :
  forall (N : num) (G : trig N) (secs : Z -> N) (travel : Z -> N -> N) (getyaw : quat N -> N) (P : Type) (pl_run : P -> plan_in N -> Z -> P)
    (pl_out : P -> output N) (pl_scan : P -> N * list N) n start goal acc lp l w jv jq es s now s',
  let s0 := init N P n start goal acc lp l w jv jq in
  run N G secs travel getyaw P pl_run pl_out pl_scan s0 es = Some s ->
  undisturbed N G secs travel getyaw P pl_run pl_out pl_scan s0 es -> forallb (fun e => negb (forced_goal e)) es = true ->
  s_wpc s = PRun -> step N G secs travel getyaw P pl_run pl_out pl_scan s (EWorker now) = Some s' ->
  exists f, feeds (s_log s') = feeds (s_log s) ++ [f] /\
    ((exists es1 e es2, es = es1 ++ e :: es2 /\ goal_event e = true /\ forallb (fun e => negb (is_worker e)) es2 = true) \/
     ((vx (n_goal f) = vx (s_goal s) /\ vy (n_goal f) = vy (s_goal s)) /\ (existsb is_reconf es = false -> n_goal f = s_goal s) /\
      n_prev_goal f = s_prev s)).
Proof. exact feed_goal. Qed.
Print Assumptions C73_goal_reaches_planner_partial.

Definition z3 : vec3 F32 := V3 (ofZ F32 0) (ofZ F32 0) (ofZ F32 0).
Definition g5 : vec3 F32 := V3 (ofZ F32 5) (ofZ F32 5) (ofZ F32 0).
Definition idq : quat F32 := Q4 F32 (ofZ F32 1) (ofZ F32 0) (ofZ F32 0) (ofZ F32 0).
Definition in0 : plan_in F32 := PIn [] [] z3 z3 idq false z3 z3 z3 (px4_init F32) (nanv F32).
Definition cl (seq stamp : Z) : cloud_msg F32 := CM seq stamp (Cloud F32 [g5; V3 (nanv F32) (nanv F32) (nanv F32)] 2 1 false).
Definition id_tf : option ((vec3 F32 -> vec3 F32) * (vec3 F32 -> vec3 F32)) := Some (fun p => p, fun p => p).
Definition works (k : nat) (t : Z) : list (ev F32) := repeat (EWorker t) k.
(** the planner thread has taken over goal (0,0,0) when (5,5) is clicked; then it clears the flag *)
Definition race : list (ev F32) :=
  [ECloud 0 (cl 1 1000000000); ETransform 0 id_tf] ++ works 7 1100000000 ++ [EClickedGoal g5] ++ works 2 1200000000.
(** a goal moving by 1/128 m per message *)
Definition drift (k : nat) : list (ev F32) :=
  [ECloud 0 (cl 1 1000000000); ETransform 0 id_tf] ++ works 9 1100000000 ++
  map (fun i => EFcu (Fcu 1 1 z3 z3 (V3 (div F32 (ofZ F32 (Z.of_nat i)) (ofZ F32 128)) (ofZ F32 0) (ofZ F32 0)) 0 65535 (nanv F32) (nanv F32))) (seq 1 k).
Definition is_settled (s : nl F32 unit) (goalx : Z) : bool :=
  negb (s_new s) && negb (taking_goal (s_wpc s)) && eqb F32 (vx (s_goal s)) (ofZ F32 goalx) &&
  forallb (fun f => eqb F32 (vx (n_goal f)) (ofZ F32 0)) (feeds (s_log s)) && eqb F32 (vx (n_goal (s_lp_in s))) (ofZ F32 0).
Lemma settled_forever G secs travel getyaw pl_run pl_out pl_scan s gx es s' : is_settled s gx = true ->
  run F32 G secs travel getyaw unit pl_run pl_out pl_scan s es = Some s' -> forallb (fun e => negb (goal_event e || is_reconf e)) es = true ->
  eqb F32 (vx (s_goal s')) (ofZ F32 gx) = true /\ forall f, In f (feeds (s_log s')) -> eqb F32 (vx (n_goal f)) (ofZ F32 0) = true.
Proof.
  unfold is_settled. intros H R F. apply andb_true_iff in H as [H H5]. apply andb_true_iff in H as [H H4]. apply andb_true_iff in H as [H H3].
  apply andb_true_iff in H as [H1 H2]. apply negb_true_iff in H1, H2.
  destruct (settled_run F32 G secs travel getyaw unit pl_run pl_out pl_scan (n_goal (s_lp_in s)) (n_goal (s_lp_in s)) (s_goal s) (feeds (s_log s)) es s s')
    as (_ & _ & _ & Gg & more & A & B); try assumption.
  - split; [exact H1|split; [exact H2|split; [reflexivity|split; [reflexivity|]]]]. exists []. rewrite app_nil_r. split; [reflexivity|]. intros f [].
  - rewrite Gg. split; [exact H3|]. intros f I. rewrite A in I. apply in_app_or in I as [I|I].
    + rewrite forallb_forall in H4. apply H4; exact I.
    + rewrite (B f I). exact H5.
Qed.
(** Otherwise the goal can be lost for good: by a race on the flag, ... *)
Theorem C73_goal_lost_by_race_refuted :
  forall (G : trig F32) (secs : Z -> F32) (travel : Z -> F32 -> F32) (getyaw : quat F32 -> F32) (pl_run : unit -> plan_in F32 -> Z -> unit)
    (pl_out : unit -> output F32) (pl_scan : unit -> F32 * list F32) (w : wg F32),
  exists es s, run F32 G secs travel getyaw unit pl_run pl_out pl_scan (init F32 unit 1 0 z3 false tt in0 w z3 idq) es = Some s /\
    In (EClickedGoal g5) es /\ forallb (fun e => negb (forced_goal e)) es = true /\
    forall es' s', run F32 G secs travel getyaw unit pl_run pl_out pl_scan s es' = Some s' ->
      forallb (fun e => negb (goal_event e || is_reconf e)) es' = true ->
      eqb F32 (vx (s_goal s')) (ofZ F32 5) = true /\ forall f, In f (feeds (s_log s')) -> eqb F32 (vx (n_goal f)) (ofZ F32 0) = true.
Proof.
  intros. exists race.
  destruct (run_total F32 G secs travel getyaw unit pl_run pl_out pl_scan removeNaN_F32_total race (init F32 unit 1 0 z3 false tt in0 w z3 idq)) as [s R].
  exists s. split; [exact R|]. split; [unfold race; apply in_or_app; right; apply in_or_app; right; left; reflexivity|]. split; [vm_compute; reflexivity|].
  intros es' s' R' F. apply (settled_forever G secs travel getyaw pl_run pl_out pl_scan s 5 es' s'); try assumption.
  assert (C : match run F32 G secs travel getyaw unit pl_run pl_out pl_scan (init F32 unit 1 0 z3 false tt in0 w z3 idq) race with
              | Some s => is_settled s 5 | None => false end = true) by (vm_compute; reflexivity).
  rewrite R in C. exact C.
Qed.
Print Assumptions C73_goal_lost_by_race_refuted.
(** ... or, without any race, because goals that move by less than 1 cm per message are never announced. *)
Theorem C73_goal_lost_by_drift_refuted :
  forall (G : trig F32) (secs : Z -> F32) (travel : Z -> F32 -> F32) (getyaw : quat F32 -> F32) (pl_run : unit -> plan_in F32 -> Z -> unit)
    (pl_out : unit -> output F32) (pl_scan : unit -> F32 * list F32) (w : wg F32),
  exists es s, run F32 G secs travel getyaw unit pl_run pl_out pl_scan (init F32 unit 1 0 z3 false tt in0 w z3 idq) es = Some s /\
    forall es' s', run F32 G secs travel getyaw unit pl_run pl_out pl_scan s es' = Some s' ->
      forallb (fun e => negb (goal_event e || is_reconf e)) es' = true ->
      eqb F32 (vx (s_goal s')) (ofZ F32 5) = true /\ forall f, In f (feeds (s_log s')) -> eqb F32 (vx (n_goal f)) (ofZ F32 0) = true.
Proof.
  intros. exists (drift 640).
  destruct (run_total F32 G secs travel getyaw unit pl_run pl_out pl_scan removeNaN_F32_total (drift 640) (init F32 unit 1 0 z3 false tt in0 w z3 idq)) as [s R].
  exists s. split; [exact R|]. intros es' s' R' F. apply (settled_forever G secs travel getyaw pl_run pl_out pl_scan s 5 es' s'); try assumption.
  assert (C : match run F32 G secs travel getyaw unit pl_run pl_out pl_scan (init F32 unit 1 0 z3 false tt in0 w z3 idq) (drift 640) with
              | Some s => is_settled s 5 | None => false end = true) by (vm_compute; reflexivity).
  rewrite R in C. exact C.
Qed.
Print Assumptions C73_goal_lost_by_drift_refuted.

(** C74. The obstacle distance message is sent once per planner run exactly if collision prevention is not disabled (a NaN parameter counts
    as enabled) and the scan was filled. *)
Theorem C74_distance_message :
  forall (N : num) (G : trig N) (secs : Z -> N) (travel : Z -> N -> N) (getyaw : quat N -> N) (P : Type) (pl_run : P -> plan_in N -> Z -> P)
    (pl_out : P -> output N) (pl_scan : P -> N * list N) (s : nl N P) e s',
  step N G secs travel getyaw P pl_run pl_out pl_scan s e = Some s' ->
  (feeds (s_log s') = feeds (s_log s) /\ scans N (s_log s') = scans N (s_log s)) \/
  (exists f, feeds (s_log s') = feeds (s_log s) ++ [f] /\
     scans N (s_log s') = (if negb (ltb N (cp_dist (n_px4 f)) (ofZ N 0)) && ltb N (ofZ N 0) (fst (pl_scan (s_lp s')))
                           then [pl_scan (s_lp s')] else []) ++ scans N (s_log s)).
Proof. exact step_scans. Qed.
Print Assumptions C74_distance_message.

(** a complete cycle on one camera: cloud, transform, planner run, hand-over, then a command cycle that publishes *)
Definition w0 : wg F32 := wg_init F32 (WOut LOITER z3 idq z3 z3 z3 z3 z3) (ofZ F32 3).
Definition cycle : list (ev F32) :=
  [ECloud 0 (cl 1 1000000000); ECloud 0 (cl 2 1200000000); ETransform 0 id_tf] ++ works 12 1300000000 ++ [ECmdStart 1400000000; EPos z3 idq].
Definition cyc (es : list (ev F32)) : option (nl F32 unit) :=
  run F32 (Build_trig F32 (fun x => x) (fun x => x) (fun x _ => x) (fun x => x)) (fun z => f32_ofZ z) (fun _ x => x) (fun _ => ofZ F32 0)
    unit (fun _ _ _ => tt) (fun _ => Out (ofZ F32 3) 0 []) (fun _ => (ofZ F32 1, [])) (init F32 unit 1 0 z3 false tt in0 w0 z3 idq) es.
Example NlExample :
  (match cyc cycle with
   | Some s => (last_result (s_log s) =? 1300000000) && s_posrec s && (match s_cmd s with Some _ => true | None => false end)
               && (List.length (feeds (s_log s)) =? 1)%nat && (List.length (scans F32 (s_log s)) =? 1)%nat
               && forallb (fun f => match n_clouds f with [t] => (tc_seq t =? 1) && (List.length (tc_points t) =? 1)%nat | _ => false end) (feeds (s_log s))
   | None => false end) = true /\
  (match cyc (cycle ++ [ECmdEnd 1700000000]) with Some s => (List.length (setpoints (s_log s)) =? 2)%nat | None => false end) = true.
Proof. split; vm_compute; reflexivity. Qed.
(** the states the theorems speak of, on the run above: a cloud waiting for its transform and a later one within 300 ms; the command loop waiting for a position; a goal
    clicked before the planner thread takes over the goal *)
Definition pc (es : list (ev F32)) : option (bool * bool * bool * bool) :=
  match cyc es with
  | Some s => Some (match s_wpc s with PRun => true | _ => false end, match s_cmd s with Some _ => true | None => false end, s_posrec s,
                    match s_cams s with [k] => k_received k | _ => false end)
  | None => None
  end.
Definition clicked : list (ev F32) := [ECloud 0 (cl 1 1000000000); ETransform 0 id_tf; EClickedGoal g5] ++ works 9 1100000000.
Example C41_C42_C72_C73_states :
  pc [ECloud 0 (cl 1 1000000000)] = Some (false, false, false, true) /\
  pc [ECloud 0 (cl 1 1000000000); ECmdStart 1400000000] = Some (false, true, false, true) /\
  pc clicked = Some (true, false, false, false).
Proof. split; [|split]; vm_compute; reflexivity. Qed.
Example C42_example : exists s, cyc [ECloud 0 (cl 1 1000000000)] = Some s /\ pending F32 unit s 0 (cl 1 1000000000) /\
  received 0 [ECloud 0 (cl 2 1200000000)] = [cl 2 1200000000] /\ cm_stamp (cl 2 1200000000) - cm_stamp (cl 1 1000000000) / 1000 * 1000 < 300000000.
Proof.
  eexists. split; [reflexivity|]. split; [eexists; split; [reflexivity|split; reflexivity]|]. split; [reflexivity|]. vm_compute. reflexivity.
Qed.
Example C73_example : forallb (fun e => negb (forced_goal e)) clicked = true /\
  undisturbed F32 (Build_trig F32 (fun x => x) (fun x => x) (fun x _ => x) (fun x => x)) (fun z => f32_ofZ z) (fun _ x => x) (fun _ => ofZ F32 0)
    unit (fun _ _ _ => tt) (fun _ => Out (ofZ F32 3) 0 []) (fun _ => (ofZ F32 1, [])) (init F32 unit 1 0 z3 false tt in0 w0 z3 idq) clicked.
Proof.
  split; [reflexivity|]. intros es1 e es2 s1 E G H.
  assert (K : es1 = [ECloud 0 (cl 1 1000000000); ETransform 0 id_tf]).
  { destruct es1 as [|a [|b [|c es1]]]; unfold clicked in E; cbn [app] in E.
    - injection E as <- _. discriminate.
    - injection E as _ <- _. discriminate.
    - injection E as -> -> _ _. reflexivity.
    - exfalso. injection E as _ _ _ E.
      assert (I : In e (works 9 1100000000)) by (rewrite E; apply in_elt). apply repeat_spec in I. subst e. discriminate. }
  subst es1.
  assert (B : match cyc [ECloud 0 (cl 1 1000000000); ETransform 0 id_tf] with Some s => taking_goal (s_wpc s) | None => false end = false) by (vm_compute; reflexivity).
  unfold cyc in B. rewrite H in B. exact B.
Qed.
