(** C116: what a reconfiguration of the local planner changes. *)
From Coq Require Import ZArith Reals List Bool Lia Lra.
From Verif Require Import Num Num64 Mat CommonModel CommonSpec HistModel PfModel StarModel LpModel LcModel.
Import ListNotations.
#[local] Arguments lc_params {N D} _. #[local] Arguments lc_px4 {N D} _. #[local] Arguments lc_speed {N D} _. #[local] Arguments lc_mem {N D} _. #[local] Arguments lc_star {N D} _.
#[local] Arguments m_fovs {N} _. #[local] Arguments m_pos {N} _. #[local] Arguments m_vel {N} _. #[local] Arguments m_yaw {N} _. #[local] Arguments m_pitch {N} _.
#[local] Arguments m_goal {N} _. #[local] Arguments m_prev_goal {N} _. #[local] Arguments m_cloud {N} _. #[local] Arguments m_process_time {N} _.
#[local] Arguments m_path_time {N} _. #[local] Arguments m_scan {N} _. #[local] Arguments m_closest {N} _.
#[local] Arguments q_path {N} _. #[local] Arguments q_tree {N} _. #[local] Arguments q_closed {N} _.

(** ** The vocabulary of C116 *)
Section Spec.
Context {N D : num}.
(** the last reconfiguration of a history, the last firmware parameters, and whether the pose and the goal were handed over at all *)
Fixpoint latest {X} (f : lc_op N D -> option X) (ops : list (lc_op N D)) : option X :=
  match ops with [] => None | o :: r => match latest f r with Some x => Some x | None => f o end end.
Definition reconf_of (o : lc_op N D) : option (lconfig D) := match o with LReconf c => Some c | _ => None end.
Definition firmware_of (o : lc_op N D) : option (lpx4 N * N) := match o with LFirmware x v => Some (x, v) | _ => None end.
Definition is_state (o : lc_op N D) : bool := match o with LState _ _ _ _ => true | _ => false end.
Definition is_goal (o : lc_op N D) : bool := match o with LGoal _ | LApply => true | _ => false end.
(** the configuration that LpModel.v's planner takes, from a reconfiguration and the firmware's parameters *)
Definition config_of (narrow : D -> N) (c : lconfig D) (x : lpx4 N) (speed : N) : lp_config N :=
  LpCfg (dc_min_num c) (narrow (dc_min_range c)) (narrow (dc_max_range c)) (narrow (dc_margin c)) (narrow (dc_max_age c))
    (CostParams (narrow (dc_yaw c)) (narrow (dc_pitch c)) (narrow (dc_velocity c)) (narrow (dc_obstacle c)))
    (dc_children c) (dc_expanded c) (narrow (dc_node_distance c)) (narrow (dc_heuristic c))
    (x_cp_dist x) (x_xy_cruise x) (x_acc_hor x) (x_jerk_max x) speed.
(** what the two objects remember from run to run: pose, goals, fields of view, cloud, times, obstacle distances, tree and path *)
Definition memory (s : lplanner N D) : lp_state N :=
  let m := lc_mem s in
  LpS (m_fovs m) (m_pos m) (m_vel m) (m_yaw m) (m_pitch m) (m_goal m) (m_prev_goal m) (m_cloud m) (m_process_time m) (m_path_time m) (m_scan m) (m_closest m)
    (q_tree (lc_star s)) (q_closed (lc_star s)) (q_path (lc_star s)).
End Spec.

Section Lc.
Context (N D : num) (G : trig N) (narrow : D -> N) (widen : N -> D) (secs : Z -> N) (cast rnd ceilc : N -> Z)
        (top : list (candidate N) -> option (candidate N * list (candidate N))) (huge : N).
Notation after := (lc_after N D G narrow widen secs cast rnd ceilc top huge).
Notation call := (lc_call N D G narrow widen secs cast rnd ceilc top huge).
Notation run := (lc_run N D G secs cast rnd ceilc top huge).

(** the star planner's copies agree with the planner's members *)
Definition goals_agree (s : lplanner N D) := q_goal N (lc_star s) = m_goal (lc_mem s).
Definition poses_agree (s : lplanner N D) := q_pos N (lc_star s) = m_pos (lc_mem s) /\ q_vel N (lc_star s) = m_vel (lc_mem s).
Definition configured (c : lconfig D) (s : lplanner N D) :=
  let p := lc_params s in let q := lc_star s in
  p_min_num N D p = dc_min_num c /\ p_min_range N D p = narrow (dc_min_range c) /\ p_max_range N D p = narrow (dc_max_range c) /\
  p_margin N D p = narrow (dc_margin c) /\ p_max_age N D p = narrow (dc_max_age c) /\
  p_cost N D p = CostParams (narrow (dc_yaw c)) (narrow (dc_pitch c)) (narrow (dc_velocity c)) (narrow (dc_obstacle c)) /\
  q_children N q = dc_children c /\ q_expanded N q = dc_expanded c /\ q_node_distance N q = narrow (dc_node_distance c) /\
  q_max_path N q = narrow (dc_max_range c) /\ q_margin N q = narrow (dc_margin c) /\ q_heuristic N q = narrow (dc_heuristic c) /\
  q_max_range N q = narrow (dc_max_range c) /\ q_min_range N q = narrow (dc_min_range c).

Lemma run_inv s clouds now s' : run s clouds now = Some s' ->
  lc_params s' = lc_params s /\ lc_px4 s' = lc_px4 s /\ lc_speed s' = lc_speed s /\
  m_goal (lc_mem s') = m_goal (lc_mem s) /\ m_pos (lc_mem s') = m_pos (lc_mem s) /\ m_vel (lc_mem s') = m_vel (lc_mem s) /\
  q_goal N (lc_star s') = q_goal N (lc_star s) /\ q_pos N (lc_star s') = q_pos N (lc_star s) /\ q_vel N (lc_star s') = q_vel N (lc_star s) /\
  q_children N (lc_star s') = q_children N (lc_star s) /\ q_expanded N (lc_star s') = q_expanded N (lc_star s) /\
  q_node_distance N (lc_star s') = q_node_distance N (lc_star s) /\ q_max_path N (lc_star s') = q_max_path N (lc_star s) /\
  q_margin N (lc_star s') = q_margin N (lc_star s) /\ q_heuristic N (lc_star s') = q_heuristic N (lc_star s) /\
  q_max_range N (lc_star s') = q_max_range N (lc_star s) /\ q_min_range N (lc_star s') = q_min_range N (lc_star s).
Proof.
  unfold lc_run. destruct (processPointcloud _ _ _ _ _ _ _ _ _ _ _ _ _ _) as [cloud|]; [|discriminate]. cbn [obind].
  destruct (h_new N ALPHA_RES) as [h0|]; [|discriminate]. cbn [obind]. destruct (generateNewHistogram _ _ _ _ _ _) as [h|]; [|discriminate]. cbn [obind].
  match goal with |- obind ?x _ = _ -> _ => destruct x as [scan|]; [|discriminate] end. cbn [obind].
  destruct (generateHistogramImage _ _ _ _) as [im|]; [|discriminate]. cbn [obind]. cbv zeta. destruct (h_isEmpty N h) as [b|]; [|discriminate]. cbn [obind].
  destruct b.
  - intros E. injection E as <-. cbn. repeat split; reflexivity.
  - destruct (getCostMatrix _ _ _ _ _ _ _ _ _ _ _ _ _ _) as [cm|]; [|discriminate]. cbn [obind]. unfold star_build.
    destruct (buildLookAheadTree _ _ _ _ _) as [r|]; [|discriminate]. cbn [obind]. intros E. injection E as <-. cbn. repeat split; reflexivity.
Qed.

(** the two objects do what LpModel.v's one does *)
Lemma run_merged s c clouds now : configured c s -> goals_agree s -> poses_agree s ->
  option_map memory (run s clouds now) = runPlanner N G secs cast rnd ceilc top huge (config_of narrow c (lc_px4 s) (lc_speed s)) (memory s) clouds now.
Proof.
  intros (C1 & C2 & C3 & C4 & C5 & C6 & C7 & C8 & C9 & C10 & C11 & C12 & C13 & C14) Gg (P1 & P2). unfold goals_agree in Gg.
  unfold lc_run, runPlanner, memory, config_of. cbv zeta.
  cbn [l_fovs l_pos l_vel l_yaw l_pitch l_goal l_prev_goal l_cloud l_process_time l_path_time l_scan l_closest l_tree l_closed l_path
       g_min_num g_min_range g_max_range g_margin g_max_age g_cost g_cp_dist g_xy_cruise g_children].
  rewrite C1, C2, C3, C4, C5, C6.
  destruct (processPointcloud _ _ _ _ _ _ _ _ _ _ _ _ _ _) as [cloud|]; [|reflexivity]. cbn [obind].
  destruct (h_new N ALPHA_RES) as [h0|]; [|reflexivity]. cbn [obind]. destruct (generateNewHistogram _ _ _ _ _ _) as [h|]; [|reflexivity]. cbn [obind].
  match goal with |- option_map _ (obind ?x _) = _ => destruct x as [scan|]; [|reflexivity] end. cbn [obind].
  destruct (generateHistogramImage _ _ _ _) as [im|]; [|reflexivity]. cbn [obind]. destruct (h_isEmpty N h) as [b|]; [|reflexivity]. cbn [obind].
  destruct b; [reflexivity|].
  destruct (getCostMatrix _ _ _ _ _ _ _ _ _ _ _ _ _ _) as [cm|]; [|reflexivity]. cbn [obind].
  unfold star_build, starParams, star_setClosest, star_setPointcloud, star_setParams.
  cbn [q_cloud q_goal q_cost q_margin q_closest q_max_range q_min_range q_children q_expanded q_node_distance q_max_path q_heuristic q_pos q_vel
       g_children g_expanded g_node_distance g_max_range g_heuristic_weight l_goal l_pos l_vel].
  rewrite Gg, P1, P2, C7, C8, C9, C10, C11, C12, C13, C14. destruct (buildLookAheadTree _ _ _ _ _) as [r|]; reflexivity.
Qed.

Lemma latest_snoc {X} (f : lc_op N D -> option X) ops o : latest f (ops ++ [o]) = match f o with Some x => Some x | None => latest f ops end.
Proof. induction ops as [|a l IH]; cbn. - destruct (f o); reflexivity. - rewrite IH. destruct (f o); reflexivity. Qed.

(** everything known about a planner after a history *)
Lemma after_inv ops s : after ops = Some s ->
  (forall c, latest reconf_of ops = Some c -> configured c s) /\
  (forall x v, latest firmware_of ops = Some (x, v) -> lc_px4 s = x /\ lc_speed s = v) /\
  (existsb is_goal ops = true -> goals_agree s) /\ (existsb is_state ops = true -> poses_agree s).
Proof.
  revert s. induction ops as [|o ops IH] using rev_ind; intros s E.
  - cbn. repeat split; discriminate.
  - unfold lc_after in E. rewrite foldM_app in E. change (foldM call (planner_new N D) ops) with (after ops) in E.
    destruct (after ops) as [s0|]; [|discriminate E]. cbn [foldM] in E. destruct (call s0 o) as [s1|] eqn:E1; [|discriminate E]. injection E as ->.
    destruct (IH s0 eq_refl) as (I1 & I2 & I3 & I4). clear IH. rewrite !latest_snoc, !existsb_app. cbn [existsb].
    destruct o as [pos vel yaw pitch| |g|g|i f|c|x v|clouds now]; cbn [reconf_of firmware_of is_goal is_state]; rewrite ?orb_false_r, ?orb_true_r.
    + injection E1 as <-. split; [|split; [|split]]; [exact I1|exact I2|exact I3|]. intros _. split; reflexivity.
    + injection E1 as <-. split; [|split; [|split]]; [exact I1|exact I2| |exact I4]. intros _. reflexivity.
    + injection E1 as <-. split; [|split; [|split]]; [exact I1|exact I2| |exact I4]. intros _. reflexivity.
    + injection E1 as <-. split; [|split; [|split]]; assumption.
    + injection E1 as <-. split; [|split; [|split]]; assumption.
    + injection E1 as <-. unfold lc_reconf. destruct (negb _); cbn -[configured].
      * split; [|split; [|split]]; [|exact I2|intros _; reflexivity|exact I4]. intros c' Ec. injection Ec as <-. repeat split; reflexivity.
      * split; [|split; [|split]]; [|exact I2|exact I3|exact I4]. intros c' Ec. injection Ec as <-. repeat split; reflexivity.
    + injection E1 as <-. split; [|split; [|split]]; [exact I1| |exact I3|exact I4]. intros x' v' Ex. injection Ex as <- <-. split; reflexivity.
    + cbn [lc_call] in E1. destruct (run_inv s0 clouds now s E1) as (A1 & A2 & A3 & A4 & A5 & A6 & A7 & A8 & A9 & A10 & A11 & A12 & A13 & A14 & A15 & A16 & A17).
      unfold configured, goals_agree, poses_agree in *. rewrite A1, A2, A3, A4, A5, A6, A7, A8, A9, A10, A11, A12, A13, A14, A15, A16, A17. auto.
Qed.
End Lc.

(** C116. For every history of calls after which a configuration, the firmware's parameters, a pose and a goal have been handed over: the next planner run, in both of its
    stages (obstacle histogram and search tree), is that of a planner that has always had the latest configuration; nothing of earlier ones is left, except in what
    the planner remembers. Every number system, conversion, trigonometry and priority queue. *)
Theorem C116_latest_configuration_in_force :
  forall (N D : num) (G : trig N) (narrow : D -> N) (widen : N -> D) (secs : Z -> N) (cast rnd ceilc : N -> Z) top (huge : N)
    (ops : list (lc_op N D)) (s : lplanner N D) (c : lconfig D) (x : lpx4 N) (speed : N) (clouds : list (list (vec3 N))) (now : Z),
  lc_after N D G narrow widen secs cast rnd ceilc top huge ops = Some s ->
  latest reconf_of ops = Some c -> latest firmware_of ops = Some (x, speed) -> existsb is_goal ops = true -> existsb is_state ops = true ->
  option_map memory (lc_after N D G narrow widen secs cast rnd ceilc top huge (ops ++ [LRun clouds now])) =
    runPlanner N G secs cast rnd ceilc top huge (config_of narrow c x speed) (memory s) clouds now /\
  lc_output N D s = getAvoidanceOutput N (config_of narrow c x speed) (memory s).
Proof.
  intros N D G narrow widen secs cast rnd ceilc top huge ops s c x speed clouds now E Ec Ex Eg Es.
  destruct (after_inv N D G narrow widen secs cast rnd ceilc top huge ops s E) as (I1 & I2 & I3 & I4).
  specialize (I1 c Ec). destruct (I2 x speed Ex) as (<- & <-). split.
  - unfold lc_after in E |- *. rewrite foldM_app, E. cbn [foldM lc_call].
    rewrite <- (run_merged N D G narrow secs cast rnd ceilc top huge s c clouds now I1 (I3 Eg) (I4 Es)).
    destruct (lc_run N D G secs cast rnd ceilc top huge s clouds now); reflexivity.
  - destruct I1 as (_ & _ & H & _). unfold lc_output, getAvoidanceOutput, config_of, memory. cbn. rewrite H. reflexivity.
Qed.
Print Assumptions C116_latest_configuration_in_force.

(** A reconfiguration by itself changes nothing of what the planner remembers but the altitude of the goal: the point cloud, the last path and its time,
    the obstacle distances, pose and fields of view stay. *)
Theorem C116_reconfiguration_keeps_memory :
  forall (N D : num) (G : trig N) (narrow : D -> N) (widen : N -> D) (secs : Z -> N) (cast rnd ceilc : N -> Z) top (huge : N)
    (s : lplanner N D) (c : lconfig D),
  exists s', lc_call N D G narrow widen secs cast rnd ceilc top huge s (LReconf c) = Some s' /\
    memory s' = lp_setGoal N (memory s) (l_goal (memory s')) (l_prev_goal (memory s)) /\
    o_path (lc_output N D s') = o_path (lc_output N D s) /\ o_path_time (lc_output N D s') = o_path_time (lc_output N D s) /\
    vx (l_goal (memory s')) = vx (l_goal (memory s)) /\ vy (l_goal (memory s')) = vy (l_goal (memory s)) /\
    (vz (l_goal (memory s')) = narrow (dc_goal_z c) \/
     eqb D (widen (vz (l_goal (memory s)))) (dc_goal_z c) = true /\ vz (l_goal (memory s')) = vz (l_goal (memory s))).
Proof.
  intros N D G narrow widen secs cast rnd ceilc top huge s c. eexists. split; [reflexivity|]. unfold lc_reconf.
  destruct (eqb D (widen (vz (m_goal (lc_mem s)))) (dc_goal_z c)) eqn:E; cbn [negb].
  - do 3 (split; [destruct s as [p q v m st]; destruct m; reflexivity|]). split; [reflexivity|]. split; [reflexivity|]. right. split; [exact E|reflexivity].
  - do 3 (split; [destruct s as [p q v m st]; destruct m; reflexivity|]). split; [reflexivity|]. split; [reflexivity|]. left. reflexivity.
Qed.
Print Assumptions C116_reconfiguration_keeps_memory.

(** "Changing one parameter changes only that one": false of the goal. A goal whose altitude is not goal_z_param loses it at the next reconfiguration, whatever that
    one is about, and does not get it back until the goal is set again. *)
Definition sets_goal {N D : num} (o : lc_op N D) : bool := match o with LGoal _ | LReconf _ => true | _ => false end.
Lemma goal_stays (N D : num) (G : trig N) narrow widen secs cast rnd ceilc top huge (ops : list (lc_op N D)) s s' :
  existsb sets_goal ops = false -> foldM (lc_call N D G narrow widen secs cast rnd ceilc top huge) s ops = Some s' -> m_goal (lc_mem s') = m_goal (lc_mem s).
Proof.
  revert s. induction ops as [|o ops IH]; intros s Ho E; [injection E as <-; reflexivity|]. cbn [existsb] in Ho. apply orb_false_iff in Ho as (Ho & Hr).
  cbn [foldM] in E. destruct (lc_call N D G narrow widen secs cast rnd ceilc top huge s o) as [s1|] eqn:E1; [|discriminate E]. rewrite (IH s1 Hr E).
  destruct o; try discriminate Ho; try (injection E1 as <-; reflexivity). cbn [lc_call] in E1. apply run_inv in E1. apply E1.
Qed.
Theorem C116_goal_altitude_kept_refuted :
  forall (N D : num) (G : trig N) (narrow : D -> N) (widen : N -> D) (secs : Z -> N) (cast rnd ceilc : N -> Z) top (huge : N)
    (before later : list (lc_op N D)) (goal : vec3 N) (c : lconfig D) (s : lplanner N D),
  eqb D (widen (vz goal)) (dc_goal_z c) = false -> existsb sets_goal later = false ->
  lc_after N D G narrow widen secs cast rnd ceilc top huge (before ++ [LGoal goal; LReconf c] ++ later) = Some s ->
  l_goal (memory s) = V3 (vx goal) (vy goal) (narrow (dc_goal_z c)).
Proof.
  intros N D G narrow widen secs cast rnd ceilc top huge before later goal c s Hz Hl E. unfold lc_after in E. rewrite foldM_app in E.
  destruct (foldM _ (planner_new N D) before) as [s0|]; [|discriminate E]. rewrite foldM_app in E. cbn [foldM lc_call] in E.
  apply (goal_stays N D G) in E; [|exact Hl]. unfold memory. cbn [l_goal]. rewrite E. unfold lc_reconf, lc_setGoal, lc_applyGoal. cbn [lc_mem m_goal]. rewrite Hz. reflexivity.
Qed.
Print Assumptions C116_goal_altitude_kept_refuted.

(** The timeouts and smoothing speeds have no effect on the planner: histories that differ only in these yield the same memory and the same output after every call. *)
Definition with_times {D : num} (t : lconfig D -> D * D * D * D * D) (c : lconfig D) : lconfig D :=
  let '(a, b, e, f, g) := t c in
  LConf (dc_max_range c) (dc_min_range c) (dc_pitch c) (dc_yaw c) (dc_velocity c) (dc_obstacle c) (dc_heuristic c) (dc_goal_z c) a b e (dc_max_age c) (dc_min_num c) f g
    (dc_margin c) (dc_children c) (dc_expanded c) (dc_node_distance c).
Definition retimed {N D : num} (t : lconfig D -> D * D * D * D * D) (o : lc_op N D) : lc_op N D := match o with LReconf c => LReconf (with_times t c) | _ => o end.
Definition but_times {N D : num} (s s' : lplanner N D) : Prop :=
  lc_px4 s' = lc_px4 s /\ lc_speed s' = lc_speed s /\ lc_mem s' = lc_mem s /\ lc_star s' = lc_star s /\
  let p := lc_params s in let p' := lc_params s' in
  p_min_num N D p' = p_min_num N D p /\ p_min_range N D p' = p_min_range N D p /\ p_max_range N D p' = p_max_range N D p /\
  p_margin N D p' = p_margin N D p /\ p_max_age N D p' = p_max_age N D p /\ p_cost N D p' = p_cost N D p.
Lemma retimed_step (N D : num) (G : trig N) narrow widen secs cast rnd ceilc top huge t (o : lc_op N D) s s' : but_times s s' ->
  match lc_call N D G narrow widen secs cast rnd ceilc top huge s o, lc_call N D G narrow widen secs cast rnd ceilc top huge s' (retimed t o) with
  | Some r, Some r' => but_times r r' | None, None => True | _, _ => False end.
Proof.
  intros (E1 & E2 & E3 & E4 & P1 & P2 & P3 & P4 & P5 & P6). destruct s as [p x v m q], s' as [p' x' v' m' q']. cbn [lc_px4 lc_speed lc_mem lc_star lc_params] in *. subst x' v' m' q'.
  destruct o as [pos vel yaw pitch| |g|g|i f|c|x' v'|clouds now]; cbn [retimed lc_call].
  1-5, 7: repeat split; assumption.
  - unfold with_times. destruct (t c) as [[[[a b] e] f] g]. unfold lc_reconf. cbn [lc_mem dc_goal_z]. destruct (negb _); repeat split; reflexivity.
  - unfold lc_run. cbn [lc_mem lc_params lc_px4 lc_speed lc_star]. rewrite P1, P2, P3, P4, P5, P6.
    destruct (processPointcloud _ _ _ _ _ _ _ _ _ _ _ _ _ _) as [cloud|]; [|exact I]. cbn [obind].
    destruct (h_new N ALPHA_RES) as [h0|]; [|exact I]. cbn [obind]. destruct (generateNewHistogram _ _ _ _ _ _) as [h|]; [|exact I]. cbn [obind].
    match goal with |- context [obind (if ?b then ?u else ?w) _] => destruct (if b then u else w) as [scan|]; [|exact I] end. cbn [obind].
    destruct (generateHistogramImage _ _ _ _) as [im|]; [|exact I]. cbn [obind]. cbv zeta. destruct (h_isEmpty N h) as [b|]; [|exact I]. cbn [obind].
    destruct b; [repeat split; assumption|]. destruct (getCostMatrix _ _ _ _ _ _ _ _ _ _ _ _ _ _) as [cm|]; [|exact I]. cbn [obind].
    destruct (star_build _ _ _ _ _ _ _ _) as [q1|]; [|exact I]. repeat split; assumption.
Qed.
Theorem C116_timeouts_have_no_effect :
  forall (N D : num) (G : trig N) (narrow : D -> N) (widen : N -> D) (secs : Z -> N) (cast rnd ceilc : N -> Z) top (huge : N)
    (t : lconfig D -> D * D * D * D * D) (ops : list (lc_op N D)),
  option_map (fun s => (memory s, lc_output N D s)) (lc_after N D G narrow widen secs cast rnd ceilc top huge (map (retimed t) ops)) =
  option_map (fun s => (memory s, lc_output N D s)) (lc_after N D G narrow widen secs cast rnd ceilc top huge ops).
Proof.
  intros N D G narrow widen secs cast rnd ceilc top huge t ops. unfold lc_after.
  assert (K : forall (l : list (lc_op N D)) (s s' : lplanner N D), but_times s s' ->
    match foldM (lc_call N D G narrow widen secs cast rnd ceilc top huge) s l, foldM (lc_call N D G narrow widen secs cast rnd ceilc top huge) s' (map (retimed t) l) with
    | Some r, Some r' => but_times r r' | None, None => True | _, _ => False end).
  { induction l as [|o l IH]; intros s s' B; [exact B|]. cbn [map foldM]. pose proof (retimed_step N D G narrow widen secs cast rnd ceilc top huge t o s s' B) as S.
    destruct (lc_call N D G narrow widen secs cast rnd ceilc top huge s o) as [r|], (lc_call N D G narrow widen secs cast rnd ceilc top huge s' (retimed t o)) as [r'|];
      [apply IH; exact S|destruct S|destruct S|exact I]. }
  specialize (K ops (planner_new N D) (planner_new N D)).
  destruct (foldM _ _ ops) as [r|], (foldM _ _ (map (retimed t) ops)) as [r'|].
  - destruct K as (E1 & E2 & E3 & E4 & _ & _ & P3 & _). { repeat split. } cbn [option_map]. f_equal. unfold memory, lc_output. rewrite E1, E2, E3, E4, P3. reflexivity.
  - destruct K. repeat split.
  - destruct K. repeat split.
  - reflexivity.
Qed.
Print Assumptions C116_timeouts_have_no_effect.

(** ** Examples. Before the first reconfiguration the two objects have different ranges (12 m and 15 m): the condition on the history is needed. *)
Example C116_before_first_example : exists a b : Z, (a <> b)%Z /\ forall N D : num, p_max_range N D (lc_params (planner_new N D)) = ofZ N a /\ q_max_range N (lc_star (planner_new N D)) = ofZ N b.
Proof. exists 12%Z, 15%Z. split; [lia|]. intros. split; reflexivity. Qed.
(** A history as in the node: the goal is applied, parameters arrive, pose and goal (25 m high) are handed over, the yaw cost is changed from 3 to 4. It meets the conditions of
    C116_latest_configuration_in_force and of C116_goal_altitude_kept_refuted: the goal is then 3.5 m high. *)
Definition ex_conf (yaw : Rn) : lconfig Rn :=
  @LConf Rn 15%R (1 / 5)%R 25%R yaw 6000%R (17 / 2)%R 35%R (7 / 2)%R 5%R (1 / 2)%R 15%R 20%R 1%Z 10%R 3%R 40%R 8%Z 40%Z 2%R.
Definition ex_before : list (lc_op Rn Rn) :=
  [LApply; LReconf (ex_conf 3%R); LState (V3 0 0 0 : vec3 Rn)%R (V3 1 0 0 : vec3 Rn)%R 0%R 0%R; LFirmware (@LPx4 Rn 1 3 5 8)%R 5%R].
Definition ex_goal : vec3 Rn := V3 (10 : Rn)%R (20 : Rn)%R (25 : Rn)%R.
Example C116_example :
  latest reconf_of (ex_before ++ [LGoal ex_goal; LReconf (ex_conf 4%R)] ++ []) = Some (ex_conf 4%R) /\
  existsb is_goal ex_before = true /\ existsb is_state ex_before = true /\
  (exists s, lc_after Rn Rn Rtrig (fun x => x) (fun x => x) (fun _ => 0%R) (fun _ => 0%Z) (fun _ => 0%Z) (fun _ => 0%Z) (fun _ => None) 0%R
     (ex_before ++ [LGoal ex_goal; LReconf (ex_conf 4%R)] ++ []) = Some s) /\ eqb Rn (vz ex_goal) (dc_goal_z (ex_conf 4%R)) = false.
Proof.
  split; [reflexivity|]. split; [reflexivity|]. split; [reflexivity|]. split; [eexists; reflexivity|]. cbn. unfold R_eqb. destruct (Req_EM_T 25 (7 / 2)); [lra|reflexivity].
Qed.
