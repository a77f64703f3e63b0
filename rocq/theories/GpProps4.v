(** Properties C88, C91, C92, C93: following a global path, path statistics, failed planning. *)
From Coq Require Import ZArith Reals List Bool Lia Lra Psatz.
From Flocq Require Import Core BinarySingleNaN.
From Verif Require Import Num Num64 F64Err CommonModel CommonSpec GpModel GpSearch GpPlan GpNode GpSpec GpPlanSpec GpNodeSpec GpProofs GpArith GpCellProofs
  GpMiscProofs GpCostProofs GpPlanProofs GpNodeProofs GpNodeProofs2 GpNodeProofs3 GpProps1 GpProps1b GpProps2 GpFollow GpStats.
Import ListNotations.
Local Open Scope R_scope.

(* ---------------------------------------------------------------------------------------------- C91 *)
(** C91. One message other than a planning cycle: the goal pose and the rest of the path stay, or a pose message closer to the goal pose than the speed has
    arrived, facing the right way, and the next pose takes over. *)
Theorem C91_advance :
  forall (N : num) (G : trig N) (fl cl rnd : N -> Z) (prob : N -> N) ltinf popS popO (C : ncfg N) fuel s e s' o,
  nstep N G fl cl rnd prob ltinf popS popO C fuel s e = Some (s', o) -> (forall t, e <> EPlan t) ->
  (ns_goal s' = ns_goal s /\ ns_path s' = ns_path s) \/
  (exists p q rest, e = EPose p /\ ns_path s = q :: rest /\ ns_goal s' = q /\ ns_path s' = rest /\
     ltb N (gdistance N (gp_pos (ns_goal s)) (gp_pos p)) (ns_speed s) = true /\ yawOk N (gp_yaw (ns_goal s)) (gp_yaw p) = true).
Proof. intros N G fl cl rnd prob ltinf popS popO C fuel s e s' o. apply step_follow. Qed.
Print Assumptions C91_advance.
(** Any history between two planning cycles: the goal pose and what follows are a non-empty tail of what they were, with at most one pose used up per pose
    message; the last pose of the path is never dropped. *)
Theorem C91_in_order :
  forall (N : num) (G : trig N) (fl cl rnd : N -> Z) (prob : N -> N) ltinf popS popO (C : ncfg N) fuel es s s' o,
  (forall t, ~ In (EPlan t) es) -> nrun N G fl cl rnd prob ltinf popS popO C fuel s es = Some (s', o) ->
  exists k, (k <= length (poses_of es))%nat /\ (k <= length (ns_path s))%nat /\ ns_goal s' :: ns_path s' = skipn k (ns_goal s :: ns_path s).
Proof.
  intros N G fl cl rnd prob ltinf popS popO C fuel es s s' o H. apply (run_follow N G fl cl rnd prob ltinf popS popO C).
  apply forallb_forall. intros e He. destruct e; try reflexivity. exfalso. eapply H. exact He.
Qed.
Print Assumptions C91_in_order.
Definition ex_path3 : list (gpose F64) := map (fun x => GP (V3 (g64 x 1) (g64 0 1) (g64 3 1)) (g64 0 1)) [4; 6; 8]%Z.
Definition ex_s3 : nstate F64 :=
  NS ex_pl [] ex_path3 (GP (V3 (g64 2 1) (g64 0 1) (g64 3 1)) (g64 0 1)) (GP ex_zero (g64 0 1)) (GP ex_zero (g64 0 1)) (g64 1 1).
Definition left_of (r : option (nstate F64 * list (nout F64))) : nat := match r with Some (s, _) => length (ns_path s) | None => 9%nat end.
(** poses at 0, 1.5 and 3.5 metres: only the last two are near the current goal pose (2 m, then 4 m) *)
Example C91_example :
  left_of (nrun F64 trig0 f64_fl f64_cl f64_rnd ex_prob ltinf64 (pop_min F64) (pop_min F64) ex_C 1 ex_s3
    (map (fun x => EPose (GP (V3 (g64 x 2) (g64 0 1) (g64 3 1)) (g64 3 1))) [0; 3; 7]%Z)) = 1%nat.
Proof. vm_compute. reflexivity. Qed.
(** "Facing the right way" means nothing: every pair of headings passes, except exactly opposite ones. So a pose message near the goal pose moves the vehicle
    on although it looks the other way. *)
Theorem C91_heading_refuted :
  forall y1 y2 : R, - PI <= y1 <= PI -> - PI <= y2 <= PI -> (yawOk Rn y1 y2 = false <-> Rabs (y2 - y1) = PI).
Proof.
  intros y1 y2 H1 H2. unfold yawOk. cbv zeta. rn. tR. unfold Rfloor. pose proof PI_RGT_0 as HP.
  set (d := Rabs (y2 - y1)). assert (Hd : 0 <= d <= 2 * PI) by (unfold d; split; [apply Rabs_pos|apply Rabs_le; lra]).
  replace (PI / 1) with PI by field.
  destruct (Req_dec d (2 * PI)) as [E|E].
  - rewrite E. replace (2 * PI / (2 * PI)) with 1 by (field; lra). rewrite (Zfloor_IZR 1).
    replace (2 * PI - 1 * (2 * PI)) with 0 by ring. split; [|intros; lra].
    replace (R_ltb 0 PI) with true by (symmetry; apply R_ltb_true; exact HP). discriminate.
  - replace (Zfloor (d / (2 * PI))) with 0%Z.
    2:{ symmetry. apply Zfloor_imp. cbn [Z.add IZR]. split; [apply Rmult_le_pos; [lra|left; apply Rinv_0_lt_compat; lra]|].
        apply (Rmult_lt_reg_r (2 * PI)); [lra|]. unfold Rdiv. rewrite Rmult_assoc, Rinv_l by lra. change (0 + 1)%Z with 1%Z. lra. }
    replace (d - 0 * (2 * PI)) with d by ring. replace (2 * PI - PI) with PI by ring.
    destruct (R_ltb_spec d PI), (R_ltb_spec PI d); cbn; split; intros; try discriminate; try reflexivity; lra.
Qed.
Print Assumptions C91_heading_refuted.
Example C91_heading_example : yawOk Rn 0 3 = true.
Proof.
  destruct (yawOk Rn 0 3) eqn:E; [reflexivity|]. pose proof PI2_3_2 as P2. unfold PI2 in P2. pose proof (C91_heading_refuted 0 3) as H.
  pose proof PI_4. exfalso.
  assert (3 < PI) by (rewrite <- Rmult_1_l; lra).
  apply H in E; [|lra|lra]. rewrite Rminus_0_r, Rabs_right in E; lra.
Qed.

(* ---------------------------------------------------------------------------------------------- C88 *)
(** C88. A planning cycle that fails because the vehicle's own cell is occupied does not leave the vehicle on its way: the old path is published again from
    its beginning, and the goal pose is set back to the second cell of the old path, wherever the vehicle is by now. *)
Theorem C88_sent_back_refuted :
  (forall (N : num) (G : trig N) (fl cl rnd : N -> Z) (prob : N -> N) ltinf popS popO (C : ncfg N) fuel touched s a b l,
   let g := ns_pl s in let P := nc_gp C in
   withinPositionRadius N (cell_scale P) (g_goal g) (g_pos g) = false -> g_goal_blocked g = false ->
   (goal_must_be_free P = true -> getRiskC N cl rnd prob P (g_map g) (g_cache g) (gc_cell (g_goal g)) <> None) ->
   isOccupied N rnd prob P (g_map g) (cell_of N fl (cell_scale P) (g_pos g)) = true -> g_path g = a :: b :: l ->
   exists s' o, nstep N G fl cl rnd prob ltinf popS popO C fuel s (EPlan touched) = Some (s', o) /\ g_path (ns_pl s') = a :: b :: l /\ ns_pos s' = ns_pos s /\
     gp_pos (ns_goal s') = centre N (cell_scale P) b).
Proof. intros N G fl cl rnd prob ltinf popS popO C fuel touched s a b l. apply failed_plan. Qed.
Print Assumptions C88_sent_back_refuted.
(** The run of C52_example, then the vehicle flies to (3.5, 1.5), then a map with an obstacle where it is, then a planning cycle: the goal pose goes back to
    cell (0,0,3). *)
Definition ex_tree4 (c : gcell) : option F64 := if ceq c (C3 3 1 3) then Some (g64 4 1) else Some (g64 (-4) 1).
Definition ex_events4 : list (nev F64) :=
  ex_events ++ map (fun q => EPose (GP (V3 (g64 (fst q) 2) (g64 (snd q) 2) (g64 7 2)) (g64 0 1))) [(1, 1); (3, 3); (5, 3); (7, 3)]%Z.
Definition goal_cell_of (r : option (nstate F64 * list (nout F64))) : option gcell :=
  match r with Some (s, _) => Some (cell_of F64 f64_fl (g64 1 1) (gp_pos (ns_goal s))) | None => None end.
Definition ex_prob4 (l : F64) : F64 := if ltb F64 (g64 0 1) l then g64 9999 10000 else g64 2 100.
Definition ex_run4 (s : nstate F64) (es : list (nev F64)) : option (nstate F64 * list (nout F64)) :=
  nrun F64 trig0 f64_fl f64_cl f64_rnd ex_prob4 ltinf64 (pop_min F64) (pop_min F64) ex_C2 20 s es.
Definition ex_both (es1 es2 : list (nev F64)) : list gcell * option gcell * option gcell :=
  let r := ex_run4 ex_init2 es1 in
  (fst (path_of r), goal_cell_of r, match r with Some (s, _) => goal_cell_of (ex_run4 s es2) | None => None end).
Example C88_example :
  ex_both ex_events4 [EMap true (Some ex_tree4) (g64 1 1); EPlan []] =
  ([C3 0 0 3; C3 0 0 3; C3 1 1 3; C3 2 1 3; C3 3 1 3; C3 4 0 3], Some (C3 4 0 3), Some (C3 0 0 3)).
Proof. vm_compute. reflexivity. Qed.
(** With no other goal left and the goal blocked, the vehicle is told to stop (the path becomes its present cell); but a path of one cell changes nothing of
    where it is heading: it flies on to the old goal pose. *)
Theorem C88_stop_refuted :
  forall (N : num) (G : trig N) (fl cl rnd : N -> Z) (prob : N -> N) ltinf popS popO (C : ncfg N) fuel touched s,
  let g := ns_pl s in let P := nc_gp C in let here := cell_of N fl (cell_scale P) (g_pos g) in
  g_goal_blocked g = true -> ns_wps s = [] ->
  (goal_must_be_free P = true -> getRiskC N cl rnd prob P (g_map g) (g_cache g) here <> None) ->
  isOccupied N rnd prob P (g_map g) here = true ->
  exists s' o, nstep N G fl cl rnd prob ltinf popS popO C fuel s (EPlan touched) = Some (s', o) /\ g_path (ns_pl s') = [here] /\
    ns_goal s' = ns_goal s /\ ns_path s' = [].
Proof. intros N G fl cl rnd prob ltinf popS popO C fuel touched s. apply stop_keeps_goal. Qed.
Print Assumptions C88_stop_refuted.
Definition ex_s5 : nstate F64 :=
  NS (GPl (GMap (Some ex_tree4) (Some (g64 1 1)) []) [] [] (V3 (g64 7 2) (g64 3 2) (g64 7 2)) (g64 0 1) ex_zero (GC (C3 4 0 3) (g64 1 1) false) false true false
        (g64 1 1) ex_detour 2000) [] ex_path3 (GP ex_zero (g64 0 1)) (GP ex_zero (g64 0 1)) (GP ex_zero (g64 0 1)) (g64 1 1).
Example C88_stop_example :
  g_goal_blocked (ns_pl ex_s5) = true /\ ns_wps ex_s5 = [] /\
  match getRiskC F64 f64_cl f64_rnd ex_prob4 ex_P2 (g_map (ns_pl ex_s5)) [] (C3 3 1 3) with Some _ => true | None => false end = true /\
  isOccupied F64 f64_rnd ex_prob4 ex_P2 (g_map (ns_pl ex_s5)) (cell_of F64 f64_fl (cell_scale ex_P2) (g_pos (ns_pl ex_s5))) = true.
Proof. split; [reflexivity|]. split; [reflexivity|]. split; vm_compute; reflexivity. Qed.

(* ---------------------------------------------------------------------------------------------- C92 *)
(** C92. Over the reals: the length of a path is the length of its polygon and at least the straight distance; the energy adds the climbs. *)
Theorem C92_length :
  forall (a : gpose Rn) (l : list (gpose Rn)) (up : R), 0 <= up ->
  pathLength Rn (a :: l) = polyline (map gp_pos (a :: l)) /\
  edist (gp_pos a) (gp_pos (last l a)) <= pathLength Rn (a :: l) /\
  pathEnergy Rn (a :: l) up = pathLength Rn (a :: l) + up * climb (map gp_pos (a :: l)) /\
  vz (gp_pos (last l a)) - vz (gp_pos a) <= climb (map gp_pos (a :: l)) /\ 0 <= climb (map gp_pos (a :: l)).
Proof.
  intros a l up Hu.
  assert (E : pathLength Rn (a :: l) = polyline (map gp_pos (a :: l))).
  { unfold pathLength. rn. rewrite length_from. tR. apply Rplus_0_l. }
  split; [exact E|]. split; [|split; [|split; [|apply climb_nonneg]]].
  - tR. rewrite E. clear. cbn [map]. replace (gp_pos (last l a)) with (last (map gp_pos l) (gp_pos a)); [apply polyline_straight|].
    revert a. induction l as [|b l IH]; intros a; [reflexivity|]. cbn [map]. rewrite !last_cons_eq. apply IH.
  - unfold pathEnergy. rn. rewrite energy_from by exact Hu. tR. rewrite E. cbn [map]. ring.
  - revert a E. induction l as [|b l IH]; intros a _; [cbn; tR; lra|]. rewrite last_cons_eq. specialize (IH b).
    assert (X : vz (gp_pos (last l b)) - vz (gp_pos b) <= climb (map gp_pos (b :: l))).
    { apply IH. unfold pathLength. rn. rewrite length_from. tR. apply Rplus_0_l. }
    change (climb (map gp_pos (a :: b :: l))) with (Rmax 0 (vz (gp_pos b) - vz (gp_pos a)) + climb (map gp_pos (b :: l))).
    pose proof (Rmax_r 0 (vz (gp_pos b) - vz (gp_pos a))). tR. lra.
Qed.
Print Assumptions C92_length.
(** Reducing a path to its corners keeps the first and the last pose, only drops poses, and keeps the length. *)
Theorem C92_corners :
  (forall (a b : gpose Rn) (l : list (gpose Rn)), pathLength Rn (filterPathCorners Rn (a :: b :: l)) = pathLength Rn (a :: b :: l)) /\
  (forall (N : num) (a b : gpose N) l, subseq (filterPathCorners N (a :: b :: l)) (a :: b :: l) /\
     hd_error (filterPathCorners N (a :: b :: l)) = Some a /\ forall z, last (filterPathCorners N (a :: b :: l)) z = last (b :: l) a).
Proof.
  split.
  - intros a b l. unfold pathLength. rn. rewrite !length_from. f_equal. unfold filterPathCorners.
    rewrite map_cons, map_app. rewrite last_cons_eq. change (map gp_pos [last (b :: l) a]) with [gp_pos (last (b :: l) a)].
    rewrite (corners_length l (gp_pos a) a b 0); [|repeat split; tR; lra]. rewrite edist_refl. apply Rplus_0_l.
  - intros N a b l. unfold filterPathCorners. rewrite last_cons_eq.
    destruct (corners_subseq (b :: l) a) as (m & -> & S). split; [|split].
    + apply ss_keep. exact S.
    + reflexivity.
    + intros z. rewrite last_cons_eq. apply last_last.
Qed.
Print Assumptions C92_corners.
(** The kinetic measure is not negative, and zero exactly if the speed along each axis never changes; turning around costs nothing. *)
Theorem C92_kinetic :
  forall l : list (gpose Rn), 0 <= pathKineticEnergy Rn l /\ (pathKineticEnergy Rn l = 0 <-> linked same_speeds (velocities Rn l)).
Proof.
  intros l. unfold pathKineticEnergy. destruct (Nat.ltb_spec (length l) 3) as [H|H].
  - rn. tR. split; [lra|]. destruct l as [|a [|b [|c l]]]; cbn in *; try lia; tauto.
  - apply kinetic_R.
Qed.
Print Assumptions C92_kinetic.
(** A path of a single pose doubles. *)
Theorem C92_single_pose_refuted : forall (N : num) (a : gpose N), filterPathCorners N [a] = [a; a].
Proof. reflexivity. Qed.
Print Assumptions C92_single_pose_refuted.
Definition exR_poses : list (gpose Rn) := map (fun q => GP (V3 (IZR (fst q)) 0 (IZR (snd q)) : vec3 Rn) (0 : Rn)) [(0, 0); (3, 4); (6, 8); (9, 12); (9, 10)]%Z.
Example C92_example : pathLength Rn exR_poses = 17.
Proof.
  unfold pathLength, exR_poses. rn. rewrite length_from. cbn [map fst snd gp_pos polyline]. unfold edist. cbn [vx vy vz].
  replace ((3 - 0) ^ 2 + (0 - 0) ^ 2 + (4 - 0) ^ 2) with (5 * 5) by ring.
  replace ((6 - 3) ^ 2 + (0 - 0) ^ 2 + (8 - 4) ^ 2) with (5 * 5) by ring.
  replace ((9 - 6) ^ 2 + (0 - 0) ^ 2 + (12 - 8) ^ 2) with (5 * 5) by ring.
  replace ((9 - 9) ^ 2 + (0 - 0) ^ 2 + (10 - 12) ^ 2) with (2 * 2) by ring.
  rewrite !sqrt_square by lra. tR. ring.
Qed.
