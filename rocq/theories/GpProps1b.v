(** Properties C54, C55, C57, C60: the global planner's cells, paths, curves and costs. *)
From Coq Require Import ZArith Reals List Bool Lia Lra.
From Flocq Require Import Core BinarySingleNaN.
From Verif Require Import Num Num64 F64Err CommonModel CommonSpec GpModel GpSearch GpPlan GpNode GpSpec GpPlanSpec GpProofs GpArith GpCellProofs GpMiscProofs
  GpCostProofs GpPlanProofs GpF64.
Import ListNotations.
Local Open Scope R_scope.
From Verif Require Import GpProps1.

(* ---------------------------------------------------------------------------------------------- C54 *)
(** C54. The sampled curve has num_steps + 1 points, starts at the first and ends at the last control point, and stays in every box that contains the control points. *)
Theorem C54_bezier :
  forall (p0 p1 p2 : vec3 Rn) n, (1 <= n)%Z ->
  let l := threePointBezier Rn p0 p1 p2 n in
  length l = Z.to_nat (n + 1) /\ hd p1 l = p0 /\ last l p1 = p2 /\
  (forall lo hi, in_box lo hi p0 -> in_box lo hi p1 -> in_box lo hi p2 -> forall q, In q l -> in_box lo hi q).
Proof. intros. apply three_spec. assumption. Qed.
Print Assumptions C54_bezier.
(** Smoothing a path keeps its first and last pose and stays in every box that contains the path. *)
Theorem C54_smooth_path :
  forall (l : list (gpose Rn)) d,
  hd d (smoothPath Rn l) = hd d l /\ last (smoothPath Rn l) d = last l d /\
  (forall lo hi, (forall p, In p l -> in_box lo hi (gp_pos p)) -> forall q, In q (smoothPath Rn l) -> in_box lo hi (gp_pos q)).
Proof. exact smoothPath_spec. Qed.
Print Assumptions C54_smooth_path.
(** every inner pose gets the yaw of the first pose *)
Theorem C54_smooth_yaw :
  forall (l : list (gpose Rn)) f, (3 <= length l)%nat -> hd_error l = Some f ->
  forall q, In q (smoothPath Rn l) -> q = last l f \/ gp_yaw q = gp_yaw f.
Proof.
  intros l f Hl Hf q. destruct l as [|a [|b [|c l]]]; try (cbn in Hl; lia). injection Hf as ->. unfold smoothPath.
  intros [<-|H]; [right; reflexivity|]. apply in_app_iff in H. destruct H as [H|[<-|[]]]; [right|left; reflexivity].
  pose (lo := V3 0 0 0 : vec3 Rn).
  assert (E : forall m, In q (smooth_turns Rn f m) -> gp_yaw q = gp_yaw f).
  { clear. intros m. revert q. induction m as [|x [|y [|z m]] IH]; cbn [smooth_turns]; intros q H; [destruct H|destruct H|destruct H|].
    apply in_app_iff in H. destruct H as [H|H]; [|apply IH; exact H]. apply in_map_iff in H. destruct H as (p & <- & _). reflexivity. }
  apply (E _ H).
Qed.
Print Assumptions C54_smooth_yaw.
(** The function meant to give the acceleration of a curve of the given duration does not depend on the duration: it multiplies by it instead of dividing twice. *)
Theorem C54_acceleration_refuted :
  forall p0 p1 p2 d : Rn, d <> 0 ->
  quadraticBezierAcc Rn p0 p1 p2 d = 2 * (p2 - 2 * p1 + p0) /\
  (p2 - 2 * p1 + p0 <> 0 -> d <> 1 -> d <> -1 -> quadraticBezierAcc Rn p0 p1 p2 d <> 2 * (p2 - 2 * p1 + p0) / (d * d)).
Proof.
  intros p0 p1 p2 d Hd. tR. assert (E : quadraticBezierAcc Rn p0 p1 p2 d = 2 * (p2 - 2 * p1 + p0)).
  { unfold quadraticBezierAcc. rn. tR. field. exact Hd. }
  split; [exact E|]. intros Ha H1 H2 X. rewrite E in X. set (a := p2 - 2 * p1 + p0) in *.
  assert (a * (d * d) = a). { assert (Y : 2 * a * (d * d) = 2 * a / (d * d) * (d * d)) by congruence. replace (2 * a / (d * d) * (d * d)) with (2 * a) in Y by (field; exact Hd). lra. }
  assert (a * ((d - 1) * (d + 1)) = 0) by (ring_simplify; replace (a * d ^ 2) with (a * (d * d)) by ring; lra).
  apply Rmult_integral in H0. destruct H0 as [H0|H0]; [contradiction|]. apply Rmult_integral in H0. destruct H0; lra.
Qed.
Print Assumptions C54_acceleration_refuted.
(** The three curve pieces between two points join up: each starts where the one before ended, all control points lie on the segment between the points. *)
Theorem C54_two_point_chain :
  forall (a b : vec3 Rn) acc vel, 0 < acc -> 0 < vel -> 0 < gdistance Rn a b ->
  exists m1 m2 d1 d2, bezierFromTwoPoints Rn a b acc vel = [BM a a m1 d1; BM m1 (middlePoint Rn a b) m2 d2; BM m2 b b d1] /\
    d1 = vel / acc /\ d2 = gdistance Rn m1 m2 / vel /\
    exists r, 0 <= r <= 1 / 2 /\ m1 = interpolate Rn a b r /\ m2 = interpolate Rn b a r.
Proof.
  intros a b acc vel Ha Hv Hd. unfold bezierFromTwoPoints. cbv zeta. do 4 eexists. split; [reflexivity|]. split; [reflexivity|]. split; [reflexivity|].
  eexists. split; [|split; reflexivity]. rewrite minv_Rn, cst_Rn. rn. tR.
  split; [|eapply Rle_trans; [apply Rmin_l|lra]].
  apply Rmin_glb; [lra|]. apply Rmult_le_pos; [|left; apply Rinv_0_lt_compat; exact Hd].
  assert (0 <= vel / acc) by (apply Rmult_le_pos; [lra|left; apply Rinv_0_lt_compat; lra]). apply Rmult_le_pos; [|lra].
  apply Rmult_le_pos; lra.
Qed.
Print Assumptions C54_two_point_chain.
Example C54_example : threePointBezier Rn (V3 0 0 1) (V3 1 0 1) (V3 1 1 1) 2 = [V3 0 0 1; V3 (3 / 4) (1 / 4) 1; V3 1 1 1].
Proof. unfold threePointBezier. replace (ints 0 2) with [0; 1; 2]%Z by reflexivity. cbn [map vx vy vz].
  assert (V : forall a b c a' b' c' : R, a = a' -> b = b' -> c = c' -> (V3 a b c : vec3 Rn) = V3 a' b' c') by (intros; subst; reflexivity).
  rewrite !bezier_R; rn; tR. f_equal; [apply V; field|f_equal; [apply V; field|f_equal; apply V; field]]. Qed.

(* ---------------------------------------------------------------------------------------------- C55 *)
(** C55. The combined probability is in [0,1) and grows with both arguments. *)
Theorem C55_posterior :
  forall p q p' q' : Rn, 0 <= p <= p' -> p' <= 1 -> 0 <= q <= q' -> q' <= 1 ->
  0 <= posterior Rn p q < 1 /\ posterior Rn p q <= posterior Rn p' q'.
Proof. intros p q p' q' A B C D. split; [apply posterior_range; tR; lra|apply posterior_mono; tR; lra]. Qed.
Print Assumptions C55_posterior.
(** Above the table the altitude prior is the last entry, inside it the entry of the rounded height. *)
Theorem C55_altitude_prior :
  forall (P : gcfg Rn) c, let h := ZnearestA (cell_scale P * (IZR (cz c) + / 2)) in
  (- 2 ^ 31 <= h < 2 ^ 31)%Z ->
  ((24 < h)%Z -> getAltPrior Rn Rrnd P c = 10 / 10000) /\
  ((0 <= h <= 24)%Z -> getAltPrior Rn Rrnd P c = IZR (nth (Z.to_nat h) alt_prior_table 0%Z) / 10000) /\
  0 <= getAltPrior Rn Rrnd P c <= 1.
Proof.
  intros P c h Hb. split; [|split].
  - intros H. unfold getAltPrior. cbv zeta. rewrite pos1_R. change (Rrnd (cell_scale P * (IZR (cz c) + / 2))) with h.
    replace (Z.of_nat (length alt_prior_table) - 1)%Z with 24%Z by reflexivity.
    rewrite Z.mod_small by lia. replace (24 <? h)%Z with true by (symmetry; apply Z.ltb_lt; lia). rewrite cst_Rn. cbn. reflexivity.
  - intros H. unfold getAltPrior. cbv zeta. rewrite pos1_R. change (Rrnd (cell_scale P * (IZR (cz c) + / 2))) with h.
    replace (Z.of_nat (length alt_prior_table) - 1)%Z with 24%Z by reflexivity.
    rewrite Z.mod_small by lia. replace (24 <? h)%Z with false by (symmetry; apply Z.ltb_ge; lia).
    replace (h <? 0)%Z with false by (symmetry; apply Z.ltb_ge; lia). rewrite cst_Rn. reflexivity.
  - apply unitv_R. apply (altPrior_range Rn anyinf arithR).
Qed.
Print Assumptions C55_altitude_prior.
(** Below the table the clamp to the first entry is never reached: the comparison with the unsigned size turns a negative height into a huge one and the
    prior of the highest altitude (0.001 instead of 1) is used. *)
Theorem C55_below_ground_refuted :
  forall (P : gcfg Rn) c, let h := ZnearestA (cell_scale P * (IZR (cz c) + / 2)) in
  (- 2 ^ 31 <= h < 0)%Z -> getAltPrior Rn Rrnd P c = 10 / 10000 /\ IZR (hd 0%Z alt_prior_table) / 10000 = 1.
Proof.
  intros P c h Hb. split; [|cbn; lra]. unfold getAltPrior. cbv zeta. rewrite pos1_R. change (Rrnd (cell_scale P * (IZR (cz c) + / 2))) with h.
  replace (Z.of_nat (length alt_prior_table) - 1)%Z with 24%Z by reflexivity.
  replace (h mod 2 ^ 64)%Z with (h + 2 ^ 64)%Z.
  2:{ apply Z.mod_unique with (-1)%Z; [left; lia|lia]. }
  replace (24 <? h + 2 ^ 64)%Z with true by (symmetry; apply Z.ltb_lt; lia). rewrite cst_Rn. cbn. reflexivity.
Qed.
Print Assumptions C55_below_ground_refuted.
(** Every risk is non-negative, in the reals and with the doubles of the program (there: or NaN), for every map, cache and parameters from the allowed ranges. *)
Theorem C55_risk_nonneg :
  forall (prob : Rn -> Rn) (P : gcfg Rn) m k c, sane P -> prob_ok prob -> cache_nonneg k -> 0 <= effRisk Rn Rcl Rrnd prob P m k c.
Proof. intros. apply nneg_R. eapply (effRisk_nonneg Rn anyinf arithR); eauto. Qed.
Print Assumptions C55_risk_nonneg.
Theorem C55_risk_nonneg_double :
  forall (prob : F64 -> F64) (P : gcfg F64) m k c, sane P -> prob_ok prob -> cache_nonneg k ->
  ltb F64 (effRisk F64 f64_cl f64_rnd prob P m k c) (ofZ F64 0) = false.
Proof. intros. eapply (effRisk_nonneg F64 ltinf64 arith64); eauto. Qed.
Print Assumptions C55_risk_nonneg_double.
Definition exR_P : gcfg Rn :=
  @GCfg Rn 1 5 KNode 1 10 (1/5) 20 3 500 1 (5/1000) 5 1 (1/2) (103/100) 2 (1/2) 1 3 true true true true true (1/2).
Example C55_example : ZnearestA (1 * (IZR 3 + / 2)) = 4%Z /\ ZnearestA (1 * (IZR (-2) + / 2)) = (-2)%Z /\
  getAltPrior Rn Rrnd exR_P (C3 0 0 3) = 833 / 10000.
Proof.
  assert (E : ZnearestA (1 * (IZR 3 + / 2)) = 4%Z).
  { replace (1 * (IZR 3 + / 2)) with (7 / 2) by lra. unfold ZnearestA, Znearest.
    replace (Zfloor (7 / 2)) with 3%Z by (symmetry; apply Zfloor_imp; simpl; lra). replace (Zceil (7 / 2)) with 4%Z by (symmetry; apply Zceil_imp; simpl; lra).
    rewrite Rcompare_Eq by lra. reflexivity. }
  split; [exact E|]. split.
  - replace (1 * (IZR (-2) + / 2)) with (- (3 / 2)) by lra. unfold ZnearestA, Znearest.
    replace (Zfloor (- (3 / 2))) with (-2)%Z by (symmetry; apply Zfloor_imp; simpl; lra). replace (Zceil (- (3 / 2))) with (-1)%Z by (symmetry; apply Zceil_imp; simpl; lra).
    rewrite Rcompare_Eq by lra. reflexivity.
  - pose proof (C55_altitude_prior exR_P (C3 0 0 3)) as H. cbv zeta in H.
    change (cell_scale exR_P * (IZR (cz (C3 0 0 3)) + / 2)) with (1 * (IZR 3 + / 2)) in H. rewrite E in H.
    destruct H as (_ & H & _); [lia|]. rewrite H by lia. reflexivity.
Qed.

(* ---------------------------------------------------------------------------------------------- C57 *)
(** C57. The path message has one pose per path cell, in order, at the cell's centre; a pose looks towards the next cell whenever that is not straight above or
    below. For doubles as for reals. *)
Theorem C57_path_message :
  forall (N : num) (G : trig N) (P : gcfg N) (g : gplanner N) p,
  map gp_pos (getPathMsg N G P g p) = map (centre N (cell_scale P)) p /\ length (getPathMsg N G P g p) = length p /\
  (forall i c d, nth_error p i = Some c -> nth_error p (S i) = Some d -> (cx c <> cx d \/ cy c <> cy d)%Z ->
     match nth_error (getPathMsg N G P g p) i with
     | Some q => gp_yaw q = t_atan2 G (ofZ N (cy d - cy c)) (ofZ N (cx d - cx c))
     | None => False
     end).
Proof.
  intros. unfold getPathMsg. split; [apply path_poses_spec|]. split.
  - rewrite <- (map_length gp_pos), path_poses_spec, map_length. reflexivity.
  - intros i c d A B D. eapply path_poses_yaw; eauto. exact (GP (V3 (ofZ N 0) (ofZ N 0) (ofZ N 0)) (ofZ N 0)).
Qed.
Print Assumptions C57_path_message.
Example C57_example :
  map (fun q => (f64_rnd (mul F64 (ofZ F64 10) (vx (gp_pos q))), f64_rnd (mul F64 (ofZ F64 10) (vz (gp_pos q))))) (getPathMsg F64 trig0 ex_P ex_pl [C3 0 0 3; C3 1 0 3; C3 1 0 4]) =
  [(5, 35); (15, 35); (15, 45)]%Z.
Proof. vm_compute. reflexivity. Qed.

(* ---------------------------------------------------------------------------------------------- C60 *)
(** C60. Edge costs are not negative: over the reals, and with doubles (there: or NaN, which the search ignores). *)
Theorem C60_edge_cost_nonneg :
  forall (G : trig Rn) (P : gcfg Rn) (risk : gcell -> Rn) pos vel u v c, sane P -> (forall c, 0 <= risk c) ->
  getEdgeCost Rn G Rfl P risk pos vel u v = Some c -> 0 <= getEdgeDist Rn P (n_cell u) (n_cell v) <= c.
Proof.
  intros G P risk pos vel u v c HP Hr H. assert (Hr' : forall c, nneg (risk c)) by (intros; apply nneg_R; auto).
  split; [apply nneg_R, (edgeDist_nonneg Rn anyinf arithR); exact HP|].
  apply (edgeCost_parts Rn anyinf arithR) in H; auto. destruct H as (r & s & A & B & ->). apply nneg_R in A, B. rn. tR. lra.
Qed.
Print Assumptions C60_edge_cost_nonneg.
Theorem C60_edge_cost_nonneg_double :
  forall (G : trig F64) (P : gcfg F64) (risk : gcell -> F64) pos vel u v c, sane P -> (forall c, nneg (risk c)) ->
  getEdgeCost F64 G f64_fl P risk pos vel u v = Some c -> ltb F64 c (ofZ F64 0) = false.
Proof. intros. eapply (edgeCost_nonneg F64 ltinf64 arith64); eauto. Qed.
Print Assumptions C60_edge_cost_nonneg_double.
(** For moves to adjacent cells and cells of at least one metre, octile distance plus altitude heuristic never exceeds the distance-and-climb cost of any path
    to the goal, hence never the full cost. *)
Theorem C60_heuristic_admissible :
  forall (G : trig Rn) (P : gcfg Rn) (risk : gcell -> Rn) pos vel k g l p u x, sane P -> (forall c, 0 <= risk c) -> 1 <= cell_scale P ->
  linked adjacent (u :: l) -> last (u :: l) u = g -> path_cost G P risk pos vel k p u l = Some x ->
  diagDistance2D Rn (cell_scale P) u g + altitudeHeuristic Rn P u g <= path_dist P u l <= x.
Proof.
  intros. split; [apply heur_admissible; auto|]. eapply GpPlanProofs.path_cost_dist; eauto. intros; apply nneg_R; auto.
Qed.
Print Assumptions C60_heuristic_admissible.
(** Two ways in which the distance heuristics overestimate. (1) The default node type SpeedNode offers moves like two cells ahead and one aside, whose length
    sqrt(5) is less than their octile distance. (2) For cells smaller than a metre (the parameter goes down to 0.5) the altitude heuristic counts cells where
    the cost counts metres. *)
Theorem C60_heuristic_overestimates_refuted :
  (let u := C3 0 0 3 in let v := C3 2 1 3 in
   In (Nd KSpeed v u) (getNeighbors Rn 1 5 (Nd KSpeed u (C3 (-1) 0 3))) /\
   getEdgeDist Rn exR_P u v < diagDistance2D Rn (cell_scale exR_P) u v + altitudeHeuristic Rn exR_P u v) /\
  (forall (P : gcfg Rn) u, sane P -> cell_scale P < 1 -> 0 < up_cost P -> let v := C3 (cx u) (cy u) (cz u + 1) in
   adjacent u v /\ getEdgeDist Rn P u v < altitudeHeuristic Rn P u v).
Proof.
  assert (HP : sane exR_P).
  { split; unfold nneg; cbn -[Rn IZR]; rn; try (apply R_ltb_false; lra). apply R_ltb_true; lra. }
  split.
  - cbv zeta. split.
    + unfold getNeighbors. cbn [n_kind]. right. apply in_map_iff. exists (C3 2 1 3). split; [reflexivity|].
      apply filter_In. split; [cbn; auto 20|]. cbn [n_cell].
      assert (E : distance3D Rn 1 (C3 0 0 3) (C3 2 1 3) = sqrt 5).
      { unfold distance3D, sq. rewrite !pos1_R. rn. cbn [cx cy cz]. tR. f_equal. field. }
      rewrite E. rn. apply andb_true_intro. split; apply R_ltb_true.
      * apply sqrt_lt_R0. lra.
      * rewrite <- (sqrt_square 5) at 2 by lra. apply sqrt_lt_1; lra.
    + pose proof (scale_pos exR_P HP) as Hs.
      rewrite (diag_R exR_P HP). unfold getEdgeDist, altitudeHeuristic. rewrite distance2D_R by (left; exact Hs). rewrite !maxv_Rn, !pos1_R. cbn [cx cy cz].
      change (cell_scale exR_P) with 1. change (up_cost exR_P) with 5. change (down_cost exR_P) with 1.
      replace (0 <? 3 - 3)%Z with false by reflexivity. rn. tR.
      replace (3 - 3)%Z with 0%Z by reflexivity. replace (0 - 2)%Z with (-2)%Z by reflexivity. replace (0 - 1)%Z with (-1)%Z by reflexivity.
      rewrite !Rabs_R0. replace (IZR (-2)) with (- (2)) by (rewrite <- opp_IZR; reflexivity). replace (IZR (-1)) with (- (1)) by (rewrite <- opp_IZR; reflexivity).
      rewrite !Rabs_Ropp, !(Rabs_pos_eq 2), !(Rabs_pos_eq 1) by lra. rewrite Rmin_right by lra.
      rewrite (Rmax_left _ 0) by lra. rewrite (Rmax_left _ 0) by lra.
      assert (S5 : sqrt ((- (2)) ^ 2 + (- (1)) ^ 2) < 9 / 4).
      { rewrite <- (sqrt_pow2 (9 / 4)) by lra. apply sqrt_lt_1; lra. }
      lra.
  - intros P u HP' Hs Hu v. split.
    + split; [intros E; destruct u; unfold v in E; cbn in E; injection E; lia|right; unfold v; cbn; lia].
    + pose proof (scale_pos P HP') as H0. unfold getEdgeDist, altitudeHeuristic, v. rewrite distance2D_R by (left; exact H0). rewrite !maxv_Rn, !pos1_R. cbn [cx cy cz].
      rewrite !Z.sub_diag. replace (cz u + 1 - cz u)%Z with 1%Z by lia. replace (0 <? 1)%Z with true by reflexivity. rn. tR.
      replace (0 ^ 2 + 0 ^ 2) with 0 by ring. rewrite sqrt_0, plus_IZR.
      replace (cell_scale P * (IZR (cz u) + 1 + / 2) - cell_scale P * (IZR (cz u) + / 2)) with (cell_scale P * 1) by ring.
      rewrite Rabs_pos_eq by lra. rewrite (Rmax_left _ 0) by lra. rewrite (Rmax_right _ 0) by lra. nra.
Qed.
Print Assumptions C60_heuristic_overestimates_refuted.
(** Equal nodes have equal hashes, equality is an equivalence, and the order used by the sorted containers is a strict total order compatible with it. *)
Theorem C60_node_equality_hash_order :
  (forall a b, n_kind a = n_kind b -> isEqual a b = true -> node_hash a = node_hash b) /\
  (forall a b, n_kind a = n_kind b -> (isEqual a b = true <-> n_cell a = n_cell b /\ (n_kind a <> KNoSmooth -> n_par a = n_par b))) /\
  (forall a, isSmaller a a = false) /\
  (forall a b c, isSmaller a b = true -> isSmaller b c = true -> isSmaller a c = true) /\
  (forall a b, isSmaller a b = true \/ (n_cell a = n_cell b /\ n_par a = n_par b) \/ isSmaller b a = true).
Proof.
  assert (S : forall a b, isSmaller a b = true <-> clt (n_cell a) (n_cell b) = true \/ n_cell a = n_cell b /\ clt (n_par a) (n_par b) = true).
  { intros a b. unfold isSmaller. rewrite orb_true_iff, andb_true_iff, ceq_spec. reflexivity. }
  split; [exact isEqual_hash|]. split; [exact isEqual_spec|]. split; [|split].
  - intros a. unfold isSmaller. rewrite !clt_irrefl, andb_false_r. reflexivity.
  - intros a b c. rewrite !S. intros [A|(A & A')] [B|(B & B')].
    + left. eapply clt_trans; eauto.
    + left. rewrite <- B. exact A.
    + left. rewrite A. exact B.
    + right. split; [congruence|eapply clt_trans; eauto].
  - intros a b. rewrite !S. destruct (clt_total (n_cell a) (n_cell b)) as [H|[H|H]]; auto.
    destruct (clt_total (n_par a) (n_par b)) as [K|[K|K]]; auto 6.
Qed.
Print Assumptions C60_node_equality_hash_order.
Example C60_example :
  linked adjacent [C3 0 0 3; C3 1 1 3; C3 1 1 4] /\ path_dist exR_P (C3 0 0 3) [C3 1 1 3; C3 1 1 4] = sqrt 2 + 5 /\
  (exists a b, node_hash a = node_hash b /\ isEqual a b = false).
Proof.
  split; [cbn; unfold adjacent; cbn; repeat split; try discriminate; auto; [left|right]; lia|]. split.
  - cbn [path_dist]. unfold getEdgeDist. rewrite !distance2D_R by (cbn; lra). rewrite !maxv_Rn, !pos1_R. cbn [cx cy cz Z.sub Z.opp Z.add Z.pos_sub].
    change (cell_scale exR_P) with 1. change (up_cost exR_P) with 5. change (down_cost exR_P) with 1. rn. tR.
    replace (IZR (-1)) with (- (1)) by (rewrite <- opp_IZR; reflexivity).
    replace ((- (1)) ^ 2 + (- (1)) ^ 2) with 2 by ring. replace (0 ^ 2 + 0 ^ 2) with 0 by ring. rewrite sqrt_0.
    rewrite (Rmax_right (1 * (3 + / 2) - _) 0), (Rmax_left (- (1 * (3 + / 2) - _)) 0), (Rmax_left _ 0), (Rmax_right _ 0) by lra. field_simplify. lra.
  - exists (Nd KNoSmooth (C3 1 0 0) (C3 0 0 0)), (Nd KNoSmooth (C3 0 1024 0) (C3 0 0 0)). split; vm_compute; reflexivity.
Qed.
