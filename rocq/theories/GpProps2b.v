(** Properties C85, C86, C87, C89, C90, C94: the global planner's search, risks and maps. *)
From Coq Require Import ZArith Reals List Bool Lia Lra Permutation.
From Flocq Require Import Core BinarySingleNaN.
From Verif Require Import Num Num64 F64Err CommonModel CommonSpec GpModel GpSearch GpAstar GpPlan GpNode GpSpec GpPlanSpec GpNodeSpec GpProofs GpArith GpCellProofs
  GpMiscProofs GpCostProofs GpPlanProofs GpNodeProofs GpNodeProofs2 GpNodeProofs3 GpF64 GpF64b GpProps1 GpProps1b.
Import ListNotations.
Local Open Scope R_scope.

(* ---------------------------------------------------------------------------------------------- C85 *)
(** C85. A search that gives up before its iteration bound has proved that there is no legal path to the goal (over the reals; with doubles sums of costs
    could overflow). *)
Theorem C85_search_complete :
  forall (G : trig Rn) (prob : Rn -> Rn) popS (P : gcfg Rn) (g : gplanner Rn) over k s par t mi it path,
  prob_ok prob -> is_pop popS -> sane P -> cache_nonneg (g_cache g) ->
  let risk := g_risk Rn Rcl Rrnd prob P g in
  let legal := isLegal Rn Rfl P risk in
  findSmoothPath Rn (cell_scale P) (speednode_radius P) legal (getEdgeCost Rn G Rfl P risk (g_pos g) (g_vel g))
      (getHeuristic Rn G Rrnd P risk over (gc_cell t)) anyinf popS (Nd k s par) t mi = Some (false, it, path) -> (it < mi)%Z ->
  forall l, flyable Rn (cell_scale P) (speednode_radius P) legal k par s l -> ~ near_goal Rn (cell_scale P) t (last l s).
Proof.
  intros G prob popS P g over k s par t mi it path Hp HS HP Hc risk legal E Hit l Hl. apply not_true_iff_false. change (withinPlanRadius Rn (cell_scale P) t (last l s) = false).
  refine (findSmoothPath_complete Rn (cell_scale P) (speednode_radius P) legal _ _ anyinf popS okR valR ltb_valR (fun _ _ => I) (conj I eq_refl) _ HS (Nd k s par) t _ mi it path E Hit l Hl).
  - intros d u v c _ Hd _ Hv _. pose proof (ar_step Rn anyinf arithR d c I Hd) as X. apply X; [|exact I].
    eapply (edgeCost_nonneg Rn anyinf arithR); eauto. intros c'. eapply (risk_nonneg Rn anyinf arithR); eauto.
  - intros d u v Hv _ _ _. unfold getEdgeCost. unfold legal, isLegal in Hv. apply andb_true_iff in Hv. destruct Hv as (_ & Hv).
    destruct (getRiskNode Rn Rfl P risk v) as [r|]; [|discriminate]. eexists. split; [reflexivity|reflexivity].
Qed.
Print Assumptions C85_search_complete.
(** the hypotheses are met: with nothing allowed the search stops after one expansion, and there is no path to a goal elsewhere *)
Example C85_example : forall G (heur : list gcell -> gnode -> Rn) cost,
  findSmoothPath Rn 1 5 (fun _ => false) cost heur anyinf (pop_min Rn) (Nd KNode (C3 0 0 3) (C3 0 0 3)) (@GC Rn (C3 9 0 3) 1 false) 10 = Some (false, 1%Z, []) /\
  (1 < 10)%Z /\ G = G :> trig Rn.
Proof.
  intros G heur cost. split; [|split; [lia|reflexivity]]. unfold findSmoothPath.
  assert (W : withinPlanRadius Rn 1 (@GC Rn (C3 9 0 3) 1 false) (C3 0 0 3) = false).
  { unfold withinPlanRadius, manhattanDist, centre. cbn [gc_cell gc_radius cx cy cz vx vy vz]. rewrite !pos1_R. rn. apply R_ltb_false. tR.
    replace (1 * (9 + / 2) - 1 * (0 + / 2)) with 9 by lra. replace (1 * (0 + / 2) - 1 * (0 + / 2)) with 0 by lra. replace (1 * (3 + / 2) - 1 * (3 + / 2)) with 0 by lra.
    rewrite Rabs_R0, Rabs_pos_eq by lra. lra. }
  replace (Z.to_nat (12 * Z.max 0 10 + 2)) with (S (S (Z.to_nat 120))) by reflexivity. generalize (Z.to_nat 120) as f. intros f.
  cbn [astar a_init a_iter a_pq a_seen pop_min]. change (0 <? 10)%Z with true. cbn [existsb p_node n_cell a_seen a_iter a_par a_dist a_vis]. rewrite W.
  unfold expand, smooth_next. cbn [p_node getNeighbors n_kind]. replace (filter (fun _ : gnode => false) (map (nextNode (Nd KNode (C3 0 0 3) (C3 0 0 3))) (cell_neighbors (n_cell (Nd KNode (C3 0 0 3) (C3 0 0 3)))))) with (@nil gnode) by reflexivity.
  cbn [map fold_left astar a_init a_iter a_pq a_seen pop_min]. reflexivity.
Qed.

(* ---------------------------------------------------------------------------------------------- C86 *)
(** C86. Asking for risks does not change later answers: whatever cells were asked for in whatever order, every cell has the same risk as before. *)
Theorem C86_risk_cache_transparent :
  forall (N : num) (cl rnd : N -> Z) (prob : N -> N) (C : ncfg N) (g : gplanner N) cells c,
  g_risk N cl rnd prob (nc_gp C) (touch N cl rnd prob C g cells) c = g_risk N cl rnd prob (nc_gp C) g c.
Proof. intros. apply eff_touch. Qed.
Print Assumptions C86_risk_cache_transparent.
(** A new map is used at once: the old answers are dropped. *)
Theorem C86_new_map_fresh :
  forall (N : num) (cl rnd : N -> Z) (prob : N -> N) (P : gcfg N) (g : gplanner N) tree res c,
  getRiskC N cl rnd prob P (g_map (updateFullOctomap N g tree res)) (g_cache (updateFullOctomap N g tree res)) c =
  match freshRisk N cl rnd prob P (GMap (Some tree) (Some res) (occupied (g_map g))) c with Some r => Some (r, [(c, r)]) | None => None end.
Proof. reflexivity. Qed.
Print Assumptions C86_new_map_fresh.
(** Obstacles from the camera are not: a cell whose risk was asked for since the last map keeps that risk however many obstacle points are added in it,
    although the risk computed afresh would be 200 times as high. *)
Theorem C86_obstacle_ignored_refuted :
  (forall (N : num) (fl cl rnd : N -> Z) (prob : N -> N) (P : gcfg N) (pts : list (vec3 N)) (g : gplanner N) c r, cache_find N (g_cache g) c = Some r ->
     g_risk N cl rnd prob P (fold_left (addObstacle N fl P) pts g) c = r) /\
  (let c := C3 5 0 3 in let p := V3 (g64 11 2) (g64 1 2) (g64 7 2) in
   let g1 := touch F64 f64_cl f64_rnd ex_prob ex_C ex_pl [c] in let g2 := addObstacle F64 f64_fl ex_P g1 p in
   let fresh g := effRisk F64 f64_cl f64_rnd ex_prob ex_P (g_map g) [] in
   cell_of F64 f64_fl (cell_scale ex_P) p = c /\
   ltb F64 (fresh g1 c) (g_risk F64 f64_cl f64_rnd ex_prob ex_P g2 c) = false /\
   ltb F64 (mul F64 (ofZ F64 50) (g_risk F64 f64_cl f64_rnd ex_prob ex_P g2 c)) (fresh g2 c) = true).
Proof.
  split.
  - intros N fl cl rnd prob P pts. induction pts as [|p pts IH]; intros g c r H; cbn [fold_left].
    + unfold g_risk, effRisk, getRiskC. rewrite H. reflexivity.
    + apply IH. exact H.
  - cbv zeta. split; [vm_compute; reflexivity|]. split; vm_compute; reflexivity.
Qed.
Print Assumptions C86_obstacle_ignored_refuted.
Example C86_example :
  cache_find F64 (g_cache (touch F64 f64_cl f64_rnd ex_prob ex_C ex_pl [C3 5 0 3])) (C3 5 0 3) <> None /\
  length (g_cache (touch F64 f64_cl f64_rnd ex_prob ex_C ex_pl [C3 5 0 3; C3 6 0 3; C3 5 0 3])) = 2%nat.
Proof. split; [|vm_compute; reflexivity]. intros H. assert (B : match cache_find F64 (g_cache (touch F64 f64_cl f64_rnd ex_prob ex_C ex_pl [C3 5 0 3])) (C3 5 0 3) with Some _ => true | None => false end = true) by (vm_compute; reflexivity). rewrite H in B. discriminate. Qed.

(* ---------------------------------------------------------------------------------------------- C87 *)
(** C87. With a minimal overestimation factor above 1 the repeated search ends, in doubles: there is a number of searches after which it is done. *)
Theorem C87_find_path_terminates :
  forall (G : trig F64) (prob : F64 -> F64) popS popO (P : gcfg F64) (g : gplanner F64),
  prob_ok prob -> is_pop popS -> is_pop popO -> sane P -> cache_nonneg (g_cache g) ->
  is_finite (min_overestimate P : f64) = true -> 1 < B2R (min_overestimate P : f64) ->
  is_finite (max_overestimate P : f64) = true -> 1 <= B2R (max_overestimate P : f64) <= bpow radix2 90 ->
  exists fuel, findPath F64 G f64_fl f64_cl f64_rnd prob ltinf64 popS popO fuel P g <> None.
Proof.
  intros G prob popS popO P g H1 H2 H3 H4 H5 H6 H7 H8 H9.
  destruct (pow_small (B2R (max_overestimate P : f64) - 1) (B2R (min_overestimate P : f64) - 1)) as (n & Hn); [lra|lra|].
  exists (S n). apply (findPath_total F64 ltinf64 arith64); auto. apply small_64; auto.
Qed.
Print Assumptions C87_find_path_terminates.
(** With the smallest value the configuration allows, 1.0, and a vehicle whose start cell is already inside the goal's planning radius, the repeated search
    never ends: no number of searches suffices. *)
Theorem C87_endless_search_refuted :
  forall (G : trig F64) (prob : F64 -> F64) popS popO (P : gcfg F64) (g : gplanner F64),
  is_pop popS -> is_finite (min_overestimate P : f64) = true -> B2R (min_overestimate P : f64) <= 1 ->
  is_finite (max_overestimate P : f64) = true -> 1 <= B2R (max_overestimate P : f64) <= bpow radix2 90 ->
  (0 < g_max_iter g)%Z -> near_goal F64 (cell_scale P) (g_goal g) (start_cell F64 f64_fl P g) ->
  forall fuel, findPath F64 G f64_fl f64_cl f64_rnd prob ltinf64 popS popO fuel P g = None.
Proof.
  intros G prob popS popO P g H1 H2 H3 H4 H5 H6 H7 fuel. unfold findPath. cbv zeta.
  rewrite (loop_diverges F64 ltinf64 G f64_fl f64_cl f64_rnd prob popS H1 P (fun x => is_finite (x : f64) = true /\ 1 <= B2R (x : f64) <= bpow radix2 90)); auto.
  intros x (Fx & Hx). split; [apply leb64_finite; auto; lra|]. destruct (lower64 x Fx Hx) as (A & B & _). auto.
Qed.
Print Assumptions C87_endless_search_refuted.
Example C87_example : is_finite (cst F64 103 100 : f64) = true /\ is_finite (cst F64 1 1 : f64) = true /\
  ltb F64 (ofZ F64 1) (cst F64 103 100) = true /\ leb F64 (cst F64 1 1) (ofZ F64 1) = true /\
  near_goal F64 (g64 1 1) (GC (C3 0 0 0) (g64 1 1) false) (C3 0 0 0).
Proof. split; [vm_compute; reflexivity|]. split; [vm_compute; reflexivity|]. split; [vm_compute; reflexivity|]. split; vm_compute; reflexivity. Qed.

(* ---------------------------------------------------------------------------------------------- C89 *)
(** C89. The cells whose risk flows into a cell, for the radius (in octree resolutions, rounded up) the robot has: only radius 0 and 1 work. For radius 1
    these are the cell itself, which is thus counted twice, and its six face neighbours; from radius 2 on the computation is undefined (the square root of
    a negative number is cast to int). *)
Theorem C89_flow_neighbors :
  (forall c, getFlowNeighbors c 0 = Some [c]) /\
  (forall c d, exists l, getFlowNeighbors c 1 = Some l /\ NoDup l /\
     (In d l <-> (Z.abs (cx d - cx c) + Z.abs (cy d - cy c) + Z.abs (cz d - cz c) <= 1)%Z)).
Proof.
  split.
  - intros [x y z]. assert (E : getFlowNeighbors (C3 x y z) 0 = Some [C3 (x + 0) (y + 0) (z + 0)]) by reflexivity. rewrite E, !Z.add_0_r. reflexivity.
  - intros [x y z] [a b c]. exists [C3 (x + -1) (y + 0) (z + 0); C3 (x + 0) (y + -1) (z + 0); C3 (x + 0) (y + 0) (z + -1); C3 (x + 0) (y + 0) (z + 0); C3 (x + 0) (y + 0) (z + 1);
      C3 (x + 0) (y + 1) (z + 0); C3 (x + 1) (y + 0) (z + 0)]. split; [reflexivity|].
    split.
    + repeat constructor; cbn [In]; intros H; repeat (destruct H as [H|H]); try (injection H; intros; lia); contradiction.
    + cbn [In cx cy cz]. split.
      * intros H. repeat (destruct H as [H|H]); try contradiction; injection H; intros; subst; lia.
      * intros H.
        assert (T : ((a = x - 1 /\ b = y /\ c = z) \/ (a = x /\ b = y - 1 /\ c = z) \/ (a = x /\ b = y /\ c = z - 1) \/ (a = x /\ b = y /\ c = z) \/
                    (a = x /\ b = y /\ c = z + 1) \/ (a = x /\ b = y + 1 /\ c = z) \/ (a = x + 1 /\ b = y /\ c = z))%Z) by lia.
        repeat (destruct T as [T|T]); destruct T as (-> & -> & ->);
        [left|right; left|do 2 right; left|do 3 right; left|do 4 right; left|do 5 right; left|do 6 right; left]; f_equal; lia.
Qed.
Print Assumptions C89_flow_neighbors.
Lemma cat_opt_none {A} (l : list (option (list A))) : In None l -> cat_opt l = None.
Proof. induction l as [|o l IH]; [intros []|]. intros [->|H]; cbn; [reflexivity|]. rewrite (IH H). destruct o; reflexivity. Qed.
Lemma ints_in lo hi i : (lo <= i <= hi)%Z -> In i (ints lo hi).
Proof. intros H. unfold ints. apply in_map_iff. exists (Z.to_nat (i - lo)). split; [lia|]. apply in_seq. lia. Qed.
Theorem C89_large_robot_refuted :
  (forall c r, (2 <= r)%Z -> getFlowNeighbors c r = None) /\
  (forall (P : gcfg F64) (m : gmap F64) prob res c, resolution m = Some res -> (2 <= f64_cl (div F64 (robot_radius P) res))%Z ->
     freshRisk F64 f64_cl f64_rnd prob P m c = None) /\
  (2 <= f64_cl (div F64 (cst F64 1 2) (cst F64 1 5)))%Z.
Proof.
  assert (H : forall c r, (2 <= r)%Z -> getFlowNeighbors c r = None).
  { intros c r Hr. unfold getFlowNeighbors. apply cat_opt_none. apply in_map_iff. exists 1%Z. split; [|apply ints_in; lia].
    assert (E : ceilDistance r 1 0 = Some r).
    { unfold ceilDistance. replace (r * r - 1 * 1 - 0 * 0 <? 0)%Z with false by (symmetry; apply Z.ltb_ge; nia). f_equal.
      replace (r * r - 1 * 1 - 0 * 0)%Z with (Z.succ (r * r - 2))%Z by lia. apply Z.sqrt_up_unique; nia. }
    rewrite E. apply cat_opt_none. apply in_map_iff. exists r. split; [|apply ints_in; lia].
    unfold ceilDistance. replace (r * r - 1 * 1 - r * r <? 0)%Z with true by (symmetry; apply Z.ltb_lt; lia). reflexivity. }
  split; [exact H|]. split.
  - intros P m prob res c Hres Hr. unfold freshRisk. rewrite Hres, (H c _ Hr). reflexivity.
  - vm_compute. discriminate.
Qed.
Print Assumptions C89_large_robot_refuted.
Example C89_example : getFlowNeighbors (C3 0 0 3) 1 = Some [C3 (-1) 0 3; C3 0 (-1) 3; C3 0 0 2; C3 0 0 3; C3 0 0 4; C3 0 1 3; C3 1 0 3].
Proof. reflexivity. Qed.

(* ---------------------------------------------------------------------------------------------- C90 *)
(** C90. Three unguarded accesses. Planning, and clicking a point to ask for its risk, before the first map arrived read uninitialised memory or dereference
    null; the risk heuristic reads outside its table for cells below index 0 or above 24. *)
Theorem C90_no_map_refuted :
  forall (N : num) (G : trig N) (fl cl rnd : N -> Z) (prob : N -> N) ltinf popS popO (C : ncfg N) fuel start over mi touched p,
  let s := ninit N fl C start over mi in
  (goal_must_be_free (nc_gp C) = true -> nstep N G fl cl rnd prob ltinf popS popO C fuel s (EPlan touched) = None) /\
  nstep N G fl cl rnd prob ltinf popS popO C fuel s (EClick p) = None.
Proof.
  intros N G fl cl rnd prob ltinf popS popO C fuel start over mi touched p s. split.
  - intros Hf. cbn [nstep]. unfold plannerLoop. change (g_goal_blocked (ns_pl s)) with false. rewrite orb_false_r.
    assert (E : (if withinPositionRadius N (cell_scale (nc_gp C)) (g_goal (ns_pl s)) (g_pos (ns_pl s)) then popNextGoal N fl C s else (s, [])) = (s, [])).
    { unfold popNextGoal. cbn [ns_wps s ninit]. change (g_goal_blocked (ns_pl s)) with false. destruct (withinPositionRadius _ _ _ _); reflexivity. }
    rewrite E. unfold planPath, getGlobalPath. rewrite Hf. reflexivity.
  - reflexivity.
Qed.
Print Assumptions C90_no_map_refuted.
Theorem C90_risk_heuristic_range :
  forall (N : num) (rnd : N -> Z) (P : gcfg N) (risk : gcell -> N) u goal, u <> goal ->
  (riskHeuristic N rnd P risk u goal <> None <-> (0 <= cz u <= 24 /\ 0 <= cz goal <= 24)%Z).
Proof.
  intros N rnd P risk u goal Hd. unfold riskHeuristic. destruct (ceq u goal) eqn:E; [apply ceq_spec in E; contradiction|]. cbv zeta.
  assert (L : forall l s, length (accumulate N s l) = length l) by (induction l as [|a l IH]; intros s; cbn; [reflexivity|rewrite IH; reflexivity]).
  assert (R : forall i, accumulated_alt_prior N i <> None <-> (0 <= i <= 24)%Z).
  { intros i. unfold accumulated_alt_prior. destruct (Z.ltb_spec i 0); [split; [congruence|lia]|].
    rewrite nth_error_Some, L. change (length alt_prior_table) with 25%nat. lia. }
  rewrite <- (R (cz u)), <- (R (cz goal)).
  destruct (accumulated_alt_prior N (cz u)), (accumulated_alt_prior N (cz goal)); split; try (intros (A & B)); try (intros A); try split; try congruence.
Qed.
Print Assumptions C90_risk_heuristic_range.
Example C90_example : goal_must_be_free ex_P = true /\ (C3 0 0 3 <> C3 0 0 25) /\ ~ (0 <= cz (C3 0 0 25) <= 24)%Z.
Proof. split; [reflexivity|]. split; [discriminate|cbn; lia]. Qed.

(* ---------------------------------------------------------------------------------------------- C94 *)
(** C94. The cells looked at when a move is judged: none if and only if the move stays in its cell; otherwise the cell at its end is among them, if cells
    are larger than 20 cm (the smallest configurable size is 50 cm). *)
Theorem C94_cells_of_move :
  forall (sc : R) n, / 5 < sc ->
  (getCells Rn Rfl sc n = [] <-> n_cell n = n_par n) /\ (n_cell n <> n_par n -> In (n_cell n) (getCells Rn Rfl sc n)).
Proof.
  intros sc n Hs.
  set (m := Z.max (Z.abs (cx (n_cell n) - cx (n_par n))) (Z.max (Z.abs (cy (n_cell n) - cy (n_par n))) (Z.abs (cz (n_cell n) - cz (n_par n))))).
  assert (Hm : (m = 0)%Z <-> n_cell n = n_par n).
  { unfold m. destruct n as [k [a b c] [a' b' c']]. cbn. split; [intros; f_equal; lia|intros [= -> -> ->]; lia]. }
  assert (M0 : (0 <= m)%Z) by (unfold m; lia).
  assert (C1 : forall l c d, In d l -> In d (cins l c)).
  { intros l c d H. unfold cins. destruct (cmem c l); [exact H|apply in_or_app; left; exact H]. }
  assert (C2 : forall l c, In c (cins l c)).
  { intros l c. unfold cins. destruct (cmem c l) eqn:E; [|apply in_or_app; right; left; reflexivity].
    unfold cmem in E. apply existsb_exists in E. destruct E as (x & X & Y). apply ceq_spec in Y. subst. exact X. }
  assert (HIN : n_cell n <> n_par n -> In (n_cell n) (getCells Rn Rfl sc n)).
  { intros Hd. assert (1 <= m)%Z by (assert (m <> 0)%Z by (intros X; apply Hd, Hm, X); lia). unfold getCells. cbv zeta. fold m.
    assert (EI : ints 1 (2 * m) = ints 1 (2 * m - 1) ++ [(2 * m)%Z]).
    { unfold ints. replace (Z.to_nat (2 * m - 1 + 1)) with (S (Z.to_nat (2 * m - 1 - 1 + 1))) by lia. rewrite seq_S, map_app. cbn [map]. do 2 f_equal. lia. }
    rewrite EI, fold_left_app. cbn [fold_left]. apply C1, C1, C1.
    match goal with |- In ?a (cins ?l ?b) => replace b with a; [apply C2|] end.
    assert (Z0 : IZR (2 * m) <> 0). { apply IZR_neq. lia. }
    assert (EP : forall i j, pos1 Rn sc j + (pos1 Rn sc i - pos1 Rn sc j) / IZR (2 * m) * IZR (2 * m) = pos1 Rn sc i) by (intros; field; exact Z0).
    unfold cell_of. rn. tR. rewrite !EP. cbn [vx vy vz]. tR.
    assert (EF : forall i e, (e = 0 \/ e = 1 / 10) -> Rfl ((pos1 Rn sc i + e) / sc) = i).
    { intros i e He. apply floor_cell_unique; [lra|]. rewrite pos1_R. destruct He as [-> | ->]; tR; lra. }
    rewrite cst_Rn. destruct (n_cell n) as [a b c]. cbn [cx cy cz].
    rewrite !EF by auto. rewrite <- (EF c 0) at 1 by auto. rewrite Rplus_0_r. reflexivity. }
  split; [|exact HIN]. split.
  - intros H. destruct (Z.eq_dec m 0) as [E|E]; [apply Hm; exact E|]. exfalso. rewrite <- Hm in HIN. specialize (HIN E). rewrite H in HIN. exact HIN.
  - intros H. apply Hm in H. unfold getCells. cbv zeta. fold m. rewrite H. reflexivity.
Qed.
Print Assumptions C94_cells_of_move.
Example C94_example : getCells F64 f64_fl (g64 1 1) (Nd KSpeed (C3 2 1 3) (C3 0 0 3)) = [C3 1 0 3; C3 0 0 3; C3 1 1 3; C3 2 1 3].
Proof. vm_compute. reflexivity. Qed.
