(** Proofs about the node with reconfiguration (C93, C95). *)
From Coq Require Import ZArith Reals List Bool Lia.
From Verif Require Import Num CommonModel CommonSpec GpModel GpSearch GpPlan GpNode GpConf GpSpec GpPlanSpec GpNodeSpec GpProofs GpArith GpPlanProofs GpNodeProofs
  GpNodeProofs3.
Import ListNotations.
Local Open Scope Z_scope.

Section Frame.
Context (N : num) (G : trig N) (fl cl rnd : N -> Z) (prob : N -> N) (ltinf : N -> bool)
        (popS : list (ptr * N) -> option ((ptr * N) * list (ptr * N)))
        (popO : list (gcell * N) -> option ((gcell * N) * list (gcell * N))).
Lemma findPath_iter P fuel g b p g' : findPath N G fl cl rnd prob ltinf popS popO fuel P g = Some (b, p, g') ->
  g_max_iter g' = g_max_iter g \/ g_max_iter g' = 5000.
Proof using Type.
  unfold findPath. destruct (findPath_loop _ _ _ _ _ _ _ _ _ _ _ _ _ _ _ _ _ _) as [[[fo q] o]|]; [|discriminate].
  destruct fo.
  - intros [= <- <- <-]. cbn. auto.
  - destruct (find2DPath _ _ _ _ _ _ _ _ _ _ _ _ _ _ _ _ _ _) as [[b' p2]|]; [|discriminate]. intros [= <- <- <-]. cbn. auto.
Qed.
Lemma global_iter P fuel g b g' : getGlobalPath N G fl cl rnd prob ltinf popS popO fuel P g = Some (b, g') ->
  g_max_iter g' = g_max_iter g \/ g_max_iter g' = 5000.
Proof using Type.
  unfold getGlobalPath. cbv zeta. destruct (goal_must_be_free P && _); [discriminate|].
  destruct (goal_must_be_free P && ltb N _ _); [intros [= <- <-]; cbn; auto|].
  destruct (isOccupied _ _ _ _ _ _); [intros [= <- <-]; cbn; auto|].
  destruct (findPath _ _ _ _ _ _ _ _ _ _ _ _) as [[[b' p] g1]|] eqn:E; [|discriminate]. apply findPath_iter in E.
  destruct b'; intros [= <- <-]; cbn; exact E.
Qed.
Lemma fold_obst_iter P pts : forall g, g_max_iter (fold_left (addObstacle N fl P) pts g) = g_max_iter g.
Proof using Type. induction pts; intros g; cbn; [reflexivity|]. rewrite IHpts. reflexivity. Qed.
Lemma step_iter C fuel s e s' o : nstep N G fl cl rnd prob ltinf popS popO C fuel s e = Some (s', o) ->
  g_max_iter (ns_pl s') = g_max_iter (ns_pl s) \/ (exists t, e = EPlan t) /\ g_max_iter (ns_pl s') = 5000.
Proof using Type.
  intros E. destruct e; cbn [nstep] in E.
  - unfold octomapFullCallback in E. destruct fresh, tree; try discriminate; injection E as <- <-; left; cbn; auto.
  - unfold positionCallback in E. cbn [ns_path] in E. destruct (ns_path s) as [|q rest] eqn:Q; [injection E as <- <-; left; cbn; auto|].
    destruct (_ && _) eqn:B; injection E as <- <-; left; cbn; auto.
  - injection E as <- <-; left; cbn; auto.
  - injection E as <- <-; left; cbn; apply fold_obst_iter.
  - injection E as <- <-; left; cbn; auto.
  - unfold fcuInputGoalCallback in E. cbv zeta in E. destruct (valid && _); injection E as <- <-; left; cbn; auto.
  - unfold clickedPointCallback in E. destruct (getRiskC _ _ _ _ _ _ _) as [[? ?]|]; [|discriminate].
    destruct (octree _); [|discriminate]. injection E as <- <-; left; cbn; auto.
  - unfold plannerLoop in E. cbv zeta in E.
    match type of E with context [if ?b then popNextGoal _ _ _ _ else _] => destruct (if b then popNextGoal N fl C s else (s, [])) as (s1, o1) eqn:E1;
      assert (F1 : g_max_iter (ns_pl s1) = g_max_iter (ns_pl s)) by
       (destruct b; [unfold popNextGoal in E1; destruct (ns_wps s); [destruct (g_goal_blocked (ns_pl s))|]; injection E1 as <- <-; reflexivity|injection E1 as <- <-; reflexivity]) end.
    destruct (planPath _ _ _ _ _ _ _ _ _ _ _ _) as [[s2 o2]|] eqn:E2; [|discriminate].
    destruct (publishPath _ _ _ _ _ _ _ _) as (s4, o4) eqn:E4. injection E as <- <-. apply publishPath_frame in E4. destruct E4 as (E4 & _). rewrite E4.
    cbn [ns_pl with_pl touch g_max_iter].
    unfold planPath in E2. destruct (getGlobalPath _ _ _ _ _ _ _ _ _ _ _ _) as [[b g]|] eqn:EG; [|discriminate]. apply global_iter in EG. rewrite F1 in EG.
    assert (X : g_max_iter (ns_pl s2) = g_max_iter g).
    { destruct (b && _); [|injection E2 as <- <-; reflexivity]. unfold setIntermediateGoal in E2. destruct (10 <? _); injection E2 as <- <-; reflexivity. }
    rewrite X. destruct EG as [EG|EG]; [left|right]; eauto.
  - unfold publishSetpoint in E. cbv zeta in E. destruct (use_speedup_heuristics _ && _); [discriminate|]. injection E as <- <-. left; cbn.
    destruct (use_speedup_heuristics _); reflexivity.
Qed.

Context (own : bool).
Notation srun := (srun N G fl cl rnd prob ltinf popS popO own).
Notation sstep := (sstep N G fl cl rnd prob ltinf popS popO own).
Lemma sstep_scale fuel s e s' o : sstep fuel s e = Some (s', o) ->
  cell_scale (nc_gp (sy_cfg s')) = cell_scale (nc_gp (sy_cfg s)) /\ robot_radius (nc_gp (sy_cfg s')) = robot_radius (nc_gp (sy_cfg s)).
Proof using Type.
  destruct e; cbn [GpConf.sstep].
  - destruct (nstep _ _ _ _ _ _ _ _ _ _ _ _) as [[n on]|]; [|discriminate]. intros [= <- <-]. cbn. auto.
  - intros [= <- <-]. cbn. auto.
Qed.
Lemma srun_scale fuel es : forall s s' o, srun fuel s es = Some (s', o) ->
  cell_scale (nc_gp (sy_cfg s')) = cell_scale (nc_gp (sy_cfg s)) /\ robot_radius (nc_gp (sy_cfg s')) = robot_radius (nc_gp (sy_cfg s)).
Proof using Type.
  induction es as [|e es IH]; intros s s' o E; cbn [GpConf.srun] in E; [injection E as <- <-; auto|].
  destruct (sstep fuel s e) as [[s1 o1]|] eqn:E1; [|discriminate]. destruct (srun fuel s1 es) as [[s2 o2]|] eqn:E2; [|discriminate].
  injection E as <- <-. apply IH in E2. apply sstep_scale in E1. destruct E1, E2. split; congruence.
Qed.
End Frame.

(** the parameter use_current_yaw_ is never read *)
Section Yaw.
Context (N : num) (G : trig N) (fl cl rnd : N -> Z) (prob : N -> N) (ltinf : N -> bool)
        (popS : list (ptr * N) -> option ((ptr * N) * list (ptr * N)))
        (popO : list (gcell * N) -> option ((gcell * N) * list (gcell * N))).
Definition set_current_yaw (b : bool) (P : gcfg N) : gcfg N :=
  GCfg (cell_scale P) (speednode_radius P) (node_type P) (min_altitude P) (max_altitude P) (max_cell_risk P) (smooth_factor P) (vert_to_hor_cost P)
       (risk_factor P) (neighbor_risk_flow P) (explore_penalty P) (up_cost P) (down_cost P) (search_time P) (min_overestimate P) (max_overestimate P)
       (risk_threshold P) (default_speed P) (max_speed P) (goal_must_be_free P) b (use_risk_heuristics P)
       (use_speedup_heuristics P) (use_risk_based_speedup P) (robot_radius P).
Definition set_yaw (b : bool) (C : ncfg N) : ncfg N :=
  NCfg (set_current_yaw b (nc_gp C)) (clicked_alt C) (clicked_radius C) (simplify_iterations C) (simplify_margin C).
Lemma loop_yaw b P fuel : forall g s par over il li fo p,
  findPath_loop N G fl cl rnd prob ltinf popS fuel (set_current_yaw b P) g s par over il li fo p =
  findPath_loop N G fl cl rnd prob ltinf popS fuel P g s par over il li fo p.
Proof using Type.
  induction fuel; intros; [reflexivity|]. cbn [findPath_loop].
  change (isLegal N fl (set_current_yaw b P)) with (isLegal N fl P).
  change (getEdgeCost N G fl (set_current_yaw b P)) with (getEdgeCost N G fl P).
  change (getHeuristic N G rnd (set_current_yaw b P)) with (getHeuristic N G rnd P).
  change (g_risk N cl rnd prob (set_current_yaw b P)) with (g_risk N cl rnd prob P).
  cbn [set_current_yaw cell_scale speednode_radius min_overestimate node_type].
  destruct (_ && _); [|reflexivity]. destruct (findSmoothPath _ _ _ _ _ _ _ _ _ _ _) as [[[[] it] np]|]; try reflexivity. apply IHfuel.
Qed.
Lemma global_yaw b P fuel g :
  getGlobalPath N G fl cl rnd prob ltinf popS popO fuel (set_current_yaw b P) g = getGlobalPath N G fl cl rnd prob ltinf popS popO fuel P g.
Proof using Type.
  unfold getGlobalPath, findPath. cbv zeta. rewrite loop_yaw. reflexivity.
Qed.
Lemma step_yaw b C fuel s e :
  nstep N G fl cl rnd prob ltinf popS popO (set_yaw b C) fuel s e = nstep N G fl cl rnd prob ltinf popS popO C fuel s e.
Proof using Type.
  destruct e; try reflexivity. cbn [nstep]. unfold plannerLoop, planPath. cbn [set_yaw nc_gp].
  change (popNextGoal N fl (set_yaw b C)) with (popNextGoal N fl C). cbv zeta.
  match goal with |- (let '(_, _) := ?x in _) = (let '(_, _) := ?y in _) => change x with y; destruct y as (s1, o1) end.
  rewrite global_yaw. reflexivity.
Qed.
Lemma run_yaw b C fuel es : forall s,
  nrun N G fl cl rnd prob ltinf popS popO (set_yaw b C) fuel s es = nrun N G fl cl rnd prob ltinf popS popO C fuel s es.
Proof using Type.
  induction es as [|e es IH]; intros s; [reflexivity|]. cbn [nrun]. rewrite step_yaw. destruct (nstep _ _ _ _ _ _ _ _ _ _ _ _ _) as [[s1 o1]|]; [|reflexivity].
  rewrite IH. reflexivity.
Qed.
End Yaw.

(** risks stay non-negative through reconfigurations *)
Section CacheConf.
Context (N : num) (ltinf : N -> bool) (A : arith N ltinf).
Context (G : trig N) (fl cl rnd : N -> Z) (prob : N -> N)
        (popS : list (ptr * N) -> option ((ptr * N) * list (ptr * N)))
        (popO : list (gcell * N) -> option ((gcell * N) * list (gcell * N))) (own : bool).
Hypothesis Hprob : prob_ok prob.
Hypothesis HS : is_pop popS.
Hypothesis HO : is_pop popO.
Definition sane_request (e : gsev N) : Prop := match e with SConf r => sane (nc_gp (rq_cfg r)) | SNode _ => True end.
Lemma reconf_sane level r C s : sane (nc_gp C) -> sane (nc_gp (rq_cfg r)) -> sane (nc_gp (fst (reconfigure N own level r C s))).
Proof using Type. intros H1 H2. destruct H1, H2. constructor; cbn; assumption. Qed.
Lemma srun_cache fuel es : forall s s' o, srun N G fl cl rnd prob ltinf popS popO own fuel s es = Some (s', o) -> Forall sane_request es ->
  sane (nc_gp (sy_cfg s)) -> cache_nonneg (g_cache (ns_pl (sy_node s))) ->
  sane (nc_gp (sy_cfg s')) /\ cache_nonneg (g_cache (ns_pl (sy_node s'))).
Proof using A Hprob HS HO.
  induction es as [|e es IH]; intros s s' o E F Hs Hc; cbn [srun] in E; [injection E as <- <-; auto|].
  destruct (sstep N G fl cl rnd prob ltinf popS popO own fuel s e) as [[s1 o1]|] eqn:E1; [|discriminate].
  destruct (srun N G fl cl rnd prob ltinf popS popO own fuel s1 es) as [[s2 o2]|] eqn:E2; [|discriminate].
  injection E as <- <-. inversion F as [|? ? F1 F2]; subst. apply (IH _ _ _ E2 F2); clear IH E2; destruct e as [e|r]; cbn [sstep] in E1.
  - destruct (nstep _ _ _ _ _ _ _ _ _ _ _ _ _) as [[n on]|]; [|discriminate]. injection E1 as <- <-. exact Hs.
  - injection E1 as <- <-. cbn [sy_cfg]. exact (reconf_sane (req_level N (sy_req s) r) r (sy_cfg s) (sy_node s) Hs F1).
  - destruct (nstep N G fl cl rnd prob ltinf popS popO (sy_cfg s) fuel (sy_node s) e) as [[n on]|] eqn:EN; [|discriminate]. injection E1 as <- <-. cbn [sy_node].
    eapply (step_cache N ltinf A); [..|exact EN|exact Hc]; auto.
  - injection E1 as <- <-. exact Hc.
Qed.
End CacheConf.
