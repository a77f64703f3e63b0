(** Properties C93, C95: parameters of the global planner. *)
From Coq Require Import ZArith Reals List Bool Lia Lra Psatz.
From Flocq Require Import Core BinarySingleNaN.
From Verif Require Import Num Num64 F64Err CommonModel CommonSpec GpModel GpSearch GpPlan GpNode GpConf GpSpec GpPlanSpec GpNodeSpec GpProofs GpArith GpCellProofs
  GpMiscProofs GpCostProofs GpPlanProofs GpNodeProofs GpNodeProofs2 GpNodeProofs3 GpProps1 GpProps1b GpProps2 GpConfProofs.
Import ListNotations.
Local Open Scope R_scope.

(* ---------------------------------------------------------------------------------------------- C93 *)
(** C93. The iteration bound in force is the configured one or 5000. *)
Theorem C93_bound :
  forall (N : num) (G : trig N) (fl cl rnd : N -> Z) (prob : N -> N) ltinf popS popO (C : ncfg N) fuel s e s' o,
  nstep N G fl cl rnd prob ltinf popS popO C fuel s e = Some (s', o) ->
  g_max_iter (ns_pl s') = g_max_iter (ns_pl s) \/ (exists t, e = EPlan t) /\ g_max_iter (ns_pl s') = 5000%Z.
Proof. intros N G fl cl rnd prob ltinf popS popO C fuel s e s' o. apply step_iter. Qed.
Print Assumptions C93_bound.
(** It does become 5000: with a bound of two iterations the first search fails, and from then on every search may take 5000. *)
Definition iter_of (r : option (nstate F64 * list (nout F64))) : Z := match r with Some (s, o) => g_max_iter (ns_pl s) | None => 0%Z end.
Theorem C93_bound_lost_refuted :
  g_max_iter (ns_pl (ninit F64 f64_fl ex_C2 ex_zero (g64 1 1) 2)) = 2%Z /\
  iter_of (nrun F64 trig0 f64_fl f64_cl f64_rnd ex_prob ltinf64 (pop_min F64) (pop_min F64) ex_C2 20 (ninit F64 f64_fl ex_C2 ex_zero (g64 1 1) 2) ex_events) = 5000%Z.
Proof. split; [reflexivity|]. vm_compute. reflexivity. Qed.
Print Assumptions C93_bound_lost_refuted.
(** The parameter use_current_yaw_ ("The current yaw affects the pathfinding") has no effect on anything the node does. *)
Theorem C93_use_current_yaw_refuted :
  forall (N : num) (G : trig N) (fl cl rnd : N -> Z) (prob : N -> N) ltinf popS popO (C : ncfg N) b fuel s es,
  use_current_yaw (nc_gp (set_yaw N b C)) = b /\
  nrun N G fl cl rnd prob ltinf popS popO (set_yaw N b C) fuel s es = nrun N G fl cl rnd prob ltinf popS popO C fuel s es.
Proof. intros. split; [reflexivity|]. apply run_yaw. Qed.
Print Assumptions C93_use_current_yaw_refuted.

(* ---------------------------------------------------------------------------------------------- C95 *)
(** C95. A request is in force at once, in every parameter except the cell size, the radius of speed nodes and the node type. *)
Theorem C95_in_force :
  forall (N : num) (G : trig N) (fl cl rnd : N -> Z) (prob : N -> N) ltinf popS popO own fuel s r,
  exists s', sstep N G fl cl rnd prob ltinf popS popO own fuel s (SConf r) = Some (s', []) /\
    let P := nc_gp (sy_cfg s') in let Q := nc_gp (rq_cfg r) in
    min_altitude P = min_altitude Q /\ max_altitude P = max_altitude Q /\ max_cell_risk P = max_cell_risk Q /\ smooth_factor P = smooth_factor Q /\
    vert_to_hor_cost P = vert_to_hor_cost Q /\ risk_factor P = risk_factor Q /\ neighbor_risk_flow P = neighbor_risk_flow Q /\
    explore_penalty P = explore_penalty Q /\ up_cost P = up_cost Q /\ down_cost P = down_cost Q /\ search_time P = search_time Q /\
    min_overestimate P = min_overestimate Q /\ max_overestimate P = max_overestimate Q /\ risk_threshold P = risk_threshold Q /\
    default_speed P = default_speed Q /\ max_speed P = max_speed Q /\ goal_must_be_free P = goal_must_be_free Q /\
    use_risk_heuristics P = use_risk_heuristics Q /\ use_speedup_heuristics P = use_speedup_heuristics Q /\
    use_risk_based_speedup P = use_risk_based_speedup Q /\
    clicked_alt (sy_cfg s') = clicked_alt (rq_cfg r) /\ clicked_radius (sy_cfg s') = clicked_radius (rq_cfg r) /\
    simplify_iterations (sy_cfg s') = simplify_iterations (rq_cfg r) /\ simplify_margin (sy_cfg s') = simplify_margin (rq_cfg r) /\
    g_max_iter (ns_pl (sy_node s')) = rq_max_iter r.
Proof. intros. eexists. split; [reflexivity|]. cbn. repeat split. Qed.
Print Assumptions C95_in_force.
(** What the published paths promise holds in every history of messages and (sane) requests, for the parameters then in force. *)
Theorem C95_paths :
  forall (G : trig F64) (prob : F64 -> F64) popS popO own (C : ncfg F64) fuel start over mi es s o touched s' o',
  prob_ok prob -> is_pop popS -> is_pop popO -> sane (nc_gp C) -> Forall (sane_request F64) es ->
  srun F64 G f64_fl f64_cl f64_rnd prob ltinf64 popS popO own fuel (sinit F64 f64_fl C start over mi) es = Some (s, o) ->
  sstep F64 G f64_fl f64_cl f64_rnd prob ltinf64 popS popO own fuel s (SNode (EPlan touched)) = Some (s', o') ->
  let n := sy_node s in let p := g_path (ns_pl (sy_node s')) in let P := nc_gp (sy_cfg s) in
  let here := cell_of F64 f64_fl (cell_scale P) (g_pos (ns_pl n)) in
  In (OTempPath (path_poses F64 G (cell_scale P) (g_yaw (ns_pl n)) p)) o' /\
  exists g0, g_pos g0 = g_pos (ns_pl n) /\ g_vel g0 = g_vel (ns_pl n) /\ g_map g0 = g_map (ns_pl n) /\ g_cache g0 = g_cache (ns_pl n) /\
    (In (g_goal g0) (agenda n) \/ gc_cell (g_goal g0) = here) /\
    (good_path F64 f64_fl f64_cl f64_rnd prob P g0 (start_cell F64 f64_fl P g0) (behind_cell F64 f64_fl P g0) p \/
     fallback_path F64 f64_fl f64_cl f64_rnd prob P g0 (start_cell F64 f64_fl P g0) p \/
     p = g_path (ns_pl n) \/ p = [here]).
Proof.
  intros G prob popS popO own C fuel start over mi es s o touched s' o' H1 H2 H3 H4 H5 HR HS n p P here.
  apply (srun_cache F64 ltinf64 arith64 G f64_fl f64_cl f64_rnd prob popS popO own H1 H2 H3) in HR; [|exact H5|exact H4|intros c r []].
  destruct HR as (K1 & K2). cbn [sstep nstep] in HS.
  destruct (plannerLoop F64 G f64_fl f64_cl f64_rnd prob ltinf64 popS popO (sy_cfg s) fuel touched (sy_node s)) as [[m om]|] eqn:E; [|discriminate].
  apply some_inj in HS. assert (E1 : Sys (sy_req s) (sy_cfg s) m = s') by congruence. assert (E2 : om = o') by congruence. clear HS. subst s' o'.
  eapply (plannerLoop_path F64 ltinf64 arith64) in E; eauto.
  destruct E as (_ & g0 & A1 & A2 & A3 & A4 & A5 & A6 & A7). split; [exact A7|]. exists g0. auto 10.
Qed.
Print Assumptions C95_paths.
(** The cell size never changes, whatever is requested; the node type and the radius given at start are ignored; a request that changes the cell size and
    the node type together changes neither; a change of node type alone works. *)
Theorem C95_cell_size_refuted :
  (forall (N : num) (G : trig N) (fl cl rnd : N -> Z) (prob : N -> N) ltinf popS popO own fuel es s s' o,
     srun N G fl cl rnd prob ltinf popS popO own fuel s es = Some (s', o) ->
     cell_scale (nc_gp (sy_cfg s')) = cell_scale (nc_gp (sy_cfg s))) /\
  (forall (N : num) (own : bool) (r : greq N) C n, let C' := fst (reconfigure N own (req_level N None r) r C n) in
     node_type (nc_gp C') = node_type (nc_gp C) /\ speednode_radius (nc_gp C') = speednode_radius (nc_gp C)) /\
  (forall (N : num) (own : bool) (q r : greq N) C n, eqb N (cell_scale (nc_gp (rq_cfg q))) (cell_scale (nc_gp (rq_cfg r))) = false ->
     let C' := fst (reconfigure N own (req_level N (Some q) r) r C n) in
     node_type (nc_gp C') = node_type (nc_gp C) /\ speednode_radius (nc_gp C') = speednode_radius (nc_gp C)) /\
  (forall (N : num) (own : bool) (q r : greq N) C n, eqb N (cell_scale (nc_gp (rq_cfg q))) (cell_scale (nc_gp (rq_cfg r))) = true ->
     node_type (nc_gp (rq_cfg q)) <> node_type (nc_gp (rq_cfg r)) ->
     node_type (nc_gp (fst (reconfigure N own (req_level N (Some q) r) r C n))) = node_type (nc_gp (rq_cfg r))).
Proof.
  split; [|split; [|split]].
  - intros N G fl cl rnd prob ltinf popS popO own fuel es s s' o H. apply srun_scale in H. apply H.
  - intros. split; reflexivity.
  - intros N own q r C n H. cbv zeta. unfold req_level. rewrite H. destruct (_ && _); split; reflexivity.
  - intros N own q r C n H K. unfold req_level. rewrite H.
    assert (E : kind_eqb (node_type (nc_gp (rq_cfg q))) (node_type (nc_gp (rq_cfg r))) = false)
      by (destruct (node_type (nc_gp (rq_cfg q))), (node_type (nc_gp (rq_cfg r))); try reflexivity; exfalso; apply K; reflexivity).
    rewrite E, andb_false_r. reflexivity.
Qed.
Print Assumptions C95_cell_size_refuted.
(** Risks asked for before a request keep their values until the next map, although the parameters they depend on have changed. *)
Theorem C95_stale_risk_refuted :
  forall (N : num) (cl rnd : N -> Z) (prob : N -> N) own level r (C : ncfg N) (n : nstate N) c v, cache_find N (g_cache (ns_pl n)) c = Some v ->
  let '(C', n') := reconfigure N own level r C n in g_risk N cl rnd prob (nc_gp C') (ns_pl n') c = v.
Proof. intros N cl rnd prob own level r C n c v H. cbn. unfold g_risk, effRisk, getRiskC. cbn [g_map g_cache]. rewrite H. reflexivity. Qed.
Print Assumptions C95_stale_risk_refuted.
(** a request that doubles the cell size and changes the node type, then one that only changes the node type, then planning *)
Definition ex_req (sc : F64) (k : nkind) (pen : F64) : greq F64 :=
  GReq (NCfg (GCfg sc (g64 5 1) k 1 10 (g64 1 5) (g64 20 1) (g64 3 1) (g64 500 1) (g64 1 1) pen (g64 5 1) (g64 1 1) (g64 1 2)
       (g64 3 2) (g64 2 1) (g64 1 2) (g64 1 1) (g64 3 1) true true true true true (g64 0 1)) (g64 7 2) (g64 1 1) 1 (g64 101 100)) 1000.
Definition ex_sys : gsys F64 := sinit F64 f64_fl ex_C2 ex_zero (g64 1 1) 2000.
Definition ex_sevents : list (gsev F64) :=
  [SConf (ex_req (g64 1 1) KNode (g64 5 1000)); SConf (ex_req (g64 2 1) KSpeed (g64 5 1000)); SConf (ex_req (g64 2 1) KNode (g64 6 1000))].
Definition kind_of (r : option (gsys F64 * list (nout F64))) : list (nkind * bool) :=
  match r with Some (s, _) => [(node_type (nc_gp (sy_cfg s)), eqb F64 (cell_scale (nc_gp (sy_cfg s))) (g64 1 1))] | None => [] end.
Example C95_example :
  Forall (sane_request F64) ex_sevents /\
  kind_of (srun F64 trig0 f64_fl f64_cl f64_rnd ex_prob ltinf64 (pop_min F64) (pop_min F64) true 1 ex_sys ex_sevents) = [(KNode, true)] /\
  kind_of (srun F64 trig0 f64_fl f64_cl f64_rnd ex_prob ltinf64 (pop_min F64) (pop_min F64) true 1 ex_sys (firstn 2 ex_sevents)) = [(KNoSmooth, true)].
Proof.
  split; [|split; vm_compute; reflexivity].
  repeat constructor; vm_compute; reflexivity.
Qed.
