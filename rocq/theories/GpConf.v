(** Model of the global planner node together with dynamic reconfiguration
    (global_planner/src/nodes/global_planner_node.cpp:157-198, global_planner/cfg/GlobalPlannerNode.cfg).

    - The library dynamic_reconfigure calls the callback once at start with level ~0 (here 2^32 - 1) and then for each request with the bitwise or of the levels
      of the parameters whose value changed: 2 for CELL_SCALE, 4 for SPEEDNODE_RADIUS and default_node_type_, 0 for all others.
    - cell.h:14 and node.h:70 define CELL_SCALE and SPEEDNODE_RADIUS as [static] variables in a header, so every source file has its own copy. The callback
      writes the copies of global_planner_node.cpp. CELL_SCALE is only read in cell.cpp and global_planner.cpp, so the copies in use never change.
      SPEEDNODE_RADIUS is read in a function defined inside a class (node.h:87), of which the linker keeps the version of one source file;
      [own] says whether that happens to be global_planner_node.cpp.
    - robot_radius is no parameter of the reconfigure server. *)
From Coq Require Import ZArith List Bool.
From Verif Require Import Num CommonModel GpModel GpSearch GpPlan GpNode.
Import ListNotations.
Local Open Scope Z_scope.

Section Conf.
Context (N : num) (G : trig N) (fl cl rnd : N -> Z) (prob : N -> N) (ltinf : N -> bool)
        (popS : list (ptr * N) -> option ((ptr * N) * list (ptr * N)))
        (popO : list (gcell * N) -> option ((gcell * N) * list (gcell * N))) (own : bool).

(** a request: a value for each parameter *)
Record greq := GReq { rq_cfg : ncfg N; rq_max_iter : Z }.
Definition kind_eqb (a b : nkind) : bool := match a, b with KNode, KNode | KNoSmooth, KNoSmooth | KSpeed, KSpeed => true | _, _ => false end.
(** dynamic_reconfigure: getLevel *)
Definition req_level (old : option greq) (r : greq) : Z :=
  match old with
  | None => 2 ^ 32 - 1
  | Some q =>
      let P := nc_gp (rq_cfg q) in let P' := nc_gp (rq_cfg r) in
      Z.lor (if eqb N (cell_scale P) (cell_scale P') then 0 else 2)
            (if eqb N (speednode_radius P) (speednode_radius P') && kind_eqb (node_type P) (node_type P') then 0 else 4)
  end.
(** the callback, global_planner_node.cpp:157-198: the configuration in force and the iteration bound *)
Definition reconfigure (level : Z) (r : greq) (C : ncfg N) (s : nstate N) : ncfg N * nstate N :=
  let P := nc_gp C in let P' := nc_gp (rq_cfg r) in
  let lvl4 := level =? 4 in
  (NCfg (GCfg (cell_scale P) (if lvl4 && own then speednode_radius P' else speednode_radius P) (if lvl4 then node_type P' else node_type P)
              (min_altitude P') (max_altitude P') (max_cell_risk P') (smooth_factor P') (vert_to_hor_cost P') (risk_factor P')
              (neighbor_risk_flow P') (explore_penalty P') (up_cost P') (down_cost P') (search_time P') (min_overestimate P') (max_overestimate P')
              (risk_threshold P') (default_speed P') (max_speed P') (goal_must_be_free P') (use_current_yaw P') (use_risk_heuristics P')
              (use_speedup_heuristics P') (use_risk_based_speedup P') (robot_radius P))
        (clicked_alt (rq_cfg r)) (clicked_radius (rq_cfg r)) (simplify_iterations (rq_cfg r)) (simplify_margin (rq_cfg r)),
   let g := ns_pl s in
   with_pl N s (GPl (g_map g) (g_cache g) (g_back g) (g_pos g) (g_yaw g) (g_vel g) (g_goal g) (g_going_back g) (g_goal_blocked g) (g_cell_blocked g)
                    (g_over g) (g_path g) (rq_max_iter r))).

(** the process: the server's last request, the configuration in force, the node *)
Record gsys := Sys { sy_req : option greq; sy_cfg : ncfg N; sy_node : nstate N }.
Inductive gsev := SNode (e : nev N) | SConf (r : greq).
Definition sstep (fuel : nat) (s : gsys) (e : gsev) : option (gsys * list (nout N)) :=
  match e with
  | SNode e => match nstep N G fl cl rnd prob ltinf popS popO (sy_cfg s) fuel (sy_node s) e with
               | Some (n, o) => Some (Sys (sy_req s) (sy_cfg s) n, o)
               | None => None
               end
  | SConf r => let '(C, n) := reconfigure (req_level (sy_req s) r) r (sy_cfg s) (sy_node s) in Some (Sys (Some r) C n, [])
  end.
Fixpoint srun (fuel : nat) (s : gsys) (es : list gsev) : option (gsys * list (nout N)) :=
  match es with
  | [] => Some (s, [])
  | e :: es' => match sstep fuel s e with
                | None => None
                | Some (s1, o1) => match srun fuel s1 es' with Some (s2, o2) => Some (s2, o1 ++ o2) | None => None end
                end
  end.
(** start: [C]: the values compiled in (and robot_radius) *)
Definition sinit (C : ncfg N) (start : vec3 N) (over : N) (max_iter : Z) : gsys := Sys None C (ninit N fl C start over max_iter).
End Conf.
Arguments GReq {N} _ _.
Arguments rq_cfg {N} _.
Arguments rq_max_iter {N} _.
Arguments Sys {N} _ _ _.
Arguments sy_req {N} _.
Arguments sy_cfg {N} _.
Arguments sy_node {N} _.
Arguments SNode {N} _.
Arguments SConf {N} _.
