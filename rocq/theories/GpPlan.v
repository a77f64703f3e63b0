(** Model of the class GlobalPlanner (global_planner/src/library/global_planner.cpp, global_planner/include/global_planner/global_planner.h)
    and of GlobalPlannerNode (global_planner/src/nodes/global_planner_node.cpp).

    The octomap is the partial function from cells to the log-odds that octree_->search returns for the cell's centre at the
    depth of global_planner.cpp:139-140. octomap::probability is the argument [prob]. *)
From Coq Require Import ZArith List Bool.
From Verif Require Import Num CommonModel GpModel GpSearch.
Import ListNotations.
Local Open Scope Z_scope.

(** global_planner.h:39-41: the altitude prior, in units of 1/10000 *)
Definition alt_prior_table : list Z :=
  [10000; 2000; 1333; 1000; 833; 500; 330; 250; 166; 125; 10; 10; 10; 10; 10; 10; 10; 10; 10; 10; 10; 10; 10; 10; 10].

Section Plan.
Context (N : num) (G : trig N) (fl cl rnd : N -> Z) (prob : N -> N) (ltinf : N -> bool)
        (popS : list (ptr * N) -> option ((ptr * N) * list (ptr * N)))
        (popO : list (gcell * N) -> option ((gcell * N) * list (gcell * N))).
Declare Scope gpp_scope.
Local Notation "x +. y" := (add N x y) (at level 50, left associativity) : gpp_scope.
Local Notation "x -. y" := (sub N x y) (at level 50, left associativity) : gpp_scope.
Local Notation "x *. y" := (mul N x y) (at level 40, left associativity) : gpp_scope.
Local Notation "x /. y" := (div N x y) (at level 40, left associativity) : gpp_scope.
Local Notation "# z" := (ofZ N z) (at level 1, format "# z") : gpp_scope.
Local Open Scope gpp_scope.

(** global_planner.h:68-93, cell.h:14, node.h:70: the dynamic reconfigure parameters *)
Record gcfg := GCfg {
  cell_scale : N; speednode_radius : N; node_type : nkind;
  min_altitude : Z; max_altitude : Z; max_cell_risk : N; smooth_factor : N; vert_to_hor_cost : N; risk_factor : N;
  neighbor_risk_flow : N; explore_penalty : N; up_cost : N; down_cost : N; search_time : N;
  min_overestimate : N; max_overestimate : N; risk_threshold : N; default_speed : N; max_speed : N;
  goal_must_be_free : bool; use_current_yaw : bool; use_risk_heuristics : bool; use_speedup_heuristics : bool;
  use_risk_based_speedup : bool; robot_radius : N }.

(** global_planner.h:34, 56, 148-150; [octree] is None until the first map; octree_resolution_ is uninitialised until then *)
Record gmap := GMap { octree : option (gcell -> option N); resolution : option N; occupied : list gcell }.

Section Costs.
Context (P : gcfg).
Notation sc := (cell_scale P).

(** global_planner.cpp:163-173; size() is unsigned, so [index > alt_prior_.size() - 1] converts a negative index to a huge one *)
Definition getAltPrior (c : gcell) : N :=
  let index := rnd (pos1 N sc (cz c)) in
  let size := Z.of_nat (length alt_prior_table) in
  if size - 1 <? index mod 2 ^ 64 then cst N (last alt_prior_table 0) 10000
  else if index <? 0 then cst N (hd 0 alt_prior_table) 10000
  else cst N (nth (Z.to_nat index) alt_prior_table 0) 10000.

(** global_planner.cpp:133-161 *)
Definition getSingleCellRisk (m : gmap) (c : gcell) : N :=
  match octree m with
  | None => #1
  | Some tree =>
      if cz c <? 1 then #1
      else match tree c with
           | Some log_odds =>
               let post := posterior N (getAltPrior c) (prob log_odds) in
               if cmem c (occupied m) then post
               else if ltb N (#0) log_odds then post
               else explore_penalty P *. post
           | None => explore_penalty P *. getAltPrior c
           end
  end.
(** global_planner.cpp:175 *)
Definition isOccupied (m : gmap) (c : gcell) : bool := ltb N (cst N 1 2) (getSingleCellRisk m c).

(** global_planner.cpp:186-190: the risk of a cell that is not cached. None: octree_resolution_ is read before it is written, or
    getFlowNeighbors casts NaN to int. *)
Definition freshRisk (m : gmap) (c : gcell) : option N :=
  match resolution m with
  | None => None
  | Some res =>
      match getFlowNeighbors c (cl (robot_radius P /. res)) with
      | None => None
      | Some ns => Some (fold_left (fun r n => r +. neighbor_risk_flow P *. getSingleCellRisk m n) ns (getSingleCellRisk m c))
      end
  end.
(** global_planner.cpp:181-194 with the cache made explicit *)
Fixpoint cache_find (l : list (gcell * N)) (c : gcell) : option N :=
  match l with [] => None | (c', r) :: l' => if ceq c' c then Some r else cache_find l' c end.
Definition getRiskC (m : gmap) (cache : list (gcell * N)) (c : gcell) : option (N * list (gcell * N)) :=
  match cache_find cache c with
  | Some r => Some (r, cache)
  | None => match freshRisk m c with Some r => Some (r, (c, r) :: cache) | None => None end
  end.
(** The value getRisk(cell) returns in a state with this map and cache. The functions below take risks from here; that calling
    getRisk does not change later results is proved (the cache only receives values this function already has). Where the risk is
    undefined it is NaN. *)
Definition effRisk (m : gmap) (cache : list (gcell * N)) (c : gcell) : N :=
  match getRiskC m cache c with Some (r, _) => r | None => nanv N end.

Context (risk : gcell -> N).
(** global_planner.cpp:196-203; None = 0.0 / 0 *)
Definition getRiskNode (n : gnode) : option N :=
  match getCells N fl sc n with
  | [] => None
  | cells => Some (fold_left (fun r c => r +. risk c) cells (#0) /. #(Z.of_nat (length cells)) *. getLength N sc n)
  end.
(** global_planner.cpp:177-179 *)
Definition isLegal (n : gnode) : bool :=
  ltb N (pos1 N sc (cz (n_cell n))) (#(max_altitude P)) &&
  match getRiskNode n with Some r => ltb N r (max_cell_risk P) | None => false end.
(** global_planner.cpp:124-130 *)
Definition getEdgeDist (u v : gcell) : N :=
  let z_diff := pos1 N sc (cz v) -. pos1 N sc (cz u) in
  distance2D N sc u v +. up_cost P *. maxv N z_diff (#0) +. down_cost P *. maxv N (opp N z_diff) (#0).
(** global_planner.cpp:229-232 *)
Definition getTurnSmoothness (u v : gnode) : N := let turn := getRotation N G u v in turn *. turn.
(** global_planner.cpp:235-245; [pos], [vel] are curr_pos_, curr_vel_. None = NaN *)
Definition getEdgeCost (pos vel : vec3 N) (u v : gnode) : option N :=
  match getRiskNode v with
  | None => None
  | Some r =>
      let smooth := smooth_factor P *. getTurnSmoothness u v in
      let smooth := if ltb N (distance3D N sc (n_cell u) (cell_of N fl sc pos)) (#3) && ltb N (#1) (gnorm N vel)
                    then smooth *. #2 else smooth in
      Some (getEdgeDist (n_cell u) (n_cell v) +. risk_factor P *. r +. smooth)
  end.
(** global_planner.cpp:21-27 and the unchecked accumulated_alt_prior_[i]; None = out of range *)
Fixpoint accumulate (sum : N) (l : list Z) : list N :=
  match l with [] => [] | p :: l' => let s := sum +. cst N p 10000 in s :: accumulate s l' end.
Definition accumulated_alt_prior (i : Z) : option N :=
  if i <? 0 then None else nth_error (accumulate (#0) alt_prior_table) (Z.to_nat i).
(** global_planner.cpp:249-264; None = out of range access *)
Definition riskHeuristic (u goal : gcell) : option N :=
  if ceq u goal then Some (#0)
  else
    let unexplored := (#1 +. #6 *. neighbor_risk_flow P) *. explore_penalty P *. risk_factor P in
    let xy_risk := (diagDistance2D N sc u goal -. #1) *. unexplored *. getAltPrior u in
    match accumulated_alt_prior (cz u), accumulated_alt_prior (cz goal) with
    | Some a, Some b => Some (xy_risk +. unexplored *. absv N (a -. b) +. risk goal *. risk_factor P)
    | _, _ => None
    end.
(** global_planner.cpp:281-303 *)
Definition smoothnessHeuristic (u : gnode) (goal : gcell) : N :=
  if (cx (n_cell u) =? cx goal) && (cy (n_cell u) =? cy goal) then #0
  else if (cx (n_cell u) =? cx (n_par u)) && (cy (n_cell u) =? cy (n_par u)) then smooth_factor P *. vert_to_hor_cost P
  else
    let u_ang := cangle N G (csub (n_cell u) (n_par u)) in
    let goal_ang := cangle N G (csub goal (n_cell u)) in
    let turns := absv N (angleToRange N (goal_ang -. u_ang)) /. (pif N /. #4) in
    smooth_factor P *. (turns +. #(if cz (n_cell u) =? cz goal then 0 else 1)).
(** global_planner.cpp:306-312 *)
Definition altitudeHeuristic (u goal : gcell) : N :=
  let diff := cz goal - cz u in
  if 0 <? diff then up_cost P *. absv N (#diff) else down_cost P *. absv N (#diff).
(** global_planner.cpp:315-333; [over] is overestimate_factor_, [seen] the cells perNeighbor was called with (visitor.h:20-23) *)
Definition getHeuristic (over : N) (goal : gcell) (seen : list gcell) (u : gnode) : N :=
  let h := over *. diagDistance2D N sc (n_cell u) goal +. altitudeHeuristic (n_cell u) goal +. smoothnessHeuristic u goal in
  let h := if use_risk_heuristics P
           then match riskHeuristic (n_cell u) goal with Some r => h +. r | None => nanv N end else h in
  if use_speedup_heuristics P
  then h +. #(Z.of_nat (length (filter (ceq (n_cell u)) seen))) else h.
End Costs.

(* ------------------------------------------------------------------------------------------------ planner state *)
Record gplanner := GPl {
  g_map : gmap; g_cache : list (gcell * N); g_back : list gcell; g_pos : vec3 N; g_yaw : N; g_vel : vec3 N;
  g_goal : goalcell N; g_going_back : bool; g_goal_blocked : bool; g_cell_blocked : bool;
  g_over : N; g_path : list gcell; g_max_iter : Z }.

Definition g_risk (P : gcfg) (g : gplanner) : gcell -> N := effRisk P (g_map g) (g_cache g).

(** global_planner.cpp:30-39 *)
Definition setPose (P : gcfg) (g : gplanner) (pos : vec3 N) (yaw : N) : gplanner :=
  let c := cell_of N fl (cell_scale P) pos in
  let push := negb (g_going_back g) && match rev (g_back g) with [] => true | b :: _ => negb (ceq c b) end in
  GPl (g_map g) (g_cache g) (if push then g_back g ++ [c] else g_back g) pos yaw (g_vel g)
      (g_goal g) (g_going_back g) (g_goal_blocked g) (g_cell_blocked g) (g_over g) (g_path g) (g_max_iter g).
(** global_planner.cpp:42-48; heuristic_cache_ is never read and bubble_risk_cache_ is only used by dead code *)
Definition setGoal (g : gplanner) (goal : goalcell N) : gplanner :=
  GPl (g_map g) (g_cache g) (g_back g) (g_pos g) (g_yaw g) (g_vel g) goal false false (g_cell_blocked g) (g_over g) (g_path g) (g_max_iter g).
(** global_planner.cpp:51-62 (path info and path_cells_ are not read by any modelled code) *)
Definition setPath (g : gplanner) (p : list gcell) : gplanner :=
  GPl (g_map g) (g_cache g) (g_back g) (g_pos g) (g_yaw g) (g_vel g) (g_goal g) (g_going_back g) (g_goal_blocked g) (g_cell_blocked g)
      (g_over g) p (g_max_iter g).
(** global_planner.cpp:69-76 *)
Definition updateFullOctomap (g : gplanner) (tree : gcell -> option N) (res : N) : gplanner :=
  GPl (GMap (Some tree) (Some res) (occupied (g_map g))) [] (g_back g) (g_pos g) (g_yaw g) (g_vel g) (g_goal g) (g_going_back g)
      (g_goal_blocked g) (g_cell_blocked g) (g_over g) (g_path g) (g_max_iter g).
(** global_planner_node.cpp:293-299 *)
Definition addObstacle (P : gcfg) (g : gplanner) (p : vec3 N) : gplanner :=
  GPl (GMap (octree (g_map g)) (resolution (g_map g)) (cins (occupied (g_map g)) (cell_of N fl (cell_scale P) p)))
      (g_cache g) (g_back g) (g_pos g) (g_yaw g) (g_vel g) (g_goal g) (g_going_back g)
      (g_goal_blocked g) (g_cell_blocked g) (g_over g) (g_path g) (g_max_iter g).
(** global_planner.cpp:534-537 *)
Definition stop (P : gcfg) (g : gplanner) : gplanner :=
  let c := cell_of N fl (cell_scale P) (g_pos g) in
  setPath (setGoal g (GC c (#1) false)) [c].

(** global_planner.cpp:7-14 *)
Definition cellYaw (u v : gcell) (last_yaw : N) : N :=
  if (cx v - cx u =? 0) && (cy v - cy u =? 0) then last_yaw else t_atan2 G (#(cy v - cy u)) (#(cx v - cx u)).
(** global_planner.cpp:335-341 *)
Definition createPoseMsg (sc : N) (c : gcell) (yaw : N) : gpose N := GP (centre N sc c) yaw.
(** global_planner.cpp:356-365 *)
Fixpoint path_poses (sc : N) (last_yaw : N) (p : list gcell) : list (gpose N) :=
  match p with
  | [] => []
  | [c] => [createPoseMsg sc c last_yaw]
  | c :: ((d :: _) as p') => let y := cellYaw c d last_yaw in createPoseMsg sc c y :: path_poses sc y p'
  end.
(** global_planner.cpp:345-367 *)
Definition getPathMsg (P : gcfg) (g : gplanner) (p : list gcell) : list (gpose N) := path_poses (cell_scale P) (g_yaw g) p.

(** global_planner.cpp:439-470: the loop over overestimation factors; [p] is the best path so far. Result: found, path, overestimate_factor_.
    None = a search did not return (never happens, see the theorems) or [fuel] ran out. *)
Fixpoint findPath_loop (fuel : nat) (P : gcfg) (g : gplanner) (s parent : gcell) (over : N) (iter_left last_iter : Z)
                       (found : bool) (p : list gcell) : option (bool * list gcell * N) :=
  match fuel with
  | O => None
  | S f =>
      if leb N (min_overestimate P) over && (last_iter <? iter_left) then
        let kind := if ltb N (cst N 3 2) over then KNoSmooth else node_type P in
        let risk := g_risk P g in
        match findSmoothPath N (cell_scale P) (speednode_radius P) (isLegal P risk) (getEdgeCost P risk (g_pos g) (g_vel g))
                (getHeuristic P risk over (gc_cell (g_goal g))) ltinf popS (Nd kind s parent) (g_goal g) iter_left with
        | None => None
        | Some (true, it, np) => findPath_loop f P g s parent ((over -. #1) /. #4 +. #1) (iter_left - it) it true np
        | Some (false, _, _) => Some (found, p, over)
        end
      else Some (found, p, over)
  end.
(** global_planner.cpp:414-480. The assignment in lines 422-424 declares a new variable and has no effect. [fuel] bounds the number
    of searches. *)
Definition findPath (fuel : nat) (P : gcfg) (g : gplanner) : option (bool * list gcell * gplanner) :=
  let sc := cell_scale P in
  let s := cell_of N fl sc (v3add N (g_pos g) (v3scale N (search_time P) (g_vel g))) in
  let parent := cell_of N fl sc (v3sub N (g_pos g) (v3scale N (search_time P) (g_vel g))) in
  match findPath_loop fuel P g s parent (max_overestimate P) (g_max_iter g) 0 false [] with
  | None => None
  | Some (found, p, over) =>
      let g1 := GPl (g_map g) (g_cache g) (g_back g) (g_pos g) (g_yaw g) (g_vel g) (g_goal g) (g_going_back g)
                    (g_goal_blocked g) (g_cell_blocked g) over (g_path g) (if found then g_max_iter g else 5000) in
      if found then Some (true, p, g1)
      else
        match find2DPath N sc (g_risk P g) ltinf (up_cost P) (down_cost P) (risk_factor P) (max_cell_risk P) over (min_altitude P)
                (max_altitude P) popO fl 5000 s (gc_cell (g_goal g)) parent (max_altitude P) with
        | None => None
        | Some (b, p2) => Some (b, if b then p2 else [], g1)
        end
  end.
(** global_planner.cpp:484-512; None also if the risk of the goal is undefined ([freshRisk]) when it is asked for *)
Definition getGlobalPath (fuel : nat) (P : gcfg) (g : gplanner) : option (bool * gplanner) :=
  let set_flags (gb cb : bool) (g : gplanner) :=
    GPl (g_map g) (g_cache g) (g_back g) (g_pos g) (g_yaw g) (g_vel g) (g_goal g) (g_going_back g) gb cb (g_over g) (g_path g) (g_max_iter g) in
  let s := cell_of N fl (cell_scale P) (g_pos g) in
  let t := gc_cell (g_goal g) in
  let cb := isOccupied P (g_map g) s in
  if goal_must_be_free P && match getRiskC P (g_map g) (g_cache g) t with Some _ => false | None => true end then None
  else if goal_must_be_free P && ltb N (max_cell_risk P) (g_risk P g t) then Some (false, set_flags true cb g)
  else if cb then Some (false, set_flags (g_goal_blocked g) cb g)
  else match findPath fuel P g with
       | None => None
       | Some (false, _, g1) => Some (false, set_flags true cb g1)
       | Some (true, p, g1) => Some (true, setPath (set_flags (g_goal_blocked g) cb g1) p)
       end.

(** global_planner.cpp:523-529 on the reversed trail: the first i > 5, i < size - 1, of low risk. size - 1 is unsigned. *)
Fixpoint back_index (risk : gcell -> N) (i : Z) (l : list gcell) : option Z :=
  match l with
  | c :: ((_ :: _) as l') => if (5 <? i) && ltb N (risk c) (cst N 1 2) then Some i else back_index risk (i + 1) l'
  | _ => None
  end.
(** global_planner.cpp:516-532; None = undefined behaviour: the loop bound new_path.size() - 1 wraps for an empty trail, and
    path_back_.resize(path_back_.size() - i - 2) wraps when fewer than two older cells remain (std::length_error). *)
Definition goBack (P : gcfg) (g : gplanner) : option gplanner :=
  match rev (g_back g) with
  | [] => None
  | c0 :: rest =>
      let np := c0 :: rest in
      let finish (np back : list gcell) :=
        Some (GPl (g_map g) (g_cache g) back (g_pos g) (g_yaw g) (g_vel g) (GC (last np c0) (#1) false) true
                  (g_goal_blocked g) (g_cell_blocked g) (g_over g) np (g_max_iter g)) in
      match back_index (g_risk P g) 1 rest with
      | None => finish np (g_back g)
      | Some i =>
          let n := Z.of_nat (length (g_back g)) - i - 2 in
          if n <? 0 then None
          else finish (firstn (Z.to_nat (i + 1)) np) (firstn (Z.to_nat n) (g_back g))
      end
  end.
End Plan.

Arguments GCfg {N}.
Arguments cell_scale {N} _.
Arguments speednode_radius {N} _.
Arguments node_type {N} _.
Arguments min_altitude {N} _.
Arguments max_altitude {N} _.
Arguments max_cell_risk {N} _.
Arguments smooth_factor {N} _.
Arguments vert_to_hor_cost {N} _.
Arguments risk_factor {N} _.
Arguments neighbor_risk_flow {N} _.
Arguments explore_penalty {N} _.
Arguments up_cost {N} _.
Arguments down_cost {N} _.
Arguments search_time {N} _.
Arguments min_overestimate {N} _.
Arguments max_overestimate {N} _.
Arguments risk_threshold {N} _.
Arguments default_speed {N} _.
Arguments max_speed {N} _.
Arguments goal_must_be_free {N} _.
Arguments use_current_yaw {N} _.
Arguments use_risk_heuristics {N} _.
Arguments use_speedup_heuristics {N} _.
Arguments use_risk_based_speedup {N} _.
Arguments robot_radius {N} _.
Arguments GMap {N} _ _ _.
Arguments octree {N} _.
Arguments resolution {N} _.
Arguments occupied {N} _.
Arguments GPl {N}.
Arguments g_map {N} _.
Arguments g_cache {N} _.
Arguments g_back {N} _.
Arguments g_pos {N} _.
Arguments g_yaw {N} _.
Arguments g_vel {N} _.
Arguments g_goal {N} _.
Arguments g_going_back {N} _.
Arguments g_goal_blocked {N} _.
Arguments g_cell_blocked {N} _.
Arguments g_over {N} _.
Arguments g_path {N} _.
Arguments g_max_iter {N} _.
