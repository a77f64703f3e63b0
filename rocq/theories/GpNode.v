(** Model of the class GlobalPlannerNode (global_planner/src/nodes/global_planner_node.cpp, global_planner/include/global_planner/global_planner_node.h).

    Each callback is one atomic step. (In the program the callbacks run in three threads and only octomapFullCallback and
    plannerLoopCallback take mutex_; the data races between the others are not modelled.)
    - A pose is its position and yaw; tf::getYaw(tf::createQuaternionMsgFromYaw(y)) is taken to be y, which holds for |y| <= pi.
    - A planning cycle fills risk_cache_ with the cells it looked at; which ones depends on the search, so the step takes the list
      of those cells as an argument ([touched]) and the theorems hold for every list.
    - None = the process crashes, has undefined behaviour or does not return.
    - Not modelled: the ROS plumbing, printed diagnostics, the actual_path_ message and its statistics, publishing of the point cloud, the failsafe
      (AvoidanceNode, see NodeModel.v). *)
From Coq Require Import ZArith List Bool.
From Verif Require Import Num CommonModel GpModel GpSearch GpPlan.
Import ListNotations.
Local Open Scope Z_scope.

Section GNode.
Context (N : num) (G : trig N) (fl cl rnd : N -> Z) (prob : N -> N) (ltinf : N -> bool)
        (popS : list (ptr * N) -> option ((ptr * N) * list (ptr * N)))
        (popO : list (gcell * N) -> option ((gcell * N) * list (gcell * N))).

(** the reconfigurable parameters: those of the planner and global_planner_node.h:116-120 *)
Record ncfg := NCfg { nc_gp : gcfg N; clicked_alt : N; clicked_radius : N; simplify_iterations : Z; simplify_margin : N }.
(** global_planner_node.h:47-48, 94-113 *)
Record nstate := NS {
  ns_pl : gplanner N; ns_wps : list (goalcell N); ns_path : list (gpose N); ns_goal : gpose N (* current_goal_ *);
  ns_last_goal : gpose N; ns_pos : gpose N (* last_pos_ *); ns_speed : N }.
(** what the node publishes *)
Inductive nout :=
| OTempGoal (p : vec3 N) | OGoal (p : vec3 N) | OTempPath (l : list (gpose N)) | OSmooth (l : list (gpose N)) | OSetpoint (p : gpose N).

Section WithCfg.
Context (C : ncfg).
Notation P := (nc_gp C).
Notation sc := (cell_scale P).

Definition with_pl (s : nstate) (g : gplanner N) : nstate :=
  NS g (ns_wps s) (ns_path s) (ns_goal s) (ns_last_goal s) (ns_pos s) (ns_speed s).
Definition with_wps (s : nstate) (w : list (goalcell N)) : nstate :=
  NS (ns_pl s) w (ns_path s) (ns_goal s) (ns_last_goal s) (ns_pos s) (ns_speed s).

(** global_planner_node.cpp:355-366 *)
Definition publishGoal (g : goalcell N) : list nout :=
  let p := centre N sc (gc_cell g) in OTempGoal p :: (if gc_temp g then [] else [OGoal p]).
(** global_planner_node.cpp:106-110 *)
Definition setNewGoal (s : nstate) (g : goalcell N) : nstate * list nout := (with_pl s (setGoal N (ns_pl s) g), publishGoal g).
(** global_planner_node.cpp:113-124 *)
Definition popNextGoal (s : nstate) : nstate * list nout :=
  match ns_wps s with
  | g :: ws => setNewGoal (with_wps s ws) g
  | [] => if g_goal_blocked (ns_pl s) then (with_pl s (stop N fl P (ns_pl s)), []) else (s, [])
  end.
(** global_planner_node.cpp:147-155; curr_path_length / 4 is an integer division *)
Definition setIntermediateGoal (s : nstate) : nstate * list nout :=
  let path := g_path (ns_pl s) in
  let n := Z.of_nat (length path) in
  if 10 <? n then
    let middle := nth (Z.to_nat (n / 2)) path (C3 0 0 0) in
    setNewGoal (with_wps s (g_goal (ns_pl s) :: ns_wps s)) (GC middle (ofZ N (n / 4)) true)
  else (s, []).
(** global_planner_node.cpp:127-144; [fuel] bounds the number of searches *)
Definition planPath (fuel : nat) (s : nstate) : option (nstate * list nout) :=
  match getGlobalPath N G fl cl rnd prob ltinf popS popO fuel P (ns_pl s) with
  | None => None
  | Some (found, g) =>
      let s1 := with_pl s g in
      if found && ltb N (cst N 105 100) (g_over g) then Some (setIntermediateGoal s1) else Some (s1, [])
  end.
(** global_planner_node.cpp:307-320 *)
Definition setCurrentPath (s : nstate) (poses : list (gpose N)) : nstate :=
  match poses with
  | a :: b :: rest => NS (ns_pl s) (ns_wps s) rest b a (ns_pos s) (ns_speed s)
  | _ => NS (ns_pl s) (ns_wps s) [] (ns_goal s) (ns_last_goal s) (ns_pos s) (ns_speed s)
  end.
(** global_planner_node.cpp:377: simplifyPath(&planner, curr_path_, simplify_iterations_, simplify_margin_): the callee's parameters are (.., simplify_margin, max_iter) *)
Definition simple_path (g : gplanner N) : list gcell :=
  simplifyPath N (getEdgeCost N G fl P (g_risk N cl rnd prob P g) (g_pos g) (g_vel g)) (g_path g)
               (ofZ N (simplify_iterations C)) (simplify_margin C) true.
(** global_planner_node.cpp:369-382 *)
Definition publishPath (s : nstate) : nstate * list nout :=
  let g := ns_pl s in
  let m1 := getPathMsg N G P g (g_path g) in
  let s1 := setCurrentPath s m1 in
  let m2 := getPathMsg N G P g (simple_path g) in
  (setCurrentPath s1 m2, [OTempPath m1; OSmooth (smoothPath N m1); OTempPath m2; OSmooth (smoothPath N m2)]).
(** risk_cache_ after getRisk has been called for these cells *)
Definition touch (g : gplanner N) (cells : list gcell) : gplanner N :=
  let cache := fold_left (fun k c => match getRiskC N cl rnd prob P (g_map g) k c with Some (_, k') => k' | None => k end) cells (g_cache g) in
  GPl (g_map g) cache (g_back g) (g_pos g) (g_yaw g) (g_vel g) (g_goal g) (g_going_back g) (g_goal_blocked g) (g_cell_blocked g)
      (g_over g) (g_path g) (g_max_iter g).
(** global_planner_node.cpp:335-353 *)
Definition plannerLoop (fuel : nat) (touched : list gcell) (s : nstate) : option (nstate * list nout) :=
  let g := ns_pl s in
  let in_goal := withinPositionRadius N sc (g_goal g) (g_pos g) in
  let '(s1, o1) := if in_goal || g_goal_blocked g then popNextGoal s else (s, []) in
  match planPath fuel s1 with
  | None => None
  | Some (s2, o2) =>
      let s3 := with_pl s2 (touch (ns_pl s2) touched) in
      let '(s4, o4) := publishPath s3 in
      Some (s4, o1 ++ o2 ++ o4)
  end.

(** global_planner_node.cpp:433 *)
Definition isCloseToGoal (s : nstate) : bool := ltb N (gdistance N (gp_pos (ns_goal s)) (gp_pos (ns_pos s))) (ns_speed s).
(** global_planner_node.cpp:221-238: facing the right direction? *)
Definition yawOk (y1 y2 : N) : bool :=
  let tau := mul N (ofZ N 2) (pif N) in
  let d := absv N (sub N y2 y1) in
  let d := sub N d (mul N (floorv N (div N d tau)) tau) in
  let m := div N (pif N) (ofZ N 1) in
  ltb N d m || ltb N (sub N tau m) d.
(** global_planner_node.cpp:205-239 *)
Definition positionCallback (s : nstate) (p : gpose N) : nstate :=
  let s1 := NS (setPose N fl P (ns_pl s) (gp_pos p) (gp_yaw p)) (ns_wps s) (ns_path s) (ns_goal s) (ns_last_goal s) p (ns_speed s) in
  match ns_path s1 with
  | q :: rest =>
      if isCloseToGoal s1 && yawOk (gp_yaw (ns_goal s1)) (gp_yaw (ns_pos s1))
      then NS (ns_pl s1) (ns_wps s1) rest q (ns_goal s1) (ns_pos s1) (ns_speed s1)
      else s1
  | [] => s1
  end.
(** global_planner_node.cpp:200-202 *)
Definition velocityCallback (s : nstate) (v : vec3 N) : nstate :=
  let g := ns_pl s in
  with_pl s (GPl (g_map g) (g_cache g) (g_back g) (g_pos g) (g_yaw g) v (g_goal g) (g_going_back g) (g_goal_blocked g) (g_cell_blocked g)
                 (g_over g) (g_path g) (g_max_iter g)).
(** global_planner_node.cpp:251-253 *)
Definition moveBaseSimpleCallback (s : nstate) (x y : N) : nstate * list nout :=
  setNewGoal s (GC (cell_of N fl sc (V3 x y (clicked_alt C))) (clicked_radius C) false).
(** global_planner_node.cpp:255-261 *)
Definition fcuInputGoalCallback (s : nstate) (valid : bool) (p : vec3 N) : nstate * list nout :=
  let c := cell_of N fl sc p in
  let o := gc_cell (g_goal (ns_pl s)) in
  let far a b := ltb N (cst N 1 1000) (absv N (sub N (pos1 N sc a) (pos1 N sc b))) in
  if valid && (far (cx o) (cx c) || far (cy o) (cy c)) then setNewGoal s (GC c (ofZ N 1) false) else (s, []).
(** global_planner_node.cpp:264-277; [fresh]: at least 0.2 s since the last accepted map; None: dynamic_cast<OcTree*> returned null (global_planner.cpp:74-75) *)
Definition octomapFullCallback (s : nstate) (fresh : bool) (tree : option (gcell -> option N)) (res : N) : option nstate :=
  if fresh then match tree with Some t => Some (with_pl s (updateFullOctomap N (ns_pl s) t res)) | None => None end
  else Some s.
(** global_planner_node.cpp:292-299 *)
Definition depthCameraCallback (s : nstate) (pts : list (vec3 N)) : nstate :=
  with_pl s (fold_left (addObstacle N fl P) pts (ns_pl s)).
(** global_planner_node.cpp:241-249 with analysis.h:103-132: reads the risk of the cell and dereferences octree_ *)
Definition clickedPointCallback (s : nstate) (p : vec3 N) : option nstate :=
  let g := ns_pl s in
  match getRiskC N cl rnd prob P (g_map g) (g_cache g) (cell_of N fl sc p), octree (g_map g) with
  | Some (_, k), Some _ => Some (with_pl s (touch g [cell_of N fl sc p]))
  | _, _ => None
  end.

(** global_planner_node.cpp:393-407 *)
Definition targetSpeed (s : nstate) : N :=
  if use_speedup_heuristics P then
    let r := sqrtv N (g_risk N cl rnd prob P (ns_pl s) (cell_of N fl sc (gp_pos (ns_pos s)))) in
    if leb N (risk_threshold P) r then default_speed P
    else add N (default_speed P) (mul N (sub N (max_speed P) (default_speed P)) (sub N (ofZ N 1) r))
  else default_speed P.
(** global_planner_node.cpp:409-417 with tf::Vector3::normalize: v *= 1.0 / length *)
Definition setpointPos (goal pos : vec3 N) (speed : N) : vec3 N :=
  let v := v3sub N goal pos in
  let len := gnorm N v in
  let new_len := if ltb N len (ofZ N 1) then len else speed in
  let v := v3scale N (div N (ofZ N 1) len) v in
  v3add N pos (v3scale N new_len v).
(** global_planner_node.cpp:390-431; None: getRisk reads octree_resolution_ before the first map ([freshRisk]) *)
Definition publishSetpoint (s : nstate) : option (nstate * list nout) :=
  let c := cell_of N fl sc (gp_pos (ns_pos s)) in
  let g := ns_pl s in
  if use_speedup_heuristics P && match getRiskC N cl rnd prob P (g_map g) (g_cache g) c with Some _ => false | None => true end then None
  else
    let g1 := if use_speedup_heuristics P then touch g [c] else g in
    let speed := targetSpeed s in
    Some (NS g1 (ns_wps s) (ns_path s) (ns_goal s) (ns_last_goal s) (ns_pos s) speed,
          [OSetpoint (GP (setpointPos (gp_pos (ns_goal s)) (gp_pos (ns_pos s)) speed) (gp_yaw (ns_goal s)))]).

(** the callbacks as one event type *)
Inductive nev :=
| EMap (fresh : bool) (tree : option (gcell -> option N)) (res : N)
| EPose (p : gpose N)
| EVel (v : vec3 N)
| ECloud (pts : list (vec3 N))
| EGoal (x y : N)
| EFcu (valid : bool) (p : vec3 N)
| EClick (p : vec3 N)
| EPlan (touched : list gcell)
| ECmd.
Definition nstep (fuel : nat) (s : nstate) (e : nev) : option (nstate * list nout) :=
  let pure s' := Some (s', []) in
  match e with
  | EMap fresh tree res => match octomapFullCallback s fresh tree res with Some s' => pure s' | None => None end
  | EPose p => pure (positionCallback s p)
  | EVel v => pure (velocityCallback s v)
  | ECloud pts => pure (depthCameraCallback s pts)
  | EGoal x y => Some (moveBaseSimpleCallback s x y)
  | EFcu valid p => Some (fcuInputGoalCallback s valid p)
  | EClick p => match clickedPointCallback s p with Some s' => pure s' | None => None end
  | EPlan touched => plannerLoop fuel touched s
  | ECmd => publishSetpoint s
  end.
Fixpoint nrun (fuel : nat) (s : nstate) (es : list nev) : option (nstate * list nout) :=
  match es with
  | [] => Some (s, [])
  | e :: es' =>
      match nstep fuel s e with
      | None => None
      | Some (s1, o1) => match nrun fuel s1 es' with Some (s2, o2) => Some (s2, o1 ++ o2) | None => None end
      end
  end.
(** global_planner_node.cpp:5-71, 74-97, global_planner.h:56-66: the state after construction; [start]: the parameters start_pos_*. last_pos_, curr_pos_ and curr_vel_ are zero
    until the first message; curr_yaw_ is uninitialised (here 0) *)
Definition ninit (start : vec3 N) (over : N) (max_iter : Z) : nstate :=
  let zero := V3 (ofZ N 0) (ofZ N 0) (ofZ N 0) in
  let g0 := GPl (GMap None None []) [] [] zero (ofZ N 0) zero (GC (cell_of N fl sc start) (ofZ N 1) false) true false false over [] max_iter in
  NS g0 [] [] (GP start (ofZ N 0)) (GP start (ofZ N 0)) (GP zero (ofZ N 0)) (default_speed P).
End WithCfg.
End GNode.

Arguments NCfg {N}.
Arguments nc_gp {N} _.
Arguments clicked_alt {N} _.
Arguments clicked_radius {N} _.
Arguments simplify_iterations {N} _.
Arguments simplify_margin {N} _.
Arguments NS {N}.
Arguments ns_pl {N} _.
Arguments ns_wps {N} _.
Arguments ns_path {N} _.
Arguments ns_goal {N} _.
Arguments ns_last_goal {N} _.
Arguments ns_pos {N} _.
Arguments ns_speed {N} _.
Arguments OTempGoal {N} _.
Arguments OGoal {N} _.
Arguments OTempPath {N} _.
Arguments OSmooth {N} _.
Arguments OSetpoint {N} _.
Arguments EMap {N} _ _ _.
Arguments EPose {N} _.
Arguments EVel {N} _.
Arguments ECloud {N} _.
Arguments EGoal {N} _ _.
Arguments EFcu {N} _ _.
Arguments EClick {N} _.
Arguments EPlan {N} _.
Arguments ECmd {N}.
