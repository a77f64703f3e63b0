(** Model of the safe landing waypoint generator and its node:
    safe_landing_planner/src/nodes/waypoint_generator.cpp, safe_landing_planner/include/safe_landing_planner/waypoint_generator.hpp,
    safe_landing_planner/src/nodes/waypoint_generator_node.cpp.

    [ceilc] is static_cast<int>(std::ceil(float)), [rnd] is static_cast<int>(std::round(float)). The node handles callbacks only inside its
    command loop (waypoint_generator_node.cpp:39-41), so callbacks and command cycles do not overlap. Undefined behaviour (access outside a
    matrix or vector) is the outcome [None]. *)
From Coq Require Import ZArith List Bool.
From Verif Require Import Num Mat CommonModel PfModel StarModel LpModel UsmModel SlModel.
Import ListNotations.
Local Open Scope Z_scope.

(** waypoint_generator.hpp:19 *)
Inductive slstate := GOTO | SLOITER | LAND | SALTITUDE_CHANGE | EVALUATE_GRID | GOTO_LAND.
Definition slstate_eqb (a b : slstate) : bool :=
  match a, b with
  | GOTO, GOTO | SLOITER, SLOITER | LAND, LAND | SALTITUDE_CHANGE, SALTITUDE_CHANGE | EVALUATE_GRID, EVALUATE_GRID | GOTO_LAND, GOTO_LAND => true
  | _, _ => false end.
(** waypoint_generator.cpp:95-103 *)
Definition sw_table : usm_table slstate :=
  [(GOTO, [(NEXT1, SALTITUDE_CHANGE)]);
   (SALTITUDE_CHANGE, [(NEXT1, SLOITER)]);
   (SLOITER, [(NEXT1, EVALUATE_GRID)]);
   (EVALUATE_GRID, [(NEXT1, GOTO); (NEXT2, GOTO_LAND)]);
   (GOTO_LAND, [(NEXT1, LAND)]);
   (LAND, [])].
Definition sw_choose : slstate -> transition -> slstate := chooseNextState slstate slstate_eqb sw_table GOTO.

(** waypoint_generator.hpp:15-17 *)
Definition exploration_pattern : list (Z * Z) := [(1, 0); (1, 1); (0, 1); (-1, 1); (-1, 0); (-1, -1); (0, -1); (1, -1)].

Section Sw.
Context (N : num) (G : trig N) (ceilc rnd : N -> Z).
Declare Scope sw_scope.
Local Notation "x +. y" := (add N x y) (at level 50, left associativity) : sw_scope.
Local Notation "x -. y" := (sub N x y) (at level 50, left associativity) : sw_scope.
Local Notation "x *. y" := (mul N x y) (at level 40, left associativity) : sw_scope.
Local Notation "x /. y" := (div N x y) (at level 40, left associativity) : sw_scope.
Local Notation "# z" := (ofZ N z) (at level 1, format "# z") : sw_scope.
Local Open Scope sw_scope.

(** waypoint_generator.hpp:36-49, set by dynamic reconfigure *)
Record sw_cfg := SwCfg {
  q_beta : N; q_thr : N; q_height : N; q_smooth : Z (* smoothing_land_cell_ *); q_verr : N; q_spiral : N }.
(** waypoint_generator.hpp:31-86; stride_ is 1, prev_slp_state_ only serves a log line, pos_index_, mean_ and land_ are never read *)
Record sw := Sw {
  x_state : slstate; x_cfg : sw_cfg;
  x_yaw_sp : N; x_yawrate_sp : N; x_loiter_yaw : N; x_yaw : N; x_radius : N; x_factor : N; x_alt : N (* altitude_landing_area_percentile_ *);
  x_reset : bool; x_island : bool; x_decision : bool; x_canland : bool; x_upd : bool (* update_smoothing_size_ *); x_explore : bool;
  x_changed : bool; x_start : Z; x_seq : Z; x_n : Z (* n_explored_pattern_ *);
  x_pos : vec3 N; x_goal : vec3 N; x_vel : vec3 N; x_loiter : vec3 N; x_anchor : vec3 N;
  x_hyst : mat N; x_res : mat Z; x_mask : mat Z; x_grid : grid N }.

(** one call of publishTrajectorySetpoints_ *)
Record setp := Setp { sp_pos : vec3 N; sp_vel : vec3 N; sp_yaw : N; sp_yawrate : N }.

Definition nan3 : vec3 N := V3 (nanv N) (nanv N) (nanv N).
Definition setz (v : vec3 N) (z : N) : vec3 N := V3 (vx v) (vy v) z.
(** waypoint_generator.hpp:22 *)
Definition LAND_SPEED : N := cst N 7 10.

(** waypoint_generator.cpp:44-50. hypot(di,dj) < s + 0.5f is decided exactly: 4 (di^2+dj^2) < (2s+1)^2
    (the two sides are never equal, and for s <= 100 differ by more than the rounding error of hypot). *)
Definition initMask (s : Z) : mat Z :=
  Mat (2 * s + 1) (2 * s + 1) (fun i j => if 4 * ((i - s) * (i - s) + (j - s) * (j - s)) <? (2 * s + 1) * (2 * s + 1) then 1 else 0).

Definition x_with_land (x : sw) (decision canland explore : bool) (n : Z) (factor radius : N) (hyst : mat N) : sw :=
  Sw (x_state x) (x_cfg x) (x_yaw_sp x) (x_yawrate_sp x) (x_loiter_yaw x) (x_yaw x) radius factor (x_alt x)
     (x_reset x) (x_island x) decision canland (x_upd x) explore (x_changed x) (x_start x) (x_seq x) n
     (x_pos x) (x_goal x) (x_vel x) (x_loiter x) (x_anchor x) hyst (x_res x) (x_mask x) (x_grid x).
(** waypoint_generator.cpp:62-89 *)
Definition updateSLPState (x : sw) : sw :=
  let s := q_smooth (x_cfg x) in
  let renew := x_upd x || negb (rows (x_mask x) =? s * 2 + 1) in
  let regrid := negb (rows (g_land (x_grid x)) =? rows (x_hyst x)) in
  let r := rows (g_land (x_grid x)) in let c := cols (g_land (x_grid x)) in
  let x1 :=
    Sw (x_state x) (x_cfg x) (x_yaw_sp x) (x_yawrate_sp x) (x_loiter_yaw x) (x_yaw x) (x_radius x) (x_factor x) (x_alt x)
       (x_reset x) (x_island x) (x_decision x) (x_canland x) (if renew then false else x_upd x) (x_explore x) (x_changed x) (x_start x) (x_seq x) (x_n x)
       (x_pos x) (x_goal x) (x_vel x) (x_loiter x) (x_anchor x)
       (if regrid then Mat r c (fun _ _ => #0) else x_hyst x) (if regrid then Mat r c (fun _ _ => 0) else x_res x)
       (if renew then initMask s else x_mask x) (x_grid x) in
  if x_island x then x1 else x_with_land x1 false true false (-1) (#1) (#2) (mfill (x_hyst x1) (#0)).

(** waypoint_generator.cpp:318-324 *)
Definition withinLandingRadius (x : sw) : bool :=
  ltb N (v2norm N (vx (x_goal x) -. vx (x_pos x)) (vy (x_goal x) -. vy (x_pos x))) (x_radius x).
Definition inVerticalRange (x : sw) : bool :=
  ltb N (absv N (absv N (vz (x_pos x) -. x_alt x) -. q_height (x_cfg x))) (q_verr (x_cfg x)).

(** std::sort on floats without NaN (with a NaN the order is unspecified in the C++) *)
Fixpoint insert (a : N) (l : list N) : list N :=
  match l with [] => [a] | b :: l' => if ltb N b a then b :: insert a l' else a :: l end.
Definition isort (l : list N) : list N := fold_right insert [] l.
(** waypoint_generator.cpp:329-337: the means of the window around the centre, row by row *)
Definition altitudeSamples (g : grid N) (s : Z) : option (list N) :=
  let o := rows (g_land g) / 2 in
  foldM (fun acc ij => obind (mget (g_mean g) (fst ij) (snd ij)) (fun v => Some (acc ++ [v]))) []
        (list_prod (zfromto (o - s) (o + s)) (zfromto (o - s) (o + s))).
(** waypoint_generator.cpp:326-342 *)
Definition landingAreaHeightPercentile (g : grid N) (s : Z) (percentile : N) : option N :=
  obind (altitudeSamples g s) (fun l =>
  vget (isort l) (rnd (percentile /. #100 *. #((s * 2 + 1) * (s * 2 + 1))))).

Definition x_alt_upd (x : sw) (alt : N) : sw :=
  Sw (x_state x) (x_cfg x) (x_yaw_sp x) (x_yawrate_sp x) (x_loiter_yaw x) (x_yaw x) (x_radius x) (x_factor x) alt
     (x_reset x) (x_island x) (x_decision x) (x_canland x) (x_upd x) (x_explore x) (x_changed x) (x_start x) (x_seq x) (x_n x)
     (x_pos x) (x_goal x) (x_vel x) (x_loiter x) (x_anchor x) (x_hyst x) (x_res x) (x_mask x) (x_grid x).
Definition x_move (x : sw) (goal vel loiter : vec3 N) (loiter_yaw : N) (start : Z) : sw :=
  Sw (x_state x) (x_cfg x) (x_yaw_sp x) (x_yawrate_sp x) loiter_yaw (x_yaw x) (x_radius x) (x_factor x) (x_alt x)
     (x_reset x) (x_island x) (x_decision x) (x_canland x) (x_upd x) (x_explore x) (x_changed x) start (x_seq x) (x_n x)
     (x_pos x) goal vel loiter (x_anchor x) (x_hyst x) (x_res x) (x_mask x) (x_grid x).
Definition x_matrices (x : sw) (h : mat N) (r : mat Z) : sw :=
  Sw (x_state x) (x_cfg x) (x_yaw_sp x) (x_yawrate_sp x) (x_loiter_yaw x) (x_yaw x) (x_radius x) (x_factor x) (x_alt x)
     (x_reset x) (x_island x) (x_decision x) (x_canland x) (x_upd x) (x_explore x) (x_changed x) (x_start x) (x_seq x) (x_n x)
     (x_pos x) (x_goal x) (x_vel x) (x_loiter x) (x_anchor x) h r (x_mask x) (x_grid x).

(** waypoint_generator.cpp:160-181 *)
Definition nextExploration (x : sw) : option sw :=
  let anchor := if x_explore x then x_anchor x else x_loiter x in
  let n1 := x_n x + 1 in
  let '(n, factor) := if n1 =? Z.of_nat (length exploration_pattern) then (0, x_factor x +. #1) else (n1, x_factor x) in
  let offset := q_spiral (x_cfg x) *. factor *. #2 *. #(q_smooth (x_cfg x)) *. g_cell (x_grid x) in
  obind (vget exploration_pattern n) (fun d =>
  Some (Sw (x_state x) (x_cfg x) (x_yaw_sp x) (x_yawrate_sp x) (x_loiter_yaw x) (x_yaw x) (x_radius x) factor (x_alt x)
     (x_reset x) (x_island x) false (x_canland x) (x_upd x) true (x_changed x) (x_start x) (x_seq x) n
     (x_pos x) (V3 (vx anchor +. offset *. #(fst d)) (vy anchor +. offset *. #(snd d)) (vz anchor)) nan3 (x_loiter x) anchor
     (x_hyst x) (x_res x) (x_mask x) (x_grid x))).

(** waypoint_generator.cpp:143-184 *)
Definition runGoTo (x : sw) : option (transition * sw * list setp) :=
  let x0 :=
    if x_explore x then
      Sw (x_state x) (x_cfg x) (nextYaw N G (x_pos x) (x_goal x)) (x_yawrate_sp x) (x_loiter_yaw x) (x_yaw x) (cst N 1 2) (x_factor x) (x_alt x)
         (x_reset x) (x_island x) (x_decision x) (x_canland x) (x_upd x) (x_explore x) (x_changed x) (x_start x) (x_seq x) (x_n x)
         (x_pos x) (x_goal x) (x_vel x) (x_loiter x) (x_anchor x) (x_hyst x) (x_res x) (x_mask x) (x_grid x)
    else x in
  let out := [Setp (x_goal x0) (x_vel x0) (x_yaw_sp x0) (x_yawrate_sp x0)] in
  obind (landingAreaHeightPercentile (x_grid x0) (q_smooth (x_cfg x0)) (#80)) (fun alt =>
  let x1 := x_matrices (x_alt_upd x0 alt) (mfill (x_hyst x0) (#0)) (x_res x0) in
  if withinLandingRadius x1 && x_island x1 && negb (x_decision x1) then Some (NEXT1, x1, out)
  else if withinLandingRadius x1 && x_island x1 && x_decision x1 && negb (x_canland x1)
  then obind (nextExploration x1) (fun x2 => Some (REPEAT, x2, out))
  else Some (REPEAT, x1, out)).

(** waypoint_generator.cpp:186-197 *)
Definition runGoToLand (x : sw) : option (transition * sw * list setp) :=
  Some (if withinLandingRadius x then NEXT1 else REPEAT, x,
        [Setp (x_goal x) (x_vel x) (nextYaw N G (x_pos x) (x_goal x)) (x_yawrate_sp x)]).

(** waypoint_generator.cpp:199-219 *)
Definition runAltitudeChange (x : sw) : option (transition * sw * list setp) :=
  let ly := if x_changed x then x_yaw x else x_loiter_yaw x in
  obind (landingAreaHeightPercentile (x_grid x) (q_smooth (x_cfg x)) (#80)) (fun alt =>
  let direction := if ltb N (absv N (vz (x_pos x) -. alt) -. q_height (x_cfg x)) (#0) then #1 else opp N (#1) in
  let x1 := x_alt_upd (x_move x (setz (x_goal x) (nanv N)) (setz (x_vel x) (direction *. LAND_SPEED)) (x_loiter x) ly (x_start x)) alt in
  let out := [Setp (x_goal x1) (x_vel x1) ly (x_yawrate_sp x1)] in
  if inVerticalRange x1 then Some (NEXT1, x_move x1 (x_goal x1) (x_vel x1) (x_loiter x1) ly (x_seq x1), out) else Some (REPEAT, x1, out)).

(** waypoint_generator.cpp:230-237, 239-243 *)
Definition hystStep (x : sw) : option (mat N) :=
  let land := g_land (x_grid x) in
  foldM (fun h ij => let '(i, j) := ij in
    obind (mget land i j) (fun v => obind (mget h i j) (fun prev =>
    mset h i j (q_beta (x_cfg x) *. prev +. (#1 -. q_beta (x_cfg x)) *. #v))))
  (x_hyst x) (loop2 (rows land) (cols land)).
Definition hystThreshold (thr : N) (h : mat N) : mat N :=
  let h1 := Mat (rows h) (cols h) (fun i j => if leb N (cell h i j) thr then #0 else cell h i j) in
  Mat (rows h) (cols h) (fun i j => if ltb N thr (cell h1 i j) then #1 else cell h1 i j).
(** waypoint_generator.cpp:221-250. [cast] is the float to int conversion of Eigen's cast<int> *)
Context (cast : N -> Z).
Definition runLoiter (x : sw) : option (transition * sw * list setp) :=
  let lp := if x_changed x then x_pos x else x_loiter x in
  let x1 := x_move x (if x_changed x then lp else x_goal x) (x_vel x) lp (x_loiter_yaw x) (x_start x) in
  let out := [Setp lp nan3 (x_loiter_yaw x) (nanv N)] in
  if Z.abs (x_seq x1 - x_start x1) <=? 20 then
    obind (hystStep x1) (fun h => Some (REPEAT, x_matrices x1 h (x_res x1), out))
  else
    let h := hystThreshold (q_thr (x_cfg x1)) (x_hyst x1) in
    Some (NEXT1, x_matrices x1 h (Mat (rows h) (cols h) (fun i j => cast (cell h i j))), out).

(** waypoint_generator.cpp:252-264 *)
Definition runLand (x : sw) : option (transition * sw * list setp) :=
  let lp := setz (if x_changed x then x_pos x else x_loiter x) (nanv N) in
  let ly := if x_changed x then x_yaw x else x_loiter_yaw x in
  Some (REPEAT, x_move x (x_goal x) (x_vel x) lp ly (x_start x),
        [Setp lp (V3 (nanv N) (nanv N) (opp N LAND_SPEED)) ly (nanv N)]).

(** sum over a matrix expression block(r0,c0,rows,cols).cwiseProduct(mask).sum() *)
Definition msum (n m : Z) (f : Z -> Z -> Z) : Z := fold_left Z.add (map (fun ij => f (fst ij) (snd ij)) (loop2 n m)) 0.
(** waypoint_generator.cpp:312-316 *)
Definition evaluatePatch (res mask : mat Z) (r0 c0 : Z) : option bool :=
  if (0 <=? r0) && (0 <=? c0) && (r0 + rows mask <=? rows res) && (c0 + cols mask <=? cols res) then
    Some (msum (rows mask) (cols mask) (fun i j => cell res (r0 + i) (c0 + j) * cell mask i j) =? msum (rows mask) (cols mask) (cell mask))
  else None.
(** waypoint_generator.cpp:283-286, 287-288: the offsets of the candidate patches in loop order, relative to the centre *)
Definition candidates (r s : Z) : list (Z * Z) :=
  let n_iterations := Z.quot (1 + (r - (2 * s + 1))) 2 in
  flat_map (fun i => map (fun d => (fst d * i, snd d * i)) exploration_pattern) (zfromto 1 (n_iterations - 1)).
(** the first candidate whose patch is landable *)
Fixpoint findPatch (res mask : mat Z) (cx cy s : Z) (l : list (Z * Z)) : option (option (Z * Z)) :=
  match l with
  | [] => Some None
  | d :: l' => obind (evaluatePatch res mask (cx + fst d - s) (cy + snd d - s)) (fun b => if b then Some (Some d) else findPatch res mask cx cy s l')
  end.
Definition x_decide (x : sw) (canland : bool) (goal vel : vec3 N) : sw :=
  Sw (x_state x) (x_cfg x) (x_yaw_sp x) (x_yawrate_sp x) (x_loiter_yaw x) (x_yaw x) (cst N 1 2) (x_factor x) (x_alt x)
     (x_reset x) (x_island x) true canland (x_upd x) (x_explore x) (x_changed x) (x_start x) (x_seq x) (x_n x)
     (x_pos x) goal vel (x_loiter x) (x_anchor x) (x_hyst x) (x_res x) (x_mask x) (x_grid x).
(** waypoint_generator.cpp:266-310. The offsets are computed in float and converted to int; exact for grids below 2^24 cells.
    offset + smoothing_land_cell_ - rows/2 is the candidate's offset [d] from the centre. *)
Definition runEvaluateGrid (x : sw) : option (transition * sw * list setp) :=
  let out := [Setp (x_loiter x) nan3 (x_loiter_yaw x) (nanv N)] in
  let r := rows (g_land (x_grid x)) in let c := cols (g_land (x_grid x)) in
  let s := q_smooth (x_cfg x) in
  obind (evaluatePatch (x_res x) (x_mask x) (r / 2 - s) (c / 2 - s)) (fun b =>
  if b then Some (NEXT2, x_decide x true (x_goal x) (x_vel x), out)
  else obind (findPatch (x_res x) (x_mask x) (r / 2) (c / 2) s (candidates r s)) (fun o =>
    match o with
    | Some d =>
        Some (NEXT2, x_decide x true (V3 (vx (x_pos x) +. #(fst d) *. g_cell (x_grid x)) (vy (x_pos x) +. #(snd d) *. g_cell (x_grid x)) (vz (x_pos x)))
                              (setz (x_vel x) (nanv N)), out)
    | None => Some (NEXT1, x_decide x false (x_goal x) (x_vel x), out)
    end)).

Definition x_flags (x : sw) (st : slstate) (reset changed : bool) : sw :=
  Sw st (x_cfg x) (x_yaw_sp x) (x_yawrate_sp x) (x_loiter_yaw x) (x_yaw x) (x_radius x) (x_factor x) (x_alt x)
     reset (x_island x) (x_decision x) (x_canland x) (x_upd x) (x_explore x) changed (x_start x) (x_seq x) (x_n x)
     (x_pos x) (x_goal x) (x_vel x) (x_loiter x) (x_anchor x) (x_hyst x) (x_res x) (x_mask x) (x_grid x).
(** waypoint_generator.cpp:107-141 *)
Definition runCurrentState (x : sw) : option (transition * sw * list setp) :=
  if x_reset x then Some (ERROR, x_flags x (x_state x) false (x_changed x), [])
  else obind (match x_state x with
              | GOTO => runGoTo x
              | SALTITUDE_CHANGE => runAltitudeChange x
              | SLOITER => runLoiter x
              | LAND => runLand x
              | EVALUATE_GRID => runEvaluateGrid x
              | GOTO_LAND => runGoToLand x
              end) (fun r => let '(t, x', out) := r in Some (t, x_flags x' (x_state x') (x_reset x') false, out)).
(** usm.h:64-67 with waypoint_generator.cpp:91-93 *)
Definition iterateOnce (x : sw) : option (sw * list setp) :=
  obind (runCurrentState x) (fun r => let '(t, x', out) := r in
  Some (match t with REPEAT => x' | _ => x_flags x' (sw_choose (x_state x') t) (x_reset x') true end, out)).
(** waypoint_generator.cpp:52-60 *)
Definition calculateWaypoint (x : sw) : option (sw * list setp) := iterateOnce (updateSLPState x).

(* ----------------------------------------------------------------------- the node *)
(** waypoint_generator_node.cpp:131-167: the first point and point_valid[0]. The argument of the outer isfinite in line 159-160 is
    position.z || isfinite(velocity.z), a bool, and so always finite. *)
Definition pointValid (s : setp) : bool :=
  let xy_pos := finiteb N (vx (sp_pos s)) && finiteb N (vy (sp_pos s)) in
  let xy_vel := finiteb N (vx (sp_vel s)) && finiteb N (vy (sp_vel s)) in
  let boolean := negb (eqb N (vz (sp_pos s)) (#0)) || finiteb N (vz (sp_vel s)) in
  (xy_pos || xy_vel) && finiteb N (if boolean then #1 else #0).

(** waypoint_generator_node.cpp:76-92: only the fields that are read. [t_cmd_land]: command[1] is NAV_LAND *)
Record traj := Traj { t_p1 : vec3 N; t_v1 : vec3 N; t_p2 : vec3 N; t_yaw2 : N; t_rate2 : N; t_valid0 : bool; t_valid1 : bool; t_cmd_land : bool }.
Inductive fmode := M_LAND | M_MISSION | M_OTHER.
Record node := Node { n_x : sw; n_received : bool; n_viz : vec3 N }.
Inductive sop :=
| OReconf (c : sw_cfg)          (* 51-63 *)
| OPose (p : vec3 N) (yaw : N)  (* 65-74; the yaw is extracted by tf *)
| OTraj (m : traj)
| OMode (m : fmode) (armed : bool)
| OGrid (m : gmsg N)
| OCycle.                       (* one command cycle *)

Definition x_inputs (x : sw) (cfg : sw_cfg) (upd : bool) (pos : vec3 N) (yaw : N) (goal vel : vec3 N) (yaw_sp rate_sp : N)
    (island reset : bool) (seq : Z) (g : grid N) : sw :=
  Sw (x_state x) cfg yaw_sp rate_sp (x_loiter_yaw x) yaw (x_radius x) (x_factor x) (x_alt x)
     reset island (x_decision x) (x_canland x) upd (x_explore x) (x_changed x) (x_start x) seq (x_n x)
     pos goal vel (x_loiter x) (x_anchor x) (x_hyst x) (x_res x) (x_mask x) g.

(** waypoint_generator_node.cpp:183-236 (landingAreaVisualization): the marker cells with their colour (true = green). The size_t loop index starts
    at offset - slc, which is not negative when the block of line 211 is inside the kernel. *)
Definition vizCells (x : sw) : option (list (Z * Z * bool)) :=
  let s := q_smooth (x_cfg x) in
  let o := rows (g_land (x_grid x)) / 2 in
  let r := rows (x_hyst x) in let c := cols (x_hyst x) in
  if negb ((0 <=? 20 - s) && (20 - s + rows (x_mask x) <=? r) && (20 - s + cols (x_mask x) <=? c)) then None
  else if negb ((rows (x_res x) =? r) && (cols (x_res x) =? c)) then None
  else
    let kernel := Mat r c (fun i j => if inb (x_mask x) (i - (20 - s)) (j - (20 - s)) then cell (x_mask x) (i - (20 - s)) (j - (20 - s)) else 0) in
    let result := Mat r c (fun i j => cell (x_res x) i j * cell kernel i j) in
    foldM (fun acc kl => obind (mget result (fst kl) (snd kl)) (fun v => Some (acc ++ [(fst kl, snd kl, negb (v =? 0))]))) []
          (list_prod (zfromto (o - s) (o + s)) (zfromto (o - s) (o + s))).

Definition nstep (n : node) (o : sop) : option (node * list setp) :=
  let x := n_x n in
  match o with
  | OReconf c =>
      Some (Node (x_inputs x c (x_upd x || negb (rows (x_mask x) =? q_smooth c * 2 + 1)) (x_pos x) (x_yaw x) (x_goal x) (x_vel x) (x_yaw_sp x)
                           (x_yawrate_sp x) (x_island x) (x_reset x) (x_seq x) (x_grid x)) (n_received n) (n_viz n), [])
  | OPose p yaw =>
      Some (Node (x_inputs x (x_cfg x) (x_upd x) p yaw (x_goal x) (x_vel x) (x_yaw_sp x) (x_yawrate_sp x) (x_island x) (x_reset x) (x_seq x) (x_grid x))
                 (n_received n) (n_viz n), [])
  | OTraj m =>
      let update := ltb N (cst N 1 100) (v3norm N (v3sub N (t_p2 m) (n_viz n))) || (isnanb N (vx (x_goal x)) || isnanb N (vy (x_goal x))) in
      let take := update && t_valid0 m in
      Some (Node (x_inputs x (x_cfg x) (x_upd x) (x_pos x) (x_yaw x) (if take then t_p1 m else x_goal x) (if take then t_v1 m else x_vel x)
                           (if t_valid1 m then t_yaw2 m else x_yaw_sp x) (if t_valid1 m then t_rate2 m else x_yawrate_sp x)
                           (if take then t_cmd_land m else x_island x) (x_reset x) (x_seq x) (x_grid x))
                 (n_received n) (if t_valid1 m then t_p2 m else n_viz n), [])
  | OMode m armed =>
      let '(island, reset) := match m with M_LAND => (true, x_reset x) | M_MISSION => (x_island x, x_reset x) | M_OTHER => (false, true) end in
      let '(island, reset) := if armed then (island, reset) else (false, true) in
      Some (Node (x_inputs x (x_cfg x) (x_upd x) (x_pos x) (x_yaw x) (x_goal x) (x_vel x) (x_yaw_sp x) (x_yawrate_sp x) island reset (x_seq x) (x_grid x))
                 (n_received n) (n_viz n), [])
  | OGrid m =>   (* 110-126 *)
      obind (receiveGrid N ceilc (x_grid x) (x_pos x) m) (fun g =>
      Some (Node (x_inputs x (x_cfg x) (x_upd x) (x_pos x) (x_yaw x) (x_goal x) (x_vel x) (x_yaw_sp x) (x_yawrate_sp x) (x_island x) (x_reset x)
                           (gm_seq m) g) true (n_viz n), []))
  | OCycle =>    (* 38-49: the loop waits until a grid was received *)
      if n_received n then
        obind (calculateWaypoint x) (fun r => obind (vizCells (fst r)) (fun _ => Some (Node (fst r) false (n_viz n), snd r)))
      else Some (n, [])
  end.
(** a history; the outputs of all cycles, oldest first *)
Fixpoint nrun (n : node) (os : list sop) : option (node * list setp) :=
  match os with
  | [] => Some (n, [])
  | o :: os' => obind (nstep n o) (fun r => obind (nrun (fst r) os') (fun r' => Some (fst r', snd r ++ snd r')))
  end.

(** waypoint_generator.hpp:31-86 and the constructor; [junk] is the uninitialised content of the grid's corners *)
Definition sw_init (junk : (N * N) * (N * N)) : sw :=
  Sw GOTO (SwCfg (cst N 9 10) (cst N 2 5) (#4) 6 (#1) (#2)) (nanv N) (nanv N) (nanv N) (nanv N) (#2) (#1) (opp N (#1))
     false false false true false false false 0 0 (-1) nan3 nan3 nan3 nan3 nan3
     (Mat 40 40 (fun _ _ => #0)) (Mat 40 40 (fun _ _ => 0)) (initMask 6) (g_new N ceilc junk (#10) (#1)).
Definition node_init (junk : (N * N) * (N * N)) : node := Node (sw_init junk) false (V3 (#0) (#0) (#0)).
End Sw.
Arguments SwCfg {N} _ _ _ _ _ _.
Arguments q_beta {N} _. Arguments q_thr {N} _. Arguments q_height {N} _. Arguments q_smooth {N} _. Arguments q_verr {N} _. Arguments q_spiral {N} _.
Arguments Sw {N} _ _ _ _ _ _ _ _ _ _ _ _ _ _ _ _ _ _ _ _ _ _ _ _ _ _ _ _.
Arguments x_state {N} _. Arguments x_cfg {N} _. Arguments x_yaw_sp {N} _. Arguments x_yawrate_sp {N} _. Arguments x_loiter_yaw {N} _.
Arguments x_yaw {N} _. Arguments x_radius {N} _. Arguments x_factor {N} _. Arguments x_alt {N} _. Arguments x_reset {N} _. Arguments x_island {N} _.
Arguments x_decision {N} _. Arguments x_canland {N} _. Arguments x_upd {N} _. Arguments x_explore {N} _. Arguments x_changed {N} _.
Arguments x_start {N} _. Arguments x_seq {N} _. Arguments x_n {N} _. Arguments x_pos {N} _. Arguments x_goal {N} _. Arguments x_vel {N} _.
Arguments x_loiter {N} _. Arguments x_anchor {N} _. Arguments x_hyst {N} _. Arguments x_res {N} _. Arguments x_mask {N} _. Arguments x_grid {N} _.
Arguments Setp {N} _ _ _ _. Arguments sp_pos {N} _. Arguments sp_vel {N} _. Arguments sp_yaw {N} _. Arguments sp_yawrate {N} _.
Arguments Traj {N} _ _ _ _ _ _ _ _.
Arguments t_p1 {N} _. Arguments t_v1 {N} _. Arguments t_p2 {N} _. Arguments t_yaw2 {N} _. Arguments t_rate2 {N} _. Arguments t_valid0 {N} _.
Arguments t_valid1 {N} _. Arguments t_cmd_land {N} _.
Arguments Node {N} _ _ _. Arguments n_x {N} _. Arguments n_received {N} _. Arguments n_viz {N} _.
Arguments OReconf {N} _. Arguments OPose {N} _ _. Arguments OTraj {N} _. Arguments OMode {N} _ _. Arguments OGrid {N} _. Arguments OCycle {N}.
