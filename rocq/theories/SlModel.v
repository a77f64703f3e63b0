(** Model of the safe landing planner's landing site detection:
    safe_landing_planner/include/safe_landing_planner/grid.hpp, safe_landing_planner/src/nodes/safe_landing_planner.cpp and the
    serialisation in safe_landing_planner/src/nodes/safe_landing_planner_node.cpp:137-206.

    [cast] is static_cast<int>(float), [ceilc] is static_cast<int>(std::ceil(float)). Integer overflow is not modelled.
    An access outside an Eigen matrix or a std::vector, or a matrix expression of mismatching sizes, is the outcome [None]. *)
From Coq Require Import ZArith List Bool.
From Verif Require Import Num Mat CommonModel PfModel StarModel LpModel.
Import ListNotations.
Local Open Scope Z_scope.

Section Sl.
Context (N : num) (cast ceilc : N -> Z).
Declare Scope sl_scope.
Local Notation "x +. y" := (add N x y) (at level 50, left associativity) : sl_scope.
Local Notation "x -. y" := (sub N x y) (at level 50, left associativity) : sl_scope.
Local Notation "x *. y" := (mul N x y) (at level 40, left associativity) : sl_scope.
Local Notation "x /. y" := (div N x y) (at level 40, left associativity) : sl_scope.
Local Notation "# z" := (ofZ N z) (at level 1, format "# z") : sl_scope.
Local Open Scope sl_scope.

(** grid.hpp:66-77 *)
Record grid := Grid {
  g_mean : mat N; g_var : mat N; g_cnt : mat Z; g_land : mat Z;
  g_min : N * N; g_max : N * N; g_size : N; g_cell : N; g_rc : Z }.

Definition const_mat {A} (n : Z) (v : A) : mat A := Mat n n (fun _ _ => v).
(** grid.hpp:15-20 *)
Definition g_reset (g : grid) : grid :=
  Grid (mfill (g_mean g) (#0)) (mfill (g_var g) (#0)) (mfill (g_cnt g) 0) (mfill (g_land g) 0)
       (g_min g) (g_max g) (g_size g) (g_cell g) (g_rc g).
(** grid.hpp:22-31 *)
Definition g_resize (g : grid) (gs cs : N) : grid :=
  let n := ceilc (gs /. cs) in
  Grid (const_mat n (#0)) (const_mat n (#0)) (const_mat n 0) (const_mat n 0) (g_min g) (g_max g) gs cs n.
(** grid.hpp:10-12; the corners are uninitialised ([junk]) *)
Definition g_new (junk : (N * N) * (N * N)) (gs cs : N) : grid :=
  let n := ceilc (gs /. cs) in
  Grid (const_mat n (#0)) (const_mat n (#0)) (const_mat n 0) (const_mat n 0) (fst junk) (snd junk) gs cs n.
(** grid.hpp:49-54 *)
Definition setFilterLimits (g : grid) (p : vec3 N) : grid :=
  Grid (g_mean g) (g_var g) (g_cnt g) (g_land g)
       (vx p -. g_size g /. #2, vy p -. g_size g /. #2) (vx p +. g_size g /. #2, vy p +. g_size g /. #2)
       (g_size g) (g_cell g) (g_rc g).
Definition g_set (g : grid) (m v : mat N) (c : mat Z) : grid :=
  Grid m v c (g_land g) (g_min g) (g_max g) (g_size g) (g_cell g) (g_rc g).
Definition g_set_land (g : grid) (l : mat Z) : grid :=
  Grid (g_mean g) (g_var g) (g_cnt g) l (g_min g) (g_max g) (g_size g) (g_cell g) (g_rc g).

(** alpha * A + (1.f - alpha) * B *)
Definition mblend (alpha : N) (a b : mat N) : option (mat N) :=
  if (rows a =? rows b) && (cols a =? cols b)
  then Some (Mat (rows a) (cols a) (fun i j => alpha *. cell a i j +. (#1 -. alpha) *. cell b i j)) else None.
(** grid.hpp:61-64 *)
Definition combine (g prev : grid) (alpha : N) : option grid :=
  obind (mblend alpha (g_mean prev) (g_mean g)) (fun m =>
  obind (mblend alpha (g_var prev) (g_var g)) (fun v => Some (g_set g m v (g_cnt g)))).

(** safe_landing_planner.cpp:140-144 *)
Definition isInsideGrid (g : grid) (x y : N) : bool :=
  ltb N x (fst (g_max g)) && ltb N (fst (g_min g)) x && ltb N y (snd (g_max g)) && ltb N (snd (g_min g)) y.
(** safe_landing_planner.cpp:146-152 *)
Definition computeGridIndexes (g : grid) (x y : N) : Z * Z :=
  (cast (floorv N ((x -. fst (g_min g)) /. g_cell g)), cast (floorv N ((y -. snd (g_min g)) /. g_cell g))).
(** safe_landing_planner.cpp:154-172 *)
Definition computeOnlineMeanVariance (prev_mean prev_variance new_value seq : N) : N * N :=
  let mean := (prev_mean *. (seq -. #1) +. new_value) /. seq in
  let delta := new_value -. prev_mean in
  let delta2 := new_value -. mean in
  let prev_M2 := if leb N (#0) (seq -. #1) then prev_variance *. (seq -. #1) else #0 in
  let M2 := prev_M2 +. delta *. delta2 in
  (mean, if ltb N (#0) seq then M2 /. seq else nanv N).

(** safe_landing_planner.cpp:32-51, body of the loop *)
Definition addPoint (g : grid) (p : vec3 N) : option grid :=
  if isnanb N (vx p) || isnanb N (vy p) || isnanb N (vz p) then Some g
  else if negb (isInsideGrid g (vx p) (vy p)) then Some g
  else
    let '(i, j) := computeGridIndexes g (vx p) (vy p) in
    obind (mget (g_mean g) i j) (fun pm =>
    obind (mget (g_var g) i j) (fun pv =>
    obind (mget (g_cnt g) i j) (fun c =>
    obind (mset (g_cnt g) i j (c + 1)) (fun cnt =>
    let '(m, v) := computeOnlineMeanVariance pm pv (vz p) (#(c + 1)) in
    obind (mset (g_mean g) i j m) (fun mean =>
    obind (mset (g_var g) i j v) (fun var => Some (g_set g mean var cnt))))))).

(** parameters (safe_landing_planner.hpp:64-74) *)
Record slp_cfg := SlpCfg {
  k_points : N; k_std : N; k_size : N; k_cell : N; k_mean_diff : N; k_alpha : N;
  k_max_diff : Z; k_smooth : Z; k_min_land : Z }.
Record slp := Slp {
  s_cfg : slp_cfg; s_pad : Z (* n_lines_padding_ *); s_upd : bool (* size_update_ *);
  s_grid : grid; s_prev : grid; s_pos : vec3 N; s_idx : Z * Z (* pos_index_ *); s_seq : Z }.

(** safe_landing_planner.cpp:24-52 (without the visualisation cloud): the new grid *)
Definition processPointcloud (prev : grid) (pos : vec3 N) (cloud : list (vec3 N)) : option grid :=
  foldM addPoint (g_reset (setFilterLimits prev pos)) cloud.

(** safe_landing_planner.cpp:78-87 *)
Definition cellLandable (c : slp_cfg) (g : grid) (i j : Z) : option Z :=
  obind (mget (g_cnt g) i j) (fun n =>
  obind (mget (g_var g) i j) (fun v =>
  Some (if ltb N (#n) (k_points c) || ltb N (k_std c) (sqrtv N v) then 0 else 1))).

(** the integers a .. b in increasing order *)
Definition zfromto (a b : Z) : list Z := map (fun i => a + i) (zrange (b - a + 1)).
(** the offsets (k,t) of safe_landing_planner.cpp:106-107 in loop order *)
Definition window (p : Z) : list (Z * Z) := list_prod (zfromto (- p) p) (zfromto (- p) p).
(** safe_landing_planner.cpp:91-102: an n x n matrix in the centre of a zero matrix with p more lines on each side *)
Definition padded {A} (p : Z) (d : A) (m : mat A) : mat A :=
  Mat (rows m + 2 * p) (cols m + 2 * p) (fun i j => if inb m (i - p) (j - p) then cell m (i - p) (j - p) else d).
(** safe_landing_planner.cpp:104-116: the two accumulators at padded position (i,j) *)
Definition accumulate (c : slp_cfg) (p : Z) (land : mat Z) (mean : mat N) (i j : Z) : option (Z * Z) :=
  foldM (fun (acc : Z * Z) (kt : Z * Z) =>
    let '(k, t) := kt in
    obind (mget (padded p 0 land) (i + k) (j + t)) (fun l =>
    obind (mget (padded p (#0) mean) i j) (fun m0 =>
    obind (mget (padded p (#0) mean) (i + k) (j + t)) (fun m1 =>
    Some (fst acc + l, if ltb N (k_mean_diff c) (absv N (m0 -. m1)) then snd acc + 1 else snd acc)))))
  (0, 0) (window p).
(** Eigen (M.array() <= t).select(a, M), then (M.array() > t).select(b, M), per element *)
Definition select2 (t a b x : Z) : Z :=
  let y := if x <=? t then a else x in
  if t <? y then b else y.
(** safe_landing_planner.cpp:74-136; returns the new land matrix. (Only the centre block of the accumulators is computed: the code
    copies nothing else back.) *)
Definition isLandingPossible (c : slp_cfg) (p : Z) (g : grid) : option (mat Z) :=
  let n := g_rc g in
  obind (mbuild 0 n n (cellLandable c g)) (fun land =>
  if 0 <? p then
    mbuild 0 n n (fun i j =>
      obind (accumulate c p land (g_mean g) (i + p) (j + p)) (fun acc =>
      Some (select2 (k_max_diff c) 1 0 (snd acc) * select2 (k_min_land c) 0 1 (fst acc))))
  else Some land).

(** safe_landing_planner.cpp:7-12 *)
Definition applyResize (s : slp) : slp :=
  if s_upd s
  then Slp (s_cfg s) (k_smooth (s_cfg s)) false (g_resize (s_grid s) (k_size (s_cfg s)) (k_cell (s_cfg s)))
           (g_resize (s_prev s) (k_size (s_cfg s)) (k_cell (s_cfg s))) (s_pos s) (s_idx s) (s_seq s)
  else s.
(** safe_landing_planner.cpp:19-22 with 135: after the new grid [g] was filled; the old grid is kept as previous grid *)
Definition finishRun (s : slp) (g : grid) (seq : Z) : option slp :=
  obind (combine g (s_grid s) (k_alpha (s_cfg s))) (fun g1 =>
  obind (isLandingPossible (s_cfg s) (s_pad s) g1) (fun land =>
  Some (Slp (s_cfg s) (s_pad s) (s_upd s) (g_set_land g1 land) (s_grid s) (s_pos s)
            (computeGridIndexes g1 (vx (s_pos s)) (vy (s_pos s))) seq))).
(** safe_landing_planner.cpp:6-22 with play_rosbag_ = false. std::swap exchanges the two grids, so the new grid reuses the sizes of the
    previous one. *)
Definition runCloud (s0 : slp) (cloud : list (vec3 N)) : option slp :=
  let s := applyResize s0 in
  obind (processPointcloud (s_prev s) (s_pos s) cloud) (fun g => finishRun s g (s_seq s + 1)).

(** safe_landing_planner/msg/SLPGridMsg.msg. Float64 fields that carry floats are exact. *)
Record gmsg := GMsg {
  gm_seq : Z; gm_size : N; gm_cell : N; gm_d0 : Z; gm_d1 : Z; gm_sd1 : Z; gm_cd1 : Z;
  gm_mean : list N; gm_land : list Z; gm_std : list N; gm_cnt : list Z; gm_idx : N * N }.
(** std::vector operator[] *)
Definition vget {A} (l : list A) (i : Z) : option A := if i <? 0 then None else nth_error l (Z.to_nat i).
(** the loop indices (i,j), i < r, j < c, in order *)
Definition loop2 (r c : Z) : list (Z * Z) := list_prod (zrange r) (zrange c).

(** safe_landing_planner.cpp:54-72. powf(x,2) is x*x. *)
Definition processRawGrid (prev : grid) (pos : vec3 N) (m : gmsg) : option grid :=
  let g0 := setFilterLimits (g_reset prev) pos in
  let g1 := if negb (eqb N (g_size g0) (gm_size m)) || negb (eqb N (g_cell g0) (gm_cell m))
            then g_resize g0 (gm_size m) (gm_cell m) else g0 in
  foldM (fun g ij => let '(i, j) := ij in
    obind (vget (gm_mean m) (gm_d1 m * i + j)) (fun a =>
    obind (mset (g_mean g) i j a) (fun mean =>
    obind (vget (gm_std m) (gm_sd1 m * i + j)) (fun sd =>
    obind (mset (g_var g) i j (sd *. sd)) (fun var =>
    obind (vget (gm_cnt m) (gm_cd1 m * i + j)) (fun c =>
    obind (mset (g_cnt g) i j c) (fun cnt => Some (g_set g mean var cnt))))))))
  g1 (loop2 (gm_d0 m) (gm_d1 m)).
(** safe_landing_planner.cpp:6-22 with play_rosbag_ = true *)
Definition runRaw (s0 : slp) (m : gmsg) : option slp :=
  let s := applyResize s0 in
  obind (processRawGrid (s_prev s) (s_pos s) m) (fun g => finishRun s g (gm_seq m)).

(** safe_landing_planner.cpp:175-193 (the two timeouts belong to the node). Line 177 clears size_update_ first, so a pending change is
    dropped when the sizes in use are requested again. *)
Definition reconfigure (s : slp) (c : slp_cfg) : slp :=
  Slp c (s_pad s)
      (negb (eqb N (g_size (s_grid s)) (k_size c)) || negb (eqb N (g_cell (s_grid s)) (k_cell c)) || negb (s_pad s =? k_smooth c))
      (s_grid s) (s_prev s) (s_pos s) (s_idx s) (s_seq s).
(** safe_landing_planner.cpp:138 *)
Definition setPose (s : slp) (p : vec3 N) : slp :=
  Slp (s_cfg s) (s_pad s) (s_upd s) (s_grid s) (s_prev s) p (s_idx s) (s_seq s).
(** safe_landing_planner.hpp:61-78 *)
Definition slp_init (junk1 junk2 : (N * N) * (N * N)) : slp :=
  Slp (SlpCfg (#1) (cst N 1 10) (#10) (#1) (cst N 3 10) (cst N 4 5) 2 1 9) 1 false
      (g_new junk1 (#10) (#1)) (g_new junk2 (#10) (#1)) (V3 (#0) (#0) (#0)) (-1, -1) 0.

(** what the node does with the planner *)
Inductive slp_op := OpCfg (c : slp_cfg) | OpPose (p : vec3 N) | OpCloud (cloud : list (vec3 N)) | OpRaw (m : gmsg).
Definition slp_step (s : slp) (o : slp_op) : option slp :=
  match o with
  | OpCfg c => Some (reconfigure s c)
  | OpPose p => Some (setPose s p)
  | OpCloud l => runCloud s l
  | OpRaw m => runRaw s m
  end.
Definition slp_run (s : slp) (os : list slp_op) : option slp := foldM slp_step s os.

(** safe_landing_planner_node.cpp:137-206: the message is made from the *previous* grid; [seq] is the static counter *)
Definition serialise (seq : Z) (g : grid) (idx : Z * Z) : option gmsg :=
  let n := g_rc g in
  let cells := loop2 n n in
  let col {A} (m : mat A) := foldM (fun acc ij => obind (mget m (fst ij) (snd ij)) (fun v => Some (acc ++ [v]))) [] cells in
  obind (col (g_mean g)) (fun mean =>
  obind (col (g_land g)) (fun land =>
  obind (col (g_var g)) (fun var =>
  obind (col (g_cnt g)) (fun cnt =>
  Some (GMsg seq (g_size g) (g_cell g) (cols (g_mean g)) (rows (g_mean g)) (rows (g_var g)) (rows (g_cnt g))
             mean land (map (sqrtv N) var) cnt (#(fst idx), #(snd idx))))))).
Definition publishSerialGrid (seq : Z) (s : slp) : option gmsg := serialise seq (s_prev s) (s_idx s).

(** waypoint_generator_node.cpp:111-127 (the receiving side): resize if announced sizes differ, then copy *)
Definition receiveGrid (g0 : grid) (pos : vec3 N) (m : gmsg) : option grid :=
  let g1 := if negb (eqb N (g_size g0) (gm_size m)) || negb (eqb N (g_cell g0) (gm_cell m))
            then g_resize g0 (gm_size m) (gm_cell m) else g0 in
  obind (foldM (fun g ij => let '(i, j) := ij in
    obind (vget (gm_mean m) (gm_d1 m * i + j)) (fun a =>
    obind (mset (g_mean g) i j a) (fun mean =>
    obind (vget (gm_land m) (gm_d1 m * i + j)) (fun l =>
    obind (mset (g_land g) i j l) (fun land =>
    Some (g_set_land (g_set g mean (g_var g) (g_cnt g)) land))))))
  g1 (loop2 (gm_d0 m) (gm_d1 m))) (fun g => Some (setFilterLimits g pos)).
End Sl.

Arguments Grid {N} _ _ _ _ _ _ _ _ _.
Arguments g_mean {N} _. Arguments g_var {N} _. Arguments g_cnt {N} _. Arguments g_land {N} _. Arguments g_min {N} _. Arguments g_max {N} _.
Arguments g_size {N} _. Arguments g_cell {N} _. Arguments g_rc {N} _.
Arguments SlpCfg {N} _ _ _ _ _ _ _ _ _.
Arguments k_points {N} _. Arguments k_std {N} _. Arguments k_size {N} _. Arguments k_cell {N} _. Arguments k_mean_diff {N} _.
Arguments k_alpha {N} _. Arguments k_max_diff {N} _. Arguments k_smooth {N} _. Arguments k_min_land {N} _.
Arguments Slp {N} _ _ _ _ _ _ _ _.
Arguments s_cfg {N} _. Arguments s_pad {N} _. Arguments s_upd {N} _. Arguments s_grid {N} _. Arguments s_prev {N} _. Arguments s_pos {N} _.
Arguments s_idx {N} _. Arguments s_seq {N} _.
Arguments GMsg {N} _ _ _ _ _ _ _ _ _ _ _ _.
Arguments gm_seq {N} _. Arguments gm_size {N} _. Arguments gm_cell {N} _. Arguments gm_d0 {N} _. Arguments gm_d1 {N} _. Arguments gm_sd1 {N} _.
Arguments gm_cd1 {N} _. Arguments gm_mean {N} _. Arguments gm_land {N} _. Arguments gm_std {N} _. Arguments gm_cnt {N} _. Arguments gm_idx {N} _.
Arguments OpCfg {N} _. Arguments OpPose {N} _. Arguments OpCloud {N} _. Arguments OpRaw {N} _.
Arguments const_mat {A} _ _.
