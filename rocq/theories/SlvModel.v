(** Model of the landing planner's display: safe_landing_planner/src/nodes/safe_landing_planner_visualization.cpp.
    Simplifications: one number type N throughout (the code mixes float with double in HSVtoRGB and in the messages); of a marker only the id, the position,
    the colour and the height of the cube are kept (the other fields are constants). A matrix access out of range is [None]. *)
From Coq Require Import ZArith List Bool.
From Verif Require Import Num Mat CommonModel PfModel StarModel LpModel SlModel.
Import ListNotations.
Local Open Scope Z_scope.

Section Slv.
Context (N : num) (cast : N -> Z).
Declare Scope slv_scope.
Local Notation "x +. y" := (add N x y) (at level 50, left associativity) : slv_scope.
Local Notation "x -. y" := (sub N x y) (at level 50, left associativity) : slv_scope.
Local Notation "x *. y" := (mul N x y) (at level 40, left associativity) : slv_scope.
Local Notation "x /. y" := (div N x y) (at level 40, left associativity) : slv_scope.
Local Notation "# z" := (ofZ N z) (at level 1, format "# z") : slv_scope.
Local Open Scope slv_scope.

(** red, green, blue *)
Record colour := Col { c_r : N; c_g : N; c_b : N }.
Record marker := Mk { m_id : Z; m_pos : vec3 N; m_col : colour; m_height : N }.

(** 86-127 *)
Definition hsvToRgb (h s v : N) : colour :=
  let fC := v *. s in
  let fH := fmodv N (h /. #60) (#6) in
  let fX := fC *. (#1 -. absv N (fmodv N fH (#2) -. #1)) in
  let fM := v -. fC in
  let rgb :=
    if leb N (#0) fH && ltb N fH (#1) then Col fC fX (#0)
    else if leb N (#1) fH && ltb N fH (#2) then Col fX fC (#0)
    else if leb N (#2) fH && ltb N fH (#3) then Col (#0) fC fX
    else if leb N (#3) fH && ltb N fH (#4) then Col (#0) fX fC
    else if leb N (#4) fH && ltb N fH (#5) then Col fX (#0) fC
    else if leb N (#5) fH && ltb N fH (#6) then Col fC (#0) fX
    else Col (#0) (#0) (#0) in
  Col (c_r rgb +. fM) (c_g rgb +. fM) (c_b rgb +. fM).
Definition black : colour := Col (#0) (#0) (#0).
Definition red : colour := Col (#1) (#0) (#0).
Definition green : colour := Col (#0) (#1) (#0).

(** 64-66, 160-162, 208-210 *)
Definition marker_xy (g : grid N) (i j : Z) : N * N :=
  (#i *. g_cell g +. fst (g_min g) +. g_cell g /. #2, #j *. g_cell g +. snd (g_min g) +. g_cell g /. #2).
(** the loops 62-83, 158-175, 206-232: one marker per cell, the id grows with each *)
Definition draw (g : grid N) (content : Z -> Z -> option (N * colour * N)) : option (list marker) :=
  obind (foldM (fun acc ij => let '(ms, id) := acc in let '(i, j) := ij in
    obind (content i j) (fun zch => let '(z, c, h) := zch in
    Some (ms ++ [Mk id (V3 (fst (marker_xy g i j)) (snd (marker_xy g i j)) z) c h], id + 1)))
  ([], 0) (loop2 (g_rc g) (g_rc g))) (fun acc => Some (fst acc)).

(** 53-57, 68-79 *)
Definition stdColour (thr var : N) : colour :=
  let h := (#360 -. #0) *. (sqrtv N var -. #0) /. (thr -. #0) +. #0 in
  if ltb N thr (sqrtv N var) then black else hsvToRgb h (#1) (#1).
(** 28-84 *)
Definition publishMeanStdDev (g : grid N) (thr : N) : option (list marker) :=
  draw g (fun i j => obind (mget (g_mean g) i j) (fun m => obind (mget (g_var g) i j) (fun v => Some (m, stdColour thr v, cst N 1 10)))).
(** 152-156, 164-168 *)
Definition countColour (thr : N) (cnt : Z) : colour :=
  let h := (#360 -. #0) *. (#cnt -. thr) /. (#400 -. thr) +. #0 in hsvToRgb h (#1) (#1).
(** 129-177 *)
Definition publishCounter (g : grid N) (thr : N) : option (list marker) :=
  draw g (fun i j => obind (mget (g_cnt g) i j) (fun c => Some (#0, countColour thr c, cst N 1 10))).
(** 204, 225-228: [smoothing] is an int passed as float *)
Definition in_window (g : grid N) (smoothing : Z) (k : Z) : bool :=
  let offset := rows (g_land g) / 2 in
  leb N (#offset -. #smoothing) (#k) && ltb N (#k) (#offset +. #smoothing).
(** 179-234 *)
Definition publishGrid (g : grid N) (smoothing : Z) : option (list marker) :=
  draw g (fun i j => obind (mget (g_land g) i j) (fun l =>
    Some (#0, if l =? 0 then red else green, if in_window g smoothing i && in_window g smoothing j then cst N 8 10 else cst N 1 10))).

(** 18-27: the three grids drawn for the planner's published grid and parameters *)
Definition visualize (g : grid N) (smoothing : Z) (std_thr points_thr : N) : option (list marker * list marker * list marker) :=
  obind (publishGrid g smoothing) (fun a => obind (publishMeanStdDev g std_thr) (fun b => obind (publishCounter g points_thr) (fun c => Some (a, b, c)))).

(** safe_landing_planner.cpp:30-31, 33-36, 47-49: the points drawn for a cloud, with their intensities; [grid_size_] and [cell_size_] are the configured
    values *)
Definition binPoint (c : slp_cfg N) (g : grid N) (p : vec3 N) : option (vec3 N * N) :=
  if isnanb N (vx p) || isnanb N (vy p) || isnanb N (vz p) then None
  else if negb (isInsideGrid N g (vx p) (vy p)) then None
  else let '(i, j) := computeGridIndexes N cast g (vx p) (vy p) in Some (p, #i *. (k_size c /. k_cell c) +. #j).
Definition binCloud (c : slp_cfg N) (g : grid N) (cloud : list (vec3 N)) : list (vec3 N * N) :=
  flat_map (fun p => match binPoint c g p with Some q => [q] | None => [] end) cloud.

(** 236-256: publishPaths; [path_length_] is the id of the next line *)
Definition publishPaths (path_length : Z) (pos last_pos : vec3 N) : (Z * list (vec3 N)) * Z := ((path_length, [last_pos; pos]), path_length + 1).
End Slv.
Arguments Col {N} _ _ _. Arguments c_r {N} _. Arguments c_g {N} _. Arguments c_b {N} _.
Arguments Mk {N} _ _ _ _. Arguments m_id {N} _. Arguments m_pos {N} _. Arguments m_col {N} _. Arguments m_height {N} _.
