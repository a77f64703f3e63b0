(** Model of what the global planner says about a path: getPathInfo and getPathWithRiskMsg (global_planner.cpp:369-396). *)
From Coq Require Import ZArith List Bool.
From Verif Require Import Num CommonModel GpModel GpPlan.
Import ListNotations.

Section Info.
Context (N : num) (G : trig N) (fl cl rnd : N -> Z) (prob : N -> N).
Notation "x +. y" := (add N x y) (at level 50, left associativity).
Notation "x *. y" := (mul N x y) (at level 40, left associativity).

(** search_tools.h:15-21 *)
Record pinfo := PInfo { pi_cost : N; pi_dist : N; pi_risk : N; pi_smooth : N; pi_blocked : bool }.
Definition no_info : pinfo := PInfo (ofZ N 0) (ofZ N 0) (ofZ N 0) (ofZ N 0) false.
Definition or_nan (o : option N) : N := match o with Some r => r | None => nanv N end.

Section P.
Context (P : gcfg N) (risk : gcell -> N) (pos vel : vec3 N).
(** global_planner.cpp:386-393: one round for the cells a = path[i - 2], b = path[i - 1], c = path[i]; both nodes have type Node whatever the search used *)
Definition info_step (i : pinfo) (a b c : gcell) : pinfo :=
  let curr := Nd KNode c b in let prev := Nd KNode b a in
  let cell_risk := or_nan (getRiskNode N fl P risk curr) in
  PInfo (pi_cost i +. or_nan (getEdgeCost N G fl P risk pos vel prev curr))
        (pi_dist i +. getEdgeDist N P b c)
        (pi_risk i +. risk_factor P *. cell_risk)
        (pi_smooth i +. smooth_factor P *. getTurnSmoothness N G prev curr)
        (pi_blocked i || ltb N (max_cell_risk P) cell_risk).
Fixpoint info_from (i : pinfo) (a b : gcell) (l : list gcell) : pinfo :=
  match l with [] => i | c :: l' => info_from (info_step i a b c) b c l' end.
End P.
(** global_planner.cpp:383-396 *)
Definition getPathInfo (P : gcfg N) (g : gplanner N) (path : list gcell) : pinfo :=
  match path with
  | a :: b :: l => info_from P (g_risk N cl rnd prob P g) (g_pos g) (g_vel g) no_info a b l
  | _ => no_info
  end.
(** global_planner.cpp:369-380 for the current path: poses and risks *)
Definition getPathWithRiskMsg (P : gcfg N) (g : gplanner N) : list (gpose N) * list N :=
  let poses := getPathMsg N G P g (g_path g) in
  (poses, map (fun q => g_risk N cl rnd prob P g (cell_of N fl (cell_scale P) (gp_pos q))) poses).
End Info.
Arguments pi_cost {N} _.
Arguments pi_dist {N} _.
Arguments pi_risk {N} _.
Arguments pi_smooth {N} _.
Arguments pi_blocked {N} _.
Arguments PInfo {N} _ _ _ _ _.
