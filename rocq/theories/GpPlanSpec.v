(** Specification vocabulary for the planner level of the global planner. *)
From Coq Require Import ZArith Reals List Bool.
From Verif Require Import Num CommonModel CommonSpec GpModel GpSearch GpPlan GpSpec.
Import ListNotations.

(** parameters that make costs meaningful (the reconfigure file only allows such values) *)
Record sane {N : num} (P : gcfg N) : Prop := Sane {
  sane_scale : ltb N (ofZ N 0) (cell_scale P) = true; sane_up : nneg (up_cost P); sane_down : nneg (down_cost P); sane_risk : nneg (risk_factor P);
  sane_smooth : nneg (smooth_factor P); sane_flow : nneg (neighbor_risk_flow P); sane_explore : nneg (explore_penalty P) }.
(** octomap::probability maps log-odds to probabilities *)
Definition prob_ok {N : num} (prob : N -> N) : Prop := forall l, unitv (prob l).
(** the remembered risks are not negative *)
Definition cache_nonneg {N : num} (k : list (gcell * N)) : Prop := forall c r, In (c, r) k -> nneg r.

Section Spec.
Context (N : num) (fl cl rnd : N -> Z) (prob : N -> N) (P : gcfg N).
Notation sc := (cell_scale P).
(** the cells half a second (search_time_) ahead of and behind the vehicle *)
Definition start_cell (g : gplanner N) : gcell := cell_of N fl sc (v3add N (g_pos g) (v3scale N (search_time P) (g_vel g))).
Definition behind_cell (g : gplanner N) : gcell := cell_of N fl sc (v3sub N (g_pos g) (v3scale N (search_time P) (g_vel g))).
(** A path the normal search may return: parent, start, then moves that a node type k offers, each below the maximum altitude and of
    acceptable risk in the current map; the last cell is inside the goal's planning radius. *)
Definition good_path (g : gplanner N) (s par : gcell) (p : list gcell) : Prop :=
  exists k l, p = par :: s :: l /\
    flyable N sc (speednode_radius P) (isLegal N fl P (g_risk N cl rnd prob P g)) k par s l /\
    near_goal N sc (g_goal g) (last l s).
(** A path of the last resort: from s to the cell [above s], from there to [above goal] without changing altitude, from there to the goal. *)
Definition above (c : gcell) : gcell := cell_of N fl sc (V3 (ofZ N (cx c)) (ofZ N (cy c)) (ofZ N (max_altitude P))).
Definition fallback_path (g : gplanner N) (s : gcell) (p : list gcell) : Prop :=
  let t := gc_cell (g_goal g) in
  let step d3 goal := open_step (g_risk N cl rnd prob P g) (risk_factor P) (max_cell_risk P) (min_altitude P) (max_altitude P) d3 goal in
  exists l1 l2 l3, p = (s :: s :: l1) ++ (above s :: above s :: l2) ++ (above t :: above t :: l3) /\
    linked (step true (above s)) (s :: l1) /\ last (s :: l1) s = above s /\
    linked (step false (above t)) (above s :: l2) /\ last (above s :: l2) s = above t /\
    linked (step true t) (above t :: l3) /\ last (above t :: l3) s = t.
End Spec.

(* ------------------------------------------------------------------------------------------- over the reals *)
Local Open Scope R_scope.
(** a box: bounds for the three coordinates *)
Definition in_box (lo hi p : vec3 Rn) : Prop :=
  vx lo <= vx p <= vx hi /\ vy lo <= vy p <= vy hi /\ vz lo <= vz p <= vz hi.
(** length of a path through cells, counting only distance and climb *)
Fixpoint path_dist (P : gcfg Rn) (u : gcell) (l : list gcell) : R :=
  match l with [] => 0 | v :: l' => getEdgeDist Rn P u v + path_dist P v l' end.
(** total search cost of flying through the cells l, from c having come from p *)
Fixpoint path_cost (G : trig Rn) (P : gcfg Rn) (risk : gcell -> Rn) (pos vel : vec3 Rn) (k : nkind) (p c : gcell) (l : list gcell) : option R :=
  match l with
  | [] => Some 0
  | d :: l' => match getEdgeCost Rn G Rfl P risk pos vel (Nd k c p) (Nd k d c), path_cost G P risk pos vel k c d l' with
               | Some x, Some y => Some (x + y) | _, _ => None end
  end.
(** p lies in the cube that cell c stands for: the cubes of edge length sc tile space *)
Definition in_cube (sc : R) (c : gcell) (p : vec3 Rn) : Prop :=
  IZR (cx c) * sc <= vx p < IZR (cx c + 1) * sc /\
  IZR (cy c) * sc <= vy p < IZR (cy c + 1) * sc /\
  IZR (cz c) * sc <= vz p < IZR (cz c + 1) * sc.
