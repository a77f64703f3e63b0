(** Model of the node that sends made-up data to the global planner (global_planner/src/nodes/mock_data_node.cpp).
    Not modelled: the colours of the points, the frame "world" in the header (the global planner does not look at it, see CamModel.v), printing, the loop's timing. *)
From Coq Require Import ZArith List Bool.
From Verif Require Import Num CommonModel GpModel GpSearch GpPlan GpNode.
Import ListNotations.
Local Open Scope Z_scope.

Section Md.
Context (N : num).
(** mock_data_node.cpp:34-36: an int plus a half (these are exact as floats too) *)
Definition plus_half (i : Z) : N := add N (ofZ N i) (cst N 1 2).
(** the loop [for (int i = lo; i <= hi; ++i)] *)
Definition zrange (lo hi : Z) : list Z := map (fun k => lo + Z.of_nat k) (seq 0 (Z.to_nat (hi - lo + 1))).
(** mock_data_node.cpp:30-39; the flat vector points_ as a list of points *)
Definition createWall (dist width height : Z) : list (vec3 N) :=
  flat_map (fun i => map (fun j => V3 (plus_half dist) (plus_half i) (plus_half j)) (zrange 0 height)) (zrange (- width) width).
(** std::vector::resize in PointCloud2Modifier::resize: the bytes are 0 *)
Definition zero_point : vec3 N := V3 (ofZ N 0) (ofZ N 0) (ofZ N 0).
(** mock_data_node.cpp:60-108: the points of the cloud. The cloud is resized to 100 points whatever the number of points of the wall; None: the iterators write
    beyond the end of the cloud's data *)
Definition sendMockData (points : list (vec3 N)) : option (list (vec3 N)) :=
  if (100 <? Z.of_nat (length points)) then None
  else Some (points ++ repeat zero_point (Z.to_nat (100 - Z.of_nat (length points)))).
(** mock_data_node.cpp:12, 19-21, 41-48: the goal is sent as a clicked point, once *)
Definition clicked_goal : vec3 N := V3 (cst N 85 10) (cst N 45 10) (cst N 15 10).
(** mock_data_node.cpp:14: the wall the node creates *)
Definition mock_wall : list (vec3 N) := createWall 5 5 6.
End Md.
