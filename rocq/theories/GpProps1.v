(** Properties C51, C53, C54, C55, C57, C60: the global planner's cells, paths, curves and costs. *)
From Coq Require Import ZArith Reals List Bool Lia Lra.
From Flocq Require Import Core BinarySingleNaN.
From Verif Require Import Num Num64 F64Err CommonModel CommonSpec GpModel GpSearch GpPlan GpNode GpSpec GpPlanSpec GpProofs GpArith GpCellProofs GpMiscProofs
  GpCostProofs GpPlanProofs GpF64.
Import ListNotations.
Local Open Scope R_scope.

(* ---------------------------------------------------------------------------------------------- C51 *)
(** C51. The cell computed for a point is the one cube of the tiling that contains the point. *)
Theorem C51_cells_tile_space :
  forall (sc : R) (p : vec3 Rn) c, 0 < sc -> (cell_of Rn Rfl sc p = c <-> in_cube sc c p).
Proof.
  intros sc p c Hs.
  assert (E : forall x i, Rfl (x / sc) = i <-> IZR i * sc <= x < IZR (i + 1) * sc).
  { intros x i. rewrite plus_IZR. split.
    - intros <-. pose proof (floor_cell sc x Hs) as H. rewrite pos1_R in H. lra.
    - intros H. apply floor_cell_unique; [exact Hs|]. rewrite pos1_R. lra. }
  destruct c as [i j k]. unfold cell_of, in_cube. cbn [cx cy cz]. rewrite <- !E. split; [intros [= <- <- <-]; auto|intros (A & B & C); f_equal; assumption].
Qed.
Print Assumptions C51_cells_tile_space.
(** ... so the point is within half a cell of its centre in each axis *)
Theorem C51_near_centre :
  forall (sc : R) (p : vec3 Rn), 0 < sc -> let c := centre Rn sc (cell_of Rn Rfl sc p) in
  Rabs (vx p - vx c) <= sc / 2 /\ Rabs (vy p - vy c) <= sc / 2 /\ Rabs (vz p - vz c) <= sc / 2.
Proof.
  intros sc p Hs c. unfold c, centre, cell_of. cbn [vx vy vz cx cy cz].
  split; [|split]; apply Rabs_le; [pose proof (floor_cell sc (vx p) Hs)|pose proof (floor_cell sc (vy p) Hs)|pose proof (floor_cell sc (vz p) Hs)]; rn; tR; lra.
Qed.
Print Assumptions C51_near_centre.
(** the centre of a cell lies in the cell: over the reals for every scale, ... *)
Theorem C51_roundtrip : forall (sc : R) c, 0 < sc -> cell_of Rn Rfl sc (centre Rn sc c) = c.
Proof. exact cell_centre. Qed.
Print Assumptions C51_roundtrip.
(** ... and with the double arithmetic of the program for every scale between 2^-20 and 2^20 and every cell with int coordinates *)
Theorem C51_roundtrip_double :
  forall (sc : f64) c, is_finite sc = true -> bpow radix2 (-20) <= B2R sc <= bpow radix2 20 ->
  (Z.abs (cx c) <= 2 ^ 31)%Z -> (Z.abs (cy c) <= 2 ^ 31)%Z -> (Z.abs (cz c) <= 2 ^ 31)%Z ->
  cell_of F64 f64_fl sc (centre F64 sc c) = c.
Proof. intros. apply roundtrip64; auto; lia. Qed.
Print Assumptions C51_roundtrip_double.
(** The neighbours of a cell are ten different cells, exactly the adjacent ones (in the plane, or one above or below), and neighbourhood is symmetric. *)
Theorem C51_neighbours :
  forall a, NoDup (cell_neighbors a) /\ length (cell_neighbors a) = 10%nat /\
  (forall b, In b (cell_neighbors a) <-> adjacent a b) /\ (forall b, In b (cell_neighbors a) -> In a (cell_neighbors b)) /\ ~ In a (cell_neighbors a).
Proof.
  intros a. pose proof (neighbors_NoDup a) as (A & B). split; [exact A|]. split; [exact B|]. split; [apply neighbors_adjacent|]. split.
  - intros b. rewrite !neighbors_adjacent. apply adjacent_sym.
  - rewrite neighbors_adjacent. intros (H & _). apply H; reflexivity.
Qed.
Print Assumptions C51_neighbours.
(** getNeighborFromYaw does not return a neighbour: facing along x it goes two cells. *)
Theorem C51_neighbor_from_yaw_refuted :
  forall c, let d := getNeighborFromYaw Rn Rtrig Rfl Rtr 1 c 0 in d = C3 (cx c + 2) (cy c) (cz c) /\ ~ In d (cell_neighbors c).
Proof.
  intros c d. assert (E : d = C3 (cx c + 2) (cy c) (cz c)).
  { unfold d, getNeighborFromYaw. cbn [t_cos t_sin Rtrig].
    replace (Rtr (mul Rn (mul Rn (ofZ Rn 2) 1) (cos 0))) with 2%Z.
    2:{ unfold Rtr. rn. rewrite cos_0. replace (2 * 1 * 1) with (IZR 2) by ring. symmetry. apply Ztrunc_IZR. }
    replace (Rtr (mul Rn (mul Rn (ofZ Rn 2) 1) (sin 0))) with 0%Z.
    2:{ unfold Rtr. rn. rewrite sin_0. replace (2 * 1 * 0) with (IZR 0) by ring. symmetry. apply Ztrunc_IZR. }
    unfold cell_of. cbn [vx vy vz].
    f_equal; (apply floor_cell_unique; [lra|]; rewrite !pos1_R, ?plus_IZR; rn; tR; lra). }
  split; [exact E|]. rewrite E, neighbors_adjacent. unfold adjacent. cbn [cx cy cz]. intros (_ & [H|H]); lia.
Qed.
Print Assumptions C51_neighbor_from_yaw_refuted.
(** a point left of the origin, a half-metre grid *)
Example C51_example : cell_of Rn Rfl (1 / 2) (V3 (-3 / 10) (7 / 10) 2 : vec3 Rn) = C3 (-1) 1 4.
Proof. apply C51_cells_tile_space; [lra|]. unfold in_cube. cbn [vx vy vz cx cy cz Z.add Pos.add Z.pos_sub]. lra. Qed.
Example C51_example_double : cell_of F64 f64_fl (cst F64 1 10) (centre F64 (cst F64 1 10) (C3 123456789 (-7) 3)) = C3 123456789 (-7) 3.
Proof. vm_compute. reflexivity. Qed.

(* ---------------------------------------------------------------------------------------------- C53 *)
(** C53. Whatever the costs (doubles with rounding, infinities and NaN included), the margin and the iteration limit: simplification only deletes cells,
    keeps the first two (where the vehicle is and where it comes from) and the last; with [decelerate] the last cell of a path of three or more is repeated. *)
Theorem C53_simplify :
  forall (N : num) (cost : gnode -> gnode -> option N) p (margin limit : N) dec,
  exists q, simplifyPath N cost p margin limit dec = q ++ (if dec && (3 <=? length p)%nat then [last p (C3 0 0 0)] else []) /\
    subseq q p /\ firstn 2 q = firstn 2 p /\ (forall z, last q z = last p z) /\ (length q <= length p)%nat.
Proof.
  intros N cost p m l dec. destruct p as [|a [|b [|c p]]].
  1-3: eexists; split; [cbn [simplifyPath length Nat.leb andb]; rewrite andb_false_r, app_nil_r; reflexivity|]; split; [apply subseq_refl|]; auto.
  pose proof (iter_spec N cost (length (a :: b :: c :: p)) m l 0%Z (a :: b :: c :: p)) as (A & B & D).
  exists (simplify_iter N cost (length (a :: b :: c :: p)) m l 0%Z (a :: b :: c :: p)).
  split.
  - unfold simplifyPath. cbv zeta. rewrite B. destruct dec; [reflexivity|cbn [andb]; rewrite app_nil_r; reflexivity].
  - split; [exact A|]. split; [exact D|]. split; [exact B|apply subseq_length; exact A].
Qed.
Print Assumptions C53_simplify.
(** It terminates: every pass that is followed by another one shortens the path, so the loop never runs more often than the path has cells. *)
Theorem C53_simplify_terminates :
  forall (N : num) (cost : gnode -> gnode -> option N) (margin limit : N) p k,
  simplify_iter N cost (length p + k) margin limit 0 p = simplify_iter N cost (length p) margin limit 0 p.
Proof. intros. apply iter_fuel. auto. Qed.
Print Assumptions C53_simplify_terminates.

(** The node passes its two parameters in the wrong order: simplify_iterations_ arrives as the margin and simplify_margin_ as the iteration limit.
    With at most 100 iterations and a margin of 1.01, a detour around an obstacle is replaced by the direct way through it, although that costs more
    than 1.01 times as much. *)
Definition g64 (a b : Z) : F64 := cst F64 a b.
Definition trig0 : trig F64 := {| t_sin := (fun _ => g64 0 1 : F64); t_cos := (fun _ => g64 1 1 : F64); t_atan2 := (fun _ _ => g64 0 1 : F64); t_asin := (fun _ => g64 0 1 : F64) |}.
Definition ex_P : gcfg F64 :=
  GCfg (g64 1 1) (g64 5 1) KNoSmooth 1 10 (g64 1 5) (g64 20 1) (g64 3 1) (g64 500 1) (g64 1 1) (g64 5 1000) (g64 5 1) (g64 1 1) (g64 1 2)
       (g64 103 100) (g64 2 1) (g64 1 2) (g64 1 1) (g64 3 1) true true true true true (g64 1 2).
(** an obstacle in cell (2,0,3); free space elsewhere *)
Definition ex_tree (c : gcell) : option F64 := if ceq c (C3 2 0 3) then Some (g64 4 1) else Some (g64 (-4) 1).
Definition ex_prob (l : F64) : F64 := if ltb F64 (g64 0 1) l then g64 80 100 else g64 2 100.
Definition ex_zero : vec3 F64 := V3 (g64 0 1) (g64 0 1) (g64 0 1).
Definition ex_detour : list gcell := [C3 (-1) 0 3; C3 0 0 3; C3 2 3 3; C3 4 0 3].
Definition ex_pl : gplanner F64 :=
  GPl (GMap (Some ex_tree) (Some (g64 1 1)) []) [] [] ex_zero (g64 0 1) ex_zero (GC (C3 4 0 3) (g64 1 1) false) false false false (g64 1 1) ex_detour 2000.
Definition ex_C : ncfg F64 := NCfg ex_P (g64 7 2) (g64 1 1) 100 (g64 101 100).
Definition ex_cost : gnode -> gnode -> option F64 := getEdgeCost F64 trig0 f64_fl ex_P (g_risk F64 f64_cl f64_rnd ex_prob ex_P ex_pl) ex_zero ex_zero.
Theorem C53_swapped_arguments_refuted :
  simple_path F64 trig0 f64_fl f64_cl f64_rnd ex_prob ex_C ex_pl = [C3 (-1) 0 3; C3 0 0 3; C3 4 0 3; C3 4 0 3] /\
  simplifyPath F64 ex_cost ex_detour (simplify_margin ex_C) (ofZ F64 (simplify_iterations ex_C)) true = ex_detour ++ [C3 4 0 3] /\
  match ex_cost (mk (C3 0 0 3) (C3 (-1) 0 3)) (mk (C3 2 3 3) (C3 0 0 3)), ex_cost (mk (C3 2 3 3) (C3 0 0 3)) (mk (C3 4 0 3) (C3 2 3 3)),
        ex_cost (mk (C3 0 0 3) (C3 (-1) 0 3)) (mk (C3 4 0 3) (C3 0 0 3)) with
  | Some a, Some b, Some c => ltb F64 (mul F64 (ofZ F64 50) (add F64 a b)) c = true
  | _, _, _ => False
  end.
Proof. split; [vm_compute; reflexivity|split; vm_compute; reflexivity]. Qed.
Print Assumptions C53_swapped_arguments_refuted.
(** a straight path loses its inner cells *)
Example C53_example :
  simplifyPath F64 ex_cost [C3 0 3 3; C3 1 3 3; C3 2 3 3; C3 3 3 3; C3 4 3 3; C3 5 3 3; C3 5 4 3] (g64 101 100) (g64 3 1) false =
  [C3 0 3 3; C3 1 3 3; C3 5 4 3].
Proof. vm_compute. reflexivity. Qed.

