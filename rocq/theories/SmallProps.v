(** Smaller theorems about functions that no other property file mentions: the cell a search may start in (C52), the diagonal neighbours and the 3D
    diagonal distance of cells (C51), the colours of a path (C92), the drawn field of view (C101), the polar distance (C127). *)
From Coq Require Import ZArith Reals List Bool Lia Lra Psatz.
From Flocq Require Import Core BinarySingleNaN.
From Verif Require Import Num Num64 F64Err CommonModel CommonSpec GpModel GpSearch GpPlan GpSpec GpPlanSpec GpF64 GpStats LvModel.
Import ListNotations.
Local Open Scope R_scope.

(** C52: a path is only found from a cell the map says is free: there is a map, the vehicle is above the lowest layer of cells, and where something has
    been seen the probability of an obstacle is at most one half. *)
Theorem C52_start_is_free :
  forall (G : trig F64) (prob : F64 -> F64) ltinf popS popO (P : gcfg F64) (g g' : gplanner F64) fuel,
  getGlobalPath F64 G f64_fl f64_cl f64_rnd prob ltinf popS popO fuel P g = Some (true, g') ->
  let here := cell_of F64 f64_fl (cell_scale P) (g_pos g) in
  exists tree, octree (g_map g) = Some tree /\ (1 <= cz here)%Z /\
  (forall lo, tree here = Some lo -> cmem here (occupied (g_map g)) = true \/ ltb F64 (ofZ F64 0) lo = true ->
     ltb F64 (cst F64 1 2) (posterior F64 (getAltPrior F64 f64_rnd P here) (prob lo)) = false) /\
  (tree here = None -> ltb F64 (cst F64 1 2) (mul F64 (explore_penalty P) (getAltPrior F64 f64_rnd P here)) = false).
Proof.
  intros G prob ltinf popS popO P g g' fuel E here. unfold getGlobalPath in E. cbv zeta in E. fold here in E.
  destruct (goal_must_be_free P && match getRiskC _ _ _ _ _ _ _ _ with Some _ => false | None => true end); [discriminate|].
  destruct (goal_must_be_free P && ltb F64 (max_cell_risk P) _); [discriminate|].
  destruct (isOccupied F64 f64_rnd prob P (g_map g) here) eqn:EO; [discriminate|]. clear E.
  assert (Half : ltb F64 (cst F64 1 2) (ofZ F64 1) = true) by (vm_compute; reflexivity).
  unfold isOccupied, getSingleCellRisk in EO. destruct (octree (g_map g)) as [tree|]; [|congruence]. exists tree. split; [reflexivity|].
  destruct (Z.ltb_spec (cz here) 1); [congruence|]. split; [lia|].
  destruct (tree here) as [lo0|] eqn:T.
  - split; [|discriminate]. intros lo [= <-] H0. destruct (cmem here (occupied (g_map g))); [exact EO|]. destruct H0 as [H0|H0]; [discriminate|]. rewrite H0 in EO. exact EO.
  - split; [discriminate|]. intros _. exact EO.
Qed.
Print Assumptions C52_start_is_free.

(** C51: the four diagonal neighbours are the cells one step away in both horizontal axes, at the same height. *)
Theorem C51_diagonal_neighbours :
  forall a b : gcell, In b (getDiagonalNeighbors a) <-> (Z.abs (cx b - cx a) = 1 /\ Z.abs (cy b - cy a) = 1 /\ cz b = cz a)%Z.
Proof.
  intros [x y z] [x' y' z']. cbn [getDiagonalNeighbors In cx cy cz]. split.
  - intros [E|[E|[E|[E|[]]]]]; injection E as <- <- <-; lia.
  - intros (H1 & H2 & ->). assert (x' = x + 1 \/ x' = x - 1)%Z as [->| ->] by lia; assert (y' = y + 1 \/ y' = y - 1)%Z as [->| ->] by lia; auto.
Qed.
Print Assumptions C51_diagonal_neighbours.
Example C51_diagonal_example : In (C3 4 6 7) (getDiagonalNeighbors (C3 5 5 7)) /\ ~ In (C3 5 6 7) (getDiagonalNeighbors (C3 5 5 7)).
Proof. rewrite !C51_diagonal_neighbours. cbn. lia. Qed.

(** C92: the colour of a value between 0 and 1: every component is between 0 and 1, and different values have different colours. *)
Theorem C92_colour :
  forall h h' : R, 0 <= h <= 1 -> 0 <= h' <= 1 ->
  let c := spectralColor Rn h in
  (0 <= vx c <= 1 /\ 0 <= vy c <= 1 /\ 0 <= vz c <= 1) /\ vx c + vy c + vz c = 1 /\ (spectralColor Rn h' = c -> h' = h).
Proof.
  intros h h' Hh Hh' c. unfold c, spectralColor. cbn [vx vy vz]. rewrite !maxv_Rn, !cst_Rn. rn. tR.
  assert (K : forall u, 0 <= u <= 1 -> u <= 1 / 2 /\ Rmax 0 (2 * u - 1) = 0 /\ Rmax 0 (1 - 2 * u) = 1 - 2 * u /\ Rabs (u - 1 / 2) = 1 / 2 - u \/
    1 / 2 <= u /\ Rmax 0 (2 * u - 1) = 2 * u - 1 /\ Rmax 0 (1 - 2 * u) = 0 /\ Rabs (u - 1 / 2) = u - 1 / 2).
  { intros u Hu. destruct (Rle_lt_dec u (1 / 2)); [left|right]; (split; [lra|]); (split; [|split]).
    - apply Rmax_left. lra. - apply Rmax_right. lra. - rewrite Rabs_left1 by lra. lra.
    - apply Rmax_right. lra. - apply Rmax_left. lra. - apply Rabs_right. lra. }
  destruct (K h Hh) as [(A1 & A2 & A3 & A4)|(A1 & A2 & A3 & A4)]; rewrite A2, A3, A4; (split; [lra|split; [lra|]]); intros E; injection E as E1 E2 E3;
    destruct (K h' Hh') as [(B1 & B2 & B3 & B4)|(B1 & B2 & B3 & B4)]; rewrite B2 in E1; rewrite B3 in E3; lra.
Qed.
Print Assumptions C92_colour.
Example C92_colour_example : spectralColor Rn (1 / 4) = V3 (0 : Rn) (1 / 2 : Rn) (1 / 2 : Rn).
Proof. unfold spectralColor. rewrite !maxv_Rn, !cst_Rn. rn. tR. rewrite (Rmax_left 0), (Rmax_right 0), Rabs_left1 by lra. f_equal; lra. Qed.

(** C101: the drawn field of view: four triangles, each from the camera to two neighbouring corners; every corner is in exactly two of them. *)
Fixpoint triples {A} (l : list A) : list (A * A * A) := match l with a :: b :: c :: r => (a, b, c) :: triples r | _ => [] end.
Theorem C101_fov_pyramid :
  forall (N : num) (G : trig N) (f : fov N) (max_range : N),
  let o := V3 (ofZ N 0) (ofZ N 0) (ofZ N 0) in let t := fovTriangles N G f max_range in
  length t = 12%nat /\ (forall a b c, In (a, b, c) (triples t) -> a = o) /\
  map (fun x => snd (fst x)) (triples t) = fovCorners N G f max_range /\
  map snd (triples t) = tl (fovCorners N G f max_range) ++ firstn 1 (fovCorners N G f max_range).
Proof.
  intros N G f d o t. unfold t, fovTriangles, fovCorners. cbv zeta. cbn [length triples map fst snd tl firstn app In].
  split; [reflexivity|]. split; [|split; reflexivity]. intros a b c [E|[E|[E|[E|[]]]]]; injection E as <- _ _; reflexivity.
Qed.
Print Assumptions C101_fov_pyramid.

(** C127: the distance of two directions is the one of the plane of their angles: a metric for directions given by the same angles, but not one of directions
    (-180 and 180 degrees are the same azimuth). *)
Theorem C127_polar_distance :
  forall p q : polar Rn, 0 <= distance2DPolar Rn p q /\ distance2DPolar Rn p q = distance2DPolar Rn q p /\
  (distance2DPolar Rn p q = 0 <-> pe p = pe q /\ pz p = pz q) /\
  Rmax (Rabs (pe p - pe q)) (Rabs (pz p - pz q)) <= distance2DPolar Rn p q <= Rabs (pe p - pe q) + Rabs (pz p - pz q).
Proof.
  intros [e z r] [e' z' r']. unfold distance2DPolar. cbn [pe pz]. rn. tR. set (a := e - e'). set (b := z - z').
  assert (Q : forall u : R, 0 <= u * u) by (intros; nra). assert (S : 0 <= a * a + b * b) by (pose proof (Q a); pose proof (Q b); lra).
  split; [apply sqrt_pos|]. split; [f_equal; unfold a, b; ring|]. split; [|split].
  - split.
    + intros H. apply sqrt_eq_0 in H; [|exact S]. pose proof (Q a). pose proof (Q b). assert (a * a = 0) by lra. assert (b * b = 0) by lra.
      apply Rsqr_0_uniq in H2. apply Rsqr_0_uniq in H3. unfold a, b in *. lra.
    + intros (E1 & E2). unfold a, b. rewrite E1, E2. replace ((e' - e') * (e' - e') + (z' - z') * (z' - z')) with 0 by ring. apply sqrt_0.
  - apply Rmax_lub; rewrite <- sqrt_Rsqr_abs; apply sqrt_le_1_alt; unfold Rsqr; pose proof (Q a); pose proof (Q b); lra.
  - rewrite <- (sqrt_square (Rabs a + Rabs b)) by (pose proof (Rabs_pos a); pose proof (Rabs_pos b); lra). apply sqrt_le_1_alt.
    pose proof (Rabs_pos a). pose proof (Rabs_pos b). replace (a * a) with (Rabs a * Rabs a) by (rewrite <- Rabs_mult; apply Rabs_pos_eq, Q).
    replace (b * b) with (Rabs b * Rabs b) by (rewrite <- Rabs_mult; apply Rabs_pos_eq, Q). nra.
Qed.
Print Assumptions C127_polar_distance.
Theorem C127_polar_distance_refuted : same_heading 360 (-180) 180 /\ distance2DPolar Rn (Pol (0 : Rn) (-180 : Rn) (1 : Rn)) (Pol (0 : Rn) (180 : Rn) (1 : Rn)) = 360.
Proof.
  split; [exists (-1)%Z; lra|]. unfold distance2DPolar. cbn [pe pz]. rn. tR. replace ((0 - 0) * (0 - 0) + (-180 - 180) * (-180 - 180)) with (360 * 360) by ring. apply sqrt_square. lra.
Qed.
Print Assumptions C127_polar_distance_refuted.
Example C127_example : distance2DPolar Rn (Pol (3 : Rn) (10 : Rn) (1 : Rn)) (Pol (0 : Rn) (14 : Rn) (2 : Rn)) = 5.
Proof. unfold distance2DPolar. cbn [pe pz]. rn. tR. replace ((3 - 0) * (3 - 0) + (10 - 14) * (10 - 14)) with (5 * 5) by ring. apply sqrt_square. lra. Qed.
