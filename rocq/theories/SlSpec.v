(** Specification vocabulary for the landing site detection. *)
From Coq Require Import ZArith Reals List Bool.
From Flocq Require Import Core BinarySingleNaN.
From Verif Require Import Num Mat CommonModel PfModel PfSpec SlModel.
Import ListNotations.

(** static_cast<int>(x) and static_cast<int>(std::ceil(x)) *)
Definition Rcast (x : Rn) : Z := Ztrunc x.
Definition Rceil (x : Rn) : Z := Zceil x.
Definition f32_ceil (x : f32) : Z := Btrunc (Bnearbyint mode_UP x).

Section RealSpec.
Local Open Scope R_scope.
(** Cell (i,j) of a square grid of side [size] centred at [pos] with cells of side [c]: the points strictly inside the square with
    i*c <= x - left < (i+1)*c, and likewise for y and j. *)
Definition in_square (pos : vec3 Rn) (size : R) (p : vec3 Rn) : Prop :=
  Rabs (vx p - vx pos) < size / 2 /\ Rabs (vy p - vy pos) < size / 2.
Definition in_cell (pos : vec3 Rn) (size c : R) (i j : Z) (p : vec3 Rn) : Prop :=
  in_square pos size p /\
  IZR i * c <= vx p - (vx pos - size / 2) < IZR (i + 1) * c /\
  IZR j * c <= vy p - (vy pos - size / 2) < IZR (j + 1) * c.
(** [hs] are the heights, in order, of those points of [cloud] that lie in cell (i,j) *)
Inductive heights_in (pos : vec3 Rn) (size c : R) (i j : Z) : list (vec3 Rn) -> list R -> Prop :=
| hi_nil : heights_in pos size c i j [] []
| hi_in p l hs : in_cell pos size c i j p -> heights_in pos size c i j l hs -> heights_in pos size c i j (p :: l) ((vz p : R) :: hs)
| hi_out p l hs : ~ in_cell pos size c i j p -> heights_in pos size c i j l hs -> heights_in pos size c i j (p :: l) hs.

Definition Rsum (l : list R) : R := fold_right Rplus 0 l.
(** mean and (population) variance of a list; 0 for the empty list *)
Definition average (l : list R) : R := Rsum l / INR (length l).
Definition variance (l : list R) : R := Rsum (map (fun x => (x - average l) * (x - average l)) l) / INR (length l).
End RealSpec.

Section LandSpec.
Context (N : num).
Local Open Scope Z_scope.
(** enough points and small enough spread *)
Definition flat_cell (c : slp_cfg N) (g : grid N) (i j : Z) : bool :=
  negb (ltb N (ofZ N (cell (g_cnt g) i j)) (k_points c)) && negb (ltb N (k_std c) (sqrtv N (cell (g_var g) i j))).
Definition in_grid (n i j : Z) : bool := (0 <=? i) && (i <? n) && (0 <=? j) && (j <? n).
(** the (2p+1)^2 cells around (i,j), also beyond the border *)
Definition around (p i j : Z) : list (Z * Z) := map (fun kt => (i + fst kt, j + snd kt)) (window p).
(** how many cells of the window are flat; cells beyond the border are not *)
Definition flat_around (c : slp_cfg N) (g : grid N) (p i j : Z) : Z :=
  count (fun q => in_grid (g_rc g) (fst q) (snd q) && flat_cell c g (fst q) (snd q)) (around p i j).
(** mean height of a cell; beyond the border 0 *)
Definition mean_at (g : grid N) (i j : Z) : N := if in_grid (g_rc g) i j then cell (g_mean g) i j else ofZ N 0.
(** how many cells of the window differ in height from the centre by more than the threshold *)
Definition steps_around (c : slp_cfg N) (g : grid N) (p i j : Z) : Z :=
  count (fun q => ltb N (k_mean_diff c) (absv N (sub N (mean_at g i j) (mean_at g (fst q) (snd q))))) (around p i j).

(** all four matrices are square of the announced size *)
Definition well_sized (g : grid N) : Prop :=
  rows (g_mean g) = g_rc g /\ cols (g_mean g) = g_rc g /\ rows (g_var g) = g_rc g /\ cols (g_var g) = g_rc g /\
  rows (g_cnt g) = g_rc g /\ cols (g_cnt g) = g_rc g /\ rows (g_land g) = g_rc g /\ cols (g_land g) = g_rc g.
End LandSpec.
