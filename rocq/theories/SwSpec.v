(** Specification vocabulary for the landing waypoint generator. *)
From Coq Require Import ZArith Reals List Bool.
From Flocq Require Import Core BinarySingleNaN.
From Verif Require Import Num Mat CommonModel PfModel PfSpec UsmModel SlModel SlSpec SwModel.
Import ListNotations.
Local Open Scope Z_scope.

(** static_cast<int>(std::round(x)): nearest integer, ties away from zero *)
Definition Rround (x : Rn) : Z := ZnearestA x.
Definition f32_round (x : f32) : Z := Btrunc (Bnearbyint mode_NA x).

(** the landing patch is a disc: all cells whose centre is less than s + 1/2 cells from the patch centre *)
Definition disc (s di dj : Z) : Prop := (sqrt (IZR (di * di + dj * dj)) < IZR s + 1 / 2)%R.
(** every cell of the disc of radius s around cell (ci,cj) passed the filter *)
Definition patch_landable (res : mat Z) (s ci cj : Z) : Prop :=
  forall di dj, - s <= di <= s -> - s <= dj <= s -> disc s di dj -> cell res (ci + di) (cj + dj) = 1.
(** offsets, in cells, of the patches that are tried after the central one: eight directions, growing distance, all inside the grid *)
Definition tried_offset (r s : Z) (d : Z * Z) : Prop :=
  exists k e, In e [(1, 0); (1, 1); (0, 1); (-1, 1); (-1, 0); (-1, -1); (0, -1); (1, -1)] /\
    1 <= k /\ k < (r - 2 * s) / 2 /\ d = (k * fst e, k * snd e).

Section Hist.
Context (N : num) (G : trig N) (ceilc rnd cast : N -> Z).
(** the generator state at the start of each executed command cycle of a history, oldest first *)
Fixpoint nview (n : node N) (os : list (sop N)) : list (sw N) :=
  match os with
  | [] => []
  | o :: os' =>
      (match o with OCycle => if n_received n then [updateSLPState N (n_x n)] else [] | _ => [] end) ++
      match nstep N G ceilc rnd cast n o with Some r => nview (fst r) os' | None => [] end
  end.
End Hist.

(** exponential smoothing of a sequence of (weight of the past, new value), starting from 0 *)
Definition smoothed (l : list (R * R)) : R := fold_left (fun h bv => (fst bv * h + (1 - fst bv) * snd bv)%R) l 0%R.

(** ways a history can change the landing goal from outside *)
Definition is_traj {N} (o : sop N) : bool := match o with OTraj _ => true | _ => false end.
Definition is_mode {N} (o : sop N) : bool := match o with OMode _ _ => true | _ => false end.
(** horizontal distance *)
Definition hdist (a b : vec3 Rn) : R := v2norm Rn (vx a - vx b)%R (vy a - vy b)%R.

(** direction and round of the k-th exploration step *)
Definition spiral_dir (k : nat) : Z * Z := nth (k mod 8) [(1, 0); (1, 1); (0, 1); (-1, 1); (-1, 0); (-1, -1); (0, -1); (1, -1)] (0, 0).
Definition spiral_round (k : nat) : Z := 1 + Z.of_nat (k / 8).

(** inputs: kernel sizes and thresholds are not negative, weights in [0,1], cell flags are 0 or 1 *)
Definition input_ok (o : sop Rn) : Prop :=
  match o with
  | OReconf c => 0 <= q_smooth c /\ (0 <= q_beta c <= 1)%R /\ (0 <= q_thr c)%R
  | OGrid m => Forall (fun l => l = 0 \/ l = 1) (gm_land m)
  | _ => True end.


(** what one loiter cycle says about cell (i,j): the weight of the past and the landable flag of the newest grid *)
Definition evidence (i j : Z) (u : sw Rn) : R * R := (q_beta (x_cfg u), IZR (cell (g_land (x_grid u)) i j)).
(** The filter forgets the cycles [old] when it goes on with [rest]: only if there are none, or landing is not requested in the next cycle, or the grid
    changed its size. *)
Definition restart (old rest : list (sw Rn)) : Prop :=
  match rev old, rest with
  | [], _ => True
  | v :: _, u :: _ => x_island u = false \/ rows (g_land (x_grid u)) <> rows (g_land (x_grid v))
  | _ :: _, [] => False
  end.
(** a cycle of the loiter phase that started with grid number [start] and is not over *)
Definition loitering (start : Z) (u : sw Rn) : Prop := x_state u = SLOITER /\ x_reset u = false /\ Z.abs (x_seq u - start) <= 20.

Section Moves.
Context (N : num) (G : trig N) (ceilc rnd cast : N -> Z).
(** the cycles in which a rejected site is left for the next one: state at the start of the cycle and after it *)
Fixpoint moves (n : node N) (os : list (sop N)) : list (sw N * sw N) :=
  match os with
  | [] => []
  | o :: os' =>
      match nstep N G ceilc rnd cast n o with
      | Some r =>
          (match o with
           | OCycle => if n_received n && x_decision (updateSLPState N (n_x n)) && negb (x_decision (n_x (fst r)))
                       then [(updateSLPState N (n_x n), n_x (fst r))] else []
           | _ => [] end) ++ moves (fst r) os'
      | None => []
      end
  end.
End Moves.

(** the k-th search position around [a]; the unit is the width of the landing patch times the configured spiral width *)
Definition spiral_goal (a : vec3 Rn) (u : sw Rn) (k : nat) : vec3 Rn :=
  let unit := (q_spiral (x_cfg u) * (2 * IZR (q_smooth (x_cfg u))) * g_cell (x_grid u))%R in
  V3 (vx a + unit * (IZR (spiral_round k) * IZR (fst (spiral_dir k))))%R (vy a + unit * (IZR (spiral_round k) * IZR (snd (spiral_dir k))))%R (vz a).

(** the mean heights of the (2s+1)^2 cells around the grid's centre *)
Definition area_heights {N} (g : grid N) (s : Z) : list N :=
  map (fun ij => cell (g_mean g) (fst ij) (snd ij))
      (list_prod (zfromto (rows (g_land g) / 2 - s) (rows (g_land g) / 2 + s)) (zfromto (rows (g_land g) / 2 - s) (rows (g_land g) / 2 + s))).

(** consecutive grid numbers differ by at most one: no grid was lost between two cycles *)
Fixpoint gapless (l : list Z) : Prop :=
  match l with a :: ((b :: _) as l') => Z.abs (b - a) <= 1 /\ gapless l' | _ => True end.
(** horizontal position of the site chosen at offset [d] (cells) by the evaluation in cycle state [u]: the loiter goal for the central patch *)
Definition site (u : sw Rn) (d : Z * Z) : R * R :=
  if (fst d =? 0) && (snd d =? 0) then (vx (x_goal u), vy (x_goal u))
  else ((vx (x_pos u) + IZR (fst d) * g_cell (x_grid u))%R, (vy (x_pos u) + IZR (snd d) * g_cell (x_grid u))%R).
