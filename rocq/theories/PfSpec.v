(** Specification vocabulary for the planner functions. *)
From Coq Require Import ZArith List Bool Reals Permutation.
From Verif Require Import Num Mat CommonModel HistModel PfModel.
Import ListNotations.

Section Spec.
Context (N : num) (G : trig N) (cast : N -> Z).

(** A measurement the planner accepts: no NaN coordinate, strictly between the two sensor ranges. *)
Definition accepted (position : vec3 N) (min_range max_range : N) (p : vec3 N) : bool :=
  negb (isnanb N (vx p)) && negb (isnanb N (vy p)) && negb (isnanb N (vz p)) &&
  ltb N (mul N min_range min_range) (distSq N position p) && ltb N (distSq N position p) (mul N max_range max_range).

Definition same_cell (a b : Z * Z) : bool := (fst a =? fst b)%Z && (snd a =? snd b)%Z.
(** how many elements of l satisfy f *)
Definition count {A} (f : A -> bool) (l : list A) : Z := Z.of_nat (length (filter f l)).

(** number of accepted measurements in cell c (cells are 2 x 2 degrees as seen from [position]) *)
Definition hits (position : vec3 N) (min_range max_range : N) (pts : list (vec3 N)) (c : Z * Z) : Z :=
  count (fun p => accepted position min_range max_range p && same_cell (fineIndex N G cast position p) c) pts.
End Spec.

(** Walking on the sphere from row r, column c of an R x C polar matrix (rows = elevation from pole to pole,
    columns = azimuth around the full turn): azimuth wraps; beyond a pole the elevation is reflected and the
    azimuth turned by half a turn. *)
Definition sphere_cell (R C r c : Z) : Z * Z :=
  (if (r <? 0) then (- 1 - r, (c + C / 2) mod C)
   else if (r <? R) then (r, c mod C)
   else (2 * R - 1 - r, (c + C / 2) mod C))%Z.

(** A strict weak order on the values that compare equal to themselves (all but NaN). *)
Record ordered_num (N : num) : Prop := {
  on_irrefl : forall x, ltb N x x = false;
  on_trans : forall x y z, ltb N x y = true -> ltb N y z = true -> ltb N x z = true;
  on_weak : forall x y z, isnanb N x = false -> isnanb N y = false -> isnanb N z = false ->
            ltb N x y = false -> ltb N y z = false -> ltb N x z = false;
  on_neq : forall x y, ltb N x y = true -> eqb N y x = false;
  on_zero : eqb N (ofZ N 0) (ofZ N 0) = true }.

(** What std::priority_queue guarantees about top()/pop() on a bag of candidates without NaN costs. *)
Definition is_priority_queue (N : num) (top : list (candidate N) -> option (candidate N * list (candidate N))) : Prop :=
  (top [] = None) /\
  (forall q, q <> [] -> (forall c, In c q -> isnanb N (c_cost c) = false) ->
    exists t r, top q = Some (t, r) /\ Permutation q (t :: r) /\
      forall c, In c q -> ltb N (c_cost t) (c_cost c) = false).

(** Geometry of a path flown in order a, l_1, l_2, ... (over the reals). *)
Section PathSpec.
Local Open Scope R_scope.
Definition seg_len (a b : vec3 Rn) : R := v3norm Rn (v3sub Rn b a).
Fixpoint path_length (a : vec3 Rn) (l : list (vec3 Rn)) : R :=
  match l with [] => 0 | b :: l' => seg_len a b + path_length b l' end.
(** distances from the start, measured along the path, of the nodes strictly between its two ends *)
Fixpoint node_distances (a : vec3 Rn) (l : list (vec3 Rn)) : list R :=
  match l with
  | [] => []
  | b :: l' => match l' with
               | [] => []
               | _ :: _ => seg_len a b :: map (fun d => seg_len a b + d) (node_distances b l')
               end
  end.
(** p is the point at distance d along the path, on the segment between two consecutive nodes *)
Inductive at_distance : vec3 Rn -> list (vec3 Rn) -> R -> vec3 Rn -> Prop :=
| at_here a b l t : 0 <= t < 1 ->
    at_distance a (b :: l) (t * seg_len a b) (v3add Rn a (v3scale Rn t (v3sub Rn b a)))
| at_later a b l d p : at_distance b l d p -> at_distance a (b :: l) (seg_len a b + d) p.
(** consecutive nodes are different points *)
Fixpoint no_zero_segment (a : vec3 Rn) (l : list (vec3 Rn)) : Prop :=
  match l with [] => True | b :: l' => a <> b /\ no_zero_segment b l' end.
End PathSpec.

(** Histories of processPointcloud. *)
Section Cycles.
Context (N : num) (G : trig N) (cast : N -> Z) (max_age : N).
(** the inputs of one planning cycle *)
Record cycle := Cycle {
  cy_clouds : list (list (vec3 N)); cy_fovs : list (fov N); cy_yaw : N; cy_pitch : N; cy_position : vec3 N;
  cy_min : N; cy_max : N; cy_elapsed : N; cy_num : Z }.
Definition cycle_step (old : list (xyzi N)) (c : cycle) : option (list (xyzi N)) :=
  processPointcloud N G cast old (cy_clouds c) (cy_fovs c) (cy_yaw c) (cy_pitch c) (cy_position c)
    (cy_min c) (cy_max c) max_age (cy_elapsed c) (cy_num c).
(** accumulated age of a point seen at the start of the given cycles and not since *)
Definition accumulated (cs : list cycle) : N := fold_left (fun a c => add N a (cy_elapsed c)) cs (ofZ N 0).

Definition traced (cs : list cycle) (q : xyzi N) : Prop :=
  exists pre c post, cs = pre ++ c :: post /\
    In (pt q) (concat (cy_clouds c)) /\ accepted N (cy_position c) (cy_min c) (cy_max c) (pt q) = true /\
    age q = accumulated post /\
    forall post1 d post2, post = post1 ++ d :: post2 ->
      ltb N (accumulated post1) max_age = true /\
      pointInsideFOVs N (cy_fovs d) (fcuDirection N G (cy_yaw d) (cy_pitch d) (cy_position d) (pt q)) = false /\
      ltb N (distSq N (cy_position d) (pt q)) (mul N (cy_max d) (cy_max d)) = true.

End Cycles.

(** Cells of the histogram. *)
Section Cells.
Context (N : num) (G : trig N) (cast : N -> Z) (position : vec3 N).
Local Open Scope Z_scope.
Definition coarse (p : vec3 N) : Z * Z := polarToHistogramIndex N cast (cartesianToPolarHistogram N G p position) ALPHA_RES.
Definition dist_of (p : vec3 N) : N := pr (cartesianToPolarHistogram N G p position).
(** the points of the cloud whose direction falls in row e, column z *)
Definition in_cell (e z : Z) (cloud : list (xyzi N)) : list (xyzi N) :=
  filter (fun q => same_cell (coarse (pt q)) (z, e)) cloud.
Definition sum_from (d : N) (l : list (xyzi N)) : N := fold_left (fun s q => add N s (dist_of (pt q))) l d.

End Cells.

(** Obstacles at the height of the vehicle. *)
Section Level.
Context (N : num) (G : trig N) (position : vec3 N) (inp : hist N).
(** cell (e,z) holds an obstacle that matters for level flight: its height differs by less than 1 m *)
Definition level_obstacle (e z : Z) (d : N) : Prop :=
  h_get N inp e z = Some d /\ ltb N (ofZ N 0) d = true /\
  ltb N (absv N (sub N (vz position)
     (vz (polarHistogramToCartesian N G (histogramIndexToPolar N e z ALPHA_RES d) position)))) (ofZ N 1) = true.
Definition nearest_level (es : list Z) (z : Z) (v : N) : Prop :=
  (v = ofZ N 0 /\ forall e d, In e es -> ~ level_obstacle e z d) \/
  (exists e, In e es /\ level_obstacle e z v) /\ (forall e d, In e es -> level_obstacle e z d -> ltb N d v = false).

End Level.

Section Interp.
Context (N : num).
Local Open Scope Z_scope.
(** value at distance i on the straight line from c0 to c1 over w columns, as the code computes it *)
Definition line (c0 c1 : N) (w i : Z) : N := add N c0 (mul N (div N (sub N c1 c0) (ofZ N w)) (ofZ N i)).
(** Specification of a row with step s: columns that are multiples of s are evaluated (v), the others lie on the
    line between the two neighbouring evaluated columns; the last interval ends at column 0. *)
Definition interp (s : Z) (v : Z -> N) (z : Z) : N :=
  let a := z - z mod s in
  if z mod s =? 0 then v z
  else if a + s <? 60 then line (v a) (v (a + s)) s (z - a)
  else line (v a) (v 0) (60 - a) (z - a).

End Interp.

(** Conic kernel of the smoothing and lookup on the sphere. *)
Section Smooth.
Local Open Scope R_scope.
Definition cone (radius k : Z) : R := (1 + IZR radius - Rabs (IZR k - IZR radius)) / (1 + IZR radius).
(** weighted sum over the spherical neighbourhood *)
Definition sphere_at (m : mat Rn) (r c : Z) : R := let (r', c') := sphere_cell (rows m) (cols m) r c in cell m r' c'.
End Smooth.
