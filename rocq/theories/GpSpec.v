(** Specification vocabulary for the global planner. *)
From Coq Require Import ZArith Reals List Bool Permutation.
From Flocq Require Import Core BinarySingleNaN.
From Verif Require Import Num Num64 CommonModel CommonSpec GpModel GpSearch.
Import ListNotations.

(** static_cast<int> of floor, ceil, round (half away from zero) and of the value itself, over the reals *)
Definition Rfl (x : Rn) : Z := Zfloor x.
Definition Rcl (x : Rn) : Z := Zceil x.
Definition Rrnd (x : Rn) : Z := ZnearestA x.
Definition Rtr (x : Rn) : Z := Ztrunc x.

(** A priority queue: top/pop removes one element; it fails only on the empty queue. *)
Definition is_pop {A} (pop : list A -> option (A * list A)) : Prop :=
  (forall q, pop q = None -> q = []) /\ (forall q x q', pop q = Some (x, q') -> Permutation q (x :: q')).
(** An example: remove the first element of least priority. *)
Fixpoint pop_min {K} (N : num) (q : list (K * N)) : option ((K * N) * list (K * N)) :=
  match q with
  | [] => None
  | x :: q' => match pop_min N q' with
               | None => Some (x, q')
               | Some (y, r) => if ltb N (snd y) (snd x) then Some (y, x :: r) else Some (x, q')
               end
  end.

(** two cells that differ by one horizontal (straight or diagonal) or one vertical step *)
Definition adjacent (a b : gcell) : Prop :=
  a <> b /\
  (cz a = cz b /\ (Z.abs (cx a - cx b) <= 1)%Z /\ (Z.abs (cy a - cy b) <= 1)%Z \/
   cx a = cx b /\ cy a = cy b /\ (Z.abs (cz a - cz b) <= 1)%Z).
Section Paths.
Context (N : num) (sc rad : N) (legal : gnode -> bool).
(** centre of the i-th cell along an axis, straight-line distance of two cell centres *)
Definition mid (i : Z) : N := mul N sc (add N (ofZ N i) (cst N 1 2)).
Definition centre_dist (a b : gcell) : N :=
  let sq x := mul N x x in
  sqrtv N (add N (add N (sq (sub N (mid (cx a)) (mid (cx b)))) (sq (sub N (mid (cy a)) (mid (cy b))))) (sq (sub N (mid (cz a)) (mid (cz b))))).
(** The moves a node type offers in cell c, having come from cell p: to an adjacent cell; a speed node moves on by its last displacement or to a cell adjacent
    to that one that is nearer to c than [rad]. *)
Definition offered (kind : nkind) (p c d : gcell) : Prop :=
  match kind with
  | KNode | KNoSmooth => adjacent c d
  | KSpeed => let e := C3 (2 * cx c - cx p)%Z (2 * cy c - cy p)%Z (2 * cz c - cz p)%Z in
      d = e \/ (adjacent e d /\ ltb N (ofZ N 0) (centre_dist c d) = true /\ ltb N (centre_dist c d) rad = true)
  end.
(** [flyable kind p c l]: starting in cell c, having come from p, every cell of l is reached from the one before by a move that the
    node type offers in that situation and that the map judges legal. *)
Fixpoint flyable (kind : nkind) (p c : gcell) (l : list gcell) : Prop :=
  match l with
  | [] => True
  | d :: l' => offered kind p c d /\ legal (Nd kind d c) = true /\ flyable kind c d l'
  end.
(** the search may stop in cell c: its centre is nearer to the goal's than half the goal's radius (sum of the coordinate differences) *)
Definition near_goal (t : goalcell N) (c : gcell) : Prop :=
  let ad a b := absv N (sub N (mid a) (mid b)) in let g := gc_cell t in
  ltb N (add N (add N (ad (cx g) (cx c)) (ad (cy g) (cy c))) (ad (cz g) (cz c))) (div N (gc_radius t) (ofZ N 2)) = true.
End Paths.

(** every element is followed by one related to it *)
Fixpoint linked {A} (r : A -> A -> Prop) (l : list A) : Prop :=
  match l with a :: ((b :: _) as l') => r a b /\ linked r l' | _ => True end.

(** [subseq l m]: l is obtained from m by deleting elements *)
Inductive subseq {A} : list A -> list A -> Prop :=
| ss_nil m : subseq [] m
| ss_keep a l m : subseq l m -> subseq (a :: l) (a :: m)
| ss_drop a l m : subseq l m -> subseq l (a :: m).

(** A move of the fallback search towards t: to an adjacent cell, vertically only if allowed and within the altitude limits, into a cell
    whose risk does not exceed the limit (or into t itself). *)
Definition open_step {N : num} (risk : gcell -> N) (factor limit : N) (min_alt max_alt : Z) (is_3D : bool) (t a b : gcell) : Prop :=
  adjacent a b /\
  (cz b <> cz a -> is_3D = true /\ (cz a < cz b -> cz a < max_alt)%Z /\ (cz b < cz a -> min_alt < cz a)%Z) /\
  (b = t \/ ltb N (mul N factor limit) (mul N factor (risk b)) = false).

(** not negative (in floating point: or not a number); between 0 and 1 *)
Definition nneg {N : num} (x : N) : Prop := ltb N x (ofZ N 0) = false.
Definition unitv {N : num} (x : N) : Prop := nneg x /\ ltb N (ofZ N 1) x = false.
