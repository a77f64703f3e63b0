(** Model of the global planner's library: global_planner/src/library/{cell,node,global_planner}.cpp and
    global_planner/include/global_planner/{cell,node,common,bezier,search_tools,visitor,common_ros}.h.

    All arithmetic of this package is [double]; the code is written over [num] and instantiated with [Rn] and [F64].
    - [fl], [cl], [rnd], [tr] are static_cast<int> of std::floor(x), std::ceil(x), std::round(x), x;
      casts of values outside the range of int and integer overflow are not modelled.
    - A NaN that the C++ code obtains from 0.0/0 is the outcome [None] where it matters (the real instance has no NaN);
      undefined behaviour (out of range vector access, cast of NaN to int, null dereference) is [None] as well.
    - Unordered containers are lists; where the iteration order of an unordered container is observable (floating-point sums) the
      model uses insertion order. *)
From Coq Require Import ZArith List Bool.
From Verif Require Import Num CommonModel.
Import ListNotations.
Local Open Scope Z_scope.

(** cell.h:52: std::tuple<int,int,int> *)
Record gcell := C3 { cx : Z; cy : Z; cz : Z }.
(** cell.h:55 *)
Definition ceq (a b : gcell) : bool := (cx a =? cx b) && (cy a =? cy b) && (cz a =? cz b).
(** cell.h:57: lexicographic *)
Definition clt (a b : gcell) : bool :=
  (cx a <? cx b) || ((cx a =? cx b) && ((cy a <? cy b) || ((cy a =? cy b) && (cz a <? cz b)))).
(** cell.h:62-71 *)
Definition cadd (a b : gcell) : gcell := C3 (cx a + cx b) (cy a + cy b) (cz a + cz b).
Definition csub (a b : gcell) : gcell := C3 (cx a - cx b) (cy a - cy b) (cz a - cz b).

(** int -> size_t and 32-bit int arithmetic *)
Definition i32 (z : Z) : Z := (z + 2 ^ 31) mod 2 ^ 32 - 2 ^ 31.
Definition u64 (z : Z) : Z := z mod 2 ^ 64.
(** cell.h:102-109 *)
Definition cell_hash (c : gcell) : Z :=
  u64 (Z.lxor (Z.lxor (i32 (Z.shiftl (cx c) 20)) (i32 (Z.shiftl (cy c) 10))) (i32 (cz c))).

(** cell.cpp:86-91 *)
Definition getDiagonalNeighbors (c : gcell) : list gcell :=
  [ C3 (cx c + 1) (cy c + 1) (cz c); C3 (cx c - 1) (cy c + 1) (cz c);
    C3 (cx c + 1) (cy c - 1) (cz c); C3 (cx c - 1) (cy c - 1) (cz c) ].
(** cell.cpp:93-104 *)
Definition cell_neighbors (c : gcell) : list gcell :=
  [ C3 (cx c + 1) (cy c) (cz c); C3 (cx c - 1) (cy c) (cz c); C3 (cx c) (cy c + 1) (cz c); C3 (cx c) (cy c - 1) (cz c);
    C3 (cx c) (cy c) (cz c + 1); C3 (cx c) (cy c) (cz c - 1);
    C3 (cx c + 1) (cy c + 1) (cz c); C3 (cx c - 1) (cy c + 1) (cz c);
    C3 (cx c + 1) (cy c - 1) (cz c); C3 (cx c - 1) (cy c - 1) (cz c) ].

(** cell.cpp:68-71 [ceilDistance]; the operand of std::sqrt is an exact integer, std::ceil(std::sqrt(m)) is Z.sqrt_up m for the
    radii of interest (r < 2^26); sqrt of a negative number is NaN, whose cast to int is undefined. *)
Definition ceilDistance (radius x y : Z) : option Z :=
  let m := radius * radius - x * x - y * y in if m <? 0 then None else Some (Z.sqrt_up m).
(** lo, lo+1, ..., hi *)
Definition ints (lo hi : Z) : list Z := map (fun i => lo + Z.of_nat i) (seq 0 (Z.to_nat (hi - lo + 1))).
Fixpoint cat_opt {A} (l : list (option (list A))) : option (list A) :=
  match l with
  | [] => Some []
  | o :: l' => match o, cat_opt l' with Some a, Some b => Some (a ++ b) | _, _ => None end
  end.
(** cell.cpp:66-82 *)
Definition getFlowNeighbors (c : gcell) (radius : Z) : option (list gcell) :=
  cat_opt (map (fun x =>
    match ceilDistance radius x 0 with
    | None => None
    | Some yr => cat_opt (map (fun y =>
        match ceilDistance radius x y with
        | None => None
        | Some zr => Some (map (fun z => C3 (cx c + x) (cy c + y) (cz c + z)) (ints (- zr) zr))
        end) (ints (- yr) yr))
    end) (ints (- radius) radius)).

(** node.h:12-93: Node, NodeWithoutSmooth, SpeedNode *)
Inductive nkind := KNode | KNoSmooth | KSpeed.
Record gnode := Nd { n_kind : nkind; n_cell : gcell; n_par : gcell }.
(** node.cpp:8, node.h:61 (virtual: the kind of the left operand decides) *)
Definition isEqual (a b : gnode) : bool :=
  match n_kind a with
  | KNoSmooth => ceq (n_cell a) (n_cell b)
  | _ => ceq (n_cell a) (n_cell b) && ceq (n_par a) (n_par b)
  end.
(** node.cpp:5-7 *)
Definition isSmaller (a b : gnode) : bool :=
  clt (n_cell a) (n_cell b) || (ceq (n_cell a) (n_cell b) && clt (n_par a) (n_par b)).
(** node.cpp:10-12, node.h:63 *)
Definition node_hash (a : gnode) : Z :=
  match n_kind a with
  | KNoSmooth => cell_hash (n_cell a)
  | _ => Z.lxor (u64 (Z.shiftl (cell_hash (n_cell a)) 1)) (cell_hash (n_par a))
  end.
(** node.cpp:14, node.h:65, node.h:79 *)
Definition nextNode (u : gnode) (c : gcell) : gnode := Nd (n_kind u) c (n_cell u).

Section Gp.
Context (N : num) (G : trig N) (fl cl rnd tr : N -> Z).
Declare Scope gp_scope.
Local Notation "x +. y" := (add N x y) (at level 50, left associativity) : gp_scope.
Local Notation "x -. y" := (sub N x y) (at level 50, left associativity) : gp_scope.
Local Notation "x *. y" := (mul N x y) (at level 40, left associativity) : gp_scope.
Local Notation "x /. y" := (div N x y) (at level 40, left associativity) : gp_scope.
Local Notation "# z" := (ofZ N z) (at level 1, format "# z") : gp_scope.
Local Open Scope gp_scope.

(* ------------------------------------------------------------------------------------------------ global_planner/include/global_planner/common.h *)
(** global_planner/common.h:18 *)
Definition interp1 (a b ratio : N) : N := a +. (b -. a) *. ratio.
(** global_planner/common.h:48-55 *)
Definition interpolate (p1 p2 : vec3 N) (ratio : N) : vec3 N :=
  V3 (interp1 (vx p1) (vx p2) ratio) (interp1 (vy p1) (vy p2) ratio) (interp1 (vz p1) (vz p2) ratio).
(** global_planner/common.h:58-61 *)
Definition middlePoint (p1 p2 : vec3 N) : vec3 N := interpolate p1 p2 (cst N 1 2).
(** global_planner/common.h:36-44, 90-93 *)
Definition gnorm (p : vec3 N) : N := sqrtv N (vx p *. vx p +. vy p *. vy p +. vz p *. vz p).
Definition gdistance (p1 p2 : vec3 N) : N := gnorm (v3sub N p2 p1).
(** global_planner/common.h:100-105 *)
Definition angleToRange (angle : N) : N :=
  let a := angle +. pif N in
  let a := a -. (#2 *. pif N) *. floorv N (a /. (#2 *. pif N)) in
  a -. pif N.
(** global_planner/common.h:107-112 *)
Definition posterior (p prior : N) : N :=
  let prob_obstacle := p *. prior in
  let prob_free := (#1 -. p) *. (#1 -. prior) in
  prob_obstacle /. (prob_obstacle +. prob_free +. cst N 1 10000).

(* ------------------------------------------------------------------------------------------------ cell.cpp *)
(** cell.cpp:7, 9; [sc] is CELL_SCALE *)
Definition cell_of (sc : N) (p : vec3 N) : gcell := C3 (fl (vx p /. sc)) (fl (vy p /. sc)) (fl (vz p /. sc)).
(** cell.cpp:15-17 *)
Definition pos1 (sc : N) (i : Z) : N := sc *. (#i +. cst N 1 2).
(** cell.cpp:19-25 *)
Definition centre (sc : N) (c : gcell) : vec3 N := V3 (pos1 sc (cx c)) (pos1 sc (cy c)) (pos1 sc (cz c)).
(** cell.cpp:28-30 *)
Definition manhattanDist (sc : N) (c : gcell) (p : vec3 N) : N :=
  absv N (pos1 sc (cx c) -. vx p) +. absv N (pos1 sc (cy c) -. vy p) +. absv N (pos1 sc (cz c) -. vz p).
Definition sq (x : N) : N := x *. x.
(** cell.cpp:34 *)
Definition distance2D (sc : N) (a b : gcell) : N :=
  sqrtv N (sq (pos1 sc (cx a) -. pos1 sc (cx b)) +. sq (pos1 sc (cy a) -. pos1 sc (cy b))).
(** cell.cpp:36-38 *)
Definition distance3D (sc : N) (a b : gcell) : N :=
  sqrtv N (sq (pos1 sc (cx a) -. pos1 sc (cx b)) +. sq (pos1 sc (cy a) -. pos1 sc (cy b))
           +. sq (pos1 sc (cz a) -. pos1 sc (cz b))).
(** cell.cpp:42-47 *)
Definition diagDistance2D (sc : N) (a b : gcell) : N :=
  let dx := absv N (pos1 sc (cx a) -. pos1 sc (cx b)) in
  let dy := absv N (pos1 sc (cy a) -. pos1 sc (cy b)) in
  (dx +. dy) +. (cst N 141421356237 100000000000 -. #2) *. minv N dx dy.
(** cell.cpp:51 *)
Definition diagDistance3D (sc : N) (a b : gcell) : N := diagDistance2D sc a b +. absv N (pos1 sc (cz a) -. pos1 sc (cz b)).
(** cell.cpp:55 *)
Definition cangle (c : gcell) : N := t_atan2 G (#(cy c)) (#(cx c)).
(** cell.cpp:59-63 *)
Definition getNeighborFromYaw (sc : N) (c : gcell) (yaw : N) : gcell :=
  let dx := tr (#2 *. sc *. t_cos G yaw) in
  let dy := tr (#2 *. sc *. t_sin G yaw) in
  cell_of sc (V3 (pos1 sc (cx c) +. #dx) (pos1 sc (cy c) +. #dy) (pos1 sc (cz c))).

(** cell.h:77-96 *)
Record goalcell := GC { gc_cell : gcell; gc_radius : N; gc_temp : bool }.
(** cell.h:85-87 *)
Definition withinPlanRadius (sc : N) (t : goalcell) (c : gcell) : bool :=
  ltb N (manhattanDist sc (gc_cell t) (centre sc c)) (gc_radius t /. #2).
(** cell.h:89-92 *)
Definition withinPositionRadius (sc : N) (t : goalcell) (p : vec3 N) : bool :=
  ltb N (manhattanDist sc (gc_cell t) p) (gc_radius t).

(* ------------------------------------------------------------------------------------------------ node.cpp *)
(** node.cpp:16-23, node.h:81-92; [rad] is SPEEDNODE_RADIUS *)
Definition getNeighbors (sc rad : N) (u : gnode) : list gnode :=
  match n_kind u with
  | KSpeed =>
      let e := cadd (csub (n_cell u) (n_par u)) (n_cell u) in
      nextNode u e ::
      map (nextNode u) (filter (fun c => let d := distance3D sc (n_cell u) c in ltb N (#0) d && ltb N d rad) (cell_neighbors e))
  | _ => map (nextNode u) (cell_neighbors (n_cell u))
  end.

Definition cmem (c : gcell) (l : list gcell) : bool := existsb (ceq c) l.
(** unordered_set::insert *)
Definition cins (l : list gcell) (c : gcell) : list gcell := if cmem c l then l else l ++ [c].
(** node.cpp:25-47 *)
Definition getCells (sc : N) (n : gnode) : list gcell :=
  let c := n_cell n in let p := n_par n in
  let steps := 2 * Z.max (Z.abs (cx c - cx p)) (Z.max (Z.abs (cy c - cy p)) (Z.abs (cz c - cz p))) in
  let x_step := (pos1 sc (cx c) -. pos1 sc (cx p)) /. #steps in
  let y_step := (pos1 sc (cy c) -. pos1 sc (cy p)) /. #steps in
  let z_step := (pos1 sc (cz c) -. pos1 sc (cz p)) /. #steps in
  let d := cst N 1 10 in
  fold_left (fun acc i =>
    let x := pos1 sc (cx p) +. x_step *. #i in
    let y := pos1 sc (cy p) +. y_step *. #i in
    let z := pos1 sc (cz p) +. z_step *. #i in
    cins (cins (cins (cins acc (cell_of sc (V3 (x +. d) (y +. d) z))) (cell_of sc (V3 (x +. d) (y -. d) z)))
               (cell_of sc (V3 (x -. d) (y +. d) z))) (cell_of sc (V3 (x -. d) (y -. d) z)))
    (ints 1 steps) [].
(** node.cpp:49 *)
Definition getLength (sc : N) (n : gnode) : N := distance3D sc (n_par n) (n_cell n).
(** node.cpp:65-77 *)
Definition getXYRotation (u v : gnode) : N :=
  let td := csub (n_cell u) (n_par u) in
  let od := csub (n_cell v) (n_par v) in
  if ((cx td =? 0) && (cy td =? 0)) || ((cx od =? 0) && (cy td =? 0)) then #0
  else absv N (angleToRange (cangle od -. cangle td)) /. (pif N /. #4).
(** node.cpp:53-63, node.h:67 *)
Definition getRotation (u v : gnode) : N :=
  match n_kind u with
  | KNoSmooth => #0
  | _ =>
      let tz := cz (n_cell u) - cz (n_par u) in
      let oz := cz (n_cell v) - cz (n_par v) in
      let alt := if xorb (tz =? 0) (oz =? 0) then cst N 1 2 else #0 in
      alt +. getXYRotation u v
  end.

(* ------------------------------------------------------------------------------------------------ bezier.h *)
(** bezier.h:11-14 *)
Definition quadraticBezier (p0 p1 p2 t : N) : N :=
  ((#1 -. t) *. (#1 -. t) *. p0) +. #2 *. ((#1 -. t) *. t *. p1) +. (t *. t *. p2).
(** bezier.h:17-20 *)
Definition quadraticBezierAcc (p0 p1 p2 duration : N) : N := #2 *. (p2 -. #2 *. p1 +. p0) /. duration *. duration.
(** bezier.h:23-35 *)
Definition threePointBezier (p0 p1 p2 : vec3 N) (num_steps : Z) : list (vec3 N) :=
  map (fun i => let t := #i /. #num_steps in
    V3 (quadraticBezier (vx p0) (vx p1) (vx p2) t) (quadraticBezier (vy p0) (vy p1) (vy p2) t)
       (quadraticBezier (vz p0) (vz p1) (vz p2) t)) (ints 0 num_steps).
(** bezier.h:56-62 *)
Record bezier_msg := BM { bm_prev : vec3 N; bm_ctrl : vec3 N; bm_next : vec3 N; bm_duration : N }.
(** bezier.h:68-91 *)
Definition bezierFromTwoPoints (start fin : vec3 N) (acc max_vel : N) : list bezier_msg :=
  let total := gdistance start fin in
  let acc_duration := max_vel /. acc in
  let acc_dist := acc_duration *. max_vel /. #2 in
  let acc_part := minv N (cst N 1 2) (acc_dist /. total) in
  let middle := middlePoint start fin in
  let mvp := interpolate start fin acc_part in
  let dcp := interpolate fin start acc_part in
  let mvd := gdistance mvp dcp /. max_vel in
  [BM start start mvp acc_duration; BM mvp middle dcp mvd; BM dcp fin fin acc_duration].

(* ------------------------------------------------------------------------------------------------ poses *)
(** geometry_msgs::PoseStamped: position and the yaw the orientation was created from (tf::createQuaternionMsgFromYaw) *)
Record gpose := GP { gp_pos : vec3 N; gp_yaw : N }.

(** search_tools.h:51-64: consecutive triples of poses *)
Fixpoint smooth_turns (front : gpose) (l : list gpose) : list gpose :=
  match l with
  | a :: ((b :: c :: _) as l') =>
      map (fun p => GP p (gp_yaw front))
          (threePointBezier (middlePoint (gp_pos a) (gp_pos b)) (gp_pos b) (middlePoint (gp_pos b) (gp_pos c)) 10)
      ++ smooth_turns front l'
  | _ => []
  end.
(** search_tools.h:40-67 *)
Definition smoothPath (poses : list gpose) : list gpose :=
  match poses with
  | front :: _ :: _ :: _ => front :: smooth_turns front poses ++ [last poses front]
  | _ => poses
  end.

(** common_ros.h:97-109: interior poses where the direction changes *)
Definition same_dir (a b c : N) : bool := eqb N (c -. b) (b -. a).
Fixpoint corner_poses (l : list gpose) : list gpose :=
  match l with
  | a :: ((b :: c :: _) as l') =>
      let pa := gp_pos a in let pb := gp_pos b in let pc := gp_pos c in
      (if same_dir (vx pa) (vx pb) (vx pc) && same_dir (vy pa) (vy pb) (vy pc) && same_dir (vz pa) (vz pb) (vz pc)
       then [] else [b]) ++ corner_poses l'
  | _ => []
  end.
(** common_ros.h:90-112 *)
Definition filterPathCorners (msg : list gpose) : list gpose :=
  match msg with [] => [] | f :: _ => f :: corner_poses msg ++ [last msg f] end.
(** common_ros.h:81-87 *)
Fixpoint path_length_from (total : N) (l : list gpose) : N :=
  match l with
  | a :: ((b :: _) as l') => path_length_from (total +. gdistance (gp_pos a) (gp_pos b)) l'
  | _ => total
  end.
Definition pathLength (l : list gpose) : N := path_length_from (#0) l.
(** common_ros.h:136-144 *)
Fixpoint path_energy_from (up total : N) (l : list gpose) : N :=
  match l with
  | a :: ((b :: _) as l') =>
      path_energy_from up (total +. gdistance (gp_pos a) (gp_pos b)
                           +. maxv N (#0) (up *. (vz (gp_pos b) -. vz (gp_pos a)))) l'
  | _ => total
  end.
Definition pathEnergy (l : list gpose) (up : N) : N := path_energy_from up (#0) l.

(* ------------------------------------------------------------------------------------------------ simplifyPath *)
Section Simplify.
(** getEdgeCost(u, v); [None] = NaN *)
Context (edgeCost : gnode -> gnode -> option N).
Definition mk (c p : gcell) : gnode := Nd KNode c p.
(** search_tools.h:94: new_cost > simplify_margin * curr_cost; false if an operand is NaN *)
Definition keep_middle (margin : N) (a b c d : gcell) : bool :=
  match edgeCost (mk b a) (mk c b), edgeCost (mk c b) (mk d c), edgeCost (mk b a) (mk d b) with
  | Some c1, Some c2, Some w => ltb N (margin *. (c1 +. c2)) w
  | _, _, _ => false
  end.
(** search_tools.h:85-104: curr_path[i-3..] with i increasing by two; [a b] are curr_path[i-3], curr_path[i-2] *)
Fixpoint simplify_loop (margin : N) (a b : gcell) (l : list gcell) : list gcell :=
  match l with
  | c :: d :: l' => (if keep_middle margin a b c d then [c; d] else [d]) ++ simplify_loop margin c d l'
  | [c] => [c]
  | [] => []
  end.
(** search_tools.h:83-104: one pass; curr_path has at least two elements *)
Definition simplify_once (margin : N) (p : list gcell) : list gcell :=
  match p with a :: b :: l => a :: b :: simplify_loop margin a b l | _ => p end.
(** search_tools.h:82-111: for (int j = 0; j < max_iter; ++j); [fuel] bounds the passes *)
Fixpoint simplify_iter (fuel : nat) (margin max_iter : N) (j : Z) (p : list gcell) : list gcell :=
  match fuel with
  | O => p
  | S fuel' =>
      if ltb N (#j) max_iter then
        let p' := simplify_once margin p in
        if (length p' =? length p)%nat then p else simplify_iter fuel' margin max_iter (j + 1) p'
      else p
  end.
(** search_tools.h:72-118; every pass that continues shortens the path, so length p passes are enough *)
Definition simplifyPath (p : list gcell) (margin max_iter : N) (decelerate : bool) : list gcell :=
  match p with
  | _ :: _ :: _ :: _ =>
      let q := simplify_iter (length p) margin max_iter 0 p in
      if decelerate then q ++ [last q (C3 0 0 0)] else q
  | _ => p
  end.
End Simplify.
End Gp.

Arguments GC {N} _ _ _.
Arguments gc_cell {N} _.
Arguments gc_radius {N} _.
Arguments gc_temp {N} _.
Arguments GP {N} _ _.
Arguments gp_pos {N} _.
Arguments gp_yaw {N} _.
Arguments BM {N} _ _ _ _.
Arguments bm_prev {N} _.
Arguments bm_ctrl {N} _.
Arguments bm_next {N} _.
Arguments bm_duration {N} _.
