(** Model of the A* searches of global_planner/include/global_planner/search_tools.h.

    [findSmoothPath] (129-201) and [findPathOld] (266-353) share their main loop; the loop is written once ([astar]) over
    - [K], [keq]: the keys of the unordered/ordered containers and their equality;
    - [next u]: the successors that pass the legality test, in order;
    - [relax d u v]: the new distance of v reached from u at distance d; [None] = NaN (no comparison holds);
    - [heur vis v]: the heuristic, which may depend on how often perNeighbor was called before ([vis], visitor.h:20-23);
    - [ltinf x]: x < INFINITY;
    - [pop]: std::priority_queue::top and pop. Which of several equal (or NaN) priorities is on top is unspecified; the theorems
      hold for every [pop] that removes some element of the queue;
    - [count_goal]: whether num_iter is incremented before (findPathOld:292) or after (findSmoothPath:158) the goal test.
    The maps are association lists in which the newest binding comes first. *)
From Coq Require Import ZArith List Bool.
From Verif Require Import Num CommonModel GpModel.
Import ListNotations.
Local Open Scope Z_scope.

Section Astar.
Context (N : num) (K : Type) (keq : K -> K -> bool) (next : K -> list K) (relax : N -> K -> K -> option N)
        (heur : list K -> K -> N) (ltinf : N -> bool)
        (pop : list (K * N) -> option ((K * N) * list (K * N))) (goal : K -> bool) (count_goal : bool).

Fixpoint lookup {V} (m : list (K * V)) (k : K) : option V :=
  match m with [] => None | (k', v) :: m' => if keq k' k then Some v else lookup m' k end.

(** search_tools.h:135-141 / 270-276 *)
Record astate := AS {
  a_pq : list (K * N); a_seen : list K; a_par : list (K * K); a_dist : list (K * N); a_vis : list K; a_iter : Z }.
Definition a_init (s : K) : astate := AS [(s, ofZ N 0)] [] [] [(s, ofZ N 0)] [] 0.

(** search_tools.h:160-175 / 299-327: one successor. distance[u] of an absent key would be value-initialised to 0.0 *)
Definition relax1 (u : K) (st : astate) (v : K) : astate :=
  let d := match lookup (a_dist st) u with Some d => d | None => ofZ N 0 end in
  match relax d u v with
  | None => st
  | Some nd =>
      if match lookup (a_dist st) v with Some od => ltb N nd od | None => ltinf nd end
      then AS (a_pq st ++ [(v, add N nd (heur (a_vis st) v))]) (a_seen st) ((v, u) :: a_par st) ((v, nd) :: a_dist st)
              (v :: a_vis st) (a_iter st)
      else st
  end.
Definition expand (u : K) (st : astate) : astate := fold_left (relax1 u) (next u) st.

(** search_tools.h:144-176 / 283-328; the result is the goal node popped, if any. [None] = the fuel ran out. *)
Fixpoint astar (fuel : nat) (max_iter : Z) (st : astate) : option (option K * astate) :=
  match fuel with
  | O => None
  | S f =>
      if a_iter st <? max_iter then
        match pop (a_pq st) with
        | None => Some (None, st)
        | Some ((u, _), q) =>
            let st := AS q (a_seen st) (a_par st) (a_dist st) (a_vis st) (a_iter st) in
            if existsb (fun k => keq k u) (a_seen st) then astar f max_iter st
            else
              let it := if goal u then (if count_goal then a_iter st + 1 else a_iter st) else a_iter st + 1 in
              let st := AS q (u :: a_seen st) (a_par st) (a_dist st) (a_vis st) it in
              if goal u then Some (Some u, st) else astar f max_iter (expand u st)
        end
      else Some (None, st)
  end.

(** search_tools.h:186-190 / 337-341: follow the parent map until [stop]; [None] = missing parent (null dereference or, in
    findPathOld, a default constructed cell) or endless loop. The nodes walked over, [stop] excluded. *)
Fixpoint walk (fuel : nat) (par : list (K * K)) (stop : K -> bool) (w : K) : option (list K) :=
  if stop w then Some []
  else match fuel with
       | O => None
       | S f => match lookup par w with
                | None => None
                | Some p => match walk f par stop p with Some l => Some (w :: l) | None => None end
                end
       end.
End Astar.
Arguments AS {N K} _ _ _ _ _ _.
Arguments a_pq {N K} _.
Arguments a_seen {N K} _.
Arguments a_par {N K} _.
Arguments a_dist {N K} _.
Arguments a_vis {N K} _.
Arguments a_iter {N K} _.

(** std::shared_ptr<Node>: the node and whether the pointer is the start node's (pointers are compared at search_tools.h:187) *)
Record ptr := Ptr { p_node : gnode; p_start : bool }.
Definition ptr_eq (a b : ptr) : bool := isEqual (p_node a) (p_node b).

Section Smooth.
Context (N : num) (sc rad : N) (legal : gnode -> bool) (edgeCost : gnode -> gnode -> option N)
        (heur : list gcell -> gnode -> N) (ltinf : N -> bool)
        (pop : list (ptr * N) -> option ((ptr * N) * list (ptr * N))).

(** search_tools.h:160-163 *)
Definition smooth_next (u : ptr) : list ptr :=
  map (fun v => Ptr v false) (filter legal (getNeighbors N sc rad (p_node u))).
(** search_tools.h:164 *)
Definition smooth_relax (d : N) (u v : ptr) : option N :=
  match edgeCost (p_node u) (p_node v) with Some c => Some (add N d c) | None => None end.
Definition smooth_heur (vis : list ptr) (v : ptr) : N := heur (map (fun p => n_cell (p_node p)) vis) (p_node v).

(** search_tools.h:129-201: found_path, num_iter and the path. At most 11 successors are queued per iteration. *)
Definition findSmoothPath (s : gnode) (t : goalcell N) (max_iter : Z) : option (bool * Z * list gcell) :=
  match astar N ptr ptr_eq smooth_next smooth_relax smooth_heur ltinf pop
              (fun p => withinPlanRadius N sc t (n_cell (p_node p))) false
              (Z.to_nat (12 * Z.max 0 max_iter + 2)) max_iter (a_init N ptr (Ptr s true)) with
  | None => None
  | Some (None, st) => Some (false, a_iter st, [])
  | Some (Some g, st) =>
      match walk ptr ptr_eq (S (length (a_par st))) (a_par st) p_start g with
      | None => None
      | Some ws => Some (true, a_iter st, rev (map (fun p => n_cell (p_node p)) ws ++ [n_cell s; n_par s]))
      end
  end.
End Smooth.

Section Old.
Context (N : num) (sc : N) (risk : gcell -> N) (ltinf : N -> bool)
        (up_cost down_cost risk_factor max_cell_risk overest : N) (min_alt max_alt : Z)
        (pop : list (gcell * N) -> option ((gcell * N) * list (gcell * N))).

(** global_planner.cpp:80-111; the guards compare zIndex (as double) with the int parameters *)
Definition getOpenNeighbors (c : gcell) (is_3D : bool) : list (gcell * N) :=
  let x := cx c in let y := cy c in let z := cz c in
  let one := ofZ N 1 in let dg := cst N 141 100 in
  [ (C3 (x + 1) y z, one); (C3 (x + 1) (y - 1) z, dg); (C3 (x + 1) (y + 1) z, dg);
    (C3 (x - 1) y z, one); (C3 (x - 1) (y - 1) z, dg); (C3 (x - 1) (y + 1) z, dg);
    (C3 x (y - 1) z, one); (C3 x (y + 1) z, one) ]
  ++ (if is_3D && (z <? max_alt) then [(C3 x y (z + 1), up_cost)] else [])
  ++ (if is_3D && (min_alt <? z) then [(C3 x y (z - 1), down_cost)] else []).
Fixpoint assoc_cost (l : list (gcell * N)) (v : gcell) : option N :=
  match l with [] => None | (c, k) :: l' => if ceq c v then Some k else assoc_cost l' v end.

(** search_tools.h:298-305 *)
Definition old_next (t : gcell) (is_3D : bool) (u : gcell) : list gcell :=
  filter (fun v => negb (ltb N (mul N risk_factor max_cell_risk) (mul N risk_factor (risk v)) && negb (ceq v t)))
         (map fst (getOpenNeighbors u is_3D)).
(** search_tools.h:301-306; the ten neighbours of a cell are different, so the cost is a function of the neighbour; u is not its
    own neighbour, so d = distance[u] (287) does not change during the loop *)
Definition old_relax (is_3D : bool) (d : N) (u v : gcell) : option N :=
  match assoc_cost (getOpenNeighbors u is_3D) v with
  | Some edge => Some (add N (add N d edge) (mul N risk_factor (risk v)))
  | None => None
  end.
(** search_tools.h:313-324 (the added term) *)
Definition old_heur (t : gcell) (_ : list gcell) (v : gcell) : N :=
  let h := diagDistance2D N sc v t in
  let h := add N h (mul N up_cost (ofZ N (Z.max 0 (cz t - cz v)))) in
  let h := add N h (ofZ N (Z.max 0 (cz v - cz t))) in
  mul N overest h.

(** search_tools.h:266-353 *)
Definition findPathOld (max_iter : Z) (s t start_parent : gcell) (is_3D : bool) : option (bool * list gcell) :=
  match astar N gcell ceq (old_next t is_3D) (old_relax is_3D) (old_heur t) ltinf pop (fun u => ceq u t) true
              (Z.to_nat (12 * Z.max 0 max_iter + 2)) max_iter (a_init N gcell s) with
  | None => None
  | Some (_, st) =>
      if existsb (fun k => ceq k t) (a_seen st) then
        match walk gcell ceq (S (length (a_par st))) (a_par st) (fun w => ceq w s) t with
        | None => None
        | Some ws => Some (true, rev (ws ++ [s; start_parent]))
        end
      else Some (false, [])
  end.

(** search_tools.h:204-227. [cell_of]: the Cell(double, double, double) constructor, applied to cell indices (208-209). *)
Definition find2DPath (fl : N -> Z) (max_iter : Z) (s t start_parent : gcell) (alt : Z) : option (bool * list gcell) :=
  let above c := cell_of N fl sc (V3 (ofZ N (cx c)) (ofZ N (cy c)) (ofZ N alt)) in
  let above_s := above s in let above_t := above t in
  match findPathOld max_iter s above_s s true, findPathOld max_iter above_t t above_t true,
        findPathOld max_iter above_s above_t above_s false with
  | Some (up, lup), Some (down, ldown), Some (vert, lvert) =>
      if up && vert && down then Some (true, lup ++ lvert ++ ldown) else Some (false, [])
  | _, _, _ => None
  end.
End Old.
