(** Model of local_planner/src/nodes/star_planner.cpp and local_planner/src/nodes/tree_node.cpp. *)
From Coq Require Import ZArith List Bool.
From Verif Require Import Num Mat CommonModel HistModel PfModel.
Import ListNotations.

(** local_planner/include/local_planner/tree_node.h:9-18. [n_origin] is the index of the parent in the tree. *)
Record tnode (A : Type) := TN {
  n_pos : vec3 A; n_vel : vec3 A; n_total : A; n_heur : A; n_origin : nat; n_closed : bool; n_depth : nat }.
Arguments TN {A} _ _ _ _ _ _ _.
Arguments n_pos {A} _.
Arguments n_vel {A} _.
Arguments n_total {A} _.
Arguments n_heur {A} _.
Arguments n_origin {A} _.
Arguments n_closed {A} _.
Arguments n_depth {A} _.

Section Star.
Context (N : num) (G : trig N).
(** HUGE_VAL converted to float *)
Context (huge : N).
(** star_planner.h:23-38: parameters and inputs *)
Record star_params := SP {
  children_per_node : Z; n_expanded_nodes : Z; tree_node_distance : N; max_path_length : N;
  tree_heuristic_weight : N; sp_goal : vec3 N; sp_position : vec3 N; sp_velocity : vec3 N }.
(** result of the candidate computation for a node (star_planner.cpp:64-73), [None] = undefined behaviour *)
Context (cands : vec3 N -> vec3 N -> option (list (candidate N))).
Context (P : star_params).

(** star_planner.cpp:38-40 *)
Definition treeHeuristic (pos : vec3 N) : N :=
  mul N (v3norm N (v3sub N (sp_goal P) pos)) (tree_heuristic_weight P).

(** vector element update *)
Fixpoint set_nth {A} (l : list A) (i : nat) (a : A) : list A :=
  match l, i with
  | [], _ => []
  | _ :: l', O => a :: l'
  | b :: l', S i' => b :: set_nth l' i' a
  end.
Definition upd_nth {A} (l : list A) (i : nat) (f : A -> A) : list A :=
  match nth_error l i with Some a => set_nth l i (f a) | None => l end.

(** star_planner.cpp:86-94 *)
Definition closeNode (tree : list (tnode N)) (loc : vec3 N) : bool :=
  existsb (fun t => ltb N (v3norm N (v3sub N (n_pos t) loc)) (cst N 1 5)) tree.

(** star_planner.cpp:81-104, one candidate; [opos] is origin_position *)
Definition addChild (origin : nat) (opos : vec3 N) (s : Z * list (tnode N)) (c : candidate N) : option (Z * list (tnode N)) :=
  let (children, tree) := s in
  let loc := polarHistogramToCartesian N G (Pol (c_e c) (c_z c) (tree_node_distance P)) opos in
  let vel := v3sub N loc opos in
  if (children <? children_per_node P)%Z && negb (closeNode tree loc) then
    match nth_error tree origin with
    | None => None
    | Some o =>
        let h := treeHeuristic loc in
        Some ((children + 1)%Z,
              tree ++ [TN loc vel (add N (add N (sub N (n_total o) (n_heur o)) (c_cost c)) h) h origin false (n_depth o + 1)])
    end
  else Some s.

(** star_planner.cpp:110-122; state (minimal_cost, origin, is_expanded_node) *)
Definition pick (tree : list (tnode N)) (origin : nat) : nat * bool :=
  let '(_, o, b) :=
    fold_left (fun st it => let '(mc, o, b) := st in let (i, t) := it : nat * tnode N in
       if negb (n_closed t) && (ltb N (n_total t) mc && ltb N (v3norm N (v3sub N (n_pos t) (sp_position P))) (max_path_length P))
       then (n_total t, i, true) else st) (combine (seq 0 (length tree)) tree) (huge, origin, false) in (o, b).

Record star_state := SS { ss_tree : list (tnode N); ss_closed : list nat; ss_origin : nat; ss_go : bool }.
(** star_planner.cpp:60-126, body of the expansion loop *)
Definition expandOnce (s : star_state) : option star_state :=
  match nth_error (ss_tree s) (ss_origin s) with
  | None => None
  | Some o =>
      match cands (n_pos o) (n_vel o) with
      | None => None
      | Some cs =>
          let tree1 := match cs with
                       | [] => Some (upd_nth (ss_tree s) (ss_origin s)
                                (fun t => TN (n_pos t) (n_vel t) huge (n_heur t) (n_origin t) (n_closed t) (n_depth t)))
                       | _ => option_map snd (foldM (addChild (ss_origin s) (n_pos o)) (0%Z, ss_tree s) cs)
                       end in
          match tree1 with
          | None => None
          | Some t1 =>
              let t2 := upd_nth t1 (ss_origin s)
                         (fun t => TN (n_pos t) (n_vel t) (n_total t) (n_heur t) (n_origin t) true (n_depth t)) in
              let (o', go) := pick t2 (ss_origin s) in
              Some (SS t2 (ss_closed s ++ [ss_origin s]) o' go)
          end
      end
  end.
(** star_planner.cpp:60: [for (n = 0; n < n_expanded_nodes_ && is_expanded_node; n++)] *)
Fixpoint expandLoop (n : nat) (s : star_state) : option star_state :=
  match n with
  | O => Some s
  | S n' => if ss_go s then match expandOnce s with Some s' => expandLoop n' s' | None => None end else Some s
  end.
(** star_planner.cpp:50-59 *)
Definition starInit : star_state :=
  let h := treeHeuristic (sp_position P) in
  SS [TN (sp_position P) (sp_velocity P) h h 0 false 0] [] 0 true.

(** star_planner.cpp:128-138 *)
Definition deepest (tree : list (tnode N)) : nat :=
  snd (fold_left (fun st it => let '(md, mi) := st in let (i, t) := it : nat * tnode N in
       if negb (n_closed t) && (md <? n_depth t)%nat then (n_depth t, i) else st) (combine (seq 0 (length tree)) tree) (0%nat, 0%nat)).

(** star_planner.cpp:140-147; [None] if [fuel] does not suffice *)
Fixpoint extractPath (fuel : nat) (tree : list (tnode N)) (i : nat) : option (list (vec3 N)) :=
  match i with
  | O => match tree with t :: _ => Some [n_pos t] | [] => None end
  | _ => match fuel with
         | O => None
         | S f => match nth_error tree i with
                  | None => None
                  | Some t => match extractPath f tree (n_origin t) with
                              | Some p => Some (n_pos t :: p)
                              | None => None end
                  end
         end
  end.

Record star_result := SR { r_tree : list (tnode N); r_closed : list nat; r_path : list (vec3 N) }.
(** star_planner.cpp:42-159 *)
Definition buildLookAheadTree : option star_result :=
  match expandLoop (Z.to_nat (n_expanded_nodes P)) starInit with
  | None => None
  | Some s => match extractPath (length (ss_tree s)) (ss_tree s) (deepest (ss_tree s)) with
              | Some p => Some (SR (ss_tree s) (ss_closed s) p)
              | None => None
              end
  end.
End Star.
Arguments SP {N} _ _ _ _ _ _ _ _.
Arguments children_per_node {N} _.
Arguments n_expanded_nodes {N} _.
Arguments tree_node_distance {N} _.
Arguments max_path_length {N} _.
Arguments tree_heuristic_weight {N} _.
Arguments sp_goal {N} _.
Arguments sp_position {N} _.
Arguments sp_velocity {N} _.
Arguments SR {N} _ _ _.
Arguments r_tree {N} _.
Arguments r_closed {N} _.
Arguments r_path {N} _.
Arguments SS {N} _ _ _ _.
Arguments ss_tree {N} _.
Arguments ss_closed {N} _.
Arguments ss_origin {N} _.
Arguments ss_go {N} _.

(** star_planner.cpp:45, 64-73 ([histogram.setZero()] before each use: a fresh histogram): the candidates of a node, with the functions of planner_functions.cpp *)
Definition starCandidates (N : num) (G : trig N) (cast rnd ceilc : N -> Z)
    (top : list (candidate N) -> option (candidate N * list (candidate N)))
    (cloud : list (xyzi N)) (goal : vec3 N) (cp : costParameters N) (margin : N) (closest : vec3 N) (max_range min_range : N)
    (n : Z) (opos ovel : vec3 N) : option (list (candidate N)) :=
  obind (h_new N ALPHA_RES) (fun h0 =>
  obind (generateNewHistogram N G cast h0 cloud opos) (fun h =>
  obind (getCostMatrix N G cast rnd ceilc h goal opos ovel cp margin closest max_range min_range) (fun r =>
  getBestCandidatesFromCostMatrix N top (fst r) n))).
