(** Specification vocabulary for the look-ahead tree (C31, C32, C64). *)
From Coq Require Import ZArith List Bool.
From Verif Require Import Num Mat CommonModel HistModel PfModel StarModel.
Import ListNotations.

Section Spec.
Context (N : num) (G : trig N) (huge : N) (cands : vec3 N -> vec3 N -> option (list (candidate N))) (P : star_params N).

(** [t] was created from [o]: it lies one node distance from [o] in the direction of one of the candidates of [o], its
    velocity points along the edge, its heuristic cost is the weighted distance to the goal, its total cost is the cost
    accumulated at [o] plus the candidate's cost plus its own heuristic (or "infinite" once it turned out to be a dead end),
    and it is one level deeper. *)
Definition child_of (o t : tnode N) : Prop := exists c cs,
  cands (n_pos o) (n_vel o) = Some cs /\ In c cs /\
  n_pos t = polarHistogramToCartesian N G (Pol (c_e c) (c_z c) (tree_node_distance P)) (n_pos o) /\
  n_vel t = v3sub N (n_pos t) (n_pos o) /\
  n_heur t = mul N (v3norm N (v3sub N (sp_goal P) (n_pos t))) (tree_heuristic_weight P) /\
  (n_total t = add N (add N (sub N (n_total o) (n_heur o)) (c_cost c)) (n_heur t) \/
   cands (n_pos t) (n_vel t) = Some [] /\ n_total t = huge) /\
  n_depth t = (n_depth o + 1)%nat.

(** chain of parents from node i to the root *)
Inductive root_chain (tree : list (tnode N)) : nat -> list (tnode N) -> Prop :=
| rc_root t : nth_error tree 0 = Some t -> root_chain tree 0 [t]
| rc_step i t l : (0 < i)%nat -> nth_error tree i = Some t -> root_chain tree (n_origin t) l -> root_chain tree i (t :: l).

End Spec.
