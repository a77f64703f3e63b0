(** C115: values of several words that one thread stores and another one copies.
    Models `newest_position_ = toEigen(msg.pose.position)` (local_planner_nodelet.cpp:201), the assignments of goal_position_ (325-328, 334, 348, 355),
    velocity_ (208) and newest_waypoint_position_ (293) on one side, and the copies of these vectors that updatePlannerInfo (180-191) and updateState
    (waypoint_generator.cpp:232-236) make on the other side: an Eigen vector is stored and copied component after component. [excl]: both happen with the
    same mutex held (as for planner_info_, waypoint_generator.cpp:413-414, 456-457); the vectors named above are not protected (C114).
    Simplification: one word is stored and read as a whole, in the order of the program; C++ itself gives such a program no meaning. *)
From Coq Require Import Arith List Bool Lia ZArith.
Import ListNotations.

Record torn (A : Type) := Torn {
  words : nat -> A;                          (* the shared vector *)
  storing : option ((nat -> A) * nat);       (* the vector being stored and how many of its words are *)
  copying : option ((nat -> A) * nat);       (* the copy being made and how many of its words are *)
  stored : list (nat -> A);                  (* the initial vector and all whose storing has begun *)
  copies : list (nat -> A) }.                (* the copies that are complete *)
Arguments Torn {A}. Arguments words {A}. Arguments storing {A}. Arguments copying {A}. Arguments stored {A}. Arguments copies {A}.
Definition put_word {A} (f : nat -> A) (i : nat) (x : A) : nat -> A := fun k => if Nat.eqb k i then x else f k.

(** vectors of w words *)
Inductive torn_step {A} (w : nat) (excl : bool) : torn A -> torn A -> Prop :=
| StoreBegins : forall s m, storing s = None -> (excl = true -> copying s = None) ->
    torn_step w excl s (Torn (words s) (Some (m, 0)) (copying s) (m :: stored s) (copies s))
| StoreWord : forall s m i, storing s = Some (m, i) -> i < w ->
    torn_step w excl s (Torn (put_word (words s) i (m i)) (Some (m, S i)) (copying s) (stored s) (copies s))
| StoreEnds : forall s m, storing s = Some (m, w) -> torn_step w excl s (Torn (words s) None (copying s) (stored s) (copies s))
| CopyBegins : forall s c, copying s = None -> (excl = true -> storing s = None) ->
    torn_step w excl s (Torn (words s) (storing s) (Some (c, 0)) (stored s) (copies s))
| CopyWord : forall s c i, copying s = Some (c, i) -> i < w ->
    torn_step w excl s (Torn (words s) (storing s) (Some (put_word c i (words s i), S i)) (stored s) (copies s))
| CopyEnds : forall s c, copying s = Some (c, w) -> torn_step w excl s (Torn (words s) (storing s) None (stored s) (c :: copies s)).
Inductive torn_reachable {A} (w : nat) (excl : bool) (v0 : nat -> A) : torn A -> Prop :=
| TornInit : torn_reachable w excl v0 (Torn v0 None None [v0] [])
| TornMore : forall s s', torn_reachable w excl v0 s -> torn_step w excl s s' -> torn_reachable w excl v0 s'.
