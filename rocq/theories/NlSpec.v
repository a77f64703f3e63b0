(** Specification vocabulary for the local planner node. *)
From Coq Require Import ZArith List Bool.
From Verif Require Import Num CommonModel LpModel WgModel NodeModel NlModel.
Import ListNotations.
Local Open Scope Z_scope.

(** [l] is obtained from [m] by dropping elements, the kept ones related by R, in the same order *)
Inductive subseq {A B} (R : A -> B -> Prop) : list A -> list B -> Prop :=
| sub_nil : subseq R [] []
| sub_skip l y m : subseq R l m -> subseq R l (y :: m)
| sub_keep x l y m : R x y -> subseq R l m -> subseq R (x :: l) (y :: m).

Section S.
Context {N : num}.

(** everything sent by a node, read from its log (newest first) *)
Definition feeds (log : list (out N)) : list (plan_in N) :=
  flat_map (fun o => match o with OFeed l => [l] | _ => [] end) (rev log).
Definition setpoints (log : list (out N)) : list (out N) :=
  filter (fun o => match o with OPose _ _ _ | OTraj _ _ => true | _ => false end) log.
(** time the last planner result was handed over, 0 (ros::Time()) if there was none *)
Fixpoint last_result (log : list (out N)) : Z :=
  match log with [] => 0 | OInfo t :: _ => t | _ :: r => last_result r end.

(** messages received from camera i *)
Definition received (i : nat) (es : list (ev N)) : list (cloud_msg N) :=
  flat_map (fun e => match e with ECloud j m => if Nat.eqb i j then [m] else [] | _ => [] end) es.
(** clouds of camera i given to the planner, one per planner run *)
Definition consumed (i : nat) (fs : list (plan_in N)) : list (tcloud N) :=
  flat_map (fun l => match nth_error (n_clouds l) i with Some t => [t] | None => [] end) fs.
(** cloud t is message m: same sequence number, same stamp to the microsecond, and its points are the finite points of m
    under a transform the transform buffer returned for this camera *)
Definition is_message (i : nat) (es : list (ev N)) (t : tcloud N) (m : cloud_msg N) : Prop :=
  tc_seq t = cm_seq m /\ tc_us t = cm_stamp m / 1000 /\
  exists to_local to_fcu, In (ETransform i (Some (to_local, to_fcu))) es /\
    tc_points t = map to_local (filter (finite3 N) (c_points N (cm_points m))).

Definition is_pos (e : ev N) : bool := match e with EPos _ _ => true | _ => false end.
Definition is_worker (e : ev N) : bool := match e with EWorker _ => true | _ => false end.
Definition goal_event (e : ev N) : bool := match e with EClickedGoal _ | EMarkers _ | EFcu _ => true | _ => false end.
(** a message that replaces the goal without announcing it: second point valid, command UINT16_MAX *)
Definition forced_goal (e : ev N) : bool := match e with EFcu m => (f_valid1 m =? 1) && (f_cmd1 m =? 65535) | _ => false end.
Definition is_reconf (e : ev N) : bool := match e with EReconf _ _ _ _ => true | _ => false end.

(** the planner thread is between reading and clearing the new-goal flag *)
Definition taking_goal (w : wpc) : bool := match w with PGoal | PPrev | PClear => true | _ => false end.
End S.

Section Run.
Context (N : num) (G : trig N) (secs : Z -> N) (travel : Z -> N -> N) (getyaw : quat N -> N).
Context (P : Type) (pl_run : P -> plan_in N -> Z -> P) (pl_out : P -> output N) (pl_scan : P -> N * list N).
Notation runN := (run N G secs travel getyaw P pl_run pl_out pl_scan).
Notation state := (nl N P).

(** the history [es] never announces a goal while the planner thread is taking one over *)
Definition undisturbed (s0 : state) (es : list (ev N)) : Prop :=
  forall es1 e es2 s1, es = es1 ++ e :: es2 -> goal_event e = true -> runN s0 es1 = Some s1 -> taking_goal (s_wpc s1) = false.

(** obstacle distance messages sent *)
Definition scans (log : list (out N)) : list (N * list N) := flat_map (fun o => match o with OScan x => [x] | _ => [] end) log.
(** the latest accepted cloud of camera i is message m and it has not been transformed yet *)
Definition pending (s : state) (i : nat) (m : cloud_msg N) : Prop :=
  exists k, nth_error (s_cams s) i = Some k /\ k_received k = true /\ k_raw k = toPCL N m.
(** the two messages of a command cycle at [now] *)
Definition sp_of (s : state) (now : Z) : list (out N) :=
  publish N getyaw (generate N G secs travel P s false now) now.

End Run.
