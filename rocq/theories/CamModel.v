(** Model of how the global planner node takes in point clouds of depth cameras (global_planner/src/nodes/global_planner_node.cpp:74-103, 280-305), on top of
    the node model GpNode.v.

    - tf is a function: frame and time -> the transform of points in that frame into the map frame frame_id_ at that time, None if the lookup throws
      (waiting up to 5 s for it is part of the lookup). Frame names are compared as strings.
    - A cloud is its header (frame and stamp) and its points; pcl::fromROSMsg is taken to copy the points; the floats of the cloud and the doubles of the cell
      are numbers of the same kind.
    - cameras_ is the list of subscriptions: every topic calls the same callback, so a message is an event whichever camera it comes from. *)
From Coq Require Import ZArith List Bool String.
From Verif Require Import Num CommonModel GpModel GpSearch GpPlan GpNode PfModel.
Import ListNotations.

Section Cam.
Context (N : num) (G : trig N) (fl cl rnd : N -> Z) (prob : N -> N) (ltinf : N -> bool)
        (popS : list (ptr * N) -> option ((ptr * N) * list (ptr * N)))
        (popO : list (gcell * N) -> option ((gcell * N) * list (gcell * N))).
Context (C : ncfg N).
(** the tf tree, as seen from frame_id_ *)
Context (tf : string -> Z -> option (vec3 N -> vec3 N)).

(** sensor_msgs::PointCloud2 *)
Record cloudmsg := CloudMsg { cm_frame : string; cm_stamp : Z; cm_points : list (vec3 N) }.

(** global_planner_node.cpp:83-87: the member camera_frame_id_ after readParams: if the parameter is missing, the parameter server is told "camera_link" but the
    member keeps its empty string *)
Definition camera_frame_id (param : option string) : string := match param with Some f => f | None => "" end.
(** global_planner_node.cpp:83-87: what the parameter server says afterwards *)
Definition camera_frame_param (param : option string) : string := match param with Some f => f | None => "camera_link" end.

(** global_planner_node.cpp:281-298: the points stored; [now]: ros::Time::now(); None: TransformException *)
Definition cam_points (frame : string) (now : Z) (msg : cloudmsg) : option (list (vec3 N)) :=
  match tf frame now with
  | None => None
  | Some g => Some (filter (fun p => negb (isnanb N (vx p))) (map g (cm_points msg)))
  end.
(** global_planner_node.cpp:280-305; the second component: the cloud published on cloud_in, unchanged *)
Definition cameraCallback (frame : string) (s : nstate N) (now : Z) (msg : cloudmsg) : nstate N * option cloudmsg :=
  match cam_points frame now msg with
  | None => (s, None)
  | Some pts => (depthCameraCallback N fl C s pts, Some msg)
  end.

(** a callback of the node other than that of the cameras (GpNode.v), or a cloud arriving at time [now] *)
Inductive cev :=
| COther (e : nev N)
| CCam (now : Z) (msg : cloudmsg).
(** global_planner_node.cpp:26-44, 98-104: one callback; the outputs are those of GpNode.v and the clouds published *)
Definition cstep (frame : string) (fuel : nat) (s : nstate N) (e : cev) : option (nstate N * (list (nout N) * list cloudmsg)) :=
  match e with
  | COther e => match nstep N G fl cl rnd prob ltinf popS popO C fuel s e with Some (s', o) => Some (s', (o, [])) | None => None end
  | CCam now msg => let '(s', m) := cameraCallback frame s now msg in Some (s', ([], match m with Some x => [x] | None => [] end))
  end.
(** global_planner_node.cpp:26-44: a history of callbacks *)
Fixpoint crun (frame : string) (fuel : nat) (s : nstate N) (es : list cev) : option (nstate N * (list (nout N) * list cloudmsg)) :=
  match es with
  | [] => Some (s, ([], []))
  | e :: es' =>
      match cstep frame fuel s e with
      | None => None
      | Some (s1, (o1, m1)) => match crun frame fuel s1 es' with Some (s2, (o2, m2)) => Some (s2, (o1 ++ o2, m1 ++ m2)) | None => None end
      end
  end.
End Cam.

Arguments CloudMsg {N} _ _ _.
Arguments cm_frame {N} _.
Arguments cm_stamp {N} _.
Arguments cm_points {N} _.
Arguments COther {N} _.
Arguments CCam {N} _ _.
