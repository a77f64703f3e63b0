(** Model of avoidance/src/rviz_world_loader.cpp: the simulated world shown in rviz. *)
From Coq Require Import ZArith List Bool String Ascii.
From Verif Require Import Num CommonModel.
Import ListNotations.
Local Open Scope string_scope.

(** getline(stream, s, ':') until the end of a stream that does not end in ':' : the parts between the colons *)
Fixpoint splitColon (s : string) : list string :=
  match s with
  | "" => [""]
  | String c r => if Ascii.eqb c ":" then "" :: splitColon r
                  else match splitColon r with p :: ps => String c p :: ps | [] => [String c ""] end
  end.

Section Wl.
(** getenv (None: not set), stat (None: it fails; else st_mode) *)
Context (getenv : string -> option string) (stat : string -> option Z).
(** S_IFREG = 0100000; rviz_world_loader.cpp:44 tests this bit alone *)
Definition S_IFREG : Z := 32768.
Definition regular (path : string) : bool := match stat path with Some mode => negb (Z.land mode S_IFREG =? 0)%Z | None => false end.
(** rviz_world_loader.cpp:39-50 *)
Fixpoint searchLocations (locations : list string) (uri : string) : option string :=
  match locations with
  | [] => None
  | l :: rest => if regular (l ++ uri) then Some ("file://" ++ l ++ uri) else searchLocations rest uri
  end.
(** rviz_world_loader.cpp:31-51. Outer [None]: undefined behaviour or an exception (null pointers of getenv made into strings,
    substr beyond the end); inner [None]: return value 1, the model was not found. *)
Definition resolveUri (uri : string) : option (option string) :=
  match getenv "GAZEBO_MODEL_PATH", getenv "HOME" with
  | Some gazebo, Some home =>
      if (String.length uri <? 7)%nat then None
      else Some (searchLocations (splitColon (gazebo ++ ":" ++ home ++ "/.gazebo/models")) (substring 7 (String.length uri - 7) uri))
  | _, _ => None
  end.

(** world_object, rviz_world_loader.h:21-29 (its name is not used) and the markers made of it *)
Record world_object (A : Type) := WO { w_type : string; w_frame : string; w_mesh : string; w_pos : vec3 A; w_quat : A * A * A * A; w_scale : vec3 A }.
Arguments WO {A}. Arguments w_type {A}. Arguments w_frame {A}. Arguments w_mesh {A}. Arguments w_pos {A}. Arguments w_quat {A}. Arguments w_scale {A}.
Inductive shape := Mesh (resource : string) | Cube | Sphere | Cylinder.
Record marker (A : Type) := Mk { m_shape : shape; m_frame : string; m_id : nat; m_pos : vec3 A; m_quat : A * A * A * A; m_scale : vec3 A }.
Arguments Mk {A}. Arguments m_shape {A}. Arguments m_frame {A}. Arguments m_id {A}. Arguments m_pos {A}. Arguments m_quat {A}. Arguments m_scale {A}.

(** item.mesh_resource.find("model://") != npos *)
Definition contains_model (s : string) : bool := match String.index 0 "model://" s with Some _ => true | None => false end.
(** rviz_world_loader.cpp:71-102: the marker of one object; inner [None]: return 1 *)
Definition toShape {A} (o : world_object A) : option (option shape) :=
  if String.eqb (w_type o) "mesh" then
    if contains_model (w_mesh o) then
      match resolveUri (w_mesh o) with None => None | Some None => Some None | Some (Some r) => Some (Some (Mesh r)) end
    else Some (Some (Mesh (w_mesh o)))
  else if String.eqb (w_type o) "cube" then Some (Some Cube)
  else if String.eqb (w_type o) "sphere" then Some (Some Sphere)
  else if String.eqb (w_type o) "cylinder" then Some (Some Cylinder)
  else Some None.
(** rviz_world_loader.cpp:54-127: visualizeRVIZWorld. [doc] is the parsed file ([None] an element that lacks a key: yaml-cpp throws). A file
    that does not exist is an empty document. Result: what is published, inner [None]: nothing, return 1. *)
Fixpoint worldMarkers {A} (doc : list (option (world_object A))) (counter : nat) : option (option (list (marker A))) :=
  match doc with
  | [] => Some (Some [])
  | None :: _ => None
  | Some o :: rest =>
      match toShape o with
      | None => None
      | Some None => Some None
      | Some (Some sh) =>
          match worldMarkers rest (S counter) with
          | None => None
          | Some None => Some None
          | Some (Some ms) => Some (Some (Mk sh (w_frame o) (S counter) (w_pos o) (w_quat o) (w_scale o) :: ms))
          end
      end
  end.
Definition visualizeRVIZWorld {A} (doc : list (option (world_object A))) := worldMarkers doc 0.

(** rviz_world_loader.cpp:129-157, 159-167: the vehicle at each new pose, if a world is configured; outer [None] as above *)
Definition positionCallback {A} (one_and_half : A) (world_path : string) (pos : vec3 A) (q : A * A * A * A) : option (option (marker A)) :=
  if String.eqb world_path "" then Some None
  else match resolveUri "model://matrice_100/meshes/Matrice_100.dae" with
       | None => None
       | Some None => Some None
       | Some (Some r) => Some (Some (Mk (Mesh r) "local_origin" 0 pos q (V3 one_and_half one_and_half one_and_half)))
       end.
End Wl.
Arguments WO {A}. Arguments w_type {A}. Arguments w_frame {A}. Arguments w_mesh {A}. Arguments w_pos {A}. Arguments w_quat {A}. Arguments w_scale {A}.
Arguments Mk {A}. Arguments m_shape {A}. Arguments m_frame {A}. Arguments m_id {A}. Arguments m_pos {A}. Arguments m_quat {A}. Arguments m_scale {A}.
