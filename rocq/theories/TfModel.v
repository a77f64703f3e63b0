(** Model of avoidance/src/transform_buffer.cpp.

    Time stamps are integers (nanoseconds); ros::Duration overflow (more than 68 years) is not modelled.
    The payload of a transform is abstract; the arithmetic of [interpolateTransform]
    (transform_buffer.cpp:26-30) is the argument [lerp earlier later tau]. *)
From Coq Require Import ZArith List Bool String.
From Verif Require Import Num.
Import ListNotations.
Local Open Scope Z_scope.

Section Tf.
Variable X : Type.                       (* origin and rotation of a tf::Transform *)
Variable lerp : X -> X -> f32 -> X.      (* transform_buffer.cpp:26-30 *)

(** tf::StampedTransform *)
Record stf := Stf { st_time : Z; st_val : X }.

(** transform_buffer.h:45,47: unordered_map<string, deque<StampedTransform>> and buffer_size_ *)
Record tfbuf := TfBuf { tb_size : Z; tb_map : string -> option (list stf) }.
(** transform_buffer.cpp:7-9 *)
Definition tb_new (size : Z) : tfbuf := TfBuf size (fun _ => None).

(** transform_buffer.cpp:11-13 *)
Definition getKey (src tgt : string) : string := String.append src (String.append "_to_" tgt).

Definition upd (m : string -> option (list stf)) (k : string) (v : list stf) : string -> option (list stf) :=
  fun k' => if String.eqb k' k then Some v else m k'.

(** transform_buffer.cpp:24 *)
Definition tau (earlier later t : Z) : f32 := div F32 (f32_ofZ (t - earlier)) (f32_ofZ (later - earlier)).

(** transform_buffer.cpp:15-32; [t] is transform.stamp_. Result: the new payload on success. *)
Definition interpolateTransform (e l : stf) (t : Z) : option X :=
  if (st_time l <? t) || (t <? st_time e) then None
  else Some (lerp (st_val e) (st_val l) (tau (st_time e) (st_time l) t)).

(** transform_buffer.cpp:49-51: pop from the front while too old. front() of an empty deque is UB. *)
Fixpoint pop_old (size now : Z) (q : list stf) : option (list stf) :=
  match q with
  | [] => None
  | f :: q' => if size <? now - st_time f then pop_old size now q' else Some q
  end.

Definition last_stf (q : list stf) : option stf := match rev q with x :: _ => Some x | [] => None end.

(** transform_buffer.cpp:34-55. Outer None = UB. *)
Definition insertTransform (b : tfbuf) (src tgt : string) (t : stf) : option (tfbuf * bool) :=
  let k := getKey src tgt in
  let q := match tb_map b k with Some q => q | None => [] end in
  let m1 := upd (tb_map b) k q in                                   (* 39-43 *)
  let newer := match last_stf q with None => true | Some l => st_time l <? st_time t end in   (* 46 *)
  if newer
  then match pop_old (tb_size b) (st_time t) (q ++ [t]) with
       | Some q' => Some (TfBuf (tb_size b) (upd m1 k q'), true)
       | None => None
       end
  else Some (TfBuf (tb_size b) m1, false).

(** transform_buffer.cpp:77-93: reverse scan; [prev] is the element after the one inspected.
    [q] is the remaining deque in reverse order. Result: success flag and the new value of the output
    parameter [out]. *)
Fixpoint scan (time : Z) (prev : stf) (q : list stf) (out : stf) : bool * stf :=
  match q with
  | [] => (false, out)
  | it :: q' =>
      if st_time it <=? time
      then match interpolateTransform it prev time with
           | Some v => (true, Stf time v)
           | None => (false, Stf time (st_val out))       (* line 83 has set the stamp *)
           end
      else scan time it q' out
  end.

(** transform_buffer.cpp:57-96 *)
Definition getTransform (b : tfbuf) (src tgt : string) (time : Z) (out : stf) : bool * stf :=
  match tb_map b (getKey src tgt) with
  | None => (false, out)
  | Some q =>
      match rev q, q with
      | back :: rest, front :: _ =>
          if st_time back <? time then (false, out)
          else if time <? st_time front then (false, out)
          else scan time back rest out
      | _, _ => (false, out)
      end
  end.

(** histories of insertions (lookups do not change the buffer: getTransform is const) *)
Definition ins := (string * string * stf)%type.
Fixpoint tb_run (b : tfbuf) (l : list ins) : option tfbuf :=
  match l with
  | [] => Some b
  | (s, t, x) :: l' => match insertTransform b s t x with Some (b', _) => tb_run b' l' | None => None end
  end.
End Tf.
Arguments Stf {X} _ _.
Arguments st_time {X} _.
Arguments st_val {X} _.
Arguments TfBuf {X} _ _.
Arguments tb_size {X} _.
Arguments tb_map {X} _ _.
