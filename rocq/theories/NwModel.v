(** Model of how a camera's cloud gets through the local planner node in time: pointCloudCallback (local_planner_nodelet.cpp:406-421), the transform threads
    (494-549) and the planning thread's waiting loop (453-489), with the condition variables' time limits. Time is in milliseconds.
    A thread first looks at the data with the mutex held, gives the mutex back and later waits on the condition variable, without looking again ([XPark],
    [WPark]: it has looked but does not wait yet; a notification is lost on it).
    Simplifications: computing takes no time (time passes only while every thread waits, but in any one millisecond the threads interleave freely); the tests
    under one camera mutex are one step; whether the transforms are there is told by the label; should_exit_ is not set (NtModel.v); time stamps and clock have
    the same unit and origin. *)
From Coq Require Import ZArith List Bool Lia.
Import ListNotations.
Open Scope Z_scope.

Inductive xpc := XCheck | XPark | XWait (deadline : Z) | XTfPark | XTfWait (deadline : Z).
Inductive wpc := WStart | WCount (k : nat) (all : bool) | WPark | WWait (deadline : Z) | WPlan | WSleep (until : Z).
Record nw := Nw {
  now : Z;
  pend : nat -> option (Z * Z);   (* received_: the waiting cloud's stamp, and (observation only) since when received_ has been true *)
  dn : nat -> bool;               (* transformed_ *)
  x : nat -> xpc;                 (* where the transform thread of a camera is *)
  w : wpc;                        (* where the planning thread is *)
  w_begin : Z;                    (* start_time of threadFunction, 455 *)
  (* observation only: *)
  last_cloud : nat -> Z;          (* when the camera's last cloud came, used or not *)
  since_all : option Z;           (* since when all cameras' clouds have been transformed *)
  since_ready : option Z;         (* since when each camera has a waiting or a transformed cloud (or since the last planner run, if they all had one then) *)
  plans : list Z }.               (* times of the planner runs, newest first *)

Section N.
Variable n : nat.                 (* number of cameras *)
Definition upd {X} (f : nat -> X) (i : nat) (v : X) : nat -> X := fun j => if Nat.eqb j i then v else f j.
Definition cams : list nat := seq 0 n.
Definition all_done (s : nw) : bool := forallb (dn s) cams.
Definition all_ready (s : nw) : bool := forallb (fun i => dn s i || match pend s i with Some _ => true | None => false end) cams.
Definition since (b : bool) (old : option Z) (t : Z) : option Z := if b then match old with Some a => Some a | None => Some t end else None.
(** book-keeping of the observations after a step *)
Definition observe (s : nw) : nw :=
  Nw (now s) (pend s) (dn s) (x s) (w s) (w_begin s) (last_cloud s) (since (all_done s) (since_all s) (now s)) (since (all_ready s) (since_ready s) (now s)) (plans s).
Definition nw_init : nw :=
  observe (Nw 0 (fun _ => None) (fun _ => false) (fun _ => XCheck) WStart 0 (fun _ => 0) None None []).

Inductive lab := LCloud (i : nat) (stamp : Z) | LX (i : nat) (found : bool) | LW | LTfRound | LTick.
(** camera_cv_->notify_all, 420; transformed_cloud_cv_->notify_all, 527; tf_buffer_cv_.notify_all, 385 *)
Definition wake_x (p : xpc) : xpc := match p with XWait _ => XCheck | _ => p end.
Definition wake_w (p : wpc) : wpc := match p with WWait _ => WCount 0 true | _ => p end.
Definition wake_tf (p : xpc) : xpc := match p with XTfWait _ => XCheck | _ => p end.
(** does a thread wait for time to pass? *)
Definition x_waits (t : Z) (p : xpc) : bool := match p with XWait d | XTfWait d => t <? d | _ => false end.
Definition w_waits (t : Z) (p : wpc) : bool := match p with WWait d | WSleep d => t <? d | _ => false end.

Definition nw_step0 (s : nw) (l : lab) : option nw :=
  let '(Nw t pe d xs wp wb lc sa sr pl) := s in
  match l with
  (* 406-420 *)
  | LCloud i stamp =>
      if negb (i <? n)%nat then None else
      match pe i with
      | Some (st0, a) => if stamp - st0 <? 300 then Some (Nw t pe d xs wp wb (upd lc i t) sa sr pl)
                         else Some (Nw t (upd pe i (Some (stamp, a))) d (upd xs i (wake_x (xs i))) wp wb (upd lc i t) sa sr pl)
      | None => Some (Nw t (upd pe i (Some (stamp, t))) d (upd xs i (wake_x (xs i))) wp wb (upd lc i t) sa sr pl)
      end
  | LX i found =>
      if negb (i <? n)%nat then None else
      match xs i with
      (* 499-534 *)
      | XCheck => match pe i with
                  | Some _ => if found then Some (Nw t (upd pe i None) (upd d i true) (upd xs i XPark) (wake_w wp) wb lc sa sr pl)
                              else Some (Nw t pe d (upd xs i XTfPark) wp wb lc sa sr pl)
                  | None => Some (Nw t pe d (upd xs i XPark) wp wb lc sa sr pl)
                  end
      (* 545-546, 542-543 *)
      | XPark => Some (Nw t pe d (upd xs i (XWait (t + 5000))) wp wb lc sa sr pl)
      | XTfPark => Some (Nw t pe d (upd xs i (XTfWait (t + 5000))) wp wb lc sa sr pl)
      | XWait dl | XTfWait dl => if dl <=? t then Some (Nw t pe d (upd xs i XCheck) wp wb lc sa sr pl) else None
      end
  | LW =>
      match wp with
      (* 455 *)
      | WStart => Some (Nw t pe d xs (WCount 0 true) t lc sa sr pl)
      (* 457-458, 153-160 *)
      | WCount k all =>
          if (k <? n)%nat then Some (Nw t pe d xs (WCount (S k) (all && d k)) wb lc sa sr pl)
          else Some (Nw t pe d xs (if (n =? 0)%nat then WPark else if all then WPlan else WPark) wb lc sa sr pl)
      (* 459-460 *)
      | WPark => Some (Nw t pe d xs (WWait (t + 5000)) wb lc sa sr pl)
      | WWait dl => if dl <=? t then Some (Nw t pe d xs (WCount 0 true) wb lc sa sr pl) else None
      (* 465-478 (the flags are cleared at 170); 482-486: spin_dt_ is 0.1 s (18) *)
      | WPlan => Some (Nw t pe (fun _ => false) xs (if wb + 100 <=? t then WStart else WSleep (wb + 100)) wb lc None None (t :: pl))
      | WSleep u => if u <=? t then Some (Nw t pe d xs WStart wb lc sa sr pl) else None
      end
  (* 372-386 *)
  | LTfRound => Some (Nw t pe d (fun i => wake_tf (xs i)) wp wb lc sa sr pl)
  | LTick => if forallb (fun i => x_waits t (xs i)) cams && w_waits t wp then Some (Nw (t + 1) pe d xs wp wb lc sa sr pl) else None
  end.
Definition nw_step (s : nw) (l : lab) : option nw := match nw_step0 s l with Some s' => Some (observe s') | None => None end.
Fixpoint nw_run (s : nw) (ls : list lab) : option nw :=
  match ls with [] => Some s | l :: ls' => match nw_step s l with Some s' => nw_run s' ls' | None => None end end.
End N.
(** the transforms that are asked for are there *)
Definition found_all (l : lab) : bool := match l with LX _ false => false | _ => true end.
