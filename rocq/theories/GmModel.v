(** Model of what the three threads of the global planner node do to the map, the cache of risks and the set of observed obstacle cells. Threads: the main
    thread (ros::spin, global_planner_node_main.cpp:11: all message callbacks), the planning thread (plannerLoopCallback, global_planner_node.cpp:335-353,
    own queue and spinner 56-61, holds mutex_ throughout) and the command thread (cmdLoopCallback 322-333, own queue and spinner 48-53, takes no lock).
    Of the message callbacks only octomapFullCallback (264-277) takes mutex_. Maps are numbers (each message brings a new one); what is kept of a risk is
    from which map each of the values was read that it was summed from ([None]: there was no map, global_planner.cpp:134).
    Simplifications: an access to the cache, to the set or to the map is an interval (entered in one step, left in another); pointer reads and writes are
    atomic steps; the order of the search and of the look-up in the set is that of global_planner.cpp:140-148; a search happens for every cell that is
    asked for (cells below the ground never touch the map); goals, paths and poses are in GcModel.v. *)
From Coq Require Import ZArith List Bool Lia.
Import ListNotations.

Inductive thread := Main | Plan | Cmd.
Definition thread_eqb (a b : thread) : bool := match a, b with Main, Main | Plan, Plan | Cmd, Cmd => true | _, _ => false end.

(** where a thread is *)
Inductive mpc :=
| MIdle
| MFind (c : Z)                                       (* in risk_cache_.find, global_planner.cpp:182-183 *)
| MTest (c : Z) (got : list (option nat))             (* before the test of octree_, 134 *)
| MSearch (c : Z) (got : list (option nat)) (m : nat) (* in octree_->search of map m, 140 *)
| MLook (c : Z) (got : list (option nat)) (m : nat)   (* in occupied_.find, 148; the node of map m has been read *)
| MStore (c : Z) (got : list (option nat))            (* in risk_cache_[cell] = risk, 192 *)
| MClear (new : nat)                                  (* in risk_cache_.clear, 70 *)
| MDelete (new : nat)                                 (* before delete octree_, 71-73 *)
| MAssign (new : nat)                                 (* before octree_ = ..., 74 *)
| MInsert.                                            (* in occupied_.insert, global_planner_node.cpp:297 *)

(** an answer of getRisk: who asked, for which cell, from which maps the answer was computed, and the map in use at the time of the answer *)
Record answer := Ans { a_who : thread; a_cell : Z; a_from : list (option nat); a_map : option nat }.
Record gms := Gms {
  m_tree : option nat;                    (* octree_ *)
  m_freed : list nat;                     (* maps deleted so far *)
  m_next : nat;                           (* number of the next map message *)
  m_cache : list (Z * list (option nat)); (* risk_cache_ *)
  m_mutex : option thread;                (* who holds mutex_ *)
  m_pc : thread -> mpc;
  m_answers : list answer }.
Definition gms_init : gms := Gms None [] 0 [] None (fun _ => MIdle) [].

Definition set_pc (f : thread -> mpc) (t : thread) (p : mpc) : thread -> mpc := fun u => if thread_eqb u t then p else f u.
Definition lookup (k : list (Z * list (option nat))) (c : Z) : option (list (option nat)) :=
  match find (fun e => Z.eqb (fst e) c) k with Some e => Some (snd e) | None => None end.

Inductive mlab :=
| LPlanStart | LPlanEnd                        (* global_planner_node.cpp:336, 353 *)
| LAsk (t : thread) (c : Z)                    (* a call of getRisk *)
| LCached (t : thread)                         (* the look-up in the cache ends *)
| LRead (t : thread)                           (* octree_ is tested and, unless null, the search begins *)
| LFound (t : thread)                          (* the search ends, the look-up in the set begins *)
| LSeen (t : thread)                           (* that look-up ends *)
| LEnough (t : thread)                         (* all cells have been read: the cache is written *)
| LStored (t : thread)                         (* the writing ends *)
| LMap | LCleared | LDeleted | LAssigned       (* octomapFullCallback and updateFullOctomap *)
| LPoint | LInserted.                          (* depthCameraCallback *)

Definition gm_step (s : gms) (l : mlab) : option gms :=
  let '(Gms tree freed nxt cache mutex pc ans) := s in
  match l with
  (* global_planner_node.cpp:336: the planning thread takes the mutex and gives it back at the end of the callback *)
  | LPlanStart => match pc Plan, mutex with MIdle, None => Some (Gms tree freed nxt cache (Some Plan) pc ans) | _, _ => None end
  | LPlanEnd => match pc Plan, mutex with MIdle, Some Plan => Some (Gms tree freed nxt cache None pc ans) | _, _ => None end
  (* global_planner.cpp:181-182. The planning thread asks only inside of its callback; the others take no lock (publishSetpoint 396,
     printPointStats analysis.h:106-114 called from clickedPointCallback 242) *)
  | LAsk t c =>
      match pc t with
      | MIdle => if match t with Plan => match mutex with Some Plan => true | _ => false end | _ => true end
                 then Some (Gms tree freed nxt cache mutex (set_pc pc t (MFind c)) ans) else None
      | _ => None
      end
  (* global_planner.cpp:182-184 *)
  | LCached t =>
      match pc t with
      | MFind c => match lookup cache c with
                   | Some v => Some (Gms tree freed nxt cache mutex (set_pc pc t MIdle) (Ans t c v tree :: ans))
                   | None => Some (Gms tree freed nxt cache mutex (set_pc pc t (MTest c [])) ans)
                   end
      | _ => None
      end
  (* global_planner.cpp:134, 140 *)
  | LRead t =>
      match pc t with
      | MTest c got => match tree with
                       | None => Some (Gms tree freed nxt cache mutex (set_pc pc t (MTest c (None :: got))) ans)
                       | Some m => Some (Gms tree freed nxt cache mutex (set_pc pc t (MSearch c got m)) ans)
                       end
      | _ => None
      end
  (* global_planner.cpp:140-148 *)
  | LFound t => match pc t with MSearch c got m => Some (Gms tree freed nxt cache mutex (set_pc pc t (MLook c got m)) ans) | _ => None end
  (* global_planner.cpp:148-161 *)
  | LSeen t => match pc t with MLook c got m => Some (Gms tree freed nxt cache mutex (set_pc pc t (MTest c (Some m :: got))) ans) | _ => None end
  (* global_planner.cpp:186-192 *)
  | LEnough t => match pc t with MTest c (x :: got) => Some (Gms tree freed nxt cache mutex (set_pc pc t (MStore c (x :: got))) ans) | _ => None end
  | LStored t =>
      match pc t with
      | MStore c got => Some (Gms tree freed nxt ((c, got) :: cache) mutex (set_pc pc t MIdle) (Ans t c got tree :: ans))
      | _ => None
      end
  (* global_planner_node.cpp:265-276 (a map that is accepted) and global_planner.cpp:70 *)
  | LMap => match pc Main, mutex with MIdle, None => Some (Gms tree freed (S nxt) cache (Some Main) (set_pc pc Main (MClear nxt)) ans) | _, _ => None end
  | LCleared => match pc Main with MClear n => Some (Gms tree freed nxt [] mutex (set_pc pc Main (MDelete n)) ans) | _ => None end
  (* global_planner.cpp:71-73 *)
  | LDeleted => match pc Main with
                | MDelete n => Some (Gms tree (match tree with Some m => m :: freed | None => freed end) nxt cache mutex (set_pc pc Main (MAssign n)) ans)
                | _ => None
                end
  (* global_planner.cpp:74; the mutex is given back (global_planner_node.cpp:277) *)
  | LAssigned => match pc Main with MAssign n => Some (Gms (Some n) freed nxt cache None (set_pc pc Main MIdle) ans) | _ => None end
  (* global_planner_node.cpp:293-299 *)
  | LPoint => match pc Main with MIdle => Some (Gms tree freed nxt cache mutex (set_pc pc Main MInsert) ans) | _ => None end
  | LInserted => match pc Main with MInsert => Some (Gms tree freed nxt cache mutex (set_pc pc Main MIdle) ans) | _ => None end
  end.
Fixpoint gm_run (s : gms) (ls : list mlab) : option gms :=
  match ls with [] => Some s | l :: ls' => match gm_step s l with Some s' => gm_run s' ls' | None => None end end.

(** What a thread is accessing: which object, and whether it changes it. *)
Inductive shared := TheCache | TheSet | TheMap (m : nat).
Definition access (p : mpc) : option (shared * bool) :=
  match p with
  | MFind _ => Some (TheCache, false) | MStore _ _ | MClear _ => Some (TheCache, true)
  | MSearch _ _ m => Some (TheMap m, false)
  | MLook _ _ _ => Some (TheSet, false) | MInsert => Some (TheSet, true)
  | MIdle | MTest _ _ | MDelete _ | MAssign _ => None
  end.
