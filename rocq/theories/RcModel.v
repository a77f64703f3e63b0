(** The model in which the data races of the global planner node (GrModel.v) and of the landing planner node (SrModel.v) are stated: threads that read and
    write shared data under mutexes. It models no function of /repo by itself but C++'s memory model as far as it concerns the two nodes: std::lock_guard,
    std::unique_lock, std::thread, ros::AsyncSpinner (a thread that runs the callbacks of one queue, one after the other).
    Values are not modelled: every branch can be taken at any time, a loop can be left after any number of turns. *)
From Coq Require Import List Bool.
Import ListNotations.

(** what a function does: reads, writes, the start of another thread; Alt: a branch; Star: a loop; Guard: a block that holds a mutex *)
Inductive code (var lock tid : Type) :=
| Skip | Read (v : var) | Write (v : var) | Spawn (t : tid)
| Seq (p q : code var lock tid) | Alt (p q : code var lock tid) | Star (p : code var lock tid) | Guard (l : lock) (p : code var lock tid).
Arguments Skip {var lock tid}. Arguments Read {var lock tid}. Arguments Write {var lock tid}. Arguments Spawn {var lock tid}.
Arguments Seq {var lock tid}. Arguments Alt {var lock tid}. Arguments Star {var lock tid}. Arguments Guard {var lock tid}.
Definition seqs {var lock tid} (ps : list (code var lock tid)) : code var lock tid := fold_right Seq Skip ps.
Definition opt {var lock tid} (p : code var lock tid) : code var lock tid := Alt Skip p.
Definition reads {var lock tid} (vs : list var) : code var lock tid := seqs (map Read vs).
Definition writes {var lock tid} (vs : list var) : code var lock tid := seqs (map Write vs).
Definition alts {var lock tid} (ps : list (code var lock tid)) : code var lock tid := fold_right Alt Skip ps.

(** the single steps of a run *)
Inductive act (var lock tid : Type) := Take (l : lock) | Give (l : lock) | Rd (v : var) | Wr (v : var) | Fork (t : tid).
Arguments Take {var lock tid}. Arguments Give {var lock tid}. Arguments Rd {var lock tid}. Arguments Wr {var lock tid}. Arguments Fork {var lock tid}.
Inductive runs {var lock tid : Type} : code var lock tid -> list (act var lock tid) -> Prop :=
| RunSkip : runs Skip []
| RunRead : forall v, runs (Read v) [Rd v]
| RunWrite : forall v, runs (Write v) [Wr v]
| RunSpawn : forall t, runs (Spawn t) [Fork t]
| RunSeq : forall p q x y, runs p x -> runs q y -> runs (Seq p q) (x ++ y)
| RunLeft : forall p q x, runs p x -> runs (Alt p q) x
| RunRight : forall p q x, runs q x -> runs (Alt p q) x
| RunDone : forall p, runs (Star p) []
| RunTurn : forall p x y, runs p x -> runs (Star p) y -> runs (Star p) (x ++ y)
| RunGuard : forall l p x, runs p x -> runs (Guard l p) (Take l :: x ++ [Give l]).

(** the program: [first] is run once by the thread [main]; a thread that has started runs its [body] again and again *)
Record system (var lock tid : Type) := System {
  lock_dec : forall a b : lock, {a = b} + {a <> b}; tid_dec : forall a b : tid, {a = b} + {a <> b};
  main : tid; first : code var lock tid; body : tid -> code var lock tid }.
Arguments System {var lock tid}. Arguments lock_dec {var lock tid}. Arguments tid_dec {var lock tid}. Arguments main {var lock tid}.
Arguments first {var lock tid}. Arguments body {var lock tid}.

(** what every thread still has to do, who holds a mutex, which threads have been started *)
Record rcs (var lock tid : Type) := Rcs { todo : tid -> list (act var lock tid); holder : lock -> option tid; alive : tid -> bool }.
Arguments Rcs {var lock tid}. Arguments todo {var lock tid}. Arguments holder {var lock tid}. Arguments alive {var lock tid}.

Section Steps.
Context {var lock tid : Type} (P : system var lock tid).
Definition on {X} (f : tid -> X) (t : tid) (x : X) : tid -> X := fun u => if tid_dec P u t then x else f u.
Definition upd {X} (f : lock -> X) (l : lock) (x : X) : lock -> X := fun k => if lock_dec P k l then x else f k.
(** the threads' stacks are empty; only [main] is there, about to run [first] *)
Inductive rc_init : rcs var lock tid -> Prop :=
| Init : forall c, runs (first P) c -> rc_init (Rcs (on (fun _ => []) (main P) c) (fun _ => None) (on (fun _ => false) (main P) true)).
Inductive rc_step : rcs var lock tid -> rcs var lock tid -> Prop :=
| XTake : forall s t l r, todo s t = Take l :: r -> holder s l = None -> rc_step s (Rcs (on (todo s) t r) (upd (holder s) l (Some t)) (alive s))
| XGive : forall s t l r, todo s t = Give l :: r -> holder s l = Some t -> rc_step s (Rcs (on (todo s) t r) (upd (holder s) l None) (alive s))
| XRd : forall s t v r, todo s t = Rd v :: r -> rc_step s (Rcs (on (todo s) t r) (holder s) (alive s))
| XWr : forall s t v r, todo s t = Wr v :: r -> rc_step s (Rcs (on (todo s) t r) (holder s) (alive s))
| XFork : forall s t u r, todo s t = Fork u :: r -> rc_step s (Rcs (on (todo s) t r) (holder s) (on (alive s) u true))
| XStart : forall s t c, todo s t = [] -> alive s t = true -> runs (body P t) c -> rc_step s (Rcs (on (todo s) t c) (holder s) (alive s)).
Inductive reachable : rcs var lock tid -> Prop :=
| RInit : forall s, rc_init s -> reachable s
| RMore : forall s s', reachable s -> rc_step s s' -> reachable s'.
(** two threads are about to access v, one of them to write it: a data race (undefined behaviour in C++, [intro.races]) *)
Definition next_is (s : rcs var lock tid) (t : tid) (a : act var lock tid) : Prop := exists r, todo s t = a :: r.
Definition race (s : rcs var lock tid) (v : var) : Prop :=
  exists t u, t <> u /\ next_is s t (Wr v) /\ (next_is s u (Rd v) \/ next_is s u (Wr v)).
End Steps.
