(** Specification for C109: a camera that keeps sending. *)
From Coq Require Import ZArith List Bool.
From Verif Require Import NwModel.
Import ListNotations.
Open Scope Z_scope.

Section S.
Variables (n i : nat) (period latency : Z).
(** the camera's stamps are [latency] behind the clock *)
Definition stamped (s : nw) (l : lab) : Prop := match l with LCloud j stamp => j = i -> stamp = now s - latency | _ => True end.
(** no more than [period] since its last cloud *)
Definition sending (s : nw) : Prop := now s <= last_cloud s i + period.
Fixpoint steady (s : nw) (ls : list lab) : Prop :=
  sending s /\ match ls with [] => True | l :: ls' => stamped s l /\ match nw_step n s l with Some s' => steady s' ls' | None => True end end.
End S.
