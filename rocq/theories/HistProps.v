(** Property theorems for the polar histogram (C14, C15). [reachable h]: h was obtained from the
    constructor by some sequence of public operations. *)
From Coq Require Import ZArith Reals List Bool.
From Flocq Require Import Core BinarySingleNaN.
From Verif Require Import Num Mat CommonModel HistModel HistProofs HistF32.
Import ListNotations.
Local Open Scope Z_scope.

(** C14. Refining and coarsening again restores every reading (real arithmetic). *)
Theorem C14_up_down_identity :
  forall h : hist Rn, reachable Rn h -> h_res h = 2 * ALPHA_RES ->
  exists h1 h2, h_upsample Rn h = Some (Ok h1) /\ h_downsample Rn h1 = Some (Ok h2) /\ h_res h2 = 2 * ALPHA_RES /\
    forall i j, h_get Rn h2 i j = h_get Rn h i j.
Proof. exact up_down_R. Qed.
Print Assumptions C14_up_down_identity.
(** C14 as executed: bit-exact in binary32, for all readings up to 2^90 (and NaN, infinities). *)
Theorem C14_up_down_identity_float :
  forall h : hist F32, reachable F32 h -> h_res h = 2 * ALPHA_RES ->
  (forall i j (v : f32), h_get F32 h i j = Some (v : F32) -> is_finite v = true -> (Rabs (B2R v) <= bpow radix2 90)%R) ->
  exists h1 h2, h_upsample F32 h = Some (Ok h1) /\ h_downsample F32 h1 = Some (Ok h2) /\ h_res h2 = 2 * ALPHA_RES /\
    forall i j, h_get F32 h2 i j = h_get F32 h i j.
Proof. exact up_down_F32. Qed.
Print Assumptions C14_up_down_identity_float.
Theorem C14_upsample_copies :
  forall (N : num) (h : hist N), reachable N h -> h_res h = 2 * ALPHA_RES ->
  exists h', h_upsample N h = Some (Ok h') /\ h_res h' = ALPHA_RES /\
  forall i j, 0 <= i < 180 / ALPHA_RES -> 0 <= j < 360 / ALPHA_RES -> h_get N h' i j = h_get N h (i / 2) (j / 2).
Proof. exact up_get. Qed.
Print Assumptions C14_upsample_copies.
Theorem C14_downsample_averages :
  forall (N : num) (h : hist N), reachable N h -> h_res h = ALPHA_RES ->
  exists h', h_downsample N h = Some (Ok h') /\ h_res h' = 2 * ALPHA_RES /\
  forall i j, 0 <= i < 180 / (2 * ALPHA_RES) -> 0 <= j < 360 / (2 * ALPHA_RES) -> exists a b c d,
    h_get N h (2 * i) (2 * j) = Some a /\ h_get N h (2 * i + 1) (2 * j) = Some b /\
    h_get N h (2 * i) (2 * j + 1) = Some c /\ h_get N h (2 * i + 1) (2 * j + 1) = Some d /\
    h_get N h' i j = Some (div N (add N (add N (add N a b) c) d) (ofZ N 4)).
Proof. exact down_get. Qed.
Print Assumptions C14_downsample_averages.
Theorem C14_guarded :
  forall (N : num) (h : hist N),
  (h_upsample N h = Some Throw <-> h_res h <> 2 * ALPHA_RES) /\
  (h_downsample N h = Some Throw <-> h_res h <> ALPHA_RES).
Proof. exact (fun N h => conj (up_throw N h) (down_throw N h)). Qed.
Print Assumptions C14_guarded.

(** C15 *)
Theorem C15_reads_wrap_around :
  forall (N : num) (h : hist N) (x y k l : Z), reachable N h -> h_res h <= 180 ->
  h_get N h (x + k * (180 / h_res h)) (y + l * (360 / h_res h)) = h_get N h x y /\ h_get N h x y <> None.
Proof. exact get_periodic. Qed.
Print Assumptions C15_reads_wrap_around.
Theorem C15_read_after_write :
  forall (N : num) (h : hist N) (x y : Z) (v : N) (h' : hist N), reachable N h -> h_res h <= 180 ->
  h_set N h x y v = Some h' ->
  h_get N h' x y = Some v /\
  forall x' y', (x' mod (180 / h_res h), y' mod (360 / h_res h)) <> (x, y) -> h_get N h' x' y' = h_get N h x' y'.
Proof. exact read_after_write. Qed.
Print Assumptions C15_read_after_write.
Theorem C15_write_defined_in_range :
  forall (N : num) (h : hist N) (x y : Z) (v : N), reachable N h ->
  (exists h', h_set N h x y v = Some h') <-> 0 <= x < 180 / h_res h /\ 0 <= y < 360 / h_res h.
Proof. exact write_defined. Qed.
Print Assumptions C15_write_defined_in_range.
Theorem C15_isEmpty :
  forall (N : num) (h : hist N), reachable N h ->
  exists b, h_isEmpty N h = Some b /\
  (b = true <-> forall x y v, h_get N h x y = Some v -> ltb N (flt_min N) v = false).
Proof. exact isEmpty_get. Qed.
Print Assumptions C15_isEmpty.
Theorem C15_only_bad_writes_undefined :
  forall (N : num) (h : hist N) (o : hop N), reachable N h -> h_step N h o = None ->
  exists x y v, o = HSet x y v /\ ~ (0 <= x < 180 / h_res h /\ 0 <= y < 360 / h_res h).
Proof. exact step_defined. Qed.
Print Assumptions C15_only_bad_writes_undefined.


(** a coarse histogram with an obstacle is reachable, and so is its refinement *)
Definition ex_ops : list (hop F32) := [HSet 3 7 (ofZ F32 5)].
Example C14_example : exists h : hist F32, reachable F32 h /\ h_res h = 2 * ALPHA_RES /\
  h_get F32 h (3 - 15) (7 + 60) = Some (ofZ F32 5 : F32) /\ h_isEmpty F32 h = Some false.
Proof.
  eexists. split; [exists 12; eexists; exists ex_ops; repeat split; reflexivity|]. repeat split; reflexivity.
Qed.
Example C15_example : exists h : hist F32, reachable F32 h /\ h_res h <= 180 /\ (exists h', h_set F32 h 14 29 (ofZ F32 2) = Some h') /\ h_get F32 h (3 - 15) (7 + 60) = Some (ofZ F32 5 : F32).
Proof. eexists. split; [exists 12; eexists; exists ex_ops; repeat split; reflexivity|]. split; [vm_compute; discriminate|]. split; [eexists; reflexivity|reflexivity]. Qed.
