(** C109: how long a camera's cloud can take through the local planner node. *)
From Coq Require Import ZArith List Bool Lia.
From Verif Require Import NwModel NwSpec NwProofs.
Import ListNotations.
Open Scope Z_scope.

(** C109. If the transforms that are asked for are there, then under every schedule of the callbacks and threads, with any number of cameras: a received cloud
    is transformed within 5 s; once all cameras' clouds have been transformed the planner runs within 5 s; and once every camera has delivered a cloud (since the
    last run) the planner runs within 10 s. (Times in ms; in each case: as long as it has not happened, no more than that has passed.) *)
Theorem C109_bounded_delay :
  forall (n : nat) (ls : list lab) (s : nw), (0 < n)%nat -> nw_run n (nw_init n) ls = Some s -> forallb found_all ls = true ->
  (forall i stamp t, (i < n)%nat -> pend s i = Some (stamp, t) -> now s <= t + 5000) /\
  (forall t, since_all s = Some t -> now s <= t + 5000) /\ (forall t, since_ready s = Some t -> now s <= t + 10000).
Proof.
  intros n ls s P R F. apply (inv_bounds n P). exact (inv_run n P ls _ _ (inv_init n P) F R).
Qed.
Print Assumptions C109_bounded_delay.
(** the times above are what they are said to be *)
Theorem C109_observations :
  forall (n : nat) (ls : list lab) (s : nw), (0 < n)%nat -> nw_run n (nw_init n) ls = Some s -> forallb found_all ls = true ->
  ((exists t, since_all s = Some t) <-> forall i, (i < n)%nat -> dn s i = true) /\
  ((exists t, since_ready s = Some t) <-> forall i, (i < n)%nat -> dn s i = true \/ exists c, pend s i = Some c).
Proof.
  intros n ls s P R F. destruct (inv_run n P ls _ _ (inv_init n P) F R) as (_ & _ & _ & _ & Sa & Sr). split.
  - split.
    + intros [t E] i L. rewrite E in Sa. symmetry in Sa. exact (all_done_true n P s i Sa L).
    + intros A. destruct (since_all s) as [t|]; [exists t; reflexivity|]. symmetry in Sa. apply (all_done_false n P) in Sa as (i & L & D). rewrite (A i L) in D. discriminate.
  - split.
    + intros [t E] i L. rewrite E in Sr. symmetry in Sr. unfold all_ready in Sr. cbn in Sr. rewrite forallb_forall in Sr. specialize (Sr i (proj2 (in_cams n P i) L)).
      cbn in Sr. apply orb_true_iff in Sr as [D|D]; [left; exact D|right]. destruct (pend s i) as [c|]; [exists c; reflexivity|discriminate].
    + intros A. destruct (since_ready s) as [t|]; [exists t; reflexivity|]. exfalso. assert (T : all_ready n s = true); [|rewrite T in Sr; discriminate].
      apply forallb_forall. intros i I. apply (in_cams n P) in I. destruct (A i I) as [->|[c ->]]; [reflexivity|apply orb_true_r].
Qed.
Print Assumptions C109_observations.

(** A camera that sends a cloud at least every [period] ms is served faster: none of its clouds waits longer than 300 ms + [period]. *)
Theorem C109_steady_camera :
  forall (n i : nat) (period latency : Z) (ls1 ls2 : list lab) (s1 s2 : nw) (stamp t : Z),
  (i < n)%nat -> 0 <= period -> nw_run n (nw_init n) ls1 = Some s1 -> pend s1 i = None -> nw_run n s1 ls2 = Some s2 ->
  forallb found_all (ls1 ++ ls2) = true -> steady n i period latency s1 ls2 ->
  pend s2 i = Some (stamp, t) -> now s2 <= t + 300 + period.
Proof.
  intros n i period latency ls1 ls2 s1 s2 stamp t L Pp R1 P1 R2 F Sd P2. assert (Pn : (0 < n)%nat) by lia.
  rewrite forallb_app in F. apply andb_true_iff in F as [F1 F2].
  pose proof (inv_run n Pn ls1 _ _ (inv_init n Pn) F1 R1) as I1.
  assert (J1 : inv_s i period latency s1).
  { split; [|rewrite P1; exact I]. apply (last_le_run n Pn i L ls1 (nw_init n)); [cbn; lia|exact R1]. }
  destruct (steady_run n Pn i L period latency Pp ls2 s1 s2 I1 J1 Sd F2 R2) as (I2 & J2 & S2).
  exact (steady_bound n Pn i L period latency Pp s2 stamp t I2 J2 S2 P2).
Qed.
Print Assumptions C109_steady_camera.

(** "A received cloud is planned with as soon as the threads are free" is false: a notification that comes between a thread's look at the data and its wait is
    lost. Here the only cloud comes at time 0, both threads do nothing but wait, the cloud is transformed at 5 s and the planner runs at 10 s. *)
Definition lost_twice : list lab :=
  [LX 0 true; LCloud 0 0; LX 0 true; LW; LW; LW; LW] ++ repeat LTick 5000 ++      (* the camera's thread parks, the cloud comes, it waits; the planning thread waits *)
  [LW; LW; LW; LX 0 true; LX 0 true; LX 0 true; LW] ++ repeat LTick 5000 ++       (* both wake; the planning thread looks, parks; the cloud is transformed; it waits *)
  [LW; LW; LW; LW].
Definition before_last : list lab := firstn (length lost_twice - 1) lost_twice.
Theorem C109_prompt_refuted :
  exists s s', nw_run 1 (nw_init 1) before_last = Some s /\ plans s = [] /\ nw_step 1 s LW = Some s' /\ plans s' = [10000] /\
    before_last ++ [LW] = lost_twice /\ filter (fun l => match l with LCloud _ _ => true | _ => false end) lost_twice = [LCloud 0 0] /\
    forallb found_all lost_twice = true /\
    option_map (fun s => (now s, pend s 0%nat)) (nw_run 1 (nw_init 1) (firstn 5007 lost_twice)) = Some (5000, Some (0, 0)).
Proof.
  assert (C : match nw_run 1 (nw_init 1) before_last with
              | Some s => (plans s, option_map plans (nw_step 1 s LW)) = ([], Some [10000]) | None => False end) by (vm_compute; reflexivity).
  destruct (nw_run 1 (nw_init 1) before_last) as [s|]; [|contradiction]. destruct (nw_step 1 s LW) as [s'|] eqn:E; [|discriminate C].
  exists s, s'. injection C as C1 C2. split; [reflexivity|split; [exact C1|split; [exact E|split; [exact C2|]]]].
  split; [vm_compute; reflexivity|split; [vm_compute; reflexivity|split; vm_compute; reflexivity]].
Qed.
Print Assumptions C109_prompt_refuted.

(** Non-vacuity of the steady camera: a cloud every 100 ms; the second one finds the thread parked and waits for the fifth. *)
Definition ticks (k : nat) : list lab := repeat LTick k.
Definition steady_prefix : list lab := [LX 0 true; LX 0 true; LW; LW; LW; LW].
Definition steady_clouds : list lab :=
  [LCloud 0 (-20); LX 0 true; LCloud 0 (-20); LX 0 true; LW; LW; LW] ++ ticks 100 ++ [LCloud 0 80; LW; LW; LW; LW; LW] ++ ticks 100 ++ [LCloud 0 180].
Fixpoint steadyb (s : nw) (ls : list lab) : bool :=
  (now s <=? last_cloud s 0%nat + 100) && match ls with [] => true | l :: ls' =>
    (match l with LCloud _ stamp => stamp =? now s - 20 | _ => true end) && match nw_step 1 s l with Some s' => steadyb s' ls' | None => true end end.
Lemma steadyb_ok ls : forall s, steadyb s ls = true -> steady 1 0 100 20 s ls.
Proof.
  induction ls as [|l ls IH]; intros s H; cbn [steadyb steady] in *; apply andb_true_iff in H as [H1 H2]; apply Z.leb_le in H1; (split; [exact H1|]); [exact I|].
  apply andb_true_iff in H2 as [H2 H3]. split.
  - destruct l; cbn; auto. intros _. apply Z.eqb_eq. exact H2.
  - destruct (nw_step 1 s l); [apply IH; exact H3|exact I].
Qed.
Example C109_steady_example :
  exists s1 s2, nw_run 1 (nw_init 1) steady_prefix = Some s1 /\ pend s1 0%nat = None /\ nw_run 1 s1 steady_clouds = Some s2 /\
    steady 1 0 100 20 s1 steady_clouds /\ pend s2 0%nat = Some (-20, 0) /\ now s2 = 200.
Proof.
  assert (C : match nw_run 1 (nw_init 1) steady_prefix with
    | Some s1 => pend s1 0%nat = None /\ steadyb s1 steady_clouds = true /\ match nw_run 1 s1 steady_clouds with
                 | Some s2 => pend s2 0%nat = Some (-20, 0) /\ now s2 = 200 | None => False end | None => False end)
    by (vm_compute; repeat split; reflexivity).
  destruct (nw_run 1 (nw_init 1) steady_prefix) as [s1|]; [|contradiction]. destruct C as [C1 [C3 C2]].
  destruct (nw_run 1 s1 steady_clouds) as [s2|] eqn:E; [|contradiction]. exists s1, s2. split; [reflexivity|split; [exact C1|split; [exact E|split; [exact (steadyb_ok _ _ C3)|exact C2]]]].
Qed.
