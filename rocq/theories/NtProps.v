(** C106, C107: the threads of the local planner node and their mutexes. *)
From Coq Require Import Arith List Bool Lia Relations.
From Verif Require Import NtModel NtProofs.
Import ListNotations.

(** C106. For any number of cameras, in every state the node's threads can get into: whoever has something under way can go on itself, or waits, directly or
    through others, for a thread that can go on or that waits for the outside world only (for the autopilot's pose or for a service call to return). *)
Theorem C106_no_deadlock :
  forall (n : nat) (s : nts) (t : tid), reachable n s -> rest s t <> [] ->
  exists u, clos_refl_trans tid (waits_for s) t u /\ (can_move n s u \/ needs_answer s u).
Proof. exact no_deadlock. Qed.
Print Assumptions C106_no_deadlock.

(** No thread ever asks for a mutex that it holds itself or returns one that it does not hold (both are undefined for std::mutex), and a thread that has
    nothing under way holds none. *)
Theorem C106_mutexes_used_properly :
  forall (n : nat) (s : nts) (t : tid), reachable n s ->
  (forall l r, rest s t = Acq l :: r -> owner s l <> Some t) /\ (forall l r, rest s t = Rel l :: r -> owner s l = Some t) /\
  (rest s t = [] -> forall l, owner s l <> Some t).
Proof.
  intros n s t R. split; [|split].
  - intros l r. exact (no_self_lock n s t l r R).
  - intros l r. exact (released_by_holder n s t l r R).
  - intros E l. exact (idle_holds_nothing n s t l R E).
Qed.
Print Assumptions C106_mutexes_used_properly.

(** So everything that is under way ends, under every schedule: if nothing new begins then no schedule takes more than [todo n s] steps, and when none is
    possible any more all threads are through (and, with the above, all mutexes free). *)
Theorem C106_everything_ends :
  forall (n : nat) (s : nts), reachable n s ->
  (forall k s', goes_on_for n k s s' -> k <= todo n s /\ ((forall s'', ~ goes_on n s' s'') -> forall t, rest s' t = [])) /\
  (exists k s', goes_on_for n k s s' /\ forall t, rest s' t = []).
Proof.
  intros n s R. split.
  - intros k s' G. split; [pose proof (ends n k s s' R G); lia|].
    assert (R' : reachable n s').
    { clear -R G. induction G as [s|k s s' s'' G Gs IH]; [exact R|]. apply IH. exact (goes_on_reachable n s s' R G). }
    exact (stuck_is_done n s' R').
  - destruct (can_finish n s R) as (k & s' & G & _ & E). exists k, s'. split; assumption.
Qed.
Print Assumptions C106_everything_ends.

(** ** C107: outages *)
(** everything but an answer to thread u *)
Definition any_but (n : nat) (u : tid) (s s' : nts) : Prop := step n s s' \/ begins n s s' \/ exists t, t <> u /\ answered s t s'.

Ltac name_state R := match type of R with reachable ?n ?s => let x := fresh "s" in set (x := s) in R end.
Ltac acq R t := let R' := fresh "R" in
  match type of R with reachable ?n ?s => pose proof (RStep n s _ R (TAcq n s t _ _ eq_refl eq_refl)) as R' end; clear R; rename R' into R; name_state R.
Ltac rel R t := let R' := fresh "R" in
  match type of R with reachable ?n ?s => pose proof (RStep n s _ R (TRel n s t _ _ eq_refl eq_refl)) as R' end; clear R; rename R' into R; name_state R.
Ltac begin R t sc := let R' := fresh "R" in
  match type of R with reachable ?n ?s =>
    pose proof (RBegin n s _ R (TStart n s t _ eq_refl eq_refl ltac:(cbn; reflexivity || discriminate) sc ltac:(discriminate))) as R' end;
  clear R; rename R' into R; name_state R.

Ltac destroy R := let R' := fresh "R" in
  match type of R with reachable ?n ?s => pose proof (RBegin n s _ R (TDestroy n s eq_refl)) as R' end; clear R; rename R' into R; name_state R.
Ltac quit R t := let R' := fresh "R" in
  match type of R with reachable ?n ?s => pose proof (RStep n s _ R (TQuit n s t eq_refl eq_refl eq_refl eq_refl)) as R' end; clear R; rename R' into R; name_state R.
Ltac join R t u := let R' := fresh "R" in
  match type of R with reachable ?n ?s => pose proof (RStep n s _ R (TJoin n s t u _ eq_refl eq_refl)) as R' end; clear R; rename R' into R; name_state R.

(** the command thread waits for a pose; the planning thread has a result to hand over; a reconfiguration has arrived; the nodelet is being unloaded *)
Definition keeps (k : lock) (a : act) : bool := match a with Acq _ => true | Rel l => if lock_eq_dec l k then false else true | _ => false end.
Definition no_pose (s : nts) : Prop :=
  owner s Waypoints = Some Cmd /\ (exists p r, rest s Cmd = p ++ Ext Pose :: r /\ forallb (keeps Waypoints) p = true) /\
  rest s Worker = Acq Waypoints :: [Acq Wg; Rel Wg; Rel Waypoints; Rel Running] /\ owner s Running = Some Worker /\ exited s Worker = false /\
  rest s Recf = Acq Running :: [Rel Running] /\ rest s Main = Join Worker :: [Join TfT].

Lemma no_pose_reachable : exists s, reachable 1 s /\ no_pose s.
Proof.
  pose proof (RInit 1) as R.
  begin R Cmd (SCmd 1 true true). acq R Cmd.
  begin R Worker (SPlan 1). acq R Worker. rel R Worker. acq R Worker. acq R Worker. acq R Worker. rel R Worker. rel R Worker. acq R Worker. rel R Worker.
  begin R Recf (SReconf 1).
  destroy R. acq R Main. rel R Main. acq R Main. rel R Main. acq R Main. rel R Main.
  quit R (Xf 0). join R Main (Xf 0).
  eexists. split; [exact R|]. split; [reflexivity|]. split; [exists [], (guard Wg [] ++ guard Wg [] ++ guard Wg [] ++ [Rel Waypoints]); split; reflexivity|].
  split; [reflexivity|split; [reflexivity|split; [reflexivity|split; reflexivity]]].
Qed.

Lemma callback_keeps n cb : callback n cb -> forallb (keeps Waypoints) cb = true.
Proof. intros [i first L| |]; [destruct first| |]; reflexivity. Qed.
Ltac other t u := destruct (tid_eq_dec t u) as [->|].
Lemma no_pose_step n s s' : no_pose s -> any_but n Cmd s s' -> no_pose s'.
Proof.
  intros (O & (p & r & C & K) & W & Ru & Ex & Re & Ma) [St|[Be|(t & Nt & An)]].
  - destruct St as [s t l r' Hr Ho|s t l r' Hr Ho|s t u r' Hr Hx|s t T Hr Hx Hs]; unfold no_pose; cbn.
    + assert (t <> Worker) by (intros ->; congruence). assert (t <> Recf) by (intros ->; congruence). assert (t <> Main) by (intros ->; congruence).
      rewrite (upd_t_other (rest s) t r' Worker), (upd_t_other (rest s) t r' Recf), (upd_t_other (rest s) t r' Main) by congruence. rewrite !upd_l_other by congruence.
      split; [exact O|]. split; [|split; [exact W|split; [exact Ru|split; [exact Ex|split; [exact Re|exact Ma]]]]].
      destruct (tid_eq_dec t Cmd) as [->|Nc]; [|exists p, r; split; [rewrite ?upd_t_other by congruence; exact C|exact K]].
      rewrite upd_t_same. rewrite C in Hr. destruct p as [|a p]; [discriminate Hr|]. injection Hr as -> <-. exists p, r. split; [reflexivity|].
      cbn in K. exact K.
    + assert (t <> Worker) by (intros ->; congruence). assert (t <> Recf) by (intros ->; congruence). assert (t <> Main) by (intros ->; congruence).
      rewrite (upd_t_other (rest s) t r' Worker), (upd_t_other (rest s) t r' Recf), (upd_t_other (rest s) t r' Main) by congruence. assert (l <> Running) by congruence.
      assert (l <> Waypoints).
      { intros ->. rewrite O in Ho. injection Ho as <-. rewrite C in Hr. destruct p as [|a p]; [discriminate Hr|]. injection Hr as -> _.
        cbn in K. discriminate K. }
      rewrite !upd_l_other by congruence.
      split; [exact O|]. split; [|split; [exact W|split; [exact Ru|split; [exact Ex|split; [exact Re|exact Ma]]]]].
      destruct (tid_eq_dec t Cmd) as [->|Nc]; [|exists p, r; split; [rewrite ?upd_t_other by congruence; exact C|exact K]].
      rewrite upd_t_same. rewrite C in Hr. destruct p as [|a p]; [discriminate Hr|]. injection Hr as -> <-. exists p, r. split; [reflexivity|].
      cbn in K. apply andb_true_iff in K as [_ K]. exact K.
    + assert (t <> Worker) by (intros ->; congruence). assert (t <> Recf) by (intros ->; congruence). assert (t <> Main) by (intros ->; congruence).
      rewrite (upd_t_other (rest s) t r' Worker), (upd_t_other (rest s) t r' Recf), (upd_t_other (rest s) t r' Main) by congruence.
      split; [exact O|]. split; [|split; [exact W|split; [exact Ru|split; [exact Ex|split; [exact Re|exact Ma]]]]].
      destruct (tid_eq_dec t Cmd) as [->|Nc]; [|exists p, r; split; [rewrite ?upd_t_other by congruence; exact C|exact K]].
      rewrite C in Hr. destruct p as [|a p]; [discriminate Hr|]. injection Hr as -> _. cbn in K. discriminate K.
    + split; [exact O|]. split; [exists p, r; split; [rewrite ?upd_t_other by congruence; exact C|exact K]|split; [exact W|split; [exact Ru|split; [|split; [exact Re|exact Ma]]]]].
      rewrite upd_t_other; [exact Ex|]. intros <-. congruence.
  - destruct Be as [s t c Hr Hx Hl Sc Nd|s Hr|s t cb r' Hr Cb]; unfold no_pose; cbn.
    + assert (t <> Worker) by (intros ->; congruence). assert (t <> Recf) by (intros ->; congruence). assert (t <> Main) by (intros ->; congruence).
      assert (t <> Cmd) by (intros ->; destruct p; cbn in C; congruence).
      rewrite (upd_t_other (rest s) t c Worker), (upd_t_other (rest s) t c Recf), (upd_t_other (rest s) t c Main) by congruence.
      split; [exact O|]. split; [exists p, r; split; [rewrite ?upd_t_other by congruence; exact C|exact K]|split; [exact W|split; [exact Ru|split; [exact Ex|split; [exact Re|exact Ma]]]]].
    + congruence.
    + assert (t <> Worker) by (intros ->; congruence). assert (t <> Recf) by (intros ->; congruence). assert (t <> Main) by (intros ->; congruence).
      rewrite (upd_t_other (rest s) t _ Worker), (upd_t_other (rest s) t _ Recf), (upd_t_other (rest s) t _ Main) by congruence.
      split; [exact O|]. split; [|split; [exact W|split; [exact Ru|split; [exact Ex|split; [exact Re|exact Ma]]]]].
      destruct (tid_eq_dec t Cmd) as [->|Nc]; [|exists p, r; split; [rewrite ?upd_t_other by congruence; exact C|exact K]].
      rewrite upd_t_same. rewrite C in Hr. destruct p as [|a p]; [|injection Hr as -> _; cbn in K; discriminate K].
      injection Hr as <-. exists cb, r. split; [reflexivity|exact (callback_keeps n cb Cb)].
  - destruct An as [s t e r' Hr]. unfold no_pose. cbn.
    assert (t <> Worker) by (intros ->; congruence). assert (t <> Recf) by (intros ->; congruence). assert (t <> Main) by (intros ->; congruence).
    rewrite (upd_t_other (rest s) t _ Worker), (upd_t_other (rest s) t _ Recf), (upd_t_other (rest s) t _ Main) by congruence.
    split; [exact O|]. split; [exists p, r; split; [rewrite ?upd_t_other by congruence; exact C|exact K]|split; [exact W|split; [exact Ru|split; [exact Ex|split; [exact Re|exact Ma]]]]].
Qed.

(** a service call is not answered: the polling thread holds the parameter mutex; the planning thread, a reconfiguration and the main thread (with a parameter
    that the autopilot has sent) wait *)
Definition no_reply (s : nts) : Prop :=
  owner s Param = Some Check /\ (exists r, rest s Check = Ext Reply :: r) /\
  (exists r, rest s Worker = Acq Param :: r) /\ owner s Running = Some Worker /\ rest s Recf = Acq Running :: [Rel Running] /\ rest s Main = cb_param.
Lemma no_reply_reachable : exists s, reachable 1 s /\ no_reply s.
Proof.
  pose proof (RInit 1) as R.
  begin R Check (SCheck 1). acq R Check.
  begin R Worker (SPlan 1). acq R Worker. rel R Worker. acq R Worker. acq R Worker. acq R Worker. rel R Worker. rel R Worker.
  begin R Recf (SReconf 1). begin R Main (SCallback 1 _ (CbParam 1)).
  eexists. split; [exact R|]. split; [reflexivity|]. split; [eexists; reflexivity|]. split; [eexists; reflexivity|].
  split; [reflexivity|split; reflexivity].
Qed.
Lemma no_reply_step n s s' : no_reply s -> any_but n Check s s' -> no_reply s'.
Proof.
  intros (O & (p & C) & (w & W) & Ru & Re & Ma) [St|[Be|(t & Nt & An)]].
  - destruct St as [s t l r' Hr Ho|s t l r' Hr Ho|s t u r' Hr Hx|s t T Hr Hx Hs]; unfold no_reply; cbn.
    + assert (t <> Worker) by (intros ->; congruence). assert (t <> Recf) by (intros ->; congruence).
      assert (t <> Main) by (intros ->; unfold cb_param, guard in Ma; congruence). assert (t <> Check) by (intros ->; congruence).
      rewrite !(upd_t_other (rest s) t r') by congruence. rewrite !upd_l_other by congruence.
      split; [exact O|split; [exists p; exact C|split; [exists w; exact W|split; [exact Ru|split; [exact Re|exact Ma]]]]].
    + assert (t <> Worker) by (intros ->; congruence). assert (t <> Recf) by (intros ->; congruence).
      assert (t <> Main) by (intros ->; unfold cb_param, guard in Ma; congruence). assert (t <> Check) by (intros ->; congruence).
      rewrite !(upd_t_other (rest s) t r') by congruence. rewrite !upd_l_other by congruence.
      split; [exact O|split; [exists p; exact C|split; [exists w; exact W|split; [exact Ru|split; [exact Re|exact Ma]]]]].
    + assert (t <> Worker) by (intros ->; congruence). assert (t <> Recf) by (intros ->; congruence).
      assert (t <> Main) by (intros ->; unfold cb_param, guard in Ma; congruence). assert (t <> Check) by (intros ->; congruence).
      rewrite !(upd_t_other (rest s) t r') by congruence.
      split; [exact O|split; [exists p; exact C|split; [exists w; exact W|split; [exact Ru|split; [exact Re|exact Ma]]]]].
    + split; [exact O|split; [exists p; exact C|split; [exists w; exact W|split; [exact Ru|split; [exact Re|exact Ma]]]]].
  - destruct Be as [s t c Hr Hx Hl Sc Nd|s Hr|s t cb r' Hr Cb]; unfold no_reply; cbn.
    2: { unfold cb_param, guard in Ma. congruence. }
    all: assert (t <> Worker) by (intros ->; congruence); assert (t <> Recf) by (intros ->; congruence);
      assert (t <> Main) by (intros ->; unfold cb_param, guard in Ma; congruence); assert (t <> Check) by (intros ->; congruence);
      rewrite !(upd_t_other (rest s) t _) by congruence;
      split; [exact O|split; [exists p; exact C|split; [exists w; exact W|split; [exact Ru|split; [exact Re|exact Ma]]]]].
  - destruct An as [s t e r' Hr]. unfold no_reply. cbn.
    assert (t <> Worker) by (intros ->; congruence). assert (t <> Recf) by (intros ->; congruence).
    assert (t <> Main) by (intros ->; unfold cb_param, guard in Ma; congruence).
    rewrite !(upd_t_other (rest s) t _) by congruence.
    split; [exact O|split; [exists p; exact C|split; [exists w; exact W|split; [exact Ru|split; [exact Re|exact Ma]]]]].
Qed.

(** C107. "The node goes on planning, accepts new settings and can be unloaded while the autopilot sends no pose" is false: there is a state in which a planner
    run (its mutexes taken), a reconfiguration request and the destructor have begun and none of them makes one step, whatever else happens, until a pose comes. *)
Theorem C107_no_pose_freezes_node_refuted :
  exists s, reachable 1 s /\ rest s Worker <> [] /\ rest s Recf <> [] /\ rest s Main = [Join Worker; Join TfT] /\
    forall s', clos_refl_trans nts (any_but 1 Cmd) s s' ->
      rest s' Worker = rest s Worker /\ rest s' Recf = rest s Recf /\ rest s' Main = rest s Main /\ exited s' Worker = false.
Proof.
  destruct no_pose_reachable as (s & R & P). exists s. split; [exact R|].
  pose proof P as (_ & _ & W & _ & _ & Re & Ma). rewrite W, Re, Ma. split; [discriminate|split; [discriminate|split; [reflexivity|]]].
  intros s' Cl. assert (P' : no_pose s').
  { clear -P Cl. induction Cl as [a b St|a|a b c _ IH1 _ IH2]; [exact (no_pose_step 1 a b P St)|exact P|apply IH2, IH1; exact P]. }
  destruct P' as (_ & _ & W' & _ & Ex & Re' & Ma'). repeat split; assumption.
Qed.
Print Assumptions C107_no_pose_freezes_node_refuted.
(** The same holds for a parameter request that is not answered: planner run, reconfiguration and the main thread's queue stand still. *)
Theorem C107_no_reply_freezes_node_refuted :
  exists s, reachable 1 s /\ rest s Worker <> [] /\ rest s Recf <> [] /\ rest s Main = cb_param /\
    forall s', clos_refl_trans nts (any_but 1 Check) s s' ->
      (exists r, rest s' Worker = Acq Param :: r) /\ owner s' Running = Some Worker /\ rest s' Recf = rest s Recf /\ rest s' Main = rest s Main.
Proof.
  destruct no_reply_reachable as (s & R & P). exists s. split; [exact R|].
  pose proof P as (_ & _ & (w & W) & _ & Re & Ma). rewrite W, Re, Ma. split; [discriminate|split; [discriminate|split; [reflexivity|]]].
  intros s' Cl. assert (P' : no_reply s').
  { clear -P Cl. induction Cl as [a b St|a|a b c _ IH1 _ IH2]; [exact (no_reply_step 1 a b P St)|exact P|apply IH2, IH1; exact P]. }
  destruct P' as (_ & _ & (w' & W') & Ru & Re' & Ma'). split; [exists w'; exact W'|split; [exact Ru|split; assumption]].
Qed.
Print Assumptions C107_no_reply_freezes_node_refuted.

(** Non-vacuity: a state in which a reconfiguration waits for the planning thread, which waits for the command thread, which waits for a pose. *)
Example C106_waiting_chain : exists s, reachable 1 s /\ waits_for s Main Worker /\ waits_for s Recf Worker /\ waits_for s Worker Cmd.
Proof.
  destruct no_pose_reachable as (s & R & (O & _ & W & Ru & Ex & Re & Ma)). exists s. split; [exact R|]. split; [|split].
  - right. eexists. split; [exact Ma|exact Ex].
  - left. eexists _, _. split; [exact Re|exact Ru].
  - left. eexists _, _. split; [exact W|exact O].
Qed.
