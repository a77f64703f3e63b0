(** C114: no two threads of the local planner node are at the same data at the same time, unless it is one of the members listed here. *)
From Coq Require Import Arith List Bool Lia.
From Verif Require Import NtModel NdModel NdProofs.
Import ListNotations.

(** two threads are about to access v, one of them to write it: a data race (undefined behaviour in C++, [intro.races]) *)
Definition race (s : nds) (v : var) : Prop :=
  exists t u, t <> u /\ next_is s t (Wr v) /\ (next_is s u (Rd v) \/ next_is s u (Wr v)).

(** the members that are shared without protection *)
Definition racy (v : var) : bool :=
  match v with
  | NewestPos | LastPos | NewestOri | PosReceived | Velocity | Armed | NavState          (* what the vehicle reports *)
  | GoalPos | PrevGoal | NewGoal | DesiredVel | IsLand | IsTakeoff                        (* where it has to go *)
  | WpPos | AdaptedWp                                                                     (* the last waypoints *)
  | NodeStatus | MissionSpeed                                                             (* AvoidanceNode *)
  | PlGoal | PlPos | PlTimeout | WgSmoothing => true                                      (* members of the planner and the waypoint generator *)
  | _ => false
  end.

Lemma racy_unprotected v : racy v = true <-> prot v = Unprotected.
Proof. destruct v; cbn; split; intros; try reflexivity; discriminate. Qed.

(** C114. For any number of cameras and every schedule: nothing else is ever raced for. *)
Theorem C114_protected_data_is_not_raced_for :
  forall (n : nat) (s : nds) (v : var), d_reachable n s -> racy v = false -> ~ race s v.
Proof.
  intros n s v R Nr (t & u & D & (r & E) & Fu).
  assert (P : prot v <> Unprotected). { intros P. apply racy_unprotected in P. rewrite P in Nr. discriminate Nr. }
  destruct (next_allowed n s t _ r R E) as (h & A & H). cbn in A.
  assert (B : exists h', (forall l, In l h' -> held_by s l = Some u) /\ (allowed u h' (Rd v) \/ allowed u h' (Wr v))).
  { destruct Fu as [(r' & E')|(r' & E')]; destruct (next_allowed n s u _ r' R E') as (h' & A' & H'); exists h'; (split; [exact H'|]); [left|right]; exact A'. }
  destruct B as (h' & H' & B). cbn in B. destruct (prot v) as [l|l w|w| |]; [| | |contradiction|contradiction].
  - assert (I : In l h') by (destruct B as [B|B]; exact B). apply H in A. apply H' in I. rewrite A in I. injection I as I. contradiction.
  - destruct A as (-> & A). apply H in A. destruct B as [[I| ->]|(-> & _)]; [|contradiction|contradiction]. apply H' in I. rewrite A in I. injection I as I. contradiction.
  - subst t. destruct B as [<-|<-]; contradiction.
Qed.
Print Assumptions C114_protected_data_is_not_raced_for.

(** What a mutex guards does not change while a thread holds it: nobody else is about to access it. In particular a planner run works with one set of
    parameters, point clouds and fields of view from beginning to end, and a waypoint is calculated from one output of the planner. *)
Definition guarded_by (v : var) (l : dlock) : Prop :=
  match v with
  | CamRaw i | CamReceived i | CamCloud i | CamTransformed i | CamFov i | CamRegistered i => l = Mx (Cam i)
  | TfFrames => l = Mx Tf | TfBuffer => l = Mx Buf | Px4 => l = Mx Param
  | PlConfig | PlData => l = Mx Running | WgPlan | WgFov | WgData => l = Mx Wg
  | _ => False
  end.
Theorem C114_stable_while_locked :
  forall (n : nat) (s : nds) (v : var) (l : dlock) (t u : dtid),
  d_reachable n s -> guarded_by v l -> held_by s l = Some t -> u <> t -> ~ next_is s u (Rd v) /\ ~ next_is s u (Wr v).
Proof.
  intros n s v l t u R G O D. assert (P : prot v = Guarded l) by (destruct v; cbn in G |- *; first [contradiction|subst; reflexivity]).
  split; intros (r & E); destruct (next_allowed n s u _ r R E) as (h & A & H); cbn in A; rewrite P in A; apply H in A; rewrite O in A; injection A as A; congruence.
Qed.
Print Assumptions C114_stable_while_locked.
Example C114_example : exists s, d_reachable 1 s /\ guarded_by PlConfig (Mx Running) /\ held_by s (Mx Running) = Some (Th Worker) /\ Th Main <> Th Worker /\ racy PlConfig = false.
Proof.
  destruct (worker_at 1 false [] (d_info_rest false ++ d_run ++ d_output ++ [Give (Mx Running); Rd LastWpTime]) (Nat.lt_0_succ 0) eq_refl) as (s & R & _ & _ & O & _).
  - intros o F. exists o. split; [constructor|intros l; reflexivity].
  - exists s. split; [exact R|]. split; [reflexivity|]. split; [exact O|]. split; [discriminate|reflexivity].
Qed.

(** ** The members that are raced for *)
Ltac locks := repeat first [rewrite put_l_same | rewrite put_l_other by discriminate].
Ltac go := repeat (constructor; locks; try solve [assumption | reflexivity | auto]).
Ltac quiet := let o := fresh in let F := fresh in intros o F;
  first [exists o; split; [solve [go]|intros ?; reflexivity]
        |eexists; split; [solve [go]|]; let l := fresh in intros l; destruct (dlock_eq_dec l (Mx Param)) as [->|]; [rewrite put_l_same; symmetry; exact F|rewrite !put_l_other by assumption; reflexivity]].

Lemma race_with s t u v : t <> u -> next_is s t (Wr v) -> next_is s u (Rd v) -> race s v.
Proof. intros D W R. exists t, u. split; [exact D|split; [exact W|left; exact R]]. Qed.

(** a callback on the main thread writes what the planning thread is about to read *)
Lemma main_and_worker n v new p q cb k body c1 c2 : 0 < n ->
  d_info_rest new ++ d_run ++ d_output ++ [Give (Mx Running); Rd LastWpTime] = p ++ Rd v :: q ->
  (forall o, o (Mx Param) = None -> exists o', alone (Th Worker) o p o' /\ same o' o) ->
  d_callback n cb -> cb = dguard (Sub k) body -> body = c1 ++ Wr v :: c2 -> (forall o, alone (Th Main) o c1 o) ->
  exists s, d_reachable n s /\ race s v.
Proof.
  intros Hn Eq A C -> -> B. destruct (worker_at n new p _ Hn Eq A) as (s & R & E & U & O & F).
  destruct (meet n s (Th Worker) (Rd v) q (Th Main) (dguard (Sub k) (c1 ++ Wr v :: c2)) (Take (Sub k) :: c1) (Wr v) (c2 ++ [Give (Sub k)])
    (put_l (held_by s) (Sub k) (Some (Th Main))) R E) as (s' & R' & N & M).
  - apply U. discriminate. - discriminate. - apply DSCallback. exact C. - unfold dguard. cbn. rewrite <- app_assoc. reflexivity.
  - constructor; [apply F; discriminate|]. apply B.
  - exists s'. split; [exact R'|]. apply (race_with s' (Th Main) (Th Worker)); [discriminate|exact M|exact N].
Qed.
Ltac mw new p cb c1 C := eapply (main_and_worker _ _ new p _ cb _ _ c1 _); [assumption|reflexivity|quiet|exact C|reflexivity|reflexivity|intros; go].

(** the other way round *)
Lemma worker_and_main n v new p q cb k body c1 c2 : 0 < n ->
  d_info_rest new ++ d_run ++ d_output ++ [Give (Mx Running); Rd LastWpTime] = p ++ Wr v :: q ->
  (forall o, o (Mx Param) = None -> exists o', alone (Th Worker) o p o' /\ same o' o) ->
  d_callback n cb -> cb = dguard (Sub k) body -> body = c1 ++ Rd v :: c2 -> (forall o, alone (Th Main) o c1 o) ->
  exists s, d_reachable n s /\ race s v.
Proof.
  intros Hn Eq A C -> -> B. destruct (worker_at n new p _ Hn Eq A) as (s & R & E & U & O & F).
  destruct (meet n s (Th Worker) (Wr v) q (Th Main) (dguard (Sub k) (c1 ++ Rd v :: c2)) (Take (Sub k) :: c1) (Rd v) (c2 ++ [Give (Sub k)])
    (put_l (held_by s) (Sub k) (Some (Th Main))) R E) as (s' & R' & N & M).
  - apply U. discriminate. - discriminate. - apply DSCallback. exact C. - unfold dguard. cbn. rewrite <- app_assoc. reflexivity.
  - constructor; [apply F; discriminate|]. apply B.
  - exists s'. split; [exact R'|]. apply (race_with s' (Th Worker) (Th Main)); [discriminate|exact N|exact M].
Qed.
Ltac wm new p cb c1 C := eapply (worker_and_main _ _ new p _ cb _ _ c1 _); [assumption|reflexivity|quiet|exact C|reflexivity|reflexivity|intros; go].

(** a callback on the main thread writes what the command thread is about to read (p: what it has done before) *)
Lemma main_and_cmd n v w f a p q cb k body c1 c2 o' :
  d_cmd w f a = p ++ Rd v :: q -> alone (Th Cmd) (fun _ => None) p o' -> o' (Sub k) = None ->
  d_callback n cb -> cb = dguard (Sub k) body -> body = c1 ++ Wr v :: c2 -> (forall o, alone (Th Main) o c1 o) ->
  exists s, d_reachable n s /\ race s v.
Proof.
  intros Eq A F C -> -> B.
  destruct (start_and_run n (Th Cmd) (d_cmd w f a) p (Rd v :: q) nds_init o' (DInit n) eq_refl (DSCmd n w f a) Eq A) as (s & R & E & U & O).
  destruct (meet n s (Th Cmd) (Rd v) q (Th Main) (dguard (Sub k) (c1 ++ Wr v :: c2)) (Take (Sub k) :: c1) (Wr v) (c2 ++ [Give (Sub k)])
    (put_l (held_by s) (Sub k) (Some (Th Main))) R E) as (s' & R' & N & M).
  - rewrite U by discriminate. reflexivity. - discriminate. - apply DSCallback. exact C. - unfold dguard. cbn. rewrite <- app_assoc. reflexivity.
  - constructor; [rewrite O; exact F|]. apply B.
  - exists s'. split; [exact R'|]. apply (race_with s' (Th Main) (Th Cmd)); [discriminate|exact M|exact N].
Qed.
Ltac cut_at v c := lazymatch c with Rd v :: ?q => constr:(@nil dact) | ?x :: ?q => let p := cut_at v q in constr:(x :: p) end.
Ltac mc v c1 C := let c := eval compute in (d_cmd [] (Fine false) true) in let p := cut_at v c in
  eapply (main_and_cmd _ v [] (Fine false) true p _ _ _ _ c1 _ _); [reflexivity|solve [go]|solve [locks; reflexivity]|exact C|reflexivity|reflexivity|intros; go].
(** the command thread writes what the planning thread is about to read *)
Lemma cmd_and_worker n v p q p' q' : 0 < n ->
  d_info_rest false ++ d_run ++ d_output ++ [Give (Mx Running); Rd LastWpTime] = p ++ Rd v :: q ->
  (forall o, o (Mx Param) = None -> exists o', alone (Th Worker) o p o' /\ same o' o) ->
  d_cmd [] (Fine false) true = p' ++ Wr v :: q' ->
  (forall o, o (Mx Waypoints) = None -> o (Mx Wg) = None -> exists o', alone (Th Cmd) o p' o') -> exists s, d_reachable n s /\ race s v.
Proof.
  intros Hn Eq A Eq' B. destruct (worker_at n false p _ Hn Eq A) as (s & R & E & U & O & F).
  destruct (B (held_by s)) as (o' & B'). { apply F. discriminate. } { apply F. discriminate. }
  destruct (meet n s (Th Worker) (Rd v) q (Th Cmd) (d_cmd [] (Fine false) true) p' (Wr v) q' o' R E) as (s' & R' & N & M).
  - apply U. discriminate. - discriminate. - apply DSCmd. - exact Eq'. - exact B'.
  - exists s'. split; [exact R'|]. apply (race_with s' (Th Cmd) (Th Worker)); [discriminate|exact M|exact N].
Qed.
(** the command thread and a third one *)
Lemma cmd_and n v w f a x y p q o' u c p' q' o'' : Th Cmd <> u ->
  d_cmd w f a = p ++ x :: q -> alone (Th Cmd) (fun _ => None) p o' -> d_script n u c -> c = p' ++ y :: q' -> alone u o' p' o'' ->
  (x = Wr v /\ y = Rd v \/ x = Rd v /\ y = Wr v) -> exists s, d_reachable n s /\ race s v.
Proof.
  intros D Eq A S Ec B XY.
  destruct (start_and_run n (Th Cmd) (d_cmd w f a) p (x :: q) nds_init o' (DInit n) eq_refl (DSCmd n w f a) Eq A) as (s & R & E & U & O).
  destruct (meet n s (Th Cmd) x q u c p' y q' o'' R E) as (s' & R' & N & M).
  - rewrite U by congruence. reflexivity. - exact D. - exact S. - exact Ec. - rewrite O. exact B.
  - exists s'. split; [exact R'|]. destruct XY as [(-> & ->)|(-> & ->)]; [apply (race_with s' (Th Cmd) u); assumption|apply (race_with s' u (Th Cmd)); [congruence|assumption|assumption]].
Qed.
Ltac cut_all c a := lazymatch c with a :: ?q => constr:(@nil dact) | ?x :: ?q => let p := cut_all q a in constr:(x :: p) end.

(** C114. "The node's threads never access shared data at the same time" is false of each of the members listed in [racy], however many cameras there are:
    there is a schedule after which one thread is about to write it while another one is about to read it. *)
Theorem C114_no_races_refuted : forall (n : nat) (v : var), 0 < n -> racy v = true -> exists s, d_reachable n s /\ race s v.
Proof.
  intros n v Hn Ra. destruct v; try discriminate Ra; clear Ra.
  - let c := eval compute in (d_cmd [] (Fine false) true) in let p := cut_all c (Wr NodeStatus) in
      eapply (cmd_and n NodeStatus [] (Fine false) true _ _ p _ _ StatusT d_status []);
        [discriminate|reflexivity|solve [go]|apply DSStatus|reflexivity|constructor|left; split; reflexivity].
  - mw false ([Rd NewestPos; Wr PlPos; Rd Velocity; Wr PlData; Rd NewestOri; Wr PlData; Rd Armed; Wr PlData; Rd NewGoal; Rd WpPos; Wr PlData] ++
      dguard (Mx Param) [Rd Px4] ++ [Wr PlData]) (d_cb_mission true) (@nil dact) (DMission n true).
  - mw false (@nil dact) d_cb_pose [Rd NewestPos; Wr LastPos] (DPose n).
  - mc LastPos [Rd NewestPos] (DPose n).
  - mw false [Rd NewestPos; Wr PlPos; Rd Velocity; Wr PlData] d_cb_pose [Rd NewestPos; Wr LastPos; Wr NewestPos] (DPose n).
  - mc PosReceived [Rd NewestPos; Wr LastPos; Wr NewestPos; Wr NewestOri] (DPose n).
  - mw false [Rd NewestPos; Wr PlPos] d_cb_velocity (@nil dact) (DVelocity n).
  - mw false [Rd NewestPos; Wr PlPos; Rd Velocity; Wr PlData; Rd NewestOri; Wr PlData] d_cb_state (@nil dact) (DState n).
  - mc NavState [Wr Armed] (DState n).
  - mw true [Rd NewestPos; Wr PlPos; Rd Velocity; Wr PlData; Rd NewestOri; Wr PlData; Rd Armed; Wr PlData; Rd NewGoal] d_cb_clicked
      [Wr NewGoal; Rd GoalPos; Wr PrevGoal] (DClicked n).
  - mw true [Rd NewestPos; Wr PlPos; Rd Velocity; Wr PlData; Rd NewestOri; Wr PlData; Rd Armed; Wr PlData; Rd NewGoal; Rd GoalPos; Wr PlGoal; Rd PlGoal; Wr PlData] d_cb_clicked
      [Wr NewGoal; Rd GoalPos] (DClicked n).
  - mw true [Rd NewestPos; Wr PlPos; Rd Velocity; Wr PlData; Rd NewestOri; Wr PlData; Rd Armed; Wr PlData] d_cb_clicked (@nil dact) (DClicked n).
  - mc DesiredVel [Rd GoalItem; Wr NewGoal; Rd GoalPos; Wr PrevGoal; Wr GoalPos] (DFcu n true true false false).
  - mc IsLand [Rd GoalItem; Wr NewGoal; Rd GoalPos; Wr PrevGoal; Wr GoalPos; Wr DesiredVel] (DFcu n true true false false).
  - mc IsTakeoff [Rd GoalItem; Wr NewGoal; Rd GoalPos; Wr PrevGoal; Wr GoalPos; Wr DesiredVel; Wr IsLand] (DFcu n true true false false).
  - let c := eval compute in (d_cmd [] (Fine false) true) in let p' := cut_all c (Wr WpPos) in
    eapply (cmd_and_worker n WpPos [Rd NewestPos; Wr PlPos; Rd Velocity; Wr PlData; Rd NewestOri; Wr PlData; Rd Armed; Wr PlData; Rd NewGoal] _ p' _ Hn); [reflexivity|quiet|reflexivity|].
    intros o F G. eexists. solve [go].
  - let c := eval compute in (d_cmd [] (Fine false) true) in let p' := cut_all c (Wr AdaptedWp) in
    let c2 := eval compute in (d_info_rest false ++ d_run ++ d_output ++ [Give (Mx Running); Rd LastWpTime]) in let p := cut_all c2 (Rd AdaptedWp) in
    eapply (cmd_and_worker n AdaptedWp p _ p' _ Hn); [reflexivity|quiet|reflexivity|].
    intros o F G. eexists. solve [go].
  - wm true [Rd NewestPos; Wr PlPos; Rd Velocity; Wr PlData; Rd NewestOri; Wr PlData; Rd Armed; Wr PlData; Rd NewGoal; Rd GoalPos] d_cb_clicked
      [Wr NewGoal; Rd GoalPos; Wr PrevGoal; Wr GoalPos] (DClicked n).
  - wm true [Rd NewestPos] d_cb_point (@nil dact) (DPoint n).
  - let c := eval compute in (d_cmd [(false, false)] (Fine false) true) in let p := cut_all c (Rd PlTimeout) in
      eapply (cmd_and n PlTimeout [(false, false)] (Fine false) true _ _ p _ _ (Th Recf) (d_reconf false) [Take (Mx Running); Wr PlConfig]);
        [discriminate|reflexivity|solve [go]|apply DSReconf|reflexivity|solve [go]|right; split; reflexivity].
  - let c := eval compute in (d_cmd [] (Fine false) true) in let p := cut_all c (Rd WgSmoothing) in
      eapply (cmd_and n WgSmoothing [] (Fine false) true _ _ p _ _ (Th Recf) (d_reconf false) [Take (Mx Running); Wr PlConfig; Wr PlTimeout; Rd PlGoal; Wr PlConfig]);
        [discriminate|reflexivity|solve [go]|apply DSReconf|reflexivity|solve [go]|right; split; reflexivity].
Qed.
Print Assumptions C114_no_races_refuted.

(** ** The mutex operations are those of NtModel.v *)
Definition ops (p : list dact) : list (bool * lock) :=
  flat_map (fun a => match a with Take (Mx l) => [(true, l)] | Give (Mx l) => [(false, l)] | _ => [] end) p.
Definition nt_ops (p : list act) : list (bool * lock) := flat_map (fun a => match a with Acq l => [(true, l)] | Rel l => [(false, l)] | _ => [] end) p.
Lemma ops_app p q : ops (p ++ q) = ops p ++ ops q. Proof. apply flat_map_app. Qed.
Lemma nt_ops_app p q : nt_ops (p ++ q) = nt_ops p ++ nt_ops q. Proof. apply flat_map_app. Qed.
Lemma ops_each (f : nat -> list dact) (g : nat -> list act) l : (forall i, ops (f i) = nt_ops (g i)) -> ops (flat_map f l) = nt_ops (flat_map g l).
Proof. intros H. induction l as [|i l IH]; [reflexivity|]. cbn [flat_map]. rewrite ops_app, nt_ops_app, H, IH. reflexivity. Qed.
Lemma ops_turns w : ops (flat_map d_turn w) = [].
Proof. induction w as [|[a b] w IH]; [reflexivity|]. cbn [flat_map]. rewrite ops_app, IH. destruct a, b; reflexivity. Qed.
Lemma ops_guard l b : ops (dguard (Mx l) b) = (true, l) :: ops b ++ [(false, l)].
Proof. unfold dguard. cbn [ops flat_map app]. fold (ops (b ++ [Give (Mx l)])). rewrite ops_app. reflexivity. Qed.
Lemma nt_guard l b : nt_ops (guard l b) = (true, l) :: nt_ops b ++ [(false, l)].
Proof. unfold guard. cbn [nt_ops flat_map app]. fold (nt_ops (b ++ [Rel l])). rewrite nt_ops_app. reflexivity. Qed.
Theorem C114_same_mutex_operations :
  forall (n : nat) (t : tid) (c : list dact), d_script n (Th t) c -> exists c', script n t c' /\ ops c = nt_ops c'.
Proof.
  intros n t c S. remember (Th t) as dt. destruct S as [|new Hn|i ex L|i ex L|i ex L|i ex L|k| |cb C|w f a|z|]; try discriminate; injection Heqdt as <-.
  - exists (worker_wait n). split; [apply SWait|]. unfold d_worker_wait, worker_wait. rewrite ops_app, nt_ops_app. f_equal. apply ops_each. reflexivity.
  - exists (worker_plan n). split; [apply SPlan|]. unfold d_worker_plan, worker_plan. rewrite ops_app, nt_ops_app. f_equal; [apply ops_each; reflexivity|].
    unfold update_info. rewrite ops_app, ops_guard, nt_guard, !ops_app, !nt_ops_app. cbn [app]. rewrite app_nil_r. do 2 f_equal.
    rewrite <- app_assoc. change (ops [Wr PlData]) with (@nil (bool * lock)). cbn [app]. f_equal; [apply ops_each; reflexivity|]. destruct new; reflexivity.
  - exists (xf_nothing i ex). split; [apply SNothing; exact L|]. destruct ex; reflexivity.
  - exists (xf_missing1 i ex). split; [apply SMissing1; exact L|]. destruct ex; reflexivity.
  - exists (xf_missing2 i ex). split; [apply SMissing2; exact L|]. destruct ex; reflexivity.
  - exists (xf_done i ex). split; [apply SDone; exact L|]. destruct ex; reflexivity.
  - exists (tf_round k). split; [apply STf|]. unfold d_tf_round, tf_round. rewrite ops_guard, nt_guard. do 2 f_equal.
    apply (ops_each (fun _ => d_insert) (fun _ => buf)). reflexivity.
  - exists check_round. split; [apply SCheck|reflexivity].
  - destruct C as [i dr fi L| | | | | |a|f u s o|v|k|f].
    + exists (cb_cloud i (negb dr && fi)). split; [apply SCallback, CbCloud; exact L|]. destruct dr, fi; reflexivity.
    + exists []. split; [apply SCallback, CbOther|reflexivity].
    + exists []. split; [apply SCallback, CbOther|reflexivity].
    + exists []. split; [apply SCallback, CbOther|reflexivity].
    + exists []. split; [apply SCallback, CbOther|reflexivity].
    + exists []. split; [apply SCallback, CbOther|reflexivity].
    + exists []. split; [apply SCallback, CbOther|destruct a; reflexivity].
    + exists []. split; [apply SCallback, CbOther|destruct f, u, s, o; reflexivity].
    + exists []. split; [apply SCallback, CbOther|destruct v; reflexivity].
    + exists cb_param. split; [apply SCallback, CbParam|destruct k; reflexivity].
    + exists []. split; [apply SCallback, CbOther|destruct f; reflexivity].
  - exists (cmd_loop false a). split; [apply SCmd|]. unfold d_cmd, cmd_loop. rewrite ops_guard, nt_guard, !ops_app, ops_turns.
    destruct f as [| |[|]], a; reflexivity.
  - exists reconfigure. split; [apply SReconf|destruct z; reflexivity].
Qed.
Print Assumptions C114_same_mutex_operations.
