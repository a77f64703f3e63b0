(** Proofs about the local planner node. *)
From Coq Require Import ZArith List Bool Lia String.
From Verif Require Import Num Mat CommonModel HistModel PfModel StarModel LpModel UsmModel WgModel NodeModel NodeSpec NodeProofs NlModel NlSpec CommonProofs2.
Import ListNotations.
Local Open Scope Z_scope.

(* ------------------------------------------------------------------ lists *)
Lemma upd_length {A} (l : list A) i f : List.length (upd l i f) = List.length l.
Proof. revert i; induction l; intros [|i]; cbn; congruence. Qed.
Lemma upd_nth {A} (l : list A) i f j :
  nth_error (upd l i f) j = if Nat.eqb i j then option_map f (nth_error l j) else nth_error l j.
Proof. revert i j; induction l as [|x l IH]; intros [|i] [|j]; cbn; try reflexivity; [destruct (Nat.eqb i j); reflexivity|apply IH]. Qed.

Section Sub.
Context {A B : Type}.
Lemma sub_nil_any (R : A -> B -> Prop) m : subseq R [] m.
Proof. induction m; constructor; assumption. Qed.
Lemma sub_mono (R R' : A -> B -> Prop) : (forall a b, R a b -> R' a b) -> forall l m, subseq R l m -> subseq R' l m.
Proof. intros H l m S; induction S; [constructor|constructor 2; assumption|constructor 3; auto]. Qed.
Lemma sub_more (R : A -> B -> Prop) l m y : subseq R l m -> subseq R l (m ++ [y]).
Proof. intros S; induction S; cbn; [apply sub_nil_any|constructor 2; assumption|constructor 3; assumption]. Qed.
Lemma sub_snoc (R : A -> B -> Prop) l m x y : subseq R l m -> R x y -> subseq R (l ++ [x]) (m ++ [y]).
Proof.
  intros S Hr; induction S; cbn; [constructor 3; [assumption|constructor]|constructor 2; auto|constructor 3; auto].
Qed.
Lemma sub_drop (R : A -> B -> Prop) l m : subseq R l m -> forall a b c, l = a ++ b ++ c -> subseq R (a ++ c) m.
Proof.
  intros S; induction S; intros a b c E.
  - destruct a, b, c; try discriminate; constructor.
  - constructor 2; eauto.
  - destruct a as [|a0 a].
    + destruct b as [|b0 b].
      * cbn in *; subst c; constructor 3; assumption.
      * cbn in E; injection E as <- ->. constructor 2. exact (IHS [] b c eq_refl).
    + injection E as <- ->. cbn. constructor 3; [assumption|eapply IHS; reflexivity].
Qed.
Lemma sub_change (R : A -> B -> Prop) l m x x' : subseq R (l ++ [x]) m -> (forall y, R x y -> R x' y) -> subseq R (l ++ [x']) m.
Proof.
  intros S H. remember (l ++ [x]) as k eqn:E. revert l E; induction S; intros l0 E.
  - destruct l0; discriminate.
  - constructor 2; auto.
  - destruct l0 as [|z l0]; cbn in *; injection E as <- E.
    + subst l. constructor 3; auto.
    + constructor 3; auto.
Qed.
End Sub.
Lemma sub_map {A A' B} (f : A -> A') (R : A' -> B -> Prop) l m : subseq (fun a b => R (f a) b) l m <-> subseq R (map f l) m.
Proof.
  split.
  - intros S; induction S; cbn; constructor; assumption.
  - revert l; induction m as [|y m IH]; intros l S.
    + destruct l; [constructor|inversion S].
    + inversion S; subst.
      * constructor 2; auto.
      * destruct l as [|a l]; [discriminate|]. cbn in *. match goal with E : _ :: _ = _ :: _ |- _ => injection E as -> -> end. constructor 3; auto.
Qed.

Section Nl.
Context (N : num) (G : trig N) (secs : Z -> N) (travel : Z -> N -> N) (getyaw : quat N -> N).
Context (P : Type) (pl_run : P -> plan_in N -> Z -> P) (pl_out : P -> output N) (pl_scan : P -> N * list N).
Notation stepN := (step N G secs travel getyaw P pl_run pl_out pl_scan).
Notation runN := (run N G secs travel getyaw P pl_run pl_out pl_scan).
Notation workN := (workerStep N P pl_run pl_out pl_scan).
Notation state := (nl N P).

Lemma scan_last_result a b (r : list (out N)) : last_result (laserScan N a b ++ r) = last_result r.
Proof. unfold laserScan. destruct (negb _); [destruct (ltb _ _ _)|]; reflexivity. Qed.
Lemma run_app es es' : forall s, runN s (es ++ es') = match runN s es with Some s' => runN s' es' | None => None end.
Proof. induction es as [|e es IH]; intros s; cbn; [reflexivity|]. destruct (stepN s e); auto. Qed.

(** induction over histories, newest event last *)
Lemma run_ind (I : list (ev N) -> state -> Prop) s0 :
  I [] s0 -> (forall es s e s', I es s -> runN s0 es = Some s -> stepN s e = Some s' -> I (es ++ [e]) s') ->
  forall es s, runN s0 es = Some s -> I es s.
Proof.
  intros H0 HS es; induction es as [|e es IH] using rev_ind; intros s H; [injection H as <-; exact H0|].
  rewrite run_app in H. destruct (runN s0 es) as [s1|] eqn:E; [|discriminate]. cbn in H.
  destruct (stepN s1 e) as [s2|] eqn:E2; [|discriminate]. injection H as <-. eapply HS; eauto.
Qed.

(* ------------------------------------------------------------------ C41 *)
Ltac open_step H := cbn [step] in H;
  repeat match type of H with
  | match ?x with _ => _ end = Some _ => destruct x eqn:?; try discriminate
  end; injection H as <-.

Lemma work_log_setpoints s now : setpoints (s_log (workN s now)) = setpoints (s_log s).
Proof.
  unfold workerStep.
  repeat match goal with |- context [match ?x with _ => _ end] => destruct x end; cbn; try reflexivity.
  unfold laserScan. destruct (negb _); [destruct (ltb _ _ _)|]; reflexivity.
Qed.

Lemma only_cmd_publishes_or s e s' : stepN s e = Some s' -> setpoints (s_log s') = setpoints (s_log s) \/
  exists now q, e = ECmdEnd now /\ s_cmd s = Some q /\ s_posrec s = true /\ s_status s' = ACTIVE.
Proof.
  intros H. destruct e; cbn [step] in H.
  - injection H as <-. left; reflexivity.
  - open_step H; left; reflexivity.
  - injection H as <-. left; apply work_log_setpoints.
  - injection H as <-. left. unfold cmdStart. destruct (s_cmd s); reflexivity.
  - injection H as <-. left. unfold cmdPoll. destruct (s_cmd s); [destruct (_ && _)|]; reflexivity.
  - injection H as <-. unfold cmdEnd in *. destruct (s_cmd s) as [q|]; [|left; reflexivity].
    destruct (s_posrec s); [|left; reflexivity].
    destruct (checkFailsafe _ _ _ _ _) as [st h].
    destruct st; cbn in *; try (left; reflexivity). right. exists now, q. repeat split.
  - injection H as <-. left; reflexivity.
  - injection H as <-. left; reflexivity.
  - injection H as <-. left; reflexivity.
  - injection H as <-. left; reflexivity.
  - injection H as <-. left. destruct gs; [reflexivity|destruct (s_accept s); reflexivity].
  - injection H as <-. left. unfold fcuInputGoal. destruct (_ && _); destruct (_ =? 1); reflexivity.
  - injection H as <-. left; reflexivity.
  - injection H as <-. left. unfold reconf. destruct (workerHoldsRunning _); reflexivity.
Qed.
Lemma only_cmd_publishes s e s' : stepN s e = Some s' -> setpoints (s_log s') <> setpoints (s_log s) ->
  exists now q, e = ECmdEnd now /\ s_cmd s = Some q /\ s_posrec s = true /\ s_status s' = ACTIVE.
Proof. intros H D. destruct (only_cmd_publishes_or s e s' H); [contradiction|assumption]. Qed.

Definition cmd_inv (start : Z) (s : state) : Prop :=
  s_last_wp s = last_result (s_log s) /\ s_start s = start /\ (forall q, s_cmd s = Some q -> s_hover s = false).

Lemma work_cmd_inv start s now : cmd_inv start s -> cmd_inv start (workN s now).
Proof.
  intros (A & B & C). unfold workerStep, cmd_inv.
  repeat match goal with |- context [match ?x with _ => _ end] => destruct x eqn:? end; cbn; repeat split; auto.
  all: try (unfold laserScan; destruct (negb _); [destruct (ltb _ _ _)|]; cbn; assumption).
  all: intros; try congruence; eapply C; reflexivity.
Qed.
Lemma step_cmd_inv start s e s' : cmd_inv start s -> stepN s e = Some s' -> cmd_inv start s'.
Proof.
  intros I H. pose proof I as (A & B & C). destruct e; cbn [step] in H.
  - injection H as <-. repeat split; assumption.
  - open_step H; repeat split; assumption.
  - injection H as <-. apply work_cmd_inv; assumption.
  - injection H as <-. unfold cmdStart. destruct (s_cmd s) eqn:E; (split; [|split]); cbn; auto; intros; eauto.
  - injection H as <-. unfold cmdPoll. destruct (s_cmd s) eqn:E; [destruct (_ && _)|]; (split; [|split]); cbn; auto; intros; eauto; congruence.
  - injection H as <-. unfold cmdEnd. destruct (s_cmd s) as [q|] eqn:E; [|exact I].
    destruct (s_posrec s); [|exact I]. destruct (checkFailsafe _ _ _ _ _) as [st h].
    destruct st; repeat split; cbn; auto; discriminate.
  - injection H as <-. repeat split; assumption.
  - injection H as <-. repeat split; assumption.
  - injection H as <-. repeat split; assumption.
  - injection H as <-. repeat split; assumption.
  - injection H as <-. destruct gs; [|destruct (s_accept s)]; repeat split; assumption.
  - injection H as <-. unfold fcuInputGoal. destruct (_ && _); destruct (_ =? 1); repeat split; assumption.
  - injection H as <-. repeat split; assumption.
  - injection H as <-. unfold reconf. destruct (workerHoldsRunning _); repeat split; assumption.
Qed.
Lemma run_cmd_inv n start goal acc lp l w jv jq es s :
  runN (init N P n start goal acc lp l w jv jq) es = Some s -> cmd_inv start s.
Proof.
  revert es s. apply (run_ind (fun _ s => cmd_inv start s)).
  - split; [reflexivity|split; [reflexivity|cbn; discriminate]].
  - intros es s e s' I _ St. eapply step_cmd_inv; eauto.
Qed.

Lemma cmd_end_cases n start goal acc lp l w jv jq es s q now s' :
  runN (init N P n start goal acc lp l w jv jq) es = Some s ->
  s_cmd s = Some q -> s_posrec s = true -> stepN s (ECmdEnd now) = Some s' ->
  let cloud := now - last_result (s_log s) in
  (stale_15s cloud (now - start) -> s_status s' = TERMINATION /\ s_log s' = s_log s) /\
  (~ stale_15s cloud (now - start) -> stale_half_s cloud (now - start) -> s_status s' = CRITICAL /\ s_log s' = s_log s) /\
  (~ stale_15s cloud (now - start) -> ~ stale_half_s cloud (now - start) ->
     s_status s' = ACTIVE /\ s_log s' = sp_of N G secs travel getyaw P s now ++ s_log s).
Proof.
  intros R Q Pz St cloud. destruct (run_cmd_inv _ _ _ _ _ _ _ _ _ _ _ R) as (A & B & C).
  cbn [step] in St. injection St as <-. unfold cmdEnd. rewrite Q, Pz, A, B, (C _ Q). fold cloud.
  destruct (checkFailsafe true (s_status s) cloud (now - start) false) as [st h] eqn:E.
  destruct (checkFailsafe_cases _ _ _ _ _ _ E) as (H1 & H2 & H3).
  split; [|split].
  - intros X; destruct (H1 X) as [-> ->]; split; reflexivity.
  - intros X Y; destruct (H2 X Y) as [-> ->]; split; reflexivity.
  - intros X Y; destruct (H3 X Y) as (-> & H4 & _). rewrite (H4 eq_refl). split; reflexivity.
Qed.

(* ------------------------------------------------------------------ C72: a new pose for every cycle *)
Lemma step_posrec s e s' : stepN s e = Some s' -> is_pos e = false -> s_posrec s = false ->
  s_posrec s' = false /\ setpoints (s_log s') = setpoints (s_log s).
Proof.
  intros H Hp F. split.
  - destruct e; cbn [step] in H; try discriminate.
    + injection H as <-; assumption.
    + open_step H; assumption.
    + injection H as <-. unfold workerStep.
      repeat match goal with |- context [match ?x with _ => _ end] => destruct x end; cbn; assumption.
    + injection H as <-. unfold cmdStart. destruct (s_cmd s); assumption.
    + injection H as <-. unfold cmdPoll. destruct (s_cmd s); [destruct (_ && _)|]; assumption.
    + injection H as <-. unfold cmdEnd. destruct (s_cmd s); [rewrite F|]; assumption.
    + injection H as <-; assumption.
    + injection H as <-; assumption.
    + injection H as <-; assumption.
    + injection H as <-. destruct gs; [|destruct (s_accept s)]; assumption.
    + injection H as <-. unfold fcuInputGoal. destruct (_ && _); destruct (_ =? 1); assumption.
    + injection H as <-; assumption.
    + injection H as <-. unfold reconf. destruct (workerHoldsRunning _); assumption.
  - destruct (only_cmd_publishes_or s e s' H) as [E|(now & q & _ & _ & E & _)]; [exact E|congruence].
Qed.
Lemma run_no_pose es : forall s s', runN s es = Some s' -> forallb (fun e => negb (is_pos e)) es = true -> s_posrec s = false ->
  s_posrec s' = false /\ setpoints (s_log s') = setpoints (s_log s).
Proof.
  induction es as [|e es IH]; cbn; intros s s' R F Hp; [injection R as <-; auto|].
  destruct (stepN s e) as [s1|] eqn:E; [|discriminate]. apply andb_true_iff in F as [F1 F2].
  destruct (step_posrec s e s1 E) as [A B]; [destruct (is_pos e); [discriminate|reflexivity]|assumption|].
  destruct (IH _ _ R F2 A) as [C D]. split; [exact C|congruence].
Qed.
Lemma cycle_consumes_pose s now s' q : s_cmd s = Some q -> s_posrec s = true -> stepN s (ECmdEnd now) = Some s' -> s_posrec s' = false.
Proof.
  intros Q Pz H. cbn [step] in H. injection H as <-. unfold cmdEnd. rewrite Q, Pz.
  destruct (checkFailsafe _ _ _ _ _) as [st h]. destruct st; reflexivity.
Qed.
Lemma fresh_pose_per_setpoint s now s1 es s2 :
  stepN s (ECmdEnd now) = Some s1 -> setpoints (s_log s1) <> setpoints (s_log s) ->
  runN s1 es = Some s2 -> setpoints (s_log s2) <> setpoints (s_log s1) -> exists p q, In (EPos p q) es.
Proof.
  intros H D R D2. destruct (only_cmd_publishes s _ s1 H D) as (n' & q & _ & Q & Pz & _).
  pose proof (cycle_consumes_pose _ _ _ _ Q Pz H) as F.
  destruct (forallb (fun e => negb (is_pos e)) es) eqn:A.
  - exfalso. apply D2. apply (run_no_pose es s1 s2 R A F).
  - assert (B : existsb is_pos es = true).
    { clear -A. induction es as [|e es IH]; cbn in *; [discriminate|].
      destruct (is_pos e); [reflexivity|cbn in A; auto]. }
    apply existsb_exists in B as (e & I & Hp). destruct e; try discriminate. eexists _, _; exact I.
Qed.
(** while the command loop waits for a pose, no planner result is handed over *)
Lemma waiting_blocks_planner es : forall s s' q, runN s es = Some s' -> forallb (fun e => negb (is_pos e)) es = true ->
  s_cmd s = Some q -> s_posrec s = false -> s_cmd s' = Some q /\ last_result (s_log s') = last_result (s_log s).
Proof.
  induction es as [|e es IH]; cbn; intros s s' q R F Q Hp; [injection R as <-; auto|].
  destruct (stepN s e) as [s1|] eqn:E; [|discriminate]. apply andb_true_iff in F as [F1 F2].
  destruct (step_posrec s e s1 E) as [A _]; [destruct (is_pos e); [discriminate|reflexivity]|assumption|].
  assert (C : s_cmd s1 = Some q /\ last_result (s_log s1) = last_result (s_log s)).
  { clear IH R. destruct e; cbn [step] in E; try discriminate.
    - injection E as <-; auto.
    - open_step E; auto.
    - injection E as <-. unfold workerStep. rewrite Q.
      repeat match goal with |- context [match ?x with _ => _ end] => destruct x end; cbn -[laserScan]; auto.
      split; [assumption|]. rewrite <- app_assoc. rewrite scan_last_result. reflexivity.
    - injection E as <-. unfold cmdStart. rewrite Q. auto.
    - injection E as <-. unfold cmdPoll. rewrite Q. destruct (_ && _); auto.
    - injection E as <-. unfold cmdEnd. rewrite Q, Hp. auto.
    - injection E as <-; auto.
    - injection E as <-; auto.
    - injection E as <-; auto.
    - injection E as <-. destruct gs; [|destruct (s_accept s)]; auto.
    - injection E as <-. unfold fcuInputGoal. destruct (_ && _); destruct (_ =? 1); auto.
    - injection E as <-; auto.
    - injection E as <-. unfold reconf. destruct (workerHoldsRunning _); auto. }
  destruct C as [C1 C2]. destruct (IH _ _ _ R F2 C1 A) as [D1 D2]. split; [exact D1|congruence].
Qed.
End Nl.
