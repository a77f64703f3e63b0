(** Where the vehicle descends, what vertical speeds are commanded, how many grids a decision rests on. *)
From Coq Require Import ZArith Reals List Bool Lia Lra.
From Flocq Require Import Core BinarySingleNaN.
From Verif Require Import Num Mat CommonModel PfModel PfSpec StarModel LpModel UsmModel SlModel SlSpec SlProofs SwModel SwSpec SwProofs SwProofs2 SwProofs3 SwProofs4.
Import ListNotations.
Local Open Scope Z_scope.

Section Descent.
Context (N : num) (G : trig N) (ceilc rnd cast : N -> Z).
Notation nstep := (nstep N G ceilc rnd cast).
Notation nrun := (nrun N G ceilc rnd cast).
Notation calc := (calculateWaypoint N G rnd cast).
Notation run_state := (run_state N G rnd cast).

Definition quiet (o : sop N) : Prop := is_traj o = false /\ is_mode o = false.
(** on the way to an accepted site *)
Definition homing (g : vec3 N) (x : sw N) : Prop :=
  x_reset x = false /\ x_island x = true /\ x_radius x = cst N 1 2 /\ x_goal x = g /\ (x_state x = GOTO_LAND \/ x_state x = LAND).
Lemma homing_step g n o n' out : quiet o -> homing g (n_x n) -> nstep n o = Some (n', out) -> homing g (n_x n').
Proof using.
  intros [Q1 Q2] (H1 & H2 & H3 & H4 & H5) E. destruct (cycle_dec N n o) as [[-> Rc]|Cb].
  - destruct (cycle_inv _ _ _ _ _ _ _ _ E Rc) as (C & _). destruct (calc_cases _ _ _ _ _ _ _ C) as [(R & _)|(_ & t & y & Rs & X)]; [congruence|].
    destruct (update_frame N (n_x n)) as (U1 & _ & U3 & U4 & _ & _ & _ & _ & U9 & _ & _ & _ & _ & _ & _ & _ & _ & U18 & _). destruct (U18 H2) as (_ & _ & _ & _ & _ & U).
    set (u := updateSLPState N (n_x n)) in *.
    assert (Hu : x_state u = GOTO_LAND \/ x_state u = LAND) by (rewrite U1; exact H5).
    unfold SwProofs2.run_state in Rs. destruct Hu as [Hu|Hu]; rewrite Hu in Rs.
    + unfold runGoToLand in Rs. injection Rs as <- <- <-. rewrite X. destruct (withinLandingRadius N u); unfold homing; cbn; rewrite ?Hu, ?U3, ?U4, ?U9, ?U; auto 10.
    + unfold runLand in Rs. injection Rs as <- <- <-. rewrite X. unfold homing; cbn. rewrite ?Hu, ?U3, ?U4, ?U9, ?U; auto 10.
  - destruct (callback_inv _ _ _ _ _ _ _ _ _ E Cb) as (_ & S1 & _ & _ & _ & _ & _ & _ & S8 & _ & _ & _ & _ & _ & _ & _ & _ & S17 & S18 & S19 & _).
    destruct (S17 Q1) as [S17' _]. unfold homing. rewrite S1, S8, S17', (S18 Q1 Q2), (S19 Q2). auto.
Qed.
Lemma homing_run g os : Forall quiet os -> forall n n' out, homing g (n_x n) -> nrun n os = Some (n', out) -> homing g (n_x n').
Proof using.
  induction 1 as [|o os Q F IH]; intros n n' out H E; cbn [SwModel.nrun] in E; [injection E as <- <-; exact H|].
  destruct (nstep n o) as [[n1 o1]|] eqn:E1; cbn [obind fst snd] in E; [|discriminate].
  destruct (nrun n1 os) as [[n2 o2]|] eqn:E2; cbn [obind fst snd] in E; [|discriminate]. injection E as <- <-. eapply IH; [|exact E2]. eapply homing_step; eauto.
Qed.
(** the cycle that accepts a site *)
Lemma accept_homing n n' out : n_received n = true -> x_state (n_x n) = EVALUATE_GRID -> x_island (n_x n) = true -> nstep n OCycle = Some (n', out) -> x_state (n_x n') = GOTO_LAND ->
  exists d, let u := updateSLPState N (n_x n) in accepts N u d /\
    homing (if (fst d =? 0) && (snd d =? 0) then x_goal u else
      V3 (add N (vx (x_pos u)) (mul N (ofZ N (fst d)) (g_cell (x_grid u)))) (add N (vy (x_pos u)) (mul N (ofZ N (snd d)) (g_cell (x_grid u)))) (vz (x_pos u))) (n_x n').
Proof using.
  intros Rc St Is E S'. destruct (cycle_inv _ _ _ _ _ _ _ _ E Rc) as (C & _). destruct (calc_cases _ _ _ _ _ _ _ C) as [(R & X & _)|(R & t & y & Rs & X)].
  { rewrite X in S'. discriminate. }
  destruct (update_frame N (n_x n)) as (U1 & _ & U3 & U4 & _). set (u := updateSLPState N (n_x n)) in *.
  destruct (run_state_frame _ _ _ _ _ _ _ _ Rs) as [(F1 & _ & F3 & F4 & _) _].
  assert (Su : x_state u = EVALUATE_GRID) by congruence. unfold SwProofs2.run_state in Rs. rewrite Su in Rs, F1.
  assert (t = NEXT2). { rewrite X in S'. destruct t; cbn in S'; rewrite F1 in S'; try discriminate. reflexivity. }
  subst t. destruct (evaluate_accepts _ _ _ _ Rs) as (d & A & Gl). exists d. split; [exact A|]. rewrite X. unfold homing.
  assert (Rd : x_radius y = cst N 1 2).
  { unfold runEvaluateGrid in Rs. destruct (evaluatePatch _ _ _ _) as [[|]|]; cbn [obind] in Rs; try discriminate; [injection Rs as <- <-; reflexivity|].
    destruct (findPatch _ _ _ _ _ _) as [[e|]|]; cbn [obind] in Rs; try discriminate. injection Rs as <- <-. reflexivity. }
  cbn [x_flags x_reset x_island x_radius x_goal x_state]. rewrite F1. split; [congruence|]. split; [congruence|]. split; [exact Rd|]. split; [exact Gl|]. left. reflexivity.
Qed.
(** the descent *)
Definition setp_at (a : vec3 N) (y : N) (s : setp N) : Prop :=
  vx (sp_pos s) = vx a /\ vy (sp_pos s) = vy a /\ vz (sp_pos s) = nanv N /\ sp_vel s = V3 (nanv N) (nanv N) (opp N (LAND_SPEED N)) /\ sp_yaw s = y /\ sp_yawrate s = nanv N.
Lemma land_cycle n n' out : n_received n = true -> x_state (n_x n) = LAND -> x_reset (n_x n) = false -> nstep n OCycle = Some (n', out) ->
  let a := if x_changed (n_x n) then x_pos (n_x n) else x_loiter (n_x n) in let y := if x_changed (n_x n) then x_yaw (n_x n) else x_loiter_yaw (n_x n) in
  (exists s, out = [s] /\ setp_at a y s) /\ vx (x_loiter (n_x n')) = vx a /\ vy (x_loiter (n_x n')) = vy a /\ x_loiter_yaw (n_x n') = y /\
  x_changed (n_x n') = false /\ x_state (n_x n') = LAND /\ x_reset (n_x n') = false.
Proof using.
  intros Rc St Rs E a y0. destruct (cycle_inv _ _ _ _ _ _ _ _ E Rc) as (C & _). destruct (calc_cases _ _ _ _ _ _ _ C) as [(R & _)|(_ & t & y & Rn & X)]; [congruence|].
  destruct (update_frame N (n_x n)) as (U1 & _ & U3 & U4 & U5 & _ & _ & U8 & _ & _ & U11 & _ & _ & U14 & U15 & _). set (u := updateSLPState N (n_x n)) in *.
  unfold SwProofs2.run_state in Rn. rewrite U1, St in Rn. unfold runLand in Rn. rewrite U5, U8, U11, U14, U15 in Rn. injection Rn as <- <- <-. rewrite X.
  assert (D : y0 = if x_changed (n_x n) then x_yaw (n_x n) else x_loiter_yaw (n_x n)) by reflexivity. assert (Da : a = if x_changed (n_x n) then x_pos (n_x n) else x_loiter (n_x n)) by reflexivity.
  rewrite <- D, <- Da. cbn. rewrite U1, U3, St, Rs. split; [|auto 10]. eexists. split; [reflexivity|]. repeat split.
Qed.
Lemma land_run os : Forall (fun o => is_mode o = false) os -> forall n n' out, x_state (n_x n) = LAND -> x_reset (n_x n) = false -> x_changed (n_x n) = false ->
  nrun n os = Some (n', out) -> Forall (setp_at (x_loiter (n_x n)) (x_loiter_yaw (n_x n))) out /\ x_state (n_x n') = LAND.
Proof using.
  induction 1 as [|o os Q F IH]; intros n n' out S1 S2 S3 E; cbn [SwModel.nrun] in E; [injection E as <- <-; split; [constructor|exact S1]|].
  destruct (nstep n o) as [[n1 o1]|] eqn:E1; cbn [obind fst snd] in E; [|discriminate].
  destruct (nrun n1 os) as [[n2 o2]|] eqn:E2; cbn [obind fst snd] in E; [|discriminate]. injection E as <- <-.
  destruct (cycle_dec N n o) as [[-> Rc]|Cb].
  - destruct (land_cycle _ _ _ Rc S1 S2 E1) as ((s & -> & Sp) & L1 & L2 & L3 & L4 & L5 & L6). rewrite S3 in *. destruct (IH _ _ _ L5 L6 L4 E2) as [I1 I2].
    split; [|exact I2]. cbn [app]. constructor; [exact Sp|]. eapply Forall_impl; [|exact I1]. intros q (A1 & A2 & A3 & A4 & A5 & A6). unfold setp_at. rewrite A1, A2, A3, A4, A5, A6. auto 10.
  - destruct (callback_inv _ _ _ _ _ _ _ _ _ E1 Cb) as (-> & C1 & C2 & _ & _ & _ & _ & _ & _ & C10 & _ & _ & _ & _ & C15 & _ & _ & _ & _ & C20 & _).
    rewrite <- C10, <- C15. cbn [app]. apply IH; [congruence|rewrite (C20 Q); exact S2|congruence|exact E2].
Qed.

(** vertical speeds *)
Definition vspeed (ts : list (traj N)) (v : N) : Prop :=
  v = nanv N \/ v = mul N (ofZ N 1) (LAND_SPEED N) \/ v = mul N (opp N (ofZ N 1)) (LAND_SPEED N) \/ v = opp N (LAND_SPEED N) \/ exists m, In m ts /\ v = vz (t_v1 m).
Fixpoint trajs (os : list (sop N)) : list (traj N) := match os with [] => [] | OTraj m :: os' => m :: trajs os' | _ :: os' => trajs os' end.
Lemma run_vspeed ts u t y out : vspeed ts (vz (x_vel u)) -> run_state u = Some (t, y, out) -> vspeed ts (vz (x_vel y)) /\ Forall (fun s => vspeed ts (vz (sp_vel s))) out.
Proof using.
  intros V E. assert (Vn : vspeed ts (nanv N)) by (left; reflexivity). unfold SwProofs2.run_state in E. destruct (x_state u).
  - unfold runGoTo in E. set (x0 := if x_explore u then _ else u) in E. assert (V0 : vz (x_vel x0) = vz (x_vel u)) by (unfold x0; destruct (x_explore u); reflexivity).
    destruct (landingAreaHeightPercentile _ _ _ _ _) as [al|]; cbn [obind] in E; [|discriminate].
    match type of E with (if ?b then _ else _) = _ => destruct b end; [injection E as <- <- <-; cbn; rewrite ?V0; (split; [auto|constructor; [cbn; rewrite ?V0; auto|constructor]])|].
    match type of E with (if ?b then _ else _) = _ => destruct b end; [|injection E as <- <- <-; cbn; rewrite ?V0; (split; [auto|constructor; [cbn; rewrite ?V0; auto|constructor]])].
    unfold nextExploration in E. match type of E with context [if ?b =? ?c then _ else _] => destruct (b =? c) end; (destruct (vget _ _) as [dd|]; cbn [obind] in E; [|discriminate]); injection E as <- <- <-; cbn; rewrite ?V0; (split; [auto|constructor; [cbn; rewrite ?V0; auto|constructor]]).
  - unfold runLoiter in E. destruct (_ <=? 20); [destruct (hystStep N _); cbn [obind] in E; [|discriminate]|]; injection E as <- <- <-; cbn; (split; [auto|constructor; [cbn; auto|constructor]]).
  - unfold runLand in E. injection E as <- <- <-. cbn. split; [exact V|]. constructor; [|constructor]. unfold vspeed. auto.
  - unfold runAltitudeChange in E. destruct (landingAreaHeightPercentile _ _ _ _ _) as [al|]; cbn [obind] in E; [|discriminate].
    assert (Vd : vspeed ts (mul N (if ltb N (sub N (absv N (sub N (vz (x_pos u)) al)) (q_height (x_cfg u))) (ofZ N 0) then ofZ N 1 else opp N (ofZ N 1)) (LAND_SPEED N))) by (unfold vspeed; destruct (ltb N _ _); auto).
    destruct (inVerticalRange N _); injection E as <- <- <-; cbn; (split; [auto|constructor; [cbn; auto|constructor]]).
  - unfold runEvaluateGrid in E. destruct (evaluatePatch _ _ _ _) as [[|]|]; cbn [obind] in E; try discriminate; [injection E as <- <- <-; cbn; (split; [auto|constructor; [cbn; auto|constructor]])|].
    destruct (findPatch _ _ _ _ _ _) as [[e|]|]; cbn [obind] in E; try discriminate; injection E as <- <- <-; cbn; (split; [auto|constructor; [cbn; auto|constructor]]).
  - unfold runGoToLand in E. injection E as <- <- <-. cbn. split; [auto|constructor; [cbn; auto|constructor]].
Qed.
Lemma vspeed_mono ts ts' v : (forall m, In m ts -> In m ts') -> vspeed ts v -> vspeed ts' v.
Proof using. intros H [V|[V|[V|[V|(m & I & V)]]]]; unfold vspeed; auto. do 4 right. eauto. Qed.
Lemma step_vspeed ts n o n' out : (forall m, o = OTraj m -> In m ts) -> vspeed ts (vz (x_vel (n_x n))) -> nstep n o = Some (n', out) ->
  vspeed ts (vz (x_vel (n_x n'))) /\ Forall (fun s => vspeed ts (vz (sp_vel s))) out.
Proof using.
  intros T V E. destruct (cycle_dec N n o) as [[-> Rc]|Cb].
  - destruct (cycle_inv _ _ _ _ _ _ _ _ E Rc) as (C & _). destruct (update_frame N (n_x n)) as (_ & _ & _ & _ & _ & _ & _ & _ & _ & U10 & _).
    destruct (calc_cases _ _ _ _ _ _ _ C) as [(_ & X & ->)|(_ & t & y & Rn & X)].
    + rewrite X. cbn. rewrite U10. auto.
    + rewrite <- U10 in V. destruct (run_vspeed _ _ _ _ _ V Rn) as [V1 V2]. split; [|exact V2]. rewrite X. destruct t; exact V1.
  - destruct (callback_inv _ _ _ _ _ _ _ _ _ E Cb) as (-> & _ & _ & _ & _ & _ & _ & _ & _ & _ & _ & _ & _ & _ & _ & _ & _ & C18 & _). split; [|constructor].
    destruct (is_traj o) eqn:It; [|destruct (C18 eq_refl) as [_ ->]; exact V]. destruct o as [c|p y|m|m a|m|]; try discriminate. cbn in E. injection E as <-. cbn.
    match goal with |- context [if ?b then t_v1 m else _] => destruct b end; [|exact V]. do 4 right. exists m. auto.
Qed.
Lemma run_vspeed_hist os : forall ts n n' out, (forall m, In m (trajs os) -> In m ts) -> vspeed ts (vz (x_vel (n_x n))) -> nrun n os = Some (n', out) ->
  Forall (fun s => vspeed ts (vz (sp_vel s))) out.
Proof using.
  induction os as [|o os IH]; intros ts n n' out T V E; cbn [SwModel.nrun] in E; [injection E as <- <-; constructor|].
  destruct (nstep n o) as [[n1 o1]|] eqn:E1; cbn [obind fst snd] in E; [|discriminate].
  destruct (nrun n1 os) as [[n2 o2]|] eqn:E2; cbn [obind fst snd] in E; [|discriminate]. injection E as <- <-.
  assert (T1 : forall m, o = OTraj m -> In m ts) by (intros m ->; apply T; left; reflexivity).
  destruct (step_vspeed ts n o n1 o1 T1 V E1) as [V1 V2]. apply Forall_app. split; [exact V2|]. eapply IH; [|exact V1|exact E2]. intros m I. apply T. destruct o; cbn; auto.
Qed.
End Descent.

Lemma gapless_tail l1 l2 : gapless (l1 ++ l2) -> gapless l2.
Proof. induction l1 as [|a l1 IH]; intros H; [exact H|]. apply IH. cbn in H. destruct (l1 ++ l2); [exact I|apply H]. Qed.
Lemma gapless_span l : forall a b, gapless (a :: l ++ [b]) -> Z.abs (b - a) <= Z.of_nat (length l) + 1.
Proof.
  induction l as [|c l IH]; intros a b H.
  - cbn in *. lia.
  - cbn [app] in H. destruct H as [H1 H2]. specialize (IH c b H2). cbn [length]. lia.
Qed.
Lemma hist_vspeed (N : num) G ceilc rnd cast junk os n out : nrun N G ceilc rnd cast (node_init N ceilc junk) os = Some (n, out) ->
  forall s, In s out -> vspeed N (trajs N os) (vz (sp_vel s)).
Proof.
  intros E. apply Forall_forall. eapply run_vspeed_hist; [|left|exact E]; [auto|reflexivity].
Qed.
