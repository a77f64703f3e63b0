(** The landing state machine over all histories (ideal arithmetic). *)
From Coq Require Import ZArith Reals List Bool Lia Lra Permutation.
From Flocq Require Import Core BinarySingleNaN.
From Verif Require Import Num Mat CommonModel PfModel PfSpec StarModel LpModel UsmModel SlModel SlSpec SlProofs SlProofs2 SlProofs3 SwModel SwSpec SwProofs.
Import ListNotations.
Local Open Scope Z_scope.

Section Generic.
Context (N : num) (G : trig N) (ceilc rnd cast : N -> Z).
Notation nstep := (nstep N G ceilc rnd cast).
Notation nrun := (nrun N G ceilc rnd cast).
Notation calc := (calculateWaypoint N G rnd cast).

Lemma nrun_app os1 os2 n : nrun n (os1 ++ os2) =
  obind (nrun n os1) (fun r => obind (nrun (fst r) os2) (fun r' => Some (fst r', snd r ++ snd r'))).
Proof using.
  revert n. induction os1 as [|o os1 IH]; intros n; cbn [app SwModel.nrun obind].
  - cbn [fst snd]. destruct (nrun n os2) as [[n' out]|]; reflexivity.
  - destruct (nstep n o) as [[n1 out1]|]; cbn [obind fst snd]; [|reflexivity]. rewrite IH.
    destruct (nrun n1 os1) as [[n2 out2]|]; cbn [obind fst snd]; [|reflexivity].
    destruct (nrun n2 os2) as [[n3 out3]|]; cbn [obind fst snd]; [|reflexivity]. rewrite app_assoc. reflexivity.
Qed.
Lemma nrun_snoc os o n n' out : nrun n (os ++ [o]) = Some (n', out) ->
  exists n1 out1 out2, nrun n os = Some (n1, out1) /\ nstep n1 o = Some (n', out2) /\ out = out1 ++ out2.
Proof using.
  rewrite nrun_app. destruct (nrun n os) as [[n1 out1]|]; cbn [obind fst snd]; [|discriminate].
  cbn [SwModel.nrun]. destruct (nstep n1 o) as [[n2 out2]|] eqn:E; cbn [obind fst snd]; [|discriminate].
  intros [= <- <-]. exists n1, out1, out2. rewrite app_nil_r. auto.
Qed.
(** invariants *)
Lemma nrun_inv (P : node N -> Prop) (ok : sop N -> Prop) os : Forall ok os ->
  (forall n o n' out, ok o -> P n -> nstep n o = Some (n', out) -> P n') ->
  forall n n' out, P n -> nrun n os = Some (n', out) -> P n'.
Proof using.
  intros F St. induction F as [|o os Ho F IH]; intros n n' out Hn E; cbn in E.
  - injection E as <- <-. exact Hn.
  - destruct (nstep n o) as [[n1 out1]|] eqn:E1; cbn [obind fst snd] in E; [|discriminate].
    destruct (nrun n1 os) as [[n2 out2]|] eqn:E2; cbn [obind fst snd] in E; [|discriminate]. injection E as <- <-.
    eapply IH; [|exact E2]. eapply St; eauto.
Qed.

(** one executed command cycle *)
Definition run_state (x : sw N) : option (transition * sw N * list (setp N)) :=
  match x_state x with
  | GOTO => runGoTo N G rnd x | SALTITUDE_CHANGE => runAltitudeChange N rnd x | SLOITER => runLoiter N cast x
  | LAND => runLand N x | EVALUATE_GRID => runEvaluateGrid N x | GOTO_LAND => runGoToLand N G x
  end.
Lemma calc_cases x x' out : calc x = Some (x', out) ->
  let u := updateSLPState N x in
  (x_reset x = true /\ x' = x_flags N u GOTO false true /\ out = []) \/
  (x_reset x = false /\ exists t y, run_state u = Some (t, y, out) /\
     x' = match t with REPEAT => x_flags N y (x_state y) (x_reset y) false | _ => x_flags N y (sw_choose (x_state y) t) (x_reset y) true end).
Proof using.
  intros E u. unfold calculateWaypoint, iterateOnce, runCurrentState in E. fold u in E.
  assert (Ru : x_reset u = x_reset x) by (unfold u, updateSLPState; destruct (x_island x); reflexivity).
  rewrite Ru in E. destruct (x_reset x).
  - left. split; [reflexivity|]. cbn in E. injection E as <- <-. split; [|reflexivity].
    unfold sw_choose. destruct (x_state u); reflexivity.
  - right. split; [reflexivity|]. unfold run_state. destruct (match x_state u with GOTO => _ | _ => _ end) as [[[t y] o]|] eqn:R; cbn [obind] in E; [|discriminate].
    exists t, y. destruct t; injection E as <- <-; split; reflexivity.
Qed.
Lemma cycle_inv n n' out : nstep n OCycle = Some (n', out) -> n_received n = true ->
  calc (n_x n) = Some (n_x n', out) /\ n_received n' = false /\ n_viz n' = n_viz n /\ vizCells N (n_x n') <> None.
Proof using.
  intros E R. cbn in E. rewrite R in E. destruct (calc (n_x n)) as [[x o]|] eqn:C; cbn [obind fst snd] in E; [|discriminate].
  destruct (vizCells N x) eqn:V; cbn [obind] in E; [|discriminate]. injection E as <- <-. cbn [n_x n_received n_viz]. split; [reflexivity|].
  split; [reflexivity|]. split; [reflexivity|]. rewrite V. discriminate.
Qed.
(** callbacks *)
Lemma callback_inv n o n' out : nstep n o = Some (n', out) -> o <> OCycle \/ n_received n = false -> out = [] /\
  x_state (n_x n') = x_state (n_x n) /\ x_changed (n_x n') = x_changed (n_x n) /\ x_decision (n_x n') = x_decision (n_x n) /\
  x_canland (n_x n') = x_canland (n_x n) /\ x_explore (n_x n') = x_explore (n_x n) /\ x_n (n_x n') = x_n (n_x n) /\ x_factor (n_x n') = x_factor (n_x n) /\
  x_radius (n_x n') = x_radius (n_x n) /\ x_loiter (n_x n') = x_loiter (n_x n) /\ x_anchor (n_x n') = x_anchor (n_x n) /\
  x_hyst (n_x n') = x_hyst (n_x n) /\ x_res (n_x n') = x_res (n_x n) /\ x_mask (n_x n') = x_mask (n_x n) /\ x_loiter_yaw (n_x n') = x_loiter_yaw (n_x n) /\
  x_start (n_x n') = x_start (n_x n) /\ x_alt (n_x n') = x_alt (n_x n) /\
  (is_traj o = false -> x_goal (n_x n') = x_goal (n_x n) /\ x_vel (n_x n') = x_vel (n_x n)) /\
  (is_traj o = false -> is_mode o = false -> x_island (n_x n') = x_island (n_x n)) /\
  (is_mode o = false -> x_reset (n_x n') = x_reset (n_x n)) /\ (x_reset (n_x n) = true -> x_reset (n_x n') = true).
Proof using.
  intros E H. destruct o as [c|p y|m|m a|m|]; cbn [SwModel.nstep] in E.
  - injection E as <- <-. repeat split; auto.
  - injection E as <- <-. repeat split; auto.
  - injection E as <- <-. cbn. repeat split; auto; discriminate.
  - destruct m, a; injection E as <- <-; cbn; repeat split; auto; discriminate.
  - destruct (receiveGrid N ceilc (x_grid (n_x n)) (x_pos (n_x n)) m) as [g|]; cbn [obind] in E; [|discriminate]. injection E as <- <-. repeat split; auto.
  - destruct H as [H|H]; [congruence|]. rewrite H in E. injection E as <- <-. repeat split; auto.
Qed.
Lemma update_frame (x : sw N) : let u := updateSLPState N x in
  x_state u = x_state x /\ x_cfg u = x_cfg x /\ x_reset u = x_reset x /\ x_island u = x_island x /\ x_changed u = x_changed x /\ x_start u = x_start x /\
  x_seq u = x_seq x /\ x_pos u = x_pos x /\ x_goal u = x_goal x /\ x_vel u = x_vel x /\ x_loiter u = x_loiter x /\ x_anchor u = x_anchor x /\
  x_grid u = x_grid x /\ x_yaw u = x_yaw x /\ x_loiter_yaw u = x_loiter_yaw x /\ x_yaw_sp u = x_yaw_sp x /\ x_yawrate_sp u = x_yawrate_sp x /\
  (x_island x = true -> x_decision u = x_decision x /\ x_canland u = x_canland x /\ x_explore u = x_explore x /\ x_n u = x_n x /\ x_factor u = x_factor x /\ x_radius u = x_radius x) /\
  (x_island x = false -> x_decision u = false /\ x_canland u = true /\ x_explore u = false /\ x_n u = -1 /\ x_factor u = ofZ N 1 /\ x_radius u = ofZ N 2).
Proof using.
  cbv zeta. unfold updateSLPState. destruct (x_island x) eqn:I; cbn; rewrite ?I; repeat split; auto; discriminate.
Qed.
(** the state functions leave the state, the configuration and the inputs alone *)
Definition same_inputs (a b : sw N) : Prop :=
  x_state a = x_state b /\ x_cfg a = x_cfg b /\ x_reset a = x_reset b /\ x_island a = x_island b /\ x_seq a = x_seq b /\ x_pos a = x_pos b /\
  x_grid a = x_grid b /\ x_mask a = x_mask b /\ x_upd a = x_upd b /\ x_yaw a = x_yaw b.
Lemma run_state_frame x t y out : run_state x = Some (t, y, out) -> same_inputs y x /\ exists sp, out = [sp].
Proof using.
  unfold run_state, same_inputs. intros E. destruct (x_state x) eqn:St.
  - unfold runGoTo in E. set (x0 := if x_explore x then _ else x) in E.
    assert (S0 : x_state x0 = GOTO /\ x_cfg x0 = x_cfg x /\ x_reset x0 = x_reset x /\ x_island x0 = x_island x /\ x_seq x0 = x_seq x /\ x_pos x0 = x_pos x /\
      x_grid x0 = x_grid x /\ x_mask x0 = x_mask x /\ x_upd x0 = x_upd x /\ x_yaw x0 = x_yaw x) by (unfold x0; destruct (x_explore x); cbn; repeat split; auto).
    destruct (landingAreaHeightPercentile N rnd (x_grid x0) (q_smooth (x_cfg x0)) (ofZ N 80)) as [alt|]; cbn [obind] in E; [|discriminate].
    set (x1 := x_matrices N (x_alt_upd N x0 alt) _ _) in E.
    destruct (withinLandingRadius N x1 && x_island x1 && negb (x_decision x1)); [injection E as <- <- <-; split; [exact S0|eauto]|].
    destruct (withinLandingRadius N x1 && x_island x1 && x_decision x1 && negb (x_canland x1)); [|injection E as <- <- <-; split; [exact S0|eauto]].
    destruct (nextExploration N x1) as [x2|] eqn:X; cbn [obind] in E; [|discriminate]. injection E as <- <- <-. split; [|eauto].
    unfold nextExploration in X. destruct (if x_n x1 + 1 =? _ then _ else _) as [k f]. destruct (vget exploration_pattern k); cbn [obind] in X; [|discriminate].
    injection X as <-. exact S0.
  - unfold runLoiter in E. set (x1 := x_move N x _ _ _ _ _) in E. destruct (_ <=? 20).
    + destruct (hystStep N x1) as [h|]; cbn [obind] in E; [|discriminate]. injection E as <- <- <-. split; [|eauto]. cbn. repeat split; auto.
    + injection E as <- <- <-. split; [|eauto]. cbn. repeat split; auto.
  - unfold runLand in E. injection E as <- <- <-. split; [|eauto]. cbn. repeat split; auto.
  - unfold runAltitudeChange in E. destruct (landingAreaHeightPercentile N rnd (x_grid x) (q_smooth (x_cfg x)) (ofZ N 80)) as [alt|]; cbn [obind] in E; [|discriminate].
    destruct (inVerticalRange N _); injection E as <- <- <-; (split; [|eauto]); cbn; repeat split; auto.
  - unfold runEvaluateGrid in E. destruct (evaluatePatch _ _ _ _) as [[|]|]; cbn [obind] in E; try discriminate.
    + injection E as <- <- <-. split; [|eauto]. cbn. repeat split; auto.
    + destruct (findPatch _ _ _ _ _ _) as [[d|]|]; cbn [obind] in E; try discriminate; injection E as <- <- <-; (split; [|eauto]); cbn; repeat split; auto.
  - unfold runGoToLand in E. injection E as <- <- <-. split; [|eauto]. repeat split; auto.
Qed.
(** which transitions a state can ask for, and why *)
Lemma run_state_trans x t y out : run_state x = Some (t, y, out) ->
  match x_state x with
  | GOTO => t = REPEAT \/ (t = NEXT1 /\ x_island x = true /\ x_decision x = false)
  | SALTITUDE_CHANGE => t = REPEAT \/ (t = NEXT1 /\ x_start y = x_seq x)
  | SLOITER => (t = REPEAT /\ Z.abs (x_seq x - x_start x) <= 20) \/ (t = NEXT1 /\ 20 < Z.abs (x_seq x - x_start x))
  | EVALUATE_GRID => (t = NEXT1 /\ x_canland y = false /\ x_decision y = true) \/ (t = NEXT2 /\ x_canland y = true /\ x_decision y = true)
  | GOTO_LAND => (t = REPEAT /\ withinLandingRadius N x = false) \/ (t = NEXT1 /\ withinLandingRadius N x = true)
  | LAND => t = REPEAT
  end.
Proof using.
  unfold run_state. intros E. destruct (x_state x) eqn:St.
  - unfold runGoTo in E. set (x0 := if x_explore x then _ else x) in E.
    assert (S0 : x_island x0 = x_island x /\ x_decision x0 = x_decision x) by (unfold x0; destruct (x_explore x); cbn; auto).
    destruct (landingAreaHeightPercentile N rnd (x_grid x0) (q_smooth (x_cfg x0)) (ofZ N 80)) as [alt|]; cbn [obind] in E; [|discriminate].
    set (x1 := x_matrices N (x_alt_upd N x0 alt) _ _) in E.
    destruct (withinLandingRadius N x1 && x_island x1 && negb (x_decision x1)) eqn:B.
    + injection E as <- <- <-. right. split; [reflexivity|]. apply andb_true_iff in B as [B1 B2]. apply andb_true_iff in B1 as [B1 B3].
      apply negb_true_iff in B2. destruct S0 as [<- <-]. split; assumption.
    + left. destruct (withinLandingRadius N x1 && x_island x1 && x_decision x1 && negb (x_canland x1)); [|injection E as <- <- <-; reflexivity].
      destruct (nextExploration N x1) as [x2|] eqn:X; cbn [obind] in E; [|discriminate]. injection E as <- <- <-. reflexivity.
  - unfold runLoiter in E. set (x1 := x_move N x _ _ _ _ _) in E. cbn [x1 x_move x_seq x_start] in E. destruct (Z.leb_spec (Z.abs (x_seq x - x_start x)) 20).
    + destruct (hystStep N x1) as [h|]; cbn [obind] in E; [|discriminate]. injection E as <- <- <-. left. split; [reflexivity|assumption].
    + injection E as <- <- <-. right. split; [reflexivity|assumption].
  - unfold runLand in E. injection E as <- <- <-. reflexivity.
  - unfold runAltitudeChange in E. destruct (landingAreaHeightPercentile N rnd (x_grid x) (q_smooth (x_cfg x)) (ofZ N 80)) as [alt|]; cbn [obind] in E; [|discriminate].
    destruct (inVerticalRange N _); injection E as <- <- <-; [right; split; reflexivity|left; reflexivity].
  - unfold runEvaluateGrid in E. destruct (evaluatePatch _ _ _ _) as [[|]|]; cbn [obind] in E; try discriminate.
    + injection E as <- <- <-. right. repeat split.
    + destruct (findPatch _ _ _ _ _ _) as [[d|]|]; cbn [obind] in E; try discriminate; injection E as <- <- <-; [right|left]; repeat split.
  - unfold runGoToLand in E. injection E as <- <- <-. destruct (withinLandingRadius N x); [right|left]; split; reflexivity.
Qed.

(** the state after a cycle *)
Definition edge (x : sw N) (x' : sw N) : Prop :=
  if x_reset x then x_state x' = GOTO else
  match x_state x with
  | GOTO => x_state x' = GOTO \/ (x_state x' = SALTITUDE_CHANGE /\ x_island x = true /\ x_decision x = false)
  | SALTITUDE_CHANGE => x_state x' = SALTITUDE_CHANGE \/ (x_state x' = SLOITER /\ x_start x' = x_seq x')
  | SLOITER => (x_state x' = SLOITER /\ Z.abs (x_seq x - x_start x) <= 20) \/ (x_state x' = EVALUATE_GRID /\ 20 < Z.abs (x_seq x - x_start x))
  | EVALUATE_GRID => (x_state x' = GOTO /\ x_canland x' = false /\ x_decision x' = true) \/ (x_state x' = GOTO_LAND /\ x_canland x' = true /\ x_decision x' = true)
  | GOTO_LAND => (x_state x' = GOTO_LAND /\ withinLandingRadius N (updateSLPState N x) = false) \/ (x_state x' = LAND /\ withinLandingRadius N (updateSLPState N x) = true)
  | LAND => x_state x' = LAND
  end.
Lemma update_decision (x : sw N) : x_island x = true -> x_decision (updateSLPState N x) = x_decision x.
Proof using. intros I. destruct (update_frame x) as (_ & _ & _ & _ & _ & _ & _ & _ & _ & _ & _ & _ & _ & _ & _ & _ & _ & H & _). apply H; exact I. Qed.
Lemma calc_edge x x' out : calc x = Some (x', out) -> edge x x'.
Proof using.
  intros E. destruct (calc_cases x x' out E) as [(R & -> & _)|(R & t & y & Rn & ->)]; unfold edge; rewrite R; [reflexivity|].
  pose proof (update_frame x) as U. cbv zeta in U. set (u := updateSLPState N x) in *. destruct U as (U1 & U2 & U3 & U4 & U5 & U6 & U7 & _).
  pose proof (run_state_trans u t y out Rn) as T. destruct (run_state_frame u t y out Rn) as [(F1 & F2 & F3 & F4 & F5 & _) _]. rewrite U1 in T, F1.
  destruct (x_state x) eqn:St.
  - destruct T as [->|(-> & T1 & T2)]; [left; cbn; exact F1|]. right. split; [cbn; rewrite F1; reflexivity|]. rewrite U4 in T1. split; [exact T1|].
    rewrite <- (update_decision x T1). exact T2.
  - rewrite U6, U7 in T. destruct T as [[-> T]|[-> T]]; [left; split; [exact F1|exact T]|right; split; [cbn; rewrite F1; reflexivity|exact T]].
  - subst t. exact F1.
  - destruct T as [->|[-> T]]; [left; exact F1|right; split; [cbn; rewrite F1; reflexivity|]]. cbn. congruence.
  - destruct T as [(-> & T1 & T2)|(-> & T1 & T2)]; [left|right]; (split; [cbn; rewrite F1; reflexivity|]); split; assumption.
  - destruct T as [[-> T]|[-> T]]; [left; split; [exact F1|exact T]|right; split; [cbn; rewrite F1; reflexivity|exact T]].
Qed.

(** an evaluation in cycle state [u] that accepts the patch at offset [d] *)
Definition accepts (u : sw N) (d : Z * Z) : Prop :=
  let r := rows (g_land (x_grid u)) in let c := cols (g_land (x_grid u)) in let s := q_smooth (x_cfg u) in
  (d = (0, 0) \/ In d (candidates r s)) /\ evaluatePatch (x_res u) (x_mask u) (r / 2 + fst d - s) (c / 2 + snd d - s) = Some true.
Lemma findPatch_true res mask cx cy s l d : findPatch res mask cx cy s l = Some (Some d) -> In d l /\ evaluatePatch res mask (cx + fst d - s) (cy + snd d - s) = Some true.
Proof using.
  clear. induction l as [|e l IH]; cbn [findPatch]; [discriminate|]. destruct (evaluatePatch res mask (cx + fst e - s) (cy + snd e - s)) as [[|]|] eqn:E; cbn [obind]; try discriminate.
  - intros [= <-]. split; [left; reflexivity|exact E].
  - intros H. destruct (IH H) as [I1 I2]. split; [right; exact I1|exact I2].
Qed.
Lemma evaluate_accepts u y out : runEvaluateGrid N u = Some (NEXT2, y, out) ->
  exists d, accepts u d /\ x_goal y = (if (fst d =? 0) && (snd d =? 0) then x_goal u else
    V3 (add N (vx (x_pos u)) (mul N (ofZ N (fst d)) (g_cell (x_grid u)))) (add N (vy (x_pos u)) (mul N (ofZ N (snd d)) (g_cell (x_grid u)))) (vz (x_pos u))).
Proof using.
  unfold runEvaluateGrid. destruct (evaluatePatch _ _ _ _) as [[|]|] eqn:E; cbn [obind]; try discriminate.
  - intros [= <- <-]. exists (0, 0). split; [|reflexivity]. split; [left; reflexivity|]. cbn [fst snd]. rewrite !Z.add_0_r. exact E.
  - destruct (findPatch _ _ _ _ _ _) as [[d|]|] eqn:F; cbn [obind]; try discriminate. intros [= <- <-]. exists d.
    apply findPatch_true in F as [F1 F2]. split; [split; [right; exact F1|exact F2]|].
    assert (Hd : (fst d =? 0) && (snd d =? 0) = false).
    { unfold candidates in F1. apply in_flat_map in F1 as (k & K1 & K2). apply in_zfromto in K1. apply in_map_iff in K2 as (e & <- & K2). cbn [fst snd].
      cbn [exploration_pattern In] in K2. repeat (destruct K2 as [<-|K2]; [cbn [fst snd]; destruct (Z.eqb_spec (1 * k) 0), (Z.eqb_spec (-1 * k) 0), (Z.eqb_spec (0 * k) 0); cbn [andb]; try reflexivity; lia|]). destruct K2. }
    rewrite Hd. reflexivity.
Qed.

(** every way into the landing descent *)
Theorem landing_path n0 os n out : x_state (n_x n0) <> GOTO_LAND -> x_state (n_x n0) <> LAND -> nrun n0 os = Some (n, out) ->
  (x_state (n_x n) = GOTO_LAND ->
     exists os1 os2 n1 o1 d, os = os1 ++ OCycle :: os2 /\ nrun n0 os1 = Some (n1, o1) /\ n_received n1 = true /\ x_reset (n_x n1) = false /\
       x_state (n_x n1) = EVALUATE_GRID /\ accepts (updateSLPState N (n_x n1)) d) /\
  (x_state (n_x n) = LAND ->
     exists os1 os2 os3 n1 o1 n2 o2 d, os = os1 ++ OCycle :: os2 ++ OCycle :: os3 /\ nrun n0 os1 = Some (n1, o1) /\ n_received n1 = true /\ x_reset (n_x n1) = false /\
       x_state (n_x n1) = EVALUATE_GRID /\ accepts (updateSLPState N (n_x n1)) d /\
       nrun n1 (OCycle :: os2) = Some (n2, o2) /\ x_state (n_x n2) = GOTO_LAND /\ withinLandingRadius N (updateSLPState N (n_x n2)) = true).
Proof using.
  intros H1 H2. revert n out. induction os as [|o os IH] using rev_ind; intros n out E.
  - cbn in E. injection E as <- <-. split; intros H; congruence.
  - destruct (nrun_snoc _ _ _ _ _ E) as (m & o1 & o2 & E1 & E2 & _). specialize (IH m o1 E1) as [I1 I2].
    assert (Dec : (o = OCycle /\ n_received m = true) \/ (o <> OCycle \/ n_received m = false)).
    { destruct o; try (right; left; discriminate). destruct (n_received m) eqn:Q; [left; auto|right; right; reflexivity]. }
    destruct Dec as [[-> Rc]|Cb].
    + destruct (cycle_inv _ _ _ E2 Rc) as (C & _). pose proof (calc_edge _ _ _ C) as Ed. unfold edge in Ed.
      destruct (x_reset (n_x m)) eqn:Rs; [split; intros H; rewrite H in Ed; discriminate|].
      destruct (x_state (n_x m)) eqn:St.
      * split; intros H; rewrite H in Ed; destruct Ed as [Ed|[Ed _]]; discriminate.
      * split; intros H; rewrite H in Ed; destruct Ed as [[Ed _]|[Ed _]]; discriminate.
      * split; intros H; [rewrite H in Ed; discriminate|]. destruct (I2 eq_refl) as (a & b & c & n1 & q1 & n2 & q2 & d & -> & R).
        exists a, b, (c ++ [OCycle]), n1, q1, n2, q2, d. split; [|exact R]. rewrite <- !app_assoc. cbn [app]. rewrite <- app_assoc. reflexivity.
      * split; intros H; rewrite H in Ed; destruct Ed as [Ed|[Ed _]]; discriminate.
      * split; intros H; [|rewrite H in Ed; destruct Ed as [[Ed _]|[Ed _]]; discriminate].
        destruct (calc_cases _ _ _ C) as [(R & _)|(R & t & y & Rn & X)]; [congruence|].
        assert (Su : x_state (updateSLPState N (n_x m)) = EVALUATE_GRID) by (destruct (update_frame (n_x m)) as [-> _]; exact St).
        unfold run_state in Rn. rewrite Su in Rn.
        assert (t = NEXT2).
        { destruct (run_state_frame (updateSLPState N (n_x m)) t y o2) as [(F1 & _) _]; [unfold run_state; rewrite Su; exact Rn|]. rewrite Su in F1.
          rewrite X in H. destruct t; cbn in H; rewrite F1 in H; try discriminate. reflexivity. }
        subst t. destruct (evaluate_accepts _ _ _ Rn) as (d & A & _). exists os, [], m, o1, d. repeat (split; [assumption || reflexivity|]). exact A.
      * split; intros H.
        -- destruct (I1 eq_refl) as (a & b & n1 & q1 & d & -> & R). exists a, (b ++ [OCycle]), n1, q1, d. split; [|exact R]. rewrite <- app_assoc. reflexivity.
        -- rewrite H in Ed. destruct Ed as [[Ed _]|[_ Ed]]; [discriminate|]. destruct (I1 eq_refl) as (a & b & n1 & q1 & d & -> & R1 & R2 & R3 & R4 & R5).
           assert (R1' := E1). rewrite nrun_app in R1'. rewrite R1 in R1'. cbn [obind fst snd] in R1'.
           destruct (nrun n1 (OCycle :: b)) as [[n2 q2]|] eqn:Q; cbn [obind fst snd] in R1'; [|discriminate]. injection R1' as R1' _. subst n2.
           exists a, b, [], n1, q1, m, q2, d. split; [rewrite <- app_assoc; reflexivity|]. repeat (split; [assumption|]). exact Ed.
    + destruct (callback_inv _ _ _ _ E2 Cb) as (_ & S & _). rewrite S. split; intros H.
      * destruct (I1 H) as (a & b & n1 & q1 & d & -> & R). exists a, (b ++ [o]), n1, q1, d. split; [|exact R]. rewrite <- app_assoc. reflexivity.
      * destruct (I2 H) as (a & b & c & n1 & q1 & n2 & q2 & d & -> & R). exists a, b, (c ++ [o]), n1, q1, n2, q2, d. split; [|exact R].
        rewrite <- !app_assoc. cbn [app]. rewrite <- app_assoc. reflexivity.
Qed.
(** the only way out of landing is a reset *)
Lemma land_stays n o n' out : nstep n o = Some (n', out) -> x_state (n_x n) = LAND ->
  x_state (n_x n') = LAND \/ (o = OCycle /\ x_reset (n_x n) = true /\ x_state (n_x n') = GOTO /\ out = []).
Proof using.
  intros E S. assert (Dec : (o = OCycle /\ n_received n = true) \/ (o <> OCycle \/ n_received n = false)).
  { destruct o; try (right; left; discriminate). destruct (n_received n) eqn:Q; [left; auto|right; right; reflexivity]. }
  destruct Dec as [[-> Rc]|Cb].
  - destruct (cycle_inv _ _ _ E Rc) as (C & _). destruct (calc_cases _ _ _ C) as [(R & X & O)|(R & _)].
    + right. rewrite X. split; [reflexivity|]. split; [exact R|]. split; [reflexivity|exact O].
    + left. pose proof (calc_edge _ _ _ C) as Ed. unfold edge in Ed. rewrite R, S in Ed. exact Ed.
  - left. destruct (callback_inv _ _ _ _ E Cb) as (_ & S' & _). congruence.
Qed.
End Generic.
