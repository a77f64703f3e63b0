(** Proofs about the local planner node: goals, obstacle distance message, totality. *)
From Coq Require Import ZArith List Bool Lia String.
From Verif Require Import Num Mat CommonModel HistModel PfModel StarModel LpModel UsmModel WgModel NodeModel NodeProofs NlModel NlSpec CommonProofs2 NlProofs NlProofs2.
Import ListNotations.
Local Open Scope Z_scope.

Section Nl.
Context (N : num) (G : trig N) (secs : Z -> N) (travel : Z -> N -> N) (getyaw : quat N -> N).
Context (P : Type) (pl_run : P -> plan_in N -> Z -> P) (pl_out : P -> output N) (pl_scan : P -> N * list N).
Notation stepN := (step N G secs travel getyaw P pl_run pl_out pl_scan).
Notation runN := (run N G secs travel getyaw P pl_run pl_out pl_scan).
Notation workN := (workerStep N P pl_run pl_out pl_scan).
Notation state := (nl N P).

(** the part of a state goals depend on *)
Definition gview (s : state) := (s_wpc s, s_new s, s_goal s, s_prev s, n_goal (s_lp_in s), n_prev_goal (s_lp_in s)).

Lemma gview_other s e s' : stepN s e = Some s' -> is_worker e = false -> goal_event e = false -> is_reconf e = false -> gview s' = gview s.
Proof.
  intros H W Ge Re. destruct e; cbn [step] in H; try discriminate.
  - injection H as <-; reflexivity.
  - destruct (nth_error _ _); [|injection H as <-; reflexivity]. destruct (transformPass _ _ _ _); [|discriminate]. injection H as <-; reflexivity.
  - injection H as <-. unfold cmdStart. destruct (s_cmd s); reflexivity.
  - injection H as <-. unfold cmdPoll. destruct (s_cmd s); [destruct (_ && _)|]; reflexivity.
  - injection H as <-. unfold cmdEnd. destruct (s_cmd s); [|reflexivity]. destruct (s_posrec s); [|reflexivity].
    destruct (checkFailsafe _ _ _ _ _) as [st h]. destruct st; reflexivity.
  - injection H as <-; reflexivity.
  - injection H as <-; reflexivity.
  - injection H as <-; reflexivity.
  - injection H as <-; reflexivity.
Qed.
Lemma gview_work s now : gview (workN s now) =
  let '(g, p, n, q, w) := (s_goal s, s_prev s, n_goal (s_lp_in s), n_prev_goal (s_lp_in s), s_new s) in
  match s_wpc s with
  | PScan _ _ => (s_wpc (workN s now), w, g, p, n, q) | PSwap _ => (s_wpc (workN s now), w, g, p, n, q)
  | PState => (PFlag, w, g, p, n, q)
  | PFlag => (if w then PGoal else PRun, w, g, p, n, q)
  | PGoal => (PPrev, w, g, p, g, q) | PPrev => (PClear, w, g, p, n, p) | PClear => (PRun, false, g, p, n, q)
  | PRun => (PInfo, w, g, p, n, q) | PInfo => (s_wpc (workN s now), w, g, p, n, q) end.
Proof.
  unfold workerStep. destruct (s_wpc s) eqn:W; cbv zeta; try reflexivity.
  - destruct (nth_error _ _); [reflexivity|]. destruct (_ || _); reflexivity.
  - destruct (nth_error _ _); reflexivity.
  - destruct (s_cmd s); [|reflexivity]. reflexivity.
Qed.
Lemma work_pc_class s now : taking_goal (s_wpc (workN s now)) = true -> taking_goal (s_wpc s) = true \/ s_wpc s = PFlag /\ s_new s = true.
Proof.
  pose proof (gview_work s now) as V. unfold gview in V. cbv zeta in V.
  unfold workerStep. destruct (s_wpc s) eqn:W; cbv zeta; auto; try discriminate.
  - destruct (nth_error _ _); [|destruct (_ || _)]; discriminate.
  - destruct (nth_error _ _); discriminate.
  - cbn. destruct (s_new s); [auto|discriminate].
  - destruct (s_cmd s); [rewrite W|]; discriminate.
Qed.
Lemma work_to_run s now : s_wpc (workN s now) = PRun -> s_wpc s = PClear \/ s_wpc s = PFlag /\ s_new s = false.
Proof.
  unfold workerStep. destruct (s_wpc s) eqn:W; cbv zeta; auto; try discriminate.
  - destruct (nth_error _ _); [|destruct (_ || _)]; discriminate.
  - destruct (nth_error _ _); discriminate.
  - cbn. destruct (s_new s); [discriminate|auto].
  - destruct (s_cmd s); [rewrite W|]; discriminate.
Qed.

Definition same_xy (a b : vec3 N) : Prop := vx a = vx b /\ vy a = vy b.
Definition agree (es : list (ev N)) (a b : vec3 N) : Prop :=
  same_xy a b /\ (existsb is_reconf es = false -> a = b).

Definition goal_inv (es : list (ev N)) (s : state) : Prop :=
  (taking_goal (s_wpc s) = true -> s_new s = true) /\
  (s_new s = false -> agree es (n_goal (s_lp_in s)) (s_goal s) /\ n_prev_goal (s_lp_in s) = s_prev s) /\
  (s_wpc s = PPrev -> n_goal (s_lp_in s) = s_goal s) /\
  (s_wpc s = PClear -> n_goal (s_lp_in s) = s_goal s /\ n_prev_goal (s_lp_in s) = s_prev s) /\
  (s_wpc s = PRun -> s_new s = true ->
     exists es1 e es2, es = es1 ++ e :: es2 /\ goal_event e = true /\ forallb (fun e => negb (is_worker e)) es2 = true).

Lemma agree_refl es a : agree es a a. Proof. repeat split. Qed.
Lemma agree_snoc es e a b : agree es a b -> agree (es ++ [e]) a b.
Proof. intros [A B]. split; [exact A|]. rewrite existsb_app. intros E. apply orb_false_iff in E as [E _]. auto. Qed.
Lemma late_snoc (es : list (ev N)) e :
  is_worker e = false ->
  (exists es1 e1 es2, es = es1 ++ e1 :: es2 /\ goal_event e1 = true /\ forallb (fun e => negb (is_worker e)) es2 = true) ->
  exists es1 e1 es2, es ++ [e] = es1 ++ e1 :: es2 /\ goal_event e1 = true /\ forallb (fun e => negb (is_worker e)) es2 = true.
Proof.
  intros W (a & x & b & -> & X & Y). exists a, x, (b ++ [e]). rewrite <- app_assoc. split; [reflexivity|split; [exact X|]].
  rewrite forallb_app, Y. cbn. rewrite W. reflexivity.
Qed.

Lemma step_goal s0 es s e s' :
  goal_inv es s -> runN s0 es = Some s -> undisturbed N G secs travel getyaw P pl_run pl_out pl_scan s0 (es ++ [e]) -> forced_goal e = false -> stepN s e = Some s' -> goal_inv (es ++ [e]) s'.
Proof.
  intros (A & B & C & D & F) R U Fo H.
  destruct (is_worker e) eqn:W.
  - destruct e; try discriminate. cbn [step] in H. injection H as <-.
    pose proof (gview_work s now) as V. unfold gview in V. cbv zeta in V.
    pose proof (work_pc_class s now) as K1. pose proof (work_to_run s now) as K2.
    set (s' := workN s now) in *. unfold goal_inv.
    destruct (s_wpc s) eqn:Wp.
    + injection V as V1 V2 V3 V4 V5. rewrite V1, V2, V3, V4, V5. split; [|split; [|split; [|split]]].
      * intros T. destruct (K1 T) as [X|[X _]]; discriminate.
      * intros X. destruct (B X). split; [apply agree_snoc|]; assumption.
      * intros X. rewrite X in K1. destruct (K1 eq_refl) as [Y|[Y _]]; discriminate.
      * intros X. rewrite X in K1. destruct (K1 eq_refl) as [Y|[Y _]]; discriminate.
      * intros X. destruct (K2 X) as [Y|[Y _]]; discriminate.
    + injection V as V1 V2 V3 V4 V5. rewrite V1, V2, V3, V4, V5. split; [|split; [|split; [|split]]].
      * intros T. destruct (K1 T) as [X|[X _]]; discriminate.
      * intros X. destruct (B X). split; [apply agree_snoc|]; assumption.
      * intros X. rewrite X in K1. destruct (K1 eq_refl) as [Y|[Y _]]; discriminate.
      * intros X. rewrite X in K1. destruct (K1 eq_refl) as [Y|[Y _]]; discriminate.
      * intros X. destruct (K2 X) as [Y|[Y _]]; discriminate.
    + injection V as V0 V1 V2 V3 V4 V5. rewrite V0, V1, V2, V3, V4, V5. split; [|split; [|split; [|split]]]; try discriminate.
      intros X. destruct (B X). split; [apply agree_snoc|]; assumption.
    + injection V as V0 V1 V2 V3 V4 V5. rewrite V0, V1, V2, V3, V4, V5. split; [|split; [|split; [|split]]].
      * destruct (s_new s); [reflexivity|discriminate].
      * intros X. destruct (B X). split; [apply agree_snoc|]; assumption.
      * destruct (s_new s); discriminate.
      * destruct (s_new s); discriminate.
      * destruct (s_new s); discriminate.
    + injection V as V0 V1 V2 V3 V4 V5. rewrite V0, V1, V2, V3, V4, V5. specialize (A eq_refl).
      split; [|split; [|split; [|split]]]; try discriminate; try congruence.
    + injection V as V0 V1 V2 V3 V4 V5. rewrite V0, V1, V2, V3, V4, V5. specialize (A eq_refl).
      split; [|split; [|split; [|split]]]; try discriminate; try congruence. intros _. split; [apply C|]; reflexivity.
    + injection V as V0 V1 V2 V3 V4 V5. rewrite V0, V1, V2, V3, V4, V5. destruct (D eq_refl) as [D1 D2].
      split; [|split; [|split; [|split]]]; try discriminate; try congruence. intros _. rewrite D1, D2. split; [apply agree_refl|reflexivity].
    + injection V as V0 V1 V2 V3 V4 V5. rewrite V0, V1, V2, V3, V4, V5. split; [|split; [|split; [|split]]]; try discriminate.
      intros X. destruct (B X). split; [apply agree_snoc|]; assumption.
    + injection V as V1 V2 V3 V4 V5. rewrite V1, V2, V3, V4, V5. split; [|split; [|split; [|split]]].
      * intros T. destruct (K1 T) as [X|[X _]]; discriminate.
      * intros X. destruct (B X). split; [apply agree_snoc|]; assumption.
      * intros X. rewrite X in K1. destruct (K1 eq_refl) as [Y|[Y _]]; discriminate.
      * intros X. rewrite X in K1. destruct (K1 eq_refl) as [Y|[Y _]]; discriminate.
      * intros X. destruct (K2 X) as [Y|[Y _]]; discriminate.
  - destruct (goal_event e) eqn:Ge.
    + assert (T : taking_goal (s_wpc s) = false) by (eapply U; eauto).
      assert (Late : exists es1 e1 es2, es ++ [e] = es1 ++ e1 :: es2 /\ goal_event e1 = true /\ forallb (fun e => negb (is_worker e)) es2 = true)
        by (exists es, e, []; repeat split; assumption).
      assert (Keep : forall g p d a b m y, goal_inv (es ++ [e]) (up_goal N P s g p true d a b m y)).
      { intros. unfold goal_inv; cbn. split; [reflexivity|split; [discriminate|]].
        split; [intros X; rewrite X in T; discriminate|split; [intros X; rewrite X in T; discriminate|]]. intros _ _. exact Late. }
      assert (Same : goal_inv (es ++ [e]) s).
      { split; [exact A|split; [|split; [exact C|split; [exact D|]]]].
        - intros X. destruct (B X). split; [apply agree_snoc|]; assumption.
        - intros X Y. apply late_snoc; [exact W|]. apply F; assumption. }
      destruct e; try discriminate; cbn [step] in H; injection H as <-.
      * apply Keep.
      * destruct gs; [exact Same|]. destruct (s_accept s); [apply Keep|exact Same].
      * unfold fcuInputGoal. destruct (_ && _); cbn [forced_goal] in Fo.
        -- destruct (f_valid1 m =? 1); [|apply Keep]. cbn in Fo. rewrite Fo. cbn. apply (Keep (f_pos1 m)).
        -- destruct (f_valid1 m =? 1); [|exact Same]. cbn in Fo. rewrite Fo. exact Same.
    + destruct (is_reconf e) eqn:Re.
      * destruct e; try discriminate. cbn [step] in H. injection H as <-. unfold reconf.
        destruct (s_wpc s) eqn:Wp.
        2-9: unfold goal_inv; cbv beta iota delta [workerHoldsRunning]; try rewrite Wp; (split; [exact A|split; [|split; [exact C|split; [exact D|]]]]);
          [intros X; destruct (B X); split; [apply agree_snoc|]; assumption|intros X Y; apply late_snoc; [exact W|]; apply F; assumption].
        cbv beta iota delta [workerHoldsRunning]. unfold goal_inv; cbn.
        split; [discriminate|split; [|repeat split; try discriminate]].
        intros X. destruct (B X) as [[[B1 B2] _] B3]. split; [|exact B3].
        split; [|rewrite existsb_app; cbn; rewrite orb_true_r; discriminate].
        destruct (negb _); split; assumption.
      * pose proof (gview_other _ _ _ H W Ge Re) as V. unfold gview in V. injection V as V0 V1 V2 V3 V4 V5.
        unfold goal_inv. rewrite V0, V1, V2, V3, V4, V5. split; [exact A|split; [|split; [exact C|split; [exact D|]]]].
        -- intros X. destruct (B X). split; [apply agree_snoc|]; assumption.
        -- intros X Y. apply late_snoc; [exact W|]. apply F; assumption.
Qed.

Lemma run_goal n start goal acc lp l w jv jq es s :
  let s0 := init N P n start goal acc lp l w jv jq in
  runN s0 es = Some s -> undisturbed N G secs travel getyaw P pl_run pl_out pl_scan s0 es -> forallb (fun e => negb (forced_goal e)) es = true -> goal_inv es s.
Proof.
  intros s0. revert es s. apply (run_ind N G secs travel getyaw P pl_run pl_out pl_scan
    (fun es s => undisturbed N G secs travel getyaw P pl_run pl_out pl_scan s0 es -> forallb (fun e => negb (forced_goal e)) es = true -> goal_inv es s)).
  - intros _ _. unfold goal_inv; cbn. repeat split; discriminate.
  - intros es s e s' IH R St U Fo. rewrite forallb_app in Fo. apply andb_true_iff in Fo as [F1 F2]. cbn in F2.
    eapply step_goal; eauto.
    + apply IH; [|exact F1]. intros es1 e1 es2 s1 -> Ge R1. eapply (U es1 e1 (es2 ++ [e])); eauto. rewrite <- app_assoc. reflexivity.
    + destruct (forced_goal e); [discriminate|reflexivity].
Qed.

Lemma feed_goal n start goal acc lp l w jv jq es s now s' :
  let s0 := init N P n start goal acc lp l w jv jq in
  runN s0 es = Some s -> undisturbed N G secs travel getyaw P pl_run pl_out pl_scan s0 es -> forallb (fun e => negb (forced_goal e)) es = true ->
  s_wpc s = PRun -> stepN s (EWorker now) = Some s' ->
  exists f, feeds (s_log s') = feeds (s_log s) ++ [f] /\
    ((exists es1 e es2, es = es1 ++ e :: es2 /\ goal_event e = true /\ forallb (fun e => negb (is_worker e)) es2 = true) \/
     (same_xy (n_goal f) (s_goal s) /\ (existsb is_reconf es = false -> n_goal f = s_goal s) /\ n_prev_goal f = s_prev s)).
Proof.
  intros s0 R U Fo W St. destruct (run_goal _ _ _ _ _ _ _ _ _ _ _ R U Fo) as (A & B & C & D & F).
  cbn [step] in St. injection St as <-. pose proof (work_view N P pl_run pl_out pl_scan s now) as V. rewrite W in V.
  unfold view in V. injection V as _ _ _ V. eexists; split; [exact V|]. cbn [p_rest n_goal n_prev_goal].
  destruct (s_new s) eqn:Nw; [left; auto|right]. destruct (B eq_refl) as [[B1 B2] B3]. auto.
Qed.

(** once the flag is cleared nothing but a new goal event or a reconfiguration changes the planner's goal *)
Definition settled (g pg goal : vec3 N) (fs : list (plan_in N)) (s : state) : Prop :=
  s_new s = false /\ taking_goal (s_wpc s) = false /\ n_goal (s_lp_in s) = g /\ s_goal s = goal /\
  exists more, feeds (s_log s) = fs ++ more /\ forall f, In f more -> n_goal f = g.
Lemma settled_step g pg goal fs s e s' : settled g pg goal fs s -> stepN s e = Some s' -> goal_event e = false -> is_reconf e = false ->
  settled g pg goal fs s'.
Proof.
  intros (A & B & C & D & more & F1 & F2) H Ge Re. destruct (is_worker e) eqn:W.
  - destruct e; try discriminate. cbn [step] in H. injection H as <-.
    pose proof (gview_work s now) as V. unfold gview in V. cbv zeta in V. rewrite A in V.
    pose proof (work_pc_class s now) as K1. pose proof (work_view N P pl_run pl_out pl_scan s now) as V'. unfold view in V'. cbv zeta in V'.
    set (s' := workN s now) in *. unfold settled.
    assert (T : taking_goal (s_wpc s') = false).
    { destruct (taking_goal (s_wpc s')) eqn:T; [|reflexivity]. destruct (K1 eq_refl) as [X|[_ X]]; congruence. }
    assert (X : s_new s' = false /\ n_goal (s_lp_in s') = g /\ s_goal s' = goal).
    { destruct (s_wpc s); try discriminate B; injection V; intros; repeat split; congruence. }
    destruct X as (X1 & X2 & X3). split; [exact X1|split; [exact T|split; [exact X2|split; [exact X3|]]]].
    assert (Y : feeds (s_log s') = feeds (s_log s) \/ exists f, feeds (s_log s') = feeds (s_log s) ++ [f] /\ n_goal f = g).
    { destruct (s_wpc s); [destruct (nth_error _ _); [|destruct (_ || _)]|destruct (nth_error _ _)|..|destruct (s_cmd s)];
        injection V' as _ _ _ V'; rewrite V'; auto. right; eexists; split; [reflexivity|]. cbn. exact C. }
    destruct Y as [Y|(f & Y & Z)]; rewrite Y, F1.
    + exists more; auto.
    + exists (more ++ [f]). rewrite app_assoc. split; [reflexivity|]. intros f' I. apply in_app_or in I as [I|[<-|[]]]; auto.
  - pose proof (gview_other _ _ _ H W Ge Re) as V. unfold gview in V. injection V as V0 V1 V2 V3 V4 V5.
    assert (Y : feeds (s_log s') = feeds (s_log s)).
    { destruct (pipeline N e) eqn:Ep.
      - destruct e; try discriminate; cbn [step] in H; [injection H as <-; reflexivity|].
        destruct (nth_error _ _); [|injection H as <-; reflexivity]. destruct (transformPass _ _ _ _); [|discriminate]. injection H as <-; reflexivity.
      - pose proof (view_other N G secs travel getyaw P pl_run pl_out pl_scan _ _ _ H Ep) as V. unfold view in V. congruence. }
    unfold settled. rewrite V0, V1, V2, V4, Y. repeat split; try assumption. exists more; auto.
Qed.
Lemma settled_run g pg goal fs es : forall s s', settled g pg goal fs s -> runN s es = Some s' ->
  forallb (fun e => negb (goal_event e || is_reconf e)) es = true -> settled g pg goal fs s'.
Proof.
  induction es as [|e es IH]; cbn; intros s s' S R F; [injection R as <-; exact S|].
  destruct (stepN s e) as [s1|] eqn:E; [|discriminate]. apply andb_true_iff in F as [F1 F2].
  apply negb_true_iff, orb_false_iff in F1 as [F3 F4]. exact (IH _ _ (settled_step _ _ _ _ _ _ _ S E F3 F4) R F2).
Qed.

(* ------------------------------------------------------------------ C74 *)
Lemma step_scans s e s' : stepN s e = Some s' ->
  (feeds (s_log s') = feeds (s_log s) /\ scans N (s_log s') = scans N (s_log s)) \/
  (exists f, feeds (s_log s') = feeds (s_log s) ++ [f] /\
     scans N (s_log s') = (if negb (ltb N (cp_dist (n_px4 f)) (ofZ N 0)) && ltb N (ofZ N 0) (fst (pl_scan (s_lp s')))
                         then [pl_scan (s_lp s')] else []) ++ scans N (s_log s)).
Proof.
  intros H. destruct (is_worker e) eqn:W.
  - destruct e; try discriminate. cbn [step] in H. injection H as <-. unfold workerStep.
    destruct (s_wpc s); cbv zeta; try (left; split; reflexivity).
    + destruct (nth_error _ _); [|destruct (_ || _)]; left; split; reflexivity.
    + destruct (nth_error _ _); left; split; reflexivity.
    + right. eexists. cbn [s_log up_work s_lp]. rewrite !feeds_app, scan_feeds, app_nil_r. split; [reflexivity|]. cbn [p_rest n_px4].
      unfold scans. rewrite !flat_map_app. cbn [flat_map app]. rewrite app_nil_r. f_equal. unfold laserScan.
      destruct (negb _); cbn [andb]; [destruct (ltb _ _ _)|]; reflexivity.
    + destruct (s_cmd s); [left; split; reflexivity|]. left. cbn [s_log up_work]. rewrite feeds_app, app_nil_r. split; reflexivity.
  - left. destruct e; cbn [step] in H; try discriminate.
    + injection H as <-; split; reflexivity.
    + destruct (nth_error _ _); [|injection H as <-; split; reflexivity]. destruct (transformPass _ _ _ _); [|discriminate]. injection H as <-; split; reflexivity.
    + injection H as <-. unfold cmdStart. destruct (s_cmd s); split; reflexivity.
    + injection H as <-. unfold cmdPoll. destruct (s_cmd s); [destruct (_ && _)|]; split; reflexivity.
    + injection H as <-. unfold cmdEnd. destruct (s_cmd s); [|split; reflexivity]. destruct (s_posrec s); [|split; reflexivity].
      destruct (checkFailsafe _ _ _ _ _) as [st h].
      destruct st; try (split; reflexivity). cbn [s_log up_cmd]. rewrite feeds_app. unfold publish; cbn. rewrite app_nil_r. split; reflexivity.
    + injection H as <-; split; reflexivity.
    + injection H as <-; split; reflexivity.
    + injection H as <-; split; reflexivity.
    + injection H as <-; split; reflexivity.
    + injection H as <-. destruct gs; [|destruct (s_accept s)]; split; reflexivity.
    + injection H as <-. unfold fcuInputGoal. destruct (_ && _); destruct (_ =? 1); split; reflexivity.
    + injection H as <-; split; reflexivity.
    + injection H as <-. unfold reconf. destruct (workerHoldsRunning _); split; reflexivity.
Qed.

Context (Hrm : forall c, removeNaNAndGetMaxima N c <> None).
Lemma step_total s e : exists s', stepN s e = Some s'.
Proof.
  destruct e; cbn [step]; eauto. destruct (nth_error _ _) as [k|]; eauto.
  unfold transformPass. destruct (k_received k); [|eauto]. destruct tf as [[a b]|]; [|eauto].
  pose proof (Hrm (pc_points (k_raw k))). destruct (removeNaNAndGetMaxima _ _) as [[c mx]|]; [eauto|contradiction].
Qed.
Lemma run_total es : forall s, exists s', runN s es = Some s'.
Proof. induction es as [|e es IH]; intros s; cbn; [eauto|]. destruct (step_total s e) as [s1 ->]. apply IH. Qed.
End Nl.

Lemma removeNaN_F32_total c : removeNaNAndGetMaxima F32 c <> None.
Proof. destruct (removeNaN_spec c) as (c' & x1 & x2 & x3 & x4 & x5 & x6 & H & _). congruence. Qed.
Lemma removeNaN_F32_points c c' mx : removeNaNAndGetMaxima F32 c = Some (c', mx) -> c_points F32 c' = filter (finite3 F32) (c_points F32 c).
Proof. destruct (removeNaN_spec c) as (c1 & x1 & x2 & x3 & x4 & x5 & x6 & H & Q & _). rewrite H. intros [= <- _]. exact Q. Qed.
