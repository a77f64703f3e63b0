(** The planning cycle of the global planner node: risk cache and resulting path, for the reals and for doubles. *)
From Coq Require Import ZArith List Bool Lia.
From Verif Require Import Num CommonModel GpModel GpSearch GpPlan GpNode GpSpec GpPlanSpec GpNodeSpec GpProofs GpArith GpMiscProofs GpCostProofs GpPlanProofs GpNodeProofs GpNodeProofs2.
Import ListNotations.

Section Cycle.
Context (N : num) (ltinf : N -> bool) (A : arith N ltinf).
Context (G : trig N) (fl cl rnd : N -> Z) (prob : N -> N)
        (popS : list (ptr * N) -> option ((ptr * N) * list (ptr * N)))
        (popO : list (gcell * N) -> option ((gcell * N) * list (gcell * N))).
Hypothesis Hprob : prob_ok prob.
Hypothesis HS : is_pop popS.
Hypothesis HO : is_pop popO.
Context (C : ncfg N).
Notation P := (nc_gp C).
Hypothesis HP : sane P.
Notation step := (nstep N G fl cl rnd prob ltinf popS popO C).
Notation run := (nrun N G fl cl rnd prob ltinf popS popO C).
Notation cacheOf s := (g_cache (ns_pl s)).

Lemma touch_cache g cells : cache_nonneg (g_cache g) -> cache_nonneg (g_cache (touch N cl rnd prob C g cells)).
Proof using A HP Hprob.
  unfold touch. cbn [g_cache]. generalize (g_cache g). induction cells as [|c cells IH]; intros k Hk; cbn [fold_left]; [exact Hk|].
  apply IH. unfold getRiskC. destruct (cache_find N k c); [exact Hk|]. destruct (freshRisk N cl rnd prob P (g_map g) c) as [r|] eqn:E; [|exact Hk].
  intros c' r' [H|H]; [injection H as <- <-; eapply (fresh_nonneg N ltinf A); eauto|eapply Hk; eauto].
Qed.
Lemma pop_frame s s1 o : popNextGoal N fl C s = (s1, o) ->
  g_cache (ns_pl s1) = g_cache (ns_pl s) /\ g_map (ns_pl s1) = g_map (ns_pl s) /\ g_pos (ns_pl s1) = g_pos (ns_pl s) /\ g_vel (ns_pl s1) = g_vel (ns_pl s) /\
  g_yaw (ns_pl s1) = g_yaw (ns_pl s) /\
  (g_path (ns_pl s1) = g_path (ns_pl s) \/ g_path (ns_pl s1) = [cell_of N fl (cell_scale P) (g_pos (ns_pl s))]).
Proof using Type.
  unfold popNextGoal. destruct (ns_wps s) as [|w ws].
  - destruct (g_goal_blocked (ns_pl s)); intros [= <- <-]; cbn; repeat split; auto.
  - intros [= <- <-]. cbn. repeat split; auto.
Qed.
Lemma inter_frame s s1 o : setIntermediateGoal N C s = (s1, o) ->
  g_cache (ns_pl s1) = g_cache (ns_pl s) /\ g_path (ns_pl s1) = g_path (ns_pl s) /\ g_yaw (ns_pl s1) = g_yaw (ns_pl s).
Proof using Type.
  unfold setIntermediateGoal. cbv zeta. destruct (10 <? _)%Z; intros [= <- <-]; cbn; auto.
Qed.
(** A planning cycle: the path afterwards is a good path for the goal that was current when planning began, or what it was before
    (planning failed; or the single present cell if the node gave up). *)
Lemma plannerLoop_path fuel touched s s' o : cache_nonneg (cacheOf s) ->
  plannerLoop N G fl cl rnd prob ltinf popS popO C fuel touched s = Some (s', o) ->
  cache_nonneg (cacheOf s') /\
  exists g0, g_pos g0 = g_pos (ns_pl s) /\ g_vel g0 = g_vel (ns_pl s) /\ g_map g0 = g_map (ns_pl s) /\ g_cache g0 = g_cache (ns_pl s) /\
    (In (g_goal g0) (agenda s) \/ gc_cell (g_goal g0) = cell_of N fl (cell_scale P) (g_pos (ns_pl s))) /\
    (good_path N fl cl rnd prob P g0 (start_cell N fl P g0) (behind_cell N fl P g0) (g_path (ns_pl s')) \/
     fallback_path N fl cl rnd prob P g0 (start_cell N fl P g0) (g_path (ns_pl s')) \/
     g_path (ns_pl s') = g_path (ns_pl s) \/ g_path (ns_pl s') = [cell_of N fl (cell_scale P) (g_pos (ns_pl s))]) /\
    In (OTempPath (path_poses N G (cell_scale P) (g_yaw (ns_pl s)) (g_path (ns_pl s')))) o.
Proof using A HP Hprob HS HO.
  intros Hc. unfold plannerLoop. cbv zeta.
  set (b := withinPositionRadius N _ _ _ || g_goal_blocked (ns_pl s)).
  destruct (if b then popNextGoal N fl C s else (s, [])) as [s1 o1] eqn:E1.
  assert (F1 : g_cache (ns_pl s1) = g_cache (ns_pl s) /\ g_map (ns_pl s1) = g_map (ns_pl s) /\ g_pos (ns_pl s1) = g_pos (ns_pl s) /\
               g_vel (ns_pl s1) = g_vel (ns_pl s) /\ g_yaw (ns_pl s1) = g_yaw (ns_pl s) /\
               (g_path (ns_pl s1) = g_path (ns_pl s) \/ g_path (ns_pl s1) = [cell_of N fl (cell_scale P) (g_pos (ns_pl s))]) /\
               (In (g_goal (ns_pl s1)) (agenda s) \/ gc_cell (g_goal (ns_pl s1)) = cell_of N fl (cell_scale P) (g_pos (ns_pl s)))).
  { destruct b.
    - pose proof (pop_frame _ _ _ E1) as (a1 & a2 & a3 & a4 & a5 & a6). repeat split; auto.
      unfold popNextGoal in E1. destruct (ns_wps s) as [|w ws] eqn:EW.
      + destruct (g_goal_blocked (ns_pl s)); injection E1 as <- <-; cbn; auto.
      + injection E1 as <- <-. cbn. left. unfold agenda. rewrite EW. right; left; auto.
    - injection E1 as <- <-. repeat split; auto. left; left; auto. }
  destruct F1 as (f1 & f2 & f3 & f4 & f5 & f6 & f7).
  destruct (planPath N G fl cl rnd prob ltinf popS popO C fuel s1) as [[s2 o2]|] eqn:EP; [|discriminate].
  unfold planPath in EP. destruct (getGlobalPath N G fl cl rnd prob ltinf popS popO fuel P (ns_pl s1)) as [[fd g]|] eqn:EG; [|discriminate].
  assert (Hc1 : cache_nonneg (g_cache (ns_pl s1))) by (rewrite f1; exact Hc).
  pose proof (getGlobalPath_spec N ltinf A G fl cl rnd prob popS popO Hprob HS HO P HP fuel (ns_pl s1) fd g Hc1 EG) as (S1 & S2 & _ & _ & S5 & _).
  pose proof (global_frame N G fl cl rnd prob ltinf popS popO C fuel (ns_pl s1) fd g EG) as (_ & _ & _ & _ & _ & _ & _ & S8 & _).
  assert (Q : g_cache (ns_pl s2) = g_cache g /\ g_path (ns_pl s2) = g_path g /\ g_yaw (ns_pl s2) = g_yaw g).
  { destruct (fd && ltb N (cst N 105 100) (g_over g)).
    - destruct (setIntermediateGoal N C (with_pl N s1 g)) as [sx ox] eqn:EI. injection EP as <- <-. apply inter_frame in EI. exact EI.
    - injection EP as <- <-. cbn. auto. }
  destruct Q as (q1 & q2 & q3).
  destruct (publishPath N G fl cl rnd prob C (with_pl N s2 (touch N cl rnd prob C (ns_pl s2) touched))) as [s4 o4] eqn:EQ.
  pose proof (publishPath_frame N G fl cl rnd prob C _ _ _ EQ) as (u1 & _).
  intros [= <- <-]. rewrite u1. cbn [ns_pl with_pl].
  assert (T : g_path (touch N cl rnd prob C (ns_pl s2) touched) = g_path g) by (rewrite <- q2; reflexivity).
  split; [apply touch_cache; rewrite q1, S5, f1; exact Hc|].
  exists (ns_pl s1). split; [exact f3|]. split; [exact f4|]. split; [exact f2|]. split; [exact f1|]. split; [exact f7|]. rewrite T. split.
  - destruct fd; [destruct (S1 eq_refl) as ([X|X] & _); auto|]. rewrite (S2 eq_refl). right; right. exact f6.
  - rewrite !in_app_iff. right; right.
    unfold publishPath in EQ. cbv zeta in EQ. injection EQ as _ <-. left. replace (g_path g) with (g_path (ns_pl s2)) by exact q2. replace (g_yaw (ns_pl s)) with (g_yaw (ns_pl s2)) by congruence. reflexivity.
Qed.
Lemma step_cache fuel s e s' o : step fuel s e = Some (s', o) -> cache_nonneg (cacheOf s) -> cache_nonneg (cacheOf s').
Proof using A HP Hprob HS HO.
  intros H Hc. destruct e as [fresh tree res|p|v|pts|x y|valid p|p|touched|]; cbn [nstep] in H.
  - unfold octomapFullCallback in H. destruct fresh; [destruct tree; [|discriminate]|]; injection H as <- <-; cbn; [intros ? ? []|exact Hc].
  - injection H as <- <-. unfold positionCallback. cbn [ns_path]. destruct (ns_path s) as [|q r]; [exact Hc|]. match goal with |- context [if ?b then _ else _] => destruct b end; exact Hc.
  - injection H as <- <-. exact Hc.
  - injection H as <- <-. unfold depthCameraCallback. cbn [ns_pl with_pl]. generalize (ns_pl s) Hc. induction pts as [|p pts IH]; intros g Hg; cbn [fold_left]; [exact Hg|]. apply IH. exact Hg.
  - injection H as <- <-. exact Hc.
  - unfold fcuInputGoalCallback in H. cbv zeta in H. match type of H with context [if ?b then _ else _] => destruct b end; injection H as <- <-; exact Hc.
  - unfold clickedPointCallback in H. cbv zeta in H. match type of H with context [getRiskC N cl rnd prob P ?m ?k ?c] => destruct (getRiskC N cl rnd prob P m k c) as [[r k']|]; [|discriminate] end.
    destruct (octree _); [|discriminate]. injection H as <- <-. cbn [ns_pl with_pl]. apply touch_cache. exact Hc.
  - eapply plannerLoop_path in H; [apply H|exact Hc].
  - unfold publishSetpoint in H. cbv zeta in H. destruct (use_speedup_heuristics P && _); [discriminate|]. injection H as <- <-. cbn [ns_pl].
    destruct (use_speedup_heuristics P); [apply touch_cache|]; exact Hc.
Qed.
Lemma run_cache fuel es : forall s s' o, run fuel s es = Some (s', o) -> cache_nonneg (cacheOf s) -> cache_nonneg (cacheOf s').
Proof using A HP Hprob HS HO.
  induction es as [|e es IH]; intros s s' o H Hc; cbn [nrun] in H; [injection H as <- <-; exact Hc|].
  destruct (step fuel s e) as [[s1 o1]|] eqn:E; [|discriminate]. destruct (run fuel s1 es) as [[s2 o2]|] eqn:E2; [|discriminate].
  injection H as <- <-. eapply IH; eauto. eapply step_cache; eauto.
Qed.
End Cycle.
