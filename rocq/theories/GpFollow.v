(** Proofs about following a global path, path statistics and failed planning (C88, C91, C92, C93). *)
From Coq Require Import ZArith Reals List Bool Lia Lra Psatz.
From Verif Require Import Num CommonModel CommonSpec LpProofs2 GpModel GpSearch GpPlan GpNode GpSpec GpPlanSpec GpNodeSpec GpProofs GpMiscProofs GpNodeProofs GpProps1.
Import ListNotations.
Local Open Scope R_scope.

Section Follow.
Context (N : num) (G : trig N) (fl cl rnd : N -> Z) (prob : N -> N) (ltinf : N -> bool)
        (popS : list (ptr * N) -> option ((ptr * N) * list (ptr * N)))
        (popO : list (gcell * N) -> option ((gcell * N) * list (gcell * N))).
Context (C : ncfg N).
Notation P := (nc_gp C).
Notation step := (nstep N G fl cl rnd prob ltinf popS popO C).
Notation run := (nrun N G fl cl rnd prob ltinf popS popO C).

Lemma step_follow fuel s e s' o : step fuel s e = Some (s', o) -> (forall t, e <> EPlan t) ->
  (ns_goal s' = ns_goal s /\ ns_path s' = ns_path s) \/
  (exists p q rest, e = EPose p /\ ns_path s = q :: rest /\ ns_goal s' = q /\ ns_path s' = rest /\
     ltb N (gdistance N (gp_pos (ns_goal s)) (gp_pos p)) (ns_speed s) = true /\ yawOk N (gp_yaw (ns_goal s)) (gp_yaw p) = true).
Proof using Type.
  intros E NP. destruct e; cbn [nstep] in E.
  - unfold octomapFullCallback in E. destruct fresh, tree; try discriminate; injection E as <- <-; left; cbn; auto.
  - unfold positionCallback in E. cbn [ns_path] in E. destruct (ns_path s) as [|q rest] eqn:Q; [injection E as <- <-; left; cbn; auto|].
    destruct (_ && _) eqn:B; injection E as <- <-; [|left; cbn; auto].
    right. exists p, q, rest. apply andb_true_iff in B. destruct B as (B1 & B2). cbn in *. repeat split; auto.
  - injection E as <- <-; left; cbn; auto.
  - injection E as <- <-; left; cbn; auto.
  - injection E as <- <-; left; cbn; auto.
  - unfold fcuInputGoalCallback in E. cbv zeta in E. destruct (valid && _); injection E as <- <-; left; cbn; auto.
  - unfold clickedPointCallback in E. destruct (getRiskC _ _ _ _ _ _ _) as [[? ?]|]; [|discriminate].
    destruct (octree _); [|discriminate]. injection E as <- <-; left; cbn; auto.
  - exfalso. eapply NP. reflexivity.
  - unfold publishSetpoint in E. cbv zeta in E. destruct (use_speedup_heuristics P && _); [discriminate|]. injection E as <- <-. left; cbn; auto.
Qed.
Definition planning (e : nev N) : bool := match e with EPlan _ => true | _ => false end.
Lemma run_follow fuel es : forall s s' o, forallb (fun e => negb (planning e)) es = true -> run fuel s es = Some (s', o) ->
  exists k, (k <= length (poses_of es))%nat /\ (k <= length (ns_path s))%nat /\ ns_goal s' :: ns_path s' = skipn k (ns_goal s :: ns_path s).
Proof using Type.
  induction es as [|e es IH]; intros s s' o HA E; cbn [nrun] in E.
  - injection E as <- <-. exists 0%nat. cbn. split; [lia|split; [lia|reflexivity]].
  - destruct (step fuel s e) as [[s1 o1]|] eqn:E1; [|discriminate]. destruct (run fuel s1 es) as [[s2 o2]|] eqn:E2; [|discriminate].
    injection E as <- <-. cbn [forallb] in HA. apply andb_true_iff in HA. destruct HA as (HA1 & HA2).
    destruct (IH _ _ _ HA2 E2) as (k & K1 & K2 & K3).
    apply step_follow in E1; [|intros t ->; discriminate].
    destruct E1 as [(A & B)|(p & q & rest & -> & Q & A & B & _)].
    + exists k. rewrite A, B in K3. rewrite B in K2. split; [|auto]. destruct e; cbn [poses_of length] in *; lia.
    + exists (S k). rewrite B in K2. rewrite Q. cbn [poses_of length]. split; [lia|]. split; [lia|]. rewrite K3, A, B. reflexivity.
Qed.
Lemma pose_advances fuel s p q rest : ns_path s = q :: rest ->
  ltb N (gdistance N (gp_pos (ns_goal s)) (gp_pos p)) (ns_speed s) = true -> yawOk N (gp_yaw (ns_goal s)) (gp_yaw p) = true ->
  exists s', step fuel s (EPose p) = Some (s', []) /\ ns_goal s' = q /\ ns_path s' = rest.
Proof using Type.
  intros Q H1 H2. cbn [nstep]. unfold positionCallback. cbn [ns_path]. rewrite Q. unfold isCloseToGoal. cbn [ns_goal ns_pos ns_speed].
  rewrite H1, H2. cbn [andb]. eexists. split; [reflexivity|]. cbn. auto.
Qed.

Lemma publish_frame' s s' o : publishPath N G fl cl rnd prob C s = (s', o) -> ns_pl s' = ns_pl s /\ ns_pos s' = ns_pos s.
Proof using Type. intros E. apply publishPath_frame in E. destruct E as (A & _ & B & _). auto. Qed.
(** the published path decides where the vehicle is sent: to the second cell of the stored path *)
Lemma simple_first2 g a b l : g_path g = a :: b :: l -> exists l', simple_path N G fl cl rnd prob C g = a :: b :: l'.
Proof using Type.
  intros H. unfold simple_path. rewrite H.
  match goal with |- exists l', simplifyPath N ?c ?p ?m ?k ?d = _ => destruct (C53_simplify N c p m k d) as (q & -> & _ & F & _) end.
  cbn [firstn] in F. destruct q as [|x [|y q]]; try discriminate. injection F as -> ->. cbn [app]. eauto.
Qed.
Lemma publish_goal s s' o a b l : publishPath N G fl cl rnd prob C s = (s', o) -> g_path (ns_pl s) = a :: b :: l ->
  gp_pos (ns_goal s') = centre N (cell_scale P) b.
Proof using Type.
  unfold publishPath. intros [= <- <-] H. destruct (simple_first2 _ _ _ _ H) as (l' & ->).
  unfold getPathMsg, setCurrentPath.
  pose proof (path_poses_spec N G (cell_scale P) (a :: b :: l') (g_yaw (ns_pl s))) as E.
  destruct (path_poses _ _ _ _ _) as [|x [|y q]]; try discriminate. cbn [ns_goal]. cbn [map] in E. injection E as _ E _. exact E.
Qed.
Lemma touch_path g cells : g_path (touch N cl rnd prob C g cells) = g_path g.
Proof using Type. reflexivity. Qed.
(** planning while the vehicle's own cell is occupied *)
Lemma failed_plan fuel touched s a b l :
  let g := ns_pl s in
  withinPositionRadius N (cell_scale P) (g_goal g) (g_pos g) = false -> g_goal_blocked g = false ->
  (goal_must_be_free P = true -> getRiskC N cl rnd prob P (g_map g) (g_cache g) (gc_cell (g_goal g)) <> None) ->
  isOccupied N rnd prob P (g_map g) (cell_of N fl (cell_scale P) (g_pos g)) = true -> g_path g = a :: b :: l ->
  exists s' o, step fuel s (EPlan touched) = Some (s', o) /\ g_path (ns_pl s') = a :: b :: l /\ ns_pos s' = ns_pos s /\
    gp_pos (ns_goal s') = centre N (cell_scale P) b.
Proof using Type.
  cbv zeta. intros H1 H2 H3 H4 H5. cbn [nstep]. unfold plannerLoop. cbv zeta. rewrite H1, H2. cbn [orb]. unfold planPath, getGlobalPath. cbv zeta.
  assert (X : goal_must_be_free P && match getRiskC N cl rnd prob P (g_map (ns_pl s)) (g_cache (ns_pl s)) (gc_cell (g_goal (ns_pl s))) with
     Some _ => false | None => true end = false).
  { destruct (goal_must_be_free P); [|reflexivity]. destruct (getRiskC _ _ _ _ _ _ _); [reflexivity|]. exfalso. apply H3; reflexivity. }
  rewrite X. clear X. rewrite H4.
  destruct (goal_must_be_free P && ltb N _ _); cbn [andb];
  match goal with |- context [publishPath N G fl cl rnd prob C ?t] => destruct (publishPath N G fl cl rnd prob C t) as (s4 & o4) eqn:E;
     pose proof (publish_goal t s4 o4 a b l E H5) as D; apply publish_frame' in E end;
  (eexists _, _; split; [reflexivity|]); destruct E as (E1 & E2); rewrite E1, E2; cbn; auto.
Qed.
(** giving up on a blocked goal with nothing else to do, while the vehicle's own cell is occupied *)
Lemma stop_keeps_goal fuel touched s :
  let g := ns_pl s in
  g_goal_blocked g = true -> ns_wps s = [] ->
  (goal_must_be_free P = true -> getRiskC N cl rnd prob P (g_map g) (g_cache g) (cell_of N fl (cell_scale P) (g_pos g)) <> None) ->
  isOccupied N rnd prob P (g_map g) (cell_of N fl (cell_scale P) (g_pos g)) = true ->
  exists s' o, step fuel s (EPlan touched) = Some (s', o) /\ g_path (ns_pl s') = [cell_of N fl (cell_scale P) (g_pos g)] /\
    ns_goal s' = ns_goal s /\ ns_path s' = [].
Proof using Type.
  cbv zeta. intros H1 H2 H3 H4. cbn [nstep]. unfold plannerLoop. cbv zeta. rewrite H1, orb_true_r. unfold popNextGoal. rewrite H1, H2.
  unfold planPath, getGlobalPath. cbv zeta. cbn [with_pl ns_pl stop setPath setGoal g_goal gc_cell g_map g_cache g_pos g_goal_blocked].
  assert (X : goal_must_be_free P && match getRiskC N cl rnd prob P (g_map (ns_pl s)) (g_cache (ns_pl s)) (cell_of N fl (cell_scale P) (g_pos (ns_pl s))) with
     Some _ => false | None => true end = false).
  { destruct (goal_must_be_free P); [|reflexivity]. destruct (getRiskC _ _ _ _ _ _ _); [reflexivity|]. exfalso. apply H3; reflexivity. }
  rewrite X. clear X. rewrite H4.
  match goal with |- context [if ?b then Some _ else Some _] => destruct b end; cbn [andb];
  (eexists _, _; split; [reflexivity|]); cbn; auto.
Qed.
End Follow.
