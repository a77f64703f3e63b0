(** C58: which goals the global planner node announces. *)
From Coq Require Import ZArith Reals List Bool Lia Lra.
From Verif Require Import Num Num64 CommonModel GpModel GpSearch GpPlan GpNode GpSpec GpNodeSpec GpNodeProofs GpCellProofs GpArith.
Import ListNotations.

(** the positions announced as goals of any kind, and those announced as goals that are not temporary *)
Definition temp_goals {N : num} (o : list (nout N)) : list (vec3 N) := flat_map (fun x => match x with OTempGoal p => [p] | _ => [] end) o.
Definition final_goals {N : num} (o : list (nout N)) : list (vec3 N) := flat_map (fun x => match x with OGoal p => [p] | _ => [] end) o.
Definition announced {N : num} (sc : N) (gs : list (goalcell N)) (o : list (nout N)) : Prop :=
  temp_goals o = map (fun g => centre N sc (gc_cell g)) gs /\ final_goals o = map (fun g => centre N sc (gc_cell g)) (filter (fun g => negb (gc_temp g)) gs).
Ltac FR := match goal with H : _ /\ _ |- _ => exact (proj1 H) | H : _ |- _ => exact H end.
Lemma announced_app {N : num} (sc : N) a b o o' : announced sc a o -> announced sc b o' -> announced sc (a ++ b) (o ++ o').
Proof. intros (A1 & A2) (B1 & B2). unfold announced, temp_goals, final_goals in *. rewrite !flat_map_app, filter_app, !map_app. split; congruence. Qed.
Lemma announced_one {N : num} (C : ncfg N) g : announced (cell_scale (nc_gp C)) [g] (publishGoal N C g).
Proof. unfold announced, publishGoal, temp_goals, final_goals. cbn. destruct (gc_temp g); split; reflexivity. Qed.
Lemma announced_nil {N : num} (sc : N) : announced sc [] [].
Proof. split; reflexivity. Qed.

Section P.
Context (N : num) (G : trig N) (fl cl rnd : N -> Z) (prob : N -> N) (ltinf : N -> bool)
        (popS : list (ptr * N) -> option ((ptr * N) * list (ptr * N))) (popO : list (gcell * N) -> option ((gcell * N) * list (gcell * N))) (C : ncfg N).
Notation sc := (cell_scale (nc_gp C)).
Lemma plan_announces fuel s s' o : planPath N G fl cl rnd prob ltinf popS popO C fuel s = Some (s', o) ->
  o = [] /\ g_goal (ns_pl s') = g_goal (ns_pl s) \/ exists g, announced sc [g] o /\ g_goal (ns_pl s') = g.
Proof using Type.
  unfold planPath. destruct (getGlobalPath _ _ _ _ _ _ _ _ _ fuel (nc_gp C) (ns_pl s)) as [[b g]|] eqn:E; [|discriminate].
  apply global_frame in E. destruct E as (E1 & _). destruct (b && _).
  - unfold setIntermediateGoal. cbv zeta. destruct (10 <? _)%Z.
    + unfold setNewGoal. intros H. injection H as <- <-. right. eexists. split; [apply announced_one|reflexivity].
    + intros [= <- <-]. left. split; [reflexivity|]. cbn. exact E1.
  - intros [= <- <-]. left. split; [reflexivity|]. cbn. exact E1.
Qed.
Lemma publish_announces s s' o : publishPath N G fl cl rnd prob C s = (s', o) -> announced sc [] o.
Proof using Type. unfold publishPath. intros [= _ <-]. split; reflexivity. Qed.
End P.

(** Every step of the node: the goals [gs] it sets are announced in the order in which they are set, the intermediate ones as temporary goals only; the last one is
    the goal from then on. If it sets none the goal stays what it was, unless the vehicle gives up on a goal that is blocked, the last of its list, and stops where
    it is: this goal is not announced. *)
Theorem C58_goals_announced :
  forall (N : num) (G : trig N) (fl cl rnd : N -> Z) (prob : N -> N) ltinf popS popO (C : ncfg N) fuel s e s' o,
  nstep N G fl cl rnd prob ltinf popS popO C fuel s e = Some (s', o) ->
  exists gs, announced (cell_scale (nc_gp C)) gs o /\
  match rev gs with
  | g :: _ => g_goal (ns_pl s') = g
  | [] => g_goal (ns_pl s') = g_goal (ns_pl s) \/
      ns_wps s = [] /\ g_goal_blocked (ns_pl s) = true /\ (exists touched, e = EPlan touched) /\
      g_goal (ns_pl s') = GC (cell_of N fl (cell_scale (nc_gp C)) (g_pos (ns_pl s))) (ofZ N 1) false
  end.
Proof.
  intros N G fl cl rnd prob ltinf popS popO C fuel s e s' o E.
  assert (Keep : agenda s' = agenda s -> announced (cell_scale (nc_gp C)) [] o -> exists gs, announced (cell_scale (nc_gp C)) gs o /\
    match rev gs with g :: _ => g_goal (ns_pl s') = g | [] => g_goal (ns_pl s') = g_goal (ns_pl s) \/
      ns_wps s = [] /\ g_goal_blocked (ns_pl s) = true /\ (exists touched, e = EPlan touched) /\
      g_goal (ns_pl s') = GC (cell_of N fl (cell_scale (nc_gp C)) (g_pos (ns_pl s))) (ofZ N 1) false end).
  { intros A B. exists []. split; [exact B|]. cbn. left. unfold agenda in A. congruence. }
  pose proof (step_frame N G fl cl rnd prob ltinf popS popO C fuel s e s' o E) as Fr.
  destruct e; cbn [nstep] in E.
  - apply Keep; [FR|]. destruct (octomapFullCallback _ _ _ _ _); [|discriminate]. injection E as _ <-. apply announced_nil.
  - apply Keep; [FR|]. injection E as _ <-. apply announced_nil.
  - apply Keep; [FR|]. injection E as _ <-. apply announced_nil.
  - apply Keep; [FR|]. injection E as _ <-. apply announced_nil.
  - unfold moveBaseSimpleCallback, setNewGoal in E. injection E as <- <-. eexists. split; [apply announced_one|]. reflexivity.
  - unfold fcuInputGoalCallback in E. cbv zeta in E. destruct (valid && _).
    + unfold setNewGoal in E. injection E as <- <-. eexists. split; [apply announced_one|]. reflexivity.
    + injection E as <- <-. apply Keep; [reflexivity|apply announced_nil].
  - apply Keep; [FR|]. destruct (clickedPointCallback _ _ _ _ _ _ _ _); [|discriminate]. injection E as _ <-. apply announced_nil.
  - clear Keep Fr. unfold plannerLoop in E. cbv zeta in E.
    match type of E with context [if ?b then popNextGoal _ _ _ _ else _] => set (c := b) in * end.
    destruct (if c then popNextGoal N fl C s else (s, [])) as [s1 o1] eqn:E1.
    destruct (planPath _ _ _ _ _ _ _ _ _ C fuel s1) as [[s2 o2]|] eqn:E2; [|discriminate].
    destruct (publishPath _ _ _ _ _ _ C _) as [s4 o4] eqn:E4. injection E as <- <-.
    pose proof (publish_announces _ _ _ _ _ _ _ _ _ _ E4) as A4. apply publishPath_frame in E4. destruct E4 as (G4 & _).
    rewrite G4. cbn [ns_pl with_pl touch g_goal]. clear G4 s4.
    assert (K1 : exists g1, announced (cell_scale (nc_gp C)) g1 o1 /\ match rev g1 with g :: _ => g_goal (ns_pl s1) = g | [] =>
      g_goal (ns_pl s1) = g_goal (ns_pl s) \/ ns_wps s = [] /\ g_goal_blocked (ns_pl s) = true /\
      g_goal (ns_pl s1) = GC (cell_of N fl (cell_scale (nc_gp C)) (g_pos (ns_pl s))) (ofZ N 1) false end).
    { destruct c; [|injection E1 as <- <-; exists []; split; [apply announced_nil|cbn; auto]].
      unfold popNextGoal in E1. destruct (ns_wps s) as [|w ws].
      - destruct (g_goal_blocked (ns_pl s)); injection E1 as <- <-; exists []; (split; [apply announced_nil|]); cbn; auto.
      - unfold setNewGoal in E1. injection E1 as <- <-. eexists. split; [apply announced_one|]. reflexivity. }
    destruct K1 as (g1 & A1 & L1). apply plan_announces in E2. destruct E2 as [(-> & G2)|(g & A2 & G2)].
    + exists (g1 ++ []). split; [apply announced_app; [exact A1|cbn [app]; exact A4]|]. rewrite app_nil_r.
      destruct (rev g1) as [|x r]; [|congruence]. destruct L1 as [L1|(L1 & L2 & L3)]; [left; congruence|right]. repeat split; auto; [eauto|congruence].
    + exists (g1 ++ ([g] ++ [])). split; [apply announced_app; [exact A1|apply announced_app; assumption]|]. cbn [app]. rewrite rev_app_distr. exact G2.
  - apply Keep; [FR|]. unfold publishSetpoint in E. cbv zeta in E. destruct (use_speedup_heuristics (nc_gp C) && _); [discriminate|].
    injection E as _ <-. split; reflexivity.
Qed.
Print Assumptions C58_goals_announced.
Example C58_goals_announced_example : forall (N : num) (fl : N -> Z) (C : ncfg N) (s : nstate N) (x y : N),
  (let p := centre N (cell_scale (nc_gp C)) (cell_of N fl (cell_scale (nc_gp C)) (V3 x y (clicked_alt C))) in snd (moveBaseSimpleCallback N fl C s x y) = [OTempGoal p; OGoal p]) /\
  (g_path (ns_pl s) = map (fun i => C3 i 0 3) [0; 1; 2; 3; 4; 5; 6; 7; 8; 9; 10]%Z ->
   snd (setIntermediateGoal N C s) = [OTempGoal (centre N (cell_scale (nc_gp C)) (C3 5 0 3))]).
Proof. intros N fl C s x y. split; [reflexivity|]. intros E. unfold setIntermediateGoal. rewrite E. reflexivity. Qed.

(** C58: a goal of the autopilot is taken exactly if it is valid and not in the column of cells of the present goal. *)
Theorem C58_autopilot_goal :
  forall (G : trig Rn) (prob : Rn -> Rn) popS popO (C : ncfg Rn) fuel s valid p, (1 / 1000 < cell_scale (nc_gp C))%R ->
  let new := cell_of Rn Rfl (cell_scale (nc_gp C)) p in let old := gc_cell (g_goal (ns_pl s)) in
  exists s' o, nstep Rn G Rfl Rcl Rrnd prob anyinf popS popO C fuel s (EFcu valid p) = Some (s', o) /\
  (valid = true /\ ((cx new, cy new) <> (cx old, cy old)) /\ g_goal (ns_pl s') = GC new (1 : Rn)%R false /\ o <> [] \/
   (valid = false \/ (cx new, cy new) = (cx old, cy old)) /\ s' = s /\ o = []).
Proof.
  intros G prob popS popO C fuel s valid p Hs new old. cbn [nstep]. unfold fcuInputGoalCallback. cbv zeta. fold new old.
  assert (F : forall a b : Z, ltb Rn (cst Rn 1 1000) (absv Rn (sub Rn (pos1 Rn (cell_scale (nc_gp C)) a) (pos1 Rn (cell_scale (nc_gp C)) b))) = negb (a =? b)%Z).
  { intros a b. rewrite cst_Rn. rewrite !pos1_R. rn. tR. replace (cell_scale (nc_gp C) * (IZR a + / 2) - cell_scale (nc_gp C) * (IZR b + / 2))%R with (cell_scale (nc_gp C) * IZR (a - b))%R by (rewrite minus_IZR; field).
    rewrite Rabs_mult, (Rabs_pos_eq (cell_scale (nc_gp C))) by lra. destruct (Z.eqb_spec a b) as [->|D].
    - rewrite Z.sub_diag, Rabs_R0. apply R_ltb_false. lra.
    - assert (1 <= Rabs (IZR (a - b)))%R by (rewrite <- abs_IZR; apply IZR_le; lia). apply R_ltb_true. cbn [negb]. nra. }
  rewrite !F. destruct valid; [|eexists _, _; split; [reflexivity|right; auto]].
  destruct (Z.eqb_spec (cx old) (cx new)) as [E1|E1], (Z.eqb_spec (cy old) (cy new)) as [E2|E2]; cbn [negb orb andb];
    (eexists _, _; split; [reflexivity|]); [right; split; [right; congruence|auto]|left|left|left]; (split; [reflexivity|]; split; [congruence|]; split; [reflexivity|discriminate]).
Qed.
Print Assumptions C58_autopilot_goal.
(** C58: an intermediate goal is only put in when a path of more than ten cells to the goal has been found, and it is the middle cell of this path. *)
Theorem C58_intermediate_goal :
  forall (N : num) (G : trig N) (fl cl rnd : N -> Z) (prob : N -> N) ltinf popS popO (C : ncfg N) fuel s s' o,
  planPath N G fl cl rnd prob ltinf popS popO C fuel s = Some (s', o) -> o <> [] ->
  exists g, getGlobalPath N G fl cl rnd prob ltinf popS popO fuel (nc_gp C) (ns_pl s) = Some (true, g) /\ (10 < length (g_path g))%nat /\
    ns_wps s' = g_goal (ns_pl s) :: ns_wps s /\ gc_temp (g_goal (ns_pl s')) = true /\
    nth_error (g_path g) (length (g_path g) / 2) = Some (gc_cell (g_goal (ns_pl s'))).
Proof.
  intros N G fl cl rnd prob ltinf popS popO C fuel s s' o E Ho. unfold planPath in E.
  destruct (getGlobalPath N G fl cl rnd prob ltinf popS popO fuel (nc_gp C) (ns_pl s)) as [[b g]|] eqn:EG; [|discriminate].
  destruct b; cbn [andb] in E; [|injection E as <- <-; congruence]. destruct (ltb N _ _); [|injection E as <- <-; congruence].
  unfold setIntermediateGoal in E. cbv zeta in E. cbn [with_pl ns_pl] in E. destruct (Z.ltb_spec 10 (Z.of_nat (length (g_path g)))) as [L|L]; [|injection E as <- <-; congruence].
  unfold setNewGoal in E. injection E as <- <-. exists g. apply global_frame in EG. destruct EG as (G1 & _).
  split; [reflexivity|]. split; [lia|]. cbn. split; [rewrite G1; reflexivity|]. split; [reflexivity|].
  replace (Z.to_nat (Z.of_nat (length (g_path g)) / 2)) with (length (g_path g) / 2)%nat by (rewrite <- (Nat2Z.id (length (g_path g) / 2)), Nat2Z.inj_div; reflexivity).
  apply nth_error_nth'. apply Nat.div_lt; lia.
Qed.
Print Assumptions C58_intermediate_goal.
(** C86: a map that is accepted replaces the one before and all cached risks; one that comes too early changes nothing. *)
Theorem C86_map_message :
  forall (N : num) (G : trig N) (fl cl rnd : N -> Z) (prob : N -> N) ltinf popS popO (C : ncfg N) fuel s fresh tree res,
  exists s', nstep N G fl cl rnd prob ltinf popS popO C fuel s (EMap fresh (Some tree) res) = Some (s', []) /\
  if fresh then octree (g_map (ns_pl s')) = Some tree /\ resolution (g_map (ns_pl s')) = Some res /\ g_cache (ns_pl s') = [] /\
                occupied (g_map (ns_pl s')) = occupied (g_map (ns_pl s)) /\ agenda s' = agenda s
  else s' = s.
Proof. intros. cbn [nstep]. unfold octomapFullCallback. destruct fresh; (eexists; split; [reflexivity|]); [repeat split|reflexivity]. Qed.
Print Assumptions C86_map_message.
(** C59: every setpoint has the heading of the path pose the vehicle is flying to, and sending it leaves path and goals as they are. *)
Theorem C59_setpoint_heading :
  forall (N : num) (G : trig N) (fl cl rnd : N -> Z) (prob : N -> N) ltinf popS popO (C : ncfg N) fuel s s' o,
  nstep N G fl cl rnd prob ltinf popS popO C fuel s ECmd = Some (s', o) ->
  (exists p, o = [OSetpoint (GP p (gp_yaw (ns_goal s)))]) /\ ns_path s' = ns_path s /\ ns_goal s' = ns_goal s /\ agenda s' = agenda s.
Proof.
  intros N G fl cl rnd prob ltinf popS popO C fuel s s' o E. cbn [nstep] in E. unfold publishSetpoint in E. cbv zeta in E. destruct (use_speedup_heuristics (nc_gp C) && _); [discriminate|].
  injection E as <- <-. split; [eexists; reflexivity|]. repeat split. unfold agenda. cbn [ns_pl ns_wps]. destruct (use_speedup_heuristics (nc_gp C)); reflexivity.
Qed.
Print Assumptions C59_setpoint_heading.
Example C58_autopilot_example : (1 / 1000 < (1 : R))%R /\ (cx (C3 1 2 3), cy (C3 1 2 3)) <> (cx (C3 2 2 3), cy (C3 2 2 3)) /\ (cx (C3 1 2 3), cy (C3 1 2 3)) = (cx (C3 1 2 4), cy (C3 1 2 4)).
Proof. repeat split; [lra|discriminate]. Qed.
