(** Proofs about the global planner node that hold for every number system. *)
From Coq Require Import ZArith List Bool Lia.
From Verif Require Import Num CommonModel GpModel GpSearch GpPlan GpNode GpSpec GpNodeSpec.
Import ListNotations.

Section NodeP.
Context (N : num) (G : trig N) (fl cl rnd : N -> Z) (prob : N -> N) (ltinf : N -> bool)
        (popS : list (ptr * N) -> option ((ptr * N) * list (ptr * N)))
        (popO : list (gcell * N) -> option ((gcell * N) * list (gcell * N))) (C : ncfg N).
Notation P := (nc_gp C).
Notation step := (nstep N G fl cl rnd prob ltinf popS popO C).
Notation run := (nrun N G fl cl rnd prob ltinf popS popO C).

(** what a planning attempt can change *)
Lemma findPath_frame fuel g b p g' : findPath N G fl cl rnd prob ltinf popS popO fuel P g = Some (b, p, g') ->
  g_path g' = g_path g /\ g_goal g' = g_goal g /\ g_cache g' = g_cache g /\ g_map g' = g_map g /\ g_back g' = g_back g /\
  g_pos g' = g_pos g /\ g_vel g' = g_vel g /\ g_going_back g' = g_going_back g /\ g_yaw g' = g_yaw g /\ g_goal_blocked g' = g_goal_blocked g.
Proof using Type.
  unfold findPath. destruct (findPath_loop _ _ _ _ _ _ _ _ _ _ _ _ _ _ _ _ _ _) as [[[fo q] o]|]; [|discriminate].
  destruct fo.
  - intros [= <- <- <-]. cbn. repeat split.
  - destruct (find2DPath _ _ _ _ _ _ _ _ _ _ _ _ _ _ _ _ _ _) as [[b2 p2]|]; [|discriminate]. intros [= <- <- <-]. cbn. repeat split.
Qed.
Lemma global_frame fuel g b g' : getGlobalPath N G fl cl rnd prob ltinf popS popO fuel P g = Some (b, g') ->
  g_goal g' = g_goal g /\ g_cache g' = g_cache g /\ g_map g' = g_map g /\ g_back g' = g_back g /\
  g_pos g' = g_pos g /\ g_vel g' = g_vel g /\ g_going_back g' = g_going_back g /\ g_yaw g' = g_yaw g /\ (b = false -> g_path g' = g_path g).
Proof using Type.
  unfold getGlobalPath. cbv zeta. destruct (goal_must_be_free P && _); [discriminate|].
  destruct (goal_must_be_free P && ltb N _ _); [intros [= <- <-]; cbn; repeat split|].
  destruct (isOccupied _ _ _ _ _ _); [intros [= <- <-]; cbn; repeat split|].
  destruct (findPath _ _ _ _ _ _ _ _ _ fuel P g) as [[[fb p] g1]|] eqn:EF; [|discriminate].
  apply findPath_frame in EF. destruct EF as (F1 & F2 & F3 & F4 & F5 & F6 & F7 & F8 & F9 & _).
  destruct fb; intros [= <- <-]; cbn; repeat split; auto; discriminate.
Qed.


Lemma setCurrentPath_frame s m : ns_pl (setCurrentPath N s m) = ns_pl s /\ ns_wps (setCurrentPath N s m) = ns_wps s /\
  ns_pos (setCurrentPath N s m) = ns_pos s /\ ns_speed (setCurrentPath N s m) = ns_speed s.
Proof using Type. unfold setCurrentPath. destruct m as [|a [|b m]]; cbn; auto. Qed.
Lemma publishPath_frame s s' o : publishPath N G fl cl rnd prob C s = (s', o) ->
  ns_pl s' = ns_pl s /\ ns_wps s' = ns_wps s /\ ns_pos s' = ns_pos s /\ ns_speed s' = ns_speed s.
Proof using Type.
  unfold publishPath. intros [= <- <-].
  destruct (setCurrentPath_frame (setCurrentPath N s (getPathMsg N G P (ns_pl s) (g_path (ns_pl s))))
     (getPathMsg N G P (ns_pl s) (simple_path N G fl cl rnd prob C (ns_pl s)))) as (A & B & D & E).
  destruct (setCurrentPath_frame s (getPathMsg N G P (ns_pl s) (g_path (ns_pl s)))) as (A' & B' & D' & E').
  rewrite A, B, D, E. auto.
Qed.
Lemma planPath_frame fuel s s' o : planPath N G fl cl rnd prob ltinf popS popO C fuel s = Some (s', o) ->
  (agenda s' = agenda s \/ exists m r, agenda s' = GC m r true :: agenda s) /\ trail s' = trail s /\ ns_pos s' = ns_pos s /\ ns_speed s' = ns_speed s
  /\ g_pos (ns_pl s') = g_pos (ns_pl s) /\ ns_path s' = ns_path s /\ ns_goal s' = ns_goal s.
Proof using Type.
  unfold planPath. destruct (getGlobalPath _ _ _ _ _ _ _ _ _ fuel P (ns_pl s)) as [[b g]|] eqn:E; [|discriminate].
  apply global_frame in E. destruct E as (E1 & E2 & E3 & E4 & E5 & _).
  unfold agenda, trail. destruct (b && _).
  - unfold setIntermediateGoal. cbv zeta. destruct (10 <? _)%Z; intros [= <- <-]; cbn; rewrite ?E1, ?E4, ?E5; repeat split; auto.
    right. eexists _, _. reflexivity.
  - intros [= <- <-]. cbn. rewrite E1, E4, E5. repeat split; auto.
Qed.

(** one planning cycle: what happens to the goals *)
Inductive goal_step (reached blocked : bool) (here : gcell) : list (goalcell N) -> list (goalcell N) -> Prop :=
| gs_keep a : goal_step reached blocked here a a
| gs_next g w ws : reached || blocked = true -> goal_step reached blocked here (g :: w :: ws) (w :: ws)
| gs_stop g : blocked = true -> goal_step reached blocked here [g] [GC here (ofZ N 1) false].
Lemma served_step r b h a : goal_step r b h a (served r b h a).
Proof using Type.
  unfold served. destruct (r || b) eqn:E; [|constructor]. destruct a as [|g [|w ws]]; [constructor| |constructor; exact E].
  destruct b eqn:B; [|constructor]. constructor. reflexivity.
Qed.
Lemma plannerLoop_goals fuel touched s s' o : plannerLoop N G fl cl rnd prob ltinf popS popO C fuel touched s = Some (s', o) ->
  exists a, a = served (withinPositionRadius N (cell_scale P) (g_goal (ns_pl s)) (g_pos (ns_pl s))) (g_goal_blocked (ns_pl s))
                      (cell_of N fl (cell_scale P) (g_pos (ns_pl s))) (agenda s) /\
    (agenda s' = a \/ exists m r, agenda s' = GC m r true :: a) /\
    trail s' = trail s /\ ns_pos s' = ns_pos s.
Proof using Type.
  unfold plannerLoop. cbv zeta. set (reached := withinPositionRadius _ _ _ _). set (blocked := g_goal_blocked (ns_pl s)).
  destruct (if reached || blocked then popNextGoal N fl C s else (s, [])) as [s1 o1] eqn:E1.
  destruct (planPath _ _ _ _ _ _ _ _ _ C fuel s1) as [[s2 o2]|] eqn:E2; [|discriminate].
  destruct (publishPath _ _ _ _ _ _ C _) as [s4 o4] eqn:E4. intros [= <- <-].
  apply publishPath_frame in E4. destruct E4 as (A4 & B4 & D4 & _).
  assert (AG : agenda s4 = agenda s2) by (unfold agenda; rewrite A4, B4; reflexivity).
  assert (TR : trail s4 = trail s2) by (unfold trail; rewrite A4; reflexivity).
  apply planPath_frame in E2. destruct E2 as (A2 & T2 & P2 & _).
  assert (K1 : trail s1 = trail s /\ ns_pos s1 = ns_pos s).
  { destruct (reached || blocked); [|injection E1 as <- <-; auto]. revert E1. unfold popNextGoal, setNewGoal.
    destruct (ns_wps s); [destruct (g_goal_blocked (ns_pl s))|]; intros [= <- <-]; cbn; auto. }
  exists (agenda s1). rewrite AG. split; [|split; [exact A2|]].
  - unfold served. destruct (reached || blocked) eqn:EB; [|injection E1 as <- <-; reflexivity].
    revert E1. unfold popNextGoal, setNewGoal, agenda. destruct (ns_wps s) as [|w ws] eqn:EW.
    + fold blocked. destruct blocked eqn:EBl; intros [= <- <-]; cbn; rewrite ?EW; reflexivity.
    + intros [= <- <-]. reflexivity.
  - rewrite TR, T2, D4. cbn. rewrite P2. exact K1.
Qed.
Lemma step_frame fuel s e s' o : step fuel s e = Some (s', o) ->
  match e with
  | EPlan _ => True
  | EGoal _ _ | EFcu _ _ => ns_wps s' = ns_wps s /\ trail s' = trail s
  | EPose p => agenda s' = agenda s
  | _ => agenda s' = agenda s /\ trail s' = trail s
  end.
Proof using Type.
  destruct e; cbn [nstep]; auto.
  - unfold octomapFullCallback. destruct fresh, tree; try discriminate; intros [= <- <-]; cbn; auto.
  - unfold positionCallback. cbn [ns_path]. destruct (ns_path s); [intros [= <- <-]; reflexivity|].
    destruct (_ && _); intros [= <- <-]; reflexivity.
  - intros [= <- <-]; cbn; auto.
  - intros [= <- <-]. unfold depthCameraCallback, agenda, trail. cbn.
    assert (H : forall l g, g_goal (fold_left (addObstacle N fl P) l g) = g_goal g /\ g_back (fold_left (addObstacle N fl P) l g) = g_back g).
    { induction l; intros g; cbn; [auto|]. destruct (IHl (addObstacle N fl P g a)) as (A & B). rewrite A, B. auto. }
    destruct (H pts (ns_pl s)) as (A & B). rewrite A, B. auto.
  - intros [= <- <-]; cbn; auto.
  - intros X. unfold fcuInputGoalCallback in X. cbv zeta in X. destruct (valid && _); injection X as <- <-; cbn; auto.
  - unfold clickedPointCallback. destruct (getRiskC _ _ _ _ _ _ _) as [[? ?]|]; [|discriminate].
    destruct (octree _); [|discriminate]. intros [= <- <-]; cbn; auto.
  - unfold publishSetpoint. cbv zeta. destruct (use_speedup_heuristics P && _); [discriminate|]. intros X. injection X as <- <-.
    unfold agenda, trail. cbn [ns_pl ns_wps]. destruct (use_speedup_heuristics P); auto.
Qed.
Lemma rev_last_cons {A} (a b : A) l : exists r z, rev (a :: b :: l) = z :: r /\ exists r', rev (b :: l) = z :: r'.
Proof using Type.
  cbn [rev]. destruct (rev l) as [|z r]; cbn [app]; eauto.
Qed.
Lemma rev_cons_last {A} (a : A) l z r : rev l = z :: r -> exists r', rev (a :: l) = z :: r'.
Proof using Type. cbn [rev]. intros ->. cbn. eauto. Qed.

Lemma step_final fuel s e s' o : step fuel s e = Some (s', o) -> has_final s -> has_final s'.
Proof using Type.
  intros E F. pose proof (step_frame fuel s e s' o E) as Fr. unfold has_final in *.
  destruct e; try (rewrite (proj1 Fr); exact F); try (rewrite Fr; exact F).
  - (* EGoal *) cbn [nstep moveBaseSimpleCallback setNewGoal] in E. injection E as <- <-. unfold agenda in *. cbn.
    destruct (rev (ns_wps s)) as [|z r] eqn:R; [reflexivity|]. cbn. cbn in F. rewrite R in F. exact F.
  - cbn [nstep] in E. unfold fcuInputGoalCallback in E. cbv zeta in E. destruct (valid && _); injection E as <- <-; [|exact F].
    unfold agenda in *. cbn. cbn in F. destruct (rev (ns_wps s)) as [|z r] eqn:R; [reflexivity|exact F].
  - cbn [nstep] in E. apply plannerLoop_goals in E. destruct E as (a & SV & AG & _).
  assert (GS : goal_step (withinPositionRadius N (cell_scale P) (g_goal (ns_pl s)) (g_pos (ns_pl s))) (g_goal_blocked (ns_pl s))
    (cell_of N fl (cell_scale P) (g_pos (ns_pl s))) (agenda s) a) by (rewrite SV; apply served_step).
    assert (FA : match rev a with g :: _ => gc_temp g = false | [] => False end).
    { clear AG SV. remember (agenda s) as A eqn:HX. destruct GS as [x|g w ws R|g R].
      - exact F.
      - destruct (rev_last_cons g w ws) as (r & z & E1 & r' & E2). rewrite E1 in F. rewrite E2. exact F.
      - reflexivity. }
    destruct AG as [-> |(m & r & ->)]; [exact FA|].
    destruct (rev a) as [|z q] eqn:R; [contradiction|]. destruct (rev_cons_last (GC m r true) a z q R) as (q' & ->). exact FA.
Qed.

Lemma skipn_filter_tl {A} (f : A -> bool) a l : exists k, filter f l = skipn k (filter f (a :: l)) /\ (k <= 1)%nat.
Proof using Type. cbn. destruct (f a); [exists 1%nat|exists 0%nat]; split; auto. Qed.

(** one step: the real goals lose at most their head *)
Lemma step_real fuel s e s' o : auto_event e = true -> has_final s -> step fuel s e = Some (s', o) ->
  real s' = real s \/
  (exists g rest, real s = g :: rest /\ g = g_goal (ns_pl s) /\ (exists touched, e = EPlan touched) /\
     ((real s' = rest /\ withinPositionRadius N (cell_scale P) g (g_pos (ns_pl s)) || g_goal_blocked (ns_pl s) = true) \/
      (rest = [] /\ real s' = [GC (cell_of N fl (cell_scale P) (g_pos (ns_pl s))) (ofZ N 1) false] /\ g_goal_blocked (ns_pl s) = true))).
Proof using Type.
  intros HA HF E. pose proof (step_frame fuel s e s' o E) as Fr. unfold real.
  destruct e; try discriminate; try (rewrite (proj1 Fr); auto); try (rewrite Fr; auto).
  cbn [nstep] in E. apply plannerLoop_goals in E. destruct E as (a & SV & AG & _).
  assert (GS : goal_step (withinPositionRadius N (cell_scale P) (g_goal (ns_pl s)) (g_pos (ns_pl s))) (g_goal_blocked (ns_pl s))
    (cell_of N fl (cell_scale P) (g_pos (ns_pl s))) (agenda s) a) by (rewrite SV; apply served_step).
  assert (FA : filter (fun g => negb (gc_temp g)) (agenda s') = filter (fun g => negb (gc_temp g)) a).
  { destruct AG as [-> |(m & r & ->)]; reflexivity. }
  rewrite FA. unfold has_final in HF. clear AG FA SV. remember (agenda s) as A eqn:HX. destruct GS as [x|g w ws R|g R]; [left; reflexivity| |].
  - assert (Hg : g = g_goal (ns_pl s)) by (unfold agenda in HX; congruence).
    destruct (gc_temp g) eqn:T; [left; cbn [filter]; rewrite T; reflexivity|].
    right. exists g, (filter (fun g => negb (gc_temp g)) (w :: ws)). split; [cbn [filter]; rewrite T; reflexivity|]. split; [exact Hg|].
    split; [eauto|]. left. split; [reflexivity|]. rewrite Hg at 1. exact R.
  - assert (Hg : g = g_goal (ns_pl s)) by (unfold agenda in HX; congruence).
    cbn in HF.
    right. exists g, []. split; [cbn [filter]; rewrite HF; reflexivity|]. split; [exact Hg|]. split; [eauto|]. right. auto.
Qed.
Lemma run_real fuel es : forall s s' o, forallb auto_event es = true -> has_final s -> run fuel s es = Some (s', o) ->
  (exists k, real s' = skipn k (real s)) \/ (exists c, real s' = [GC c (ofZ N 1) false]).
Proof using Type.
  induction es as [|e es IH]; intros s s' o HA HF E; cbn [nrun] in E.
  - injection E as <- <-. left. exists 0%nat. reflexivity.
  - destruct (step fuel s e) as [[s1 o1]|] eqn:E1; [|discriminate]. destruct (run fuel s1 es) as [[s2 o2]|] eqn:E2; [|discriminate].
    injection E as <- <-. cbn [forallb] in HA. apply andb_true_iff in HA. destruct HA as (HA1 & HA2).
    pose proof (step_final _ _ _ _ _ E1 HF) as HF1.
    destruct (IH s1 s2 o2 HA2 HF1 E2) as [(k & K)|K]; [|right; exact K].
    destruct (step_real _ _ _ _ _ HA1 HF E1) as [R|(g & rest & R1 & _ & _ & [(R2 & _)|(R2 & R3 & _)])].
    + left. exists k. rewrite K, R. reflexivity.
    + left. exists (S k). rewrite K, R1, R2. reflexivity.
    + rewrite R3 in K. destruct k as [|k]; [right; eexists; exact K|].
      left. exists 1%nat. rewrite K, R1, R2. cbn. destruct k; reflexivity.
Qed.
End NodeP.
