(** Proofs about CamModel.v: what is in the set of cells in which an obstacle was seen. *)
From Coq Require Import ZArith List Bool String Lia.
From Verif Require Import Num CommonModel GpModel GpSearch GpPlan GpNode PfModel CamModel GpSpec GpPlanSpec GpNodeSpec GpProofs GpArith GpMiscProofs GpCostProofs GpPlanProofs
  GpNodeProofs GpNodeProofs2 GpNodeProofs3.
Import ListNotations.

Lemma ceq_true a b : ceq a b = true <-> a = b.
Proof.
  unfold ceq. destruct a as [a1 a2 a3], b as [b1 b2 b3]. cbn [cx cy cz]. rewrite !andb_true_iff, !Z.eqb_eq. split.
  - intros ((-> & ->) & ->). reflexivity.
  - intros [= -> -> ->]. auto.
Qed.
Lemma in_cins l c d : In d (cins l c) <-> In d l \/ d = c.
Proof.
  unfold cins, cmem. destruct (existsb (ceq c) l) eqn:E.
  - split; [auto|]. intros [H| ->]; [exact H|]. apply existsb_exists in E. destruct E as (x & Hx & Hc). apply ceq_true in Hc. subst. exact Hx.
  - rewrite in_app_iff. cbn [In]. split; [intros [H|[H|[]]]; auto|intros [H|H]; auto].
Qed.

Section CamP.
Context (N : num) (G : trig N) (fl cl rnd : N -> Z) (prob : N -> N) (ltinf : N -> bool)
        (popS : list (ptr * N) -> option ((ptr * N) * list (ptr * N)))
        (popO : list (gcell * N) -> option ((gcell * N) * list (gcell * N))).
Context (C : ncfg N).
Context (tf : string -> Z -> option (vec3 N -> vec3 N)).
Notation P := (nc_gp C).
Notation step := (nstep N G fl cl rnd prob ltinf popS popO C).
Notation seen s := (occupied (g_map (ns_pl s))).

Lemma cloud_adds pts : forall (s : nstate N) c, In c (seen (depthCameraCallback N fl C s pts)) <->
  In c (seen s) \/ exists p, In p pts /\ cell_of N fl (cell_scale P) p = c.
Proof using Type.
  unfold depthCameraCallback. intros s. cbn [ns_pl with_pl]. generalize (ns_pl s). clear s.
  induction pts as [|p pts IH]; intros g c; cbn [fold_left]; [split; [auto|intros [H|(p & [] & _)]; exact H]|].
  rewrite IH. cbn [addObstacle g_map occupied]. rewrite in_cins. split.
  - intros [[H| ->]|(q & Hq & Hc)]; [auto|right; exists p; split; [left|]; reflexivity|right; exists q; split; [right; exact Hq|exact Hc]].
  - intros [H|(q & [<-|Hq] & Hc)]; [auto|left; right; symmetry; exact Hc|right; exists q; auto].
Qed.
Lemma inter_map s s1 o : setIntermediateGoal N C s = (s1, o) -> g_map (ns_pl s1) = g_map (ns_pl s).
Proof using Type. unfold setIntermediateGoal. cbv zeta. destruct (10 <? _)%Z; intros [= <- <-]; reflexivity. Qed.

(** callbacks other than those of clouds keep the set *)
Lemma other_keeps fuel s e s' o : step fuel s e = Some (s', o) -> (forall pts, e <> ECloud pts) -> seen s' = seen s.
Proof using Type.
  intros H Hn. destruct e as [fresh tree res|p|v|pts|x y|valid p|p|touched|]; cbn [nstep] in H.
  - unfold octomapFullCallback in H. destruct fresh; [destruct tree; [|discriminate]|]; injection H as <- <-; reflexivity.
  - injection H as <- <-. unfold positionCallback. cbn [ns_path]. destruct (ns_path s) as [|q r]; [reflexivity|].
    match goal with |- context [if ?b then _ else _] => destruct b end; reflexivity.
  - injection H as <- <-. reflexivity.
  - exfalso. eapply Hn. reflexivity.
  - injection H as <- <-. reflexivity.
  - unfold fcuInputGoalCallback in H. cbv zeta in H. match type of H with context [if ?b then _ else _] => destruct b end; injection H as <- <-; reflexivity.
  - unfold clickedPointCallback in H. cbv zeta in H. match type of H with context [getRiskC N cl rnd prob P ?m ?k ?c] => destruct (getRiskC N cl rnd prob P m k c) as [[r k']|]; [|discriminate] end.
    destruct (octree _); [|discriminate]. injection H as <- <-. reflexivity.
  - unfold plannerLoop in H.
    set (b := withinPositionRadius _ _ _ _ || _) in H. cbv zeta in H.
    destruct (if b then popNextGoal N fl C s else (s, [])) as [s1 o1] eqn:E1.
    assert (F1 : g_map (ns_pl s1) = g_map (ns_pl s)).
    { destruct b; [apply (pop_frame N fl C) in E1; apply E1|injection E1 as <- <-; reflexivity]. }
    destruct (planPath N G fl cl rnd prob ltinf popS popO C fuel s1) as [[s2 o2]|] eqn:EP; [|discriminate].
    unfold planPath in EP. destruct (getGlobalPath N G fl cl rnd prob ltinf popS popO fuel P (ns_pl s1)) as [[fd g]|] eqn:EG; [|discriminate].
    pose proof (global_frame N G fl cl rnd prob ltinf popS popO C fuel (ns_pl s1) fd g EG) as (_ & _ & S3 & _).
    assert (Q : g_map (ns_pl s2) = g_map g).
    { destruct (fd && ltb N (cst N 105 100) (g_over g)).
      - destruct (setIntermediateGoal N C (with_pl N s1 g)) as [sx ox] eqn:EI. injection EP as <- <-. apply inter_map in EI. exact EI.
      - injection EP as <- <-. reflexivity. }
    destruct (publishPath N G fl cl rnd prob C (with_pl N s2 (touch N cl rnd prob C (ns_pl s2) touched))) as [s4 o4] eqn:EQ.
    apply (publishPath_frame N G fl cl rnd prob C) in EQ. destruct EQ as (u1 & _).
    injection H as <- <-. rewrite u1. cbn [ns_pl with_pl]. unfold touch. cbn [g_map]. rewrite Q, S3, F1. reflexivity.
  - unfold publishSetpoint in H. cbv zeta in H. destruct (use_speedup_heuristics P && _); [discriminate|]. injection H as <- <-. cbn [ns_pl].
    destruct (use_speedup_heuristics P); reflexivity.
Qed.

(** what a cloud message puts where *)
Definition stores (frame : string) (now : Z) (msg : cloudmsg N) (c : gcell) : Prop :=
  exists g p, tf frame now = Some g /\ In p (cm_points msg) /\ isnanb N (vx (g p)) = false /\ cell_of N fl (cell_scale P) (g p) = c.
Lemma camera_adds frame s now msg s' m c : cameraCallback N fl C tf frame s now msg = (s', m) ->
  (In c (seen s') <-> In c (seen s) \/ stores frame now msg c).
Proof using Type.
  unfold cameraCallback, cam_points, stores. destruct (tf frame now) as [g|].
  - intros [= <- <-]. rewrite cloud_adds. apply or_iff_compat_l. split.
    + intros (q & Hq & Hc). apply filter_In in Hq. destruct Hq as (Hq & Hn). apply in_map_iff in Hq. destruct Hq as (p & <- & Hp).
      exists g, p. apply negb_true_iff in Hn. auto.
    + intros (g' & p & [= <-] & Hp & Hn & Hc). exists (g p). split; [|exact Hc]. apply filter_In. split; [apply in_map; exact Hp|]. rewrite Hn. reflexivity.
  - intros [= <- <-]. split; [auto|]. intros [H|(g' & p & [=] & _)]. exact H.
Qed.
Lemma crun_seen frame fuel es : forall s s' o,
  (forall pts, ~ In (COther (ECloud pts)) es) -> crun N G fl cl rnd prob ltinf popS popO C tf frame fuel s es = Some (s', o) ->
  forall c, In c (seen s') <-> In c (seen s) \/ exists now msg, In (CCam now msg) es /\ stores frame now msg c.
Proof using Type.
  induction es as [|e es IH]; intros s s' o Hn H c; cbn [crun] in H.
  - injection H as <- _. split; [auto|]. intros [H|(now & msg & [] & _)]. exact H.
  - destruct (cstep N G fl cl rnd prob ltinf popS popO C tf frame fuel s e) as [[s1 [o1 m1]]|] eqn:E; [|discriminate].
    destruct (crun N G fl cl rnd prob ltinf popS popO C tf frame fuel s1 es) as [[s2 [o2 m2]]|] eqn:E2; [|discriminate]. injection H as <- _.
    rewrite (IH s1 s2 _ (fun pts H => Hn pts (or_intror H)) E2 c). clear IH E2. destruct e as [e|now msg]; cbn [cstep] in E.
    + destruct (step fuel s e) as [[sx ox]|] eqn:Es; [|discriminate]. injection E as <- _ _.
      rewrite (other_keeps _ _ _ _ _ Es). 2:{ intros pts ->. apply (Hn pts). left. reflexivity. }
      apply or_iff_compat_l. split; intros (now & msg & A & B); exists now, msg; [split; [right; exact A|exact B]|].
      destruct A as [[=]|A]. auto.
    + destruct (cameraCallback N fl C tf frame s now msg) as [sx m] eqn:Ec. injection E as <- _ _. rewrite (camera_adds _ _ _ _ _ _ c Ec). split.
      * intros [[H|H]|(nw & mg & A & B)]; [auto|right; exists now, msg; split; [left; reflexivity|exact H]|right; exists nw, mg; split; [right; exact A|exact B]].
      * intros [H|(nw & mg & [A|A] & B)]; [auto|injection A as -> ->; auto|right; exists nw, mg; auto].
Qed.
End CamP.
