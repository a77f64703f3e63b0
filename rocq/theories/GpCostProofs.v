(** Proofs about risks, edge costs and heuristics of the global planner. *)
From Coq Require Import ZArith Reals List Bool Lia Lra.
From Flocq Require Import Core.
From Verif Require Import Num CommonModel CommonSpec GpModel GpSearch GpPlan GpSpec GpPlanSpec GpProofs GpArith GpProofs2 GpCellProofs GpMiscProofs.
Import ListNotations.
Local Open Scope R_scope.

Lemma some_inj {A} (a b : A) : Some a = Some b -> a = b.
Proof. congruence. Qed.

(* ---------------------------------------------------------------- costs are not negative, in the reals and in doubles *)
Section Costs.
Context (N : num) (ltinf : N -> bool) (A : arith N ltinf).
Context (G : trig N) (fl cl rnd : N -> Z) (prob : N -> N) (P : gcfg N).
Hypothesis HP : sane P.
Hypothesis Hprob : prob_ok prob.
Notation sc := (cell_scale P).
Notation nn0 := (proj1 (nn_ofZ N ltinf A)).
Notation nn1 := (proj1 (proj2 (nn_ofZ N ltinf A))).
Notation nn2 := (proj1 (proj2 (proj2 (nn_ofZ N ltinf A)))).

Lemma altPrior_range c : unitv (getAltPrior N rnd P c).
Proof using A.
  unfold getAltPrior. cbv zeta. destruct (_ <? _)%Z; [|destruct (_ <? 0)%Z].
  - apply (un_table N ltinf A). cbn. tauto.
  - apply (un_table N ltinf A). cbn. tauto.
  - destruct (nth_in_or_default (Z.to_nat (rnd (pos1 N (cell_scale P) (cz c)))) alt_prior_table 0%Z) as [H|H];
    [apply (un_table N ltinf A); exact H|rewrite H; apply (un_last N ltinf A)].
Qed.
Lemma single_nonneg m c : nneg (getSingleCellRisk N rnd prob P m c).
Proof using A HP Hprob.
  unfold getSingleCellRisk. destruct (octree m) as [tree|]; [|exact nn1].
  destruct (_ <? _)%Z; [exact nn1|]. pose proof (altPrior_range c) as R. pose proof (sane_explore P HP) as E.
  destruct (tree c) as [l|].
  - cbv zeta. pose proof (nn_post N ltinf A _ _ R (Hprob l)) as B.
    destruct (cmem c (occupied m)); [exact B|]. destruct (ltb N _ _); [exact B|]. apply (nn_mul N ltinf A); assumption.
  - apply (nn_mul N ltinf A); [exact E|apply R].
Qed.
Lemma fold_nonneg {X} (f : X -> N) (l : list X) (a : N) : (forall x, nneg (f x)) -> nneg a -> nneg (fold_left (fun r x => add N r (f x)) l a).
Proof using A. intros Hf. revert a. induction l as [|x l IH]; intros a Ha; cbn; [exact Ha|]. apply IH. apply (nn_add N ltinf A); auto. Qed.
Lemma fresh_nonneg m c r : freshRisk N cl rnd prob P m c = Some r -> nneg r.
Proof using A HP Hprob.
  unfold freshRisk. destruct (resolution m); [|discriminate]. destruct (getFlowNeighbors _ _); [|discriminate]. intros H. apply some_inj in H. subst r.
  apply (fold_nonneg (fun n => mul N (neighbor_risk_flow P) (getSingleCellRisk N rnd prob P m n))); [|apply single_nonneg].
  intros x. apply (nn_mul N ltinf A); [apply (sane_flow P HP)|apply single_nonneg].
Qed.
Lemma cache_find_in (k : list (gcell * N)) c r : cache_find N k c = Some r -> In (c, r) k.
Proof using Type.
  induction k as [|[c' r'] k IH]; cbn; [discriminate|]. destruct (ceq c' c) eqn:E; [|intros; right; auto].
  intros [= ->]. apply ceq_spec in E. subst. left; auto.
Qed.
Lemma effRisk_nonneg m k c : cache_nonneg k -> nneg (effRisk N cl rnd prob P m k c).
Proof using A HP Hprob.
  intros Hk. unfold effRisk, getRiskC. destruct (cache_find N k c) as [r|] eqn:E; [apply cache_find_in in E; eapply Hk; eauto|].
  destruct (freshRisk N cl rnd prob P m c) eqn:F; [eapply fresh_nonneg; eauto|]. apply (nn_nan N ltinf A).
Qed.

Context (risk : gcell -> N).
Hypothesis Hrisk : forall c, nneg (risk c).
Lemma riskNode_nonneg n r : getRiskNode N fl P risk n = Some r -> nneg r.
Proof using A Hrisk.
  unfold getRiskNode. destruct (getCells N fl sc n) as [|c l]; [discriminate|]. intros E. apply some_inj in E. subst r.
  apply (nn_mul N ltinf A); [|apply (nn_sqrt N ltinf A)].
  apply (nn_div N ltinf A); [apply fold_nonneg; [exact Hrisk|exact nn0]|]. cbn [length]. lia.
Qed.
Lemma max_nonneg (x : N) : nneg (maxv N x (ofZ N 0)).
Proof using A. unfold maxv. destruct (ltb N x (ofZ N 0)) eqn:E; [exact nn0|exact E]. Qed.
Lemma edgeDist_nonneg u v : nneg (getEdgeDist N P u v).
Proof using A HP.
  unfold getEdgeDist. cbv zeta. apply (nn_add N ltinf A); [apply (nn_add N ltinf A)|].
  - apply (nn_sqrt N ltinf A).
  - apply (nn_mul N ltinf A); [apply (sane_up P HP)|apply max_nonneg].
  - apply (nn_mul N ltinf A); [apply (sane_down P HP)|apply max_nonneg].
Qed.
(** an edge cost is the distance plus non-negative terms for risk and turning *)
Lemma edgeCost_parts pos vel u v c : getEdgeCost N G fl P risk pos vel u v = Some c ->
  exists r s, nneg r /\ nneg s /\ c = add N (add N (getEdgeDist N P (n_cell u) (n_cell v)) r) s.
Proof using A HP Hrisk.
  unfold getEdgeCost. destruct (getRiskNode N fl P risk v) as [r|] eqn:E; [|discriminate]. intros X. apply some_inj in X. subst c.
  apply riskNode_nonneg in E. cbv zeta. eexists _, _. split; [|split; [|reflexivity]].
  - apply (nn_mul N ltinf A); [apply (sane_risk P HP)|exact E].
  - assert (S : nneg (mul N (smooth_factor P) (getTurnSmoothness N G u v))).
    { apply (nn_mul N ltinf A); [apply (sane_smooth P HP)|]. apply (nn_sq N ltinf A). }
    match goal with |- context [if ?b then _ else _] => destruct b end; [apply (nn_mul N ltinf A); [exact S|exact nn2]|exact S].
Qed.
Lemma edgeCost_nonneg pos vel u v c : getEdgeCost N G fl P risk pos vel u v = Some c -> nneg c.
Proof using A HP Hrisk.
  intros H. apply edgeCost_parts in H. destruct H as (r & s & Hr & Hs & ->).
  apply (nn_add N ltinf A); [apply (nn_add N ltinf A)|]; auto. apply edgeDist_nonneg.
Qed.
End Costs.

(* ---------------------------------------------------------------- heuristics, over the reals *)
Section Heur.
Context (P : gcfg Rn).
Hypothesis HP : sane P.
Notation sc := (cell_scale P).
Lemma scale_pos : 0 < sc. Proof using HP. pose proof (sane_scale P HP) as H. revert H. rn. apply R_ltb_true. Qed.
Lemma up_pos : 0 <= up_cost P. Proof using HP. apply nneg_R, sane_up, HP. Qed.
Lemma down_pos : 0 <= down_cost P. Proof using HP. apply nneg_R, sane_down, HP. Qed.
(** octile distance *)
Lemma diag_R a b : diagDistance2D Rn sc a b =
  sc * (Rabs (IZR (cx a - cx b)) + Rabs (IZR (cy a - cy b)) + (141421356237 / 100000000000 - 2) * Rmin (Rabs (IZR (cx a - cx b))) (Rabs (IZR (cy a - cy b)))).
Proof using HP.
  pose proof scale_pos as Hs.
  unfold diagDistance2D. rewrite !pos1_R, minv_Rn, cst_Rn. rn. tR.
  assert (D : forall i j, Rabs (sc * (IZR i + / 2) - sc * (IZR j + / 2)) = sc * Rabs (IZR (i - j))).
  { intros i j. rewrite minus_IZR. replace (sc * (IZR i + / 2) - sc * (IZR j + / 2)) with (sc * (IZR i - IZR j)) by ring.
    rewrite Rabs_mult, (Rabs_pos_eq sc) by (tR; lra). reflexivity. }
  rewrite !D.
  assert (M : Rmin (sc * Rabs (IZR (cx a - cx b))) (sc * Rabs (IZR (cy a - cy b))) = sc * Rmin (Rabs (IZR (cx a - cx b))) (Rabs (IZR (cy a - cy b)))).
  { unfold Rmin. destruct (Rle_dec _ _) as [A|A], (Rle_dec (Rabs _) _) as [B|B]; try reflexivity; exfalso; tR; nra. }
  rewrite M. ring.
Qed.
Lemma diag_step u v g : adjacent u v -> diagDistance2D Rn sc u g <= distance2D Rn sc u v + diagDistance2D Rn sc v g.
Proof using HP.
  intros Ha. pose proof scale_pos as Hs. tR. rewrite !diag_R, distance2D_R by lra.
  rewrite <- Rmult_plus_distr_l. apply Rmult_le_compat_l; [lra|].
  assert (HX : Rabs (IZR (cx u - cx g)) <= Rabs (IZR (cx u - cx v)) + Rabs (IZR (cx v - cx g))).
  { rewrite !minus_IZR. replace (IZR (cx u) - IZR (cx g)) with ((IZR (cx u) - IZR (cx v)) + (IZR (cx v) - IZR (cx g))) by ring. apply Rabs_triang. }
  assert (HY : Rabs (IZR (cy u - cy g)) <= Rabs (IZR (cy u - cy v)) + Rabs (IZR (cy v - cy g))).
  { rewrite !minus_IZR. replace (IZR (cy u) - IZR (cy g)) with ((IZR (cy u) - IZR (cy v)) + (IZR (cy v) - IZR (cy g))) by ring. apply Rabs_triang. }
  pose proof (Rabs_pos (IZR (cx u - cx g))). pose proof (Rabs_pos (IZR (cy u - cy g))).
  pose proof (Rabs_pos (IZR (cx v - cx g))). pose proof (Rabs_pos (IZR (cy v - cy g))).
  assert (HD : exists a b, (a = 0 \/ a = 1) /\ (b = 0 \/ b = 1) /\ Rabs (IZR (cx u - cx v)) = a /\ Rabs (IZR (cy u - cy v)) = b /\
     (a + b - 58578643763 / 100000000000 * (a * b)) <= sqrt (IZR (cx u - cx v) ^ 2 + IZR (cy u - cy v) ^ 2)).
  { assert (S2 : 141421356237 / 100000000000 <= sqrt 2).
    { rewrite <- (sqrt_pow2 (141421356237 / 100000000000)) by lra. apply sqrt_le_1; lra. }
    destruct Ha as (_ & Ha).
    assert (A1 : (Z.abs (cx u - cx v) = 0 \/ Z.abs (cx u - cx v) = 1)%Z) by lia.
    assert (B1 : (Z.abs (cy u - cy v) = 0 \/ Z.abs (cy u - cy v) = 1)%Z) by lia.
    exists (IZR (Z.abs (cx u - cx v))), (IZR (Z.abs (cy u - cy v))).
    rewrite <- !abs_IZR. rewrite <- (pow2_abs (IZR (cx u - cx v))), <- (pow2_abs (IZR (cy u - cy v))). rewrite <- !abs_IZR.
    destruct A1 as [-> | ->], B1 as [-> | ->].
    - repeat split; auto. replace (0 ^ 2 + 0 ^ 2) with 0 by ring. rewrite sqrt_0. lra.
    - repeat split; auto. replace (0 ^ 2 + 1 ^ 2) with 1 by ring. rewrite sqrt_1. lra.
    - repeat split; auto. replace (1 ^ 2 + 0 ^ 2) with 1 by ring. rewrite sqrt_1. lra.
    - repeat split; auto. replace (1 ^ 2 + 1 ^ 2) with 2 by ring. lra. }
  destruct HD as (a & b & Ha' & Hb' & Ea & Eb & HS). rewrite Ea in HX. rewrite Eb in HY.
  apply Rle_trans with (a + b - 58578643763 / 100000000000 * (a * b) +
    (Rabs (IZR (cx v - cx g)) + Rabs (IZR (cy v - cy g)) + (141421356237 / 100000000000 - 2) * Rmin (Rabs (IZR (cx v - cx g))) (Rabs (IZR (cy v - cy g)))));
    [|lra].
  clear HS. unfold Rmin. destruct (Rle_dec _ _), (Rle_dec _ _); destruct Ha' as [-> | ->], Hb' as [-> | ->]; lra.
Qed.
Lemma alt_step u v g : 1 <= sc -> altitudeHeuristic Rn P u g <= getEdgeDist Rn P u v - distance2D Rn sc u v + altitudeHeuristic Rn P v g.
Proof using HP.
  intros Hs. pose proof up_pos as Hu. pose proof down_pos as Hd.
  unfold altitudeHeuristic, getEdgeDist. rewrite !maxv_Rn, !pos1_R. rn. tR.
  match goal with |- _ <= ?a + ?b + ?c - ?a + ?d => replace (a + b + c - a + d) with (b + c + d) by ring end.
  replace (sc * (IZR (cz v) + / 2) - sc * (IZR (cz u) + / 2)) with (sc * IZR (cz v - cz u)) by (rewrite minus_IZR; ring).
  set (du := (cz g - cz u)%Z). set (dv := (cz g - cz v)%Z). set (d := (cz v - cz u)%Z).
  assert (Ed : IZR du = IZR d + IZR dv) by (rewrite <- plus_IZR; f_equal; unfold du, dv, d; lia).
  assert (Eu : (0 < du)%Z -> 0 <= IZR du). { intros X. apply IZR_lt in X. lra. }
  assert (P1 : up_cost P * Rmax (IZR d) 0 <= up_cost P * Rmax (sc * IZR d) 0).
  { apply Rmult_le_compat_l; [exact Hu|]. unfold Rmax. destruct (Rle_dec (IZR d) 0), (Rle_dec (sc * IZR d) 0); nra. }
  assert (P2 : down_cost P * Rmax (- IZR d) 0 <= down_cost P * Rmax (- (sc * IZR d)) 0).
  { apply Rmult_le_compat_l; [exact Hd|]. unfold Rmax. destruct (Rle_dec (- IZR d) 0), (Rle_dec (- (sc * IZR d)) 0); nra. }
  eapply Rle_trans; [|apply Rplus_le_compat_r; apply Rplus_le_compat; [exact P1|exact P2]]. clear P1 P2.
  destruct (Z.ltb_spec 0 du) as [L|L], (Z.ltb_spec 0 dv) as [M|M]; apply IZR_le in L || apply IZR_lt in L; apply IZR_le in M || apply IZR_lt in M;
    unfold Rmax; destruct (Rle_dec (IZR d) 0), (Rle_dec (- IZR d) 0);
    rewrite ?(Rabs_pos_eq (IZR du)), ?(Rabs_pos_eq (IZR dv)), ?(Rabs_left1 (IZR du)), ?(Rabs_left1 (IZR dv)) by lra; nra.
Qed.
Lemma heur_admissible g : 1 <= sc -> forall l u, linked adjacent (u :: l) -> last (u :: l) u = g ->
  diagDistance2D Rn sc u g + altitudeHeuristic Rn P u g <= path_dist P u l.
Proof using HP.
  intros Hs. induction l as [|v l IH]; intros u Hl Hg.
  - cbn in Hg. subst. cbn [path_dist]. rewrite diag_R. unfold altitudeHeuristic. rewrite !Z.sub_diag. cbn. rn. tR.
    rewrite Rabs_R0, Rmin_left by lra. lra.
  - destruct Hl as (A & Hl). rewrite !last_cons_eq in Hg. specialize (IH v Hl). rewrite last_cons_eq in IH. specialize (IH Hg).
    pose proof (diag_step u v g A) as B. pose proof (alt_step u v g Hs) as D. cbn [path_dist]. tR. lra.
Qed.
End Heur.
