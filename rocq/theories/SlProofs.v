(** Proofs about the landing site detection. *)
From Coq Require Import ZArith Reals List Bool Lia Lra FunctionalExtensionality.
From Flocq Require Import Core BinarySingleNaN.
From Verif Require Import Num Mat CommonModel PfModel PfSpec StarModel LpModel SlModel SlSpec.
Import ListNotations.

(* ------------------------------------------------------------------ statistics *)
Section Stat.
Local Open Scope R_scope.
Lemma Rsum_app a b : Rsum (a ++ b) = Rsum a + Rsum b.
Proof. unfold Rsum. induction a as [|x a IH]; cbn [app fold_right]; [lra|]. rewrite IH. lra. Qed.
Lemma Rsum_dev (m : R) l : Rsum (map (fun x => (x - m) * (x - m)) l) = Rsum (map (fun x => x * x) l) - 2 * m * Rsum l + INR (length l) * m * m.
Proof.
  unfold Rsum. induction l as [|x l IH]; [cbn; lra|]. cbn [map fold_right length]. rewrite IH, S_INR. lra.
Qed.
Lemma average_len l : average l * INR (length l) = Rsum l.
Proof. unfold average. destruct l as [|x l]; [cbn; lra|]. field. apply not_0_INR. discriminate. Qed.
Lemma variance_len l : variance l * INR (length l) = Rsum (map (fun x => x * x) l) - INR (length l) * average l * average l.
Proof.
  unfold variance. destruct l as [|x l]; [cbn; lra|]. set (L := x :: l).
  assert (H : INR (length L) <> 0) by (apply not_0_INR; discriminate).
  replace (Rsum (map (fun x0 => (x0 - average L) * (x0 - average L)) L) / INR (length L) * INR (length L))
    with (Rsum (map (fun x0 => (x0 - average L) * (x0 - average L)) L)) by (field; exact H).
  rewrite Rsum_dev, <- (average_len L). ring.
Qed.
Lemma average_snoc hs z : average (hs ++ [z]) = (average hs * INR (length hs) + z) / (INR (length hs) + 1).
Proof.
  rewrite average_len. unfold average. rewrite Rsum_app, app_length. cbn [length]. rewrite plus_INR. cbn. f_equal. lra.
Qed.
Lemma variance_snoc hs z : variance (hs ++ [z]) =
  (variance hs * INR (length hs) + (z - average hs) * (z - average (hs ++ [z]))) / (INR (length hs) + 1).
Proof.
  assert (Hn : 0 <= INR (length hs)) by apply pos_INR.
  assert (Hl : INR (length (hs ++ [z])) = INR (length hs) + 1) by (rewrite app_length; cbn [length]; rewrite plus_INR; cbn; lra).
  pose proof (variance_len (hs ++ [z])) as V. pose proof (variance_len hs) as V0. pose proof (average_len (hs ++ [z])) as A.
  pose proof (average_len hs) as A0.
  rewrite map_app, Rsum_app in V. rewrite Rsum_app in A. cbn in V, A. rewrite Hl in V, A.
  apply Rmult_eq_reg_r with (INR (length hs) + 1); [|lra]. rewrite V.
  replace ((variance hs * INR (length hs) + (z - average hs) * (z - average (hs ++ [z]))) / (INR (length hs) + 1) * (INR (length hs) + 1))
    with (variance hs * INR (length hs) + (z - average hs) * (z - average (hs ++ [z]))) by (field; lra).
  rewrite V0. set (n := INR (length hs)) in *. set (a := average hs) in *. set (b := average (hs ++ [z])) in *.
  assert (b * (n + 1) = a * n + z) by lra. nra.
Qed.
Lemma variance_nonneg l : 0 <= variance l.
Proof.
  unfold variance. destruct l as [|x l]; [cbn; lra|]. set (L := x :: l).
  apply Rmult_le_pos; [|apply Rlt_le, Rinv_0_lt_compat, lt_0_INR; cbn; lia].
  generalize (average L). intros m. clearbody L. unfold Rsum. induction L as [|y L IH]; cbn; [lra|]. pose proof (Rle_0_sqr (y - m)). unfold Rsqr in *. lra.
Qed.
(** the incremental update is the batch update *)
Lemma online_batch hs z :
  computeOnlineMeanVariance Rn (average hs) (variance hs) z (ofZ Rn (Z.of_nat (length hs) + 1)) =
  (average (hs ++ [z]), variance (hs ++ [z])).
Proof.
  unfold computeOnlineMeanVariance. rn.
  assert (E : (IZR (Z.of_nat (length hs) + 1) - 1) = INR (length hs)) by (rewrite plus_IZR, <- INR_IZR_INZ; lra).
  assert (E1 : IZR (Z.of_nat (length hs) + 1) = INR (length hs) + 1) by lra.
  rewrite E, E1. pose proof (pos_INR (length hs)) as Hp.
  replace (R_leb 0 (INR (length hs))) with true by (symmetry; apply R_leb_true; lra).
  replace (R_ltb 0 (INR (length hs) + 1)) with true by (symmetry; apply R_ltb_true; lra).
  rewrite <- average_snoc. f_equal. rewrite variance_snoc. reflexivity.
Qed.
End Stat.

(* ------------------------------------------------------------------ sizes *)
Lemma well_sized_reset N g : well_sized N g -> well_sized N (g_reset N g).
Proof. unfold well_sized, g_reset. cbn. tauto. Qed.
Lemma well_sized_resize N ceilc g a b : well_sized N (g_resize N ceilc g a b).
Proof. unfold well_sized, g_resize. cbn. tauto. Qed.
Lemma well_sized_limits N g p : well_sized N g -> well_sized N (setFilterLimits N g p).
Proof. unfold well_sized, setFilterLimits. cbn. tauto. Qed.

(* ------------------------------------------------------------------ C43 *)
Section Cells.
Local Open Scope R_scope.
Lemma floor_cast x : Rcast (Rfloor x) = Zfloor x.
Proof. unfold Rcast, Rfloor. apply Ztrunc_IZR. Qed.
Lemma index_floor (c x : R) i : 0 < c -> (Zfloor (x / c) = i <-> IZR i * c <= x < IZR (i + 1) * c).
Proof.
  intros Hc. assert (X : x / c * c = x) by (field; lra). split.
  - intros <-. pose proof (Zfloor_lb (x / c)) as L. pose proof (Zfloor_ub (x / c)) as U. rewrite plus_IZR. split.
    + rewrite <- X at 2. apply Rmult_le_compat_r; lra.
    + rewrite <- X at 1. apply Rmult_lt_compat_r; lra.
  - intros [L U]. apply Zfloor_imp. split; apply Rmult_le_reg_r with c || apply Rmult_lt_reg_r with c; rewrite ?X; lra.
Qed.
Lemma inside_index (size c x : R) : 0 < c -> 0 < x < size -> (0 <= Zfloor (x / c) < Zceil (size / c))%Z.
Proof.
  intros Hc [Hx Hs]. split.
  - apply Zfloor_lub. cbn. apply Rlt_le. apply Rdiv_lt_0_compat; lra.
  - apply lt_IZR. apply Rle_lt_trans with (x / c); [apply Zfloor_lb|]. apply Rlt_le_trans with (size / c); [|apply Zceil_ub].
    apply Rmult_lt_compat_r; [apply Rinv_0_lt_compat; lra|lra].
Qed.
Lemma inside_iff g pos p : isInsideGrid Rn (setFilterLimits Rn g pos) (vx p) (vy p) = true <-> in_square pos (g_size g) p.
Proof.
  unfold isInsideGrid, in_square, setFilterLimits. cbn [g_min g_max fst snd g_size]. rn. rewrite !andb_true_iff, !R_ltb_true.
  split; [intros [[[? ?] ?] ?]; split; apply Rabs_def1; lra|]. intros [A B]. apply Rabs_def2 in A, B. repeat split; lra.
Qed.
End Cells.

(* ------------------------------------------------------------------ C44 *)
Section Cloud.
Local Open Scope R_scope.
Lemma heights_snoc_in pos size c i j l hs p : heights_in pos size c i j l hs -> in_cell pos size c i j p ->
  heights_in pos size c i j (l ++ [p]) (hs ++ [vz p : R]).
Proof.
  intros H P. induction H as [|q l hs Q H IH|q l hs Q H IH]; cbn.
  - apply (hi_in pos size c i j p [] [] P). constructor.
  - apply (hi_in pos size c i j q); assumption.
  - apply hi_out; assumption.
Qed.
Lemma heights_snoc_out pos size c i j l hs p : heights_in pos size c i j l hs -> ~ in_cell pos size c i j p ->
  heights_in pos size c i j (l ++ [p]) hs.
Proof.
  intros H P. induction H as [|q l hs Q H IH|q l hs Q H IH]; cbn.
  - apply hi_out; [assumption|constructor].
  - apply (hi_in pos size c i j q); assumption.
  - apply hi_out; assumption.
Qed.
Lemma heights_fun pos size c i j l hs hs' : heights_in pos size c i j l hs -> heights_in pos size c i j l hs' -> hs = hs'.
Proof.
  intros H. revert hs'. induction H as [|q l hs Q H IH|q l hs Q H IH]; intros hs' H'; inversion H'; subst; try contradiction.
  - reflexivity.
  - f_equal. apply IH. assumption.
  - apply IH. assumption.
Qed.

(** the grid [g] holds the statistics of the points [l] *)
Definition holds (pos : vec3 Rn) (g0 g : grid Rn) (l : list (vec3 Rn)) : Prop :=
  well_sized Rn g /\ g_rc g = g_rc g0 /\ g_size g = g_size g0 /\ g_cell g = g_cell g0 /\
  g_min g = g_min (setFilterLimits Rn g0 pos) /\ g_max g = g_max (setFilterLimits Rn g0 pos) /\ 
  (forall i j, cell (g_land g) i j = 0%Z) /\
  forall i j, (0 <= i < g_rc g0)%Z -> (0 <= j < g_rc g0)%Z ->
    exists hs, heights_in pos (g_size g0) (g_cell g0) i j l hs /\ cell (g_cnt g) i j = Z.of_nat (length hs) /\
      cell (g_mean g) i j = average hs /\ cell (g_var g) i j = variance hs.

Lemma addPoint_holds pos (g0 g : grid Rn) l p : 0 < g_cell g0 -> g_rc g0 = Rceil (g_size g0 / g_cell g0) ->
  holds pos g0 g l -> exists g', addPoint Rn Rcast g p = Some g' /\ holds pos g0 g' (l ++ [p]).
Proof.
  intros Hc Hrc (W & E1 & E2 & E3 & E4 & E5 & E6 & H). unfold addPoint. unfold isnanb. rn.
  rewrite !(proj2 (R_eqb_true _ _) eq_refl). cbn [negb orb].
  assert (Hin : isInsideGrid Rn g (vx p) (vy p) = isInsideGrid Rn (setFilterLimits Rn g0 pos) (vx p) (vy p))
    by (unfold isInsideGrid; rewrite E4, E5; reflexivity).
  rewrite Hin. destruct (isInsideGrid Rn (setFilterLimits Rn g0 pos) (vx p) (vy p)) eqn:I; cbn [negb].
  2:{ exists g. split; [reflexivity|]. repeat (split; [assumption|]). intros i j Hi Hj. destruct (H i j Hi Hj) as (hs & A & B).
      exists hs. split; [|exact B]. apply heights_snoc_out; [exact A|]. intros [C _]. apply (inside_iff g0 pos p) in C. congruence. }
  apply inside_iff in I.
  assert (Ix : computeGridIndexes Rn Rcast g (vx p) (vy p) =
    (Zfloor ((vx p - (vx pos - g_size g0 / 2)) / g_cell g0), Zfloor ((vy p - (vy pos - g_size g0 / 2)) / g_cell g0))).
  { unfold computeGridIndexes. rewrite E4, E3. rn. cbn [setFilterLimits g_min fst snd]. rn. rewrite !floor_cast. reflexivity. }
  rewrite Ix. set (i := Zfloor ((vx p - (vx pos - g_size g0 / 2)) / g_cell g0)). set (j := Zfloor ((vy p - (vy pos - g_size g0 / 2)) / g_cell g0)).
  destruct I as [Ax Ay]. apply Rabs_def2 in Ax. apply Rabs_def2 in Ay.
  assert (Bi : (0 <= i < g_rc g0)%Z) by (rewrite Hrc; apply inside_index; lra).
  assert (Bj : (0 <= j < g_rc g0)%Z) by (rewrite Hrc; apply inside_index; lra).
  assert (Ci : IZR i * g_cell g0 <= vx p - (vx pos - g_size g0 / 2) < IZR (i + 1) * g_cell g0) by (apply index_floor; [exact Hc|reflexivity]).
  assert (Cj : IZR j * g_cell g0 <= vy p - (vy pos - g_size g0 / 2) < IZR (j + 1) * g_cell g0) by (apply index_floor; [exact Hc|reflexivity]).
  destruct W as (W1 & W2 & W3 & W4 & W5 & W6 & W7 & W8).
  rewrite !mget_some by lia. cbn [obind].
  unfold mset. rewrite (proj2 (inb_true (g_cnt g) i j)) by lia. cbn [obind].
  destruct (H i j Bi Bj) as (hs & A & B1 & B2 & B3). rewrite B1, B2, B3. rewrite online_batch. cbn [obind].
  rewrite (proj2 (inb_true (g_mean g) i j)) by lia. cbn [obind]. rewrite (proj2 (inb_true (g_var g) i j)) by lia. cbn [obind].
  eexists; split; [reflexivity|]. unfold holds, well_sized, g_set. cbn [g_mean g_var g_cnt g_land g_min g_max g_size g_cell g_rc rows cols cell].
  split; [tauto|]. repeat (split; [assumption|]). intros i' j' Hi' Hj'.
  destruct ((i' =? i)%Z && (j' =? j)%Z) eqn:Q.
  - apply andb_true_iff in Q as [Q1 Q2]. apply Z.eqb_eq in Q1, Q2. subst i' j'. exists (hs ++ [vz p : R]). split.
    + apply heights_snoc_in; [exact A|]. split; [split; apply Rabs_def1; lra|]. split; assumption.
    + split; [rewrite app_length; cbn; lia|]. split; reflexivity.
  - destruct (H i' j' Hi' Hj') as (hs' & A' & B'). exists hs'. split; [|exact B']. apply heights_snoc_out; [exact A'|].
    intros (_ & D1 & D2). apply (index_floor _ _ _ Hc) in D1, D2. fold i in D1. fold j in D2. subst i' j'. rewrite !Z.eqb_refl in Q. discriminate.
Qed.

Lemma cloud_holds pos (g0 : grid Rn) cloud : 0 < g_cell g0 -> g_rc g0 = Rceil (g_size g0 / g_cell g0) -> well_sized Rn g0 ->
  exists g, processPointcloud Rn Rcast g0 pos cloud = Some g /\ holds pos g0 g cloud.
Proof.
  intros Hc Hrc W. unfold processPointcloud.
  assert (Gen : forall l g pre, holds pos g0 g pre -> exists g', foldM (addPoint Rn Rcast) g l = Some g' /\ holds pos g0 g' (pre ++ l)).
  { induction l as [|p l IH]; intros g pre Hg; cbn.
    - exists g. rewrite app_nil_r. split; [reflexivity|exact Hg].
    - destruct (addPoint_holds pos g0 g pre p Hc Hrc Hg) as (g1 & -> & H1). destruct (IH g1 (pre ++ [p]) H1) as (g2 & E & H2).
      exists g2. split; [exact E|]. rewrite <- app_assoc in H2. exact H2. }
  destruct (Gen cloud (g_reset Rn (setFilterLimits Rn g0 pos)) []) as (g & E & H).
  - split; [apply well_sized_reset, well_sized_limits, W|]. repeat (split; [reflexivity|]). intros i j _ _. exists []. split; [constructor|].
    cbn. repeat split; unfold average, variance, Rsum; cbn; lra.
  - exists g. split; [exact E|exact H].
Qed.
End Cloud.
