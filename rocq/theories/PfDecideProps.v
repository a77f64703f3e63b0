(** C111-C113: which direction the look-ahead planner ranks first (local_planner/src/nodes/planner_functions.cpp:128-258, 328-363). Ideal arithmetic. *)
From Coq Require Import ZArith Reals List Bool Lia Lra.
From Flocq Require Import Core BinarySingleNaN.
From Verif Require Import Num Mat CommonModel CommonSpec CommonProofs HistModel HistProofs PfModel PfSpec PfProofs PfProofs2 PfProofs3 PfPad PfSmooth PfCost PfMisc PfExtra PfDecide.
Import ListNotations.
Local Open Scope R_scope.

(** the point at elevation e and azimuth z (degrees) and distance d of p *)
Notation at_polar p e z d := (polarHistogramToCartesian Rn Rtrig (Pol (e : Rn) (z : Rn) (d : Rn)) p).
Notation cost_matrix_of cast h goal position velocity cp margin closest mx mn :=
  (getCostMatrix Rn Rtrig cast (ZnearestA : Rn -> Z) (Zceil : Rn -> Z) h goal position velocity cp margin closest mx mn).

Lemma polar_of_at p e z d : 0 < d -> -90 < e < 90 -> -180 < z <= 180 -> cartesianToPolarHistogram Rn Rtrig (at_polar p e z d) p = Pol (e : Rn) (z : Rn) (d : Rn).
Proof. intros. apply polar_cart_polar; assumption. Qed.
Lemma dist_of_at p e z d : 0 < d -> -90 < e < 90 -> -180 < z <= 180 -> v3norm Rn (v3sub Rn (at_polar p e z d) p) = d.
Proof.
  intros Hd He Hz. pose proof (polar_of_at p e z d Hd He Hz) as E. apply (f_equal pr) in E. cbn [pr] in E. rewrite <- E at 2. reflexivity.
Qed.

(** azimuths of cells against an azimuth *)
Lemma nearest_column zg : -180 < zg <= 180 -> exists z, (0 <= z < 60)%Z /\ Rabs (angleDifference Rn (cz z) zg) <= 3 /\
  forall x, (0 <= x < 60)%Z -> Rabs (angleDifference Rn (cz z) zg) <= Rabs (angleDifference Rn (cz x) zg).
Proof.
  intros Hz. set (z := Z.min 59 (Zfloor ((zg + 180) / 6))).
  pose proof (Zfloor_lb ((zg + 180) / 6)) as F1. pose proof (Zfloor_ub ((zg + 180) / 6)) as F2.
  assert (F3 : (0 <= Zfloor ((zg + 180) / 6))%Z) by (apply (Zfloor_lub 0); lra).
  assert (F4 : (Zfloor ((zg + 180) / 6) <= 60)%Z). { apply le_IZR. lra. }
  assert (Rz : (0 <= z < 60)%Z) by (unfold z; lia).
  assert (D : -3 <= cz z - zg <= 3).
  { unfold cz. rewrite minus_IZR, mult_IZR. destruct (Z.eq_dec (Zfloor ((zg + 180) / 6)) 60) as [E|E].
    - replace z with 59%Z by (unfold z; lia). rewrite E in F1. lra.
    - replace z with (Zfloor ((zg + 180) / 6)) by (unfold z; lia). lra. }
  destruct (angleDifference_spec (cz z) zg) as (B1 & B2).
  assert (EA : angleDifference Rn (cz z) zg = cz z - zg).
  { apply canonical_unique; [exact B1|lra|exact B2]. }
  assert (HA : Rabs (angleDifference Rn (cz z) zg) <= 3) by (rewrite EA; apply Rabs_le; lra).
  exists z. split; [exact Rz|]. split; [exact HA|]. intros x Hx. destruct (Z.eq_dec x z) as [->|Hne]; [apply Rle_refl|].
  destruct (angleDifference_spec (cz x) zg) as (C1 & (k & C2)). rewrite EA in *. set (A := angleDifference Rn (cz x) zg) in *.
  assert (K : A - (cz z - zg) = IZR (6 * (x - z) + 360 * k)). { rewrite C2. unfold cz. rewrite plus_IZR, !mult_IZR, !minus_IZR, !mult_IZR. ring. }
  assert (N0 : (6 * (x - z) + 360 * k <= -6 \/ 6 <= 6 * (x - z) + 360 * k)%Z) by lia.
  assert (Rabs (cz z - zg) <= 3) by (apply Rabs_le; lra).
  assert (3 <= Rabs A); [|lra]. destruct N0 as [N0|N0]; apply IZR_le in N0; rewrite <- K in N0; unfold Rabs; destruct (Rcase_abs A); lra.
Qed.
Lemma nearest_row eg : -45 <= eg <= 45 -> exists e, (7 <= e <= 22)%Z /\ Rabs (ce e - eg) <= 3 /\
  forall x, Rabs (ce e - eg) <= Rabs (ce x - eg).
Proof.
  intros Hz. set (e := Zfloor ((eg + 90) / 6)). pose proof (Zfloor_lb ((eg + 90) / 6)) as F1. pose proof (Zfloor_ub ((eg + 90) / 6)) as F2. fold e in F1, F2.
  assert (D : -3 <= ce e - eg <= 3) by (unfold ce; rewrite minus_IZR, mult_IZR; lra).
  assert (Re : (7 <= e <= 22)%Z). { split; [apply (Zfloor_lub 7); lra|]. cut (e < 23)%Z; [lia|]. apply lt_IZR. lra. }
  exists e. split; [exact Re|]. split; [apply Rabs_le; lra|]. intros x. destruct (Z.eq_dec x e) as [->|Hne]; [apply Rle_refl|].
  assert (K : ce x - eg = (ce e - eg) + IZR (6 * (x - e))). { unfold ce. rewrite mult_IZR, !minus_IZR, !mult_IZR. ring. }
  assert (N0 : (6 * (x - e) <= -6 \/ 6 <= 6 * (x - e))%Z) by lia. assert (Rabs (ce e - eg) <= 3) by (apply Rabs_le; lra).
  assert (3 <= Rabs (ce x - eg)); [|lra]. rewrite K. destruct N0 as [N0|N0]; apply IZR_le in N0; unfold Rabs; destruct (Rcase_abs _); lra.
Qed.
Lemma abs_sq a b : Rabs a <= Rabs b -> a ^ 2 <= b ^ 2.
Proof. intros H. rewrite <- (pow2_abs a), <- (pow2_abs b). pose proof (Rabs_pos a). nra. Qed.
Lemma sq_abs a b : 0 <= b -> a ^ 2 <= b ^ 2 -> Rabs a <= b.
Proof. intros Hb H. rewrite <- (pow2_abs a) in H. pose proof (Rabs_pos a). nra. Qed.

(** in free space nothing is smoothed *)
Lemma empty_matrices (cast : R -> Z) (h : hist Rn) goal position velocity cp (margin : R) closest mx mn out img :
  reachable Rn h -> h_res h = ALPHA_RES -> 0 <= margin <= 180 ->
  (forall e z, (0 <= e < 30)%Z -> (0 <= z < 60)%Z -> h_get Rn h e z = Some (0 : Rn)) ->
  cost_matrix_of cast h goal position velocity cp margin closest mx mn = Some (out, img) ->
  exists facing, rows out = 30%Z /\ cols out = 60%Z /\
    forall e z, (0 <= e < 30)%Z -> (0 <= z < 60)%Z -> (1 <= step_of e)%Z /\
      cell out e z = line_of (fun x => snd (costFunction Rn Rtrig (Pol (ce e) (cz x) 1) (hval h e x) goal position velocity cp closest facing)) (step_of e) z.
Proof.
  intros Hr H6 Hm He E. destruct (matrices cast h goal position velocity cp margin closest mx mn out img Hr H6 Hm E)
    as (facing & cm & dm & sm & _ & R1 & C1 & R2 & C2 & Es & S). exists facing. do 2 (split; [assumption|]). intros e z He' Hz'.
  destruct (S e z He' Hz') as (S1 & S2 & S3 & S4). split; [exact S1|]. rewrite S2, S4.
  assert (Z0 : forall i j, (0 <= i < 30)%Z -> (0 <= j < 60)%Z -> cell dm i j = 0).
  { intros i j Hi Hj. destruct (S i j Hi Hj) as (T1 & _ & T3 & _). rewrite T3.
    apply (line_window (fun x => x = 0)); [exact T1|exact Hj|intros; apply conv_eq; assumption|].
    intros k _. unfold hval. rewrite He by (try apply Z.mod_pos_bound; lia). unfold obst. destruct (R_ltb_spec 0 0); [lra|reflexivity]. }
  pose proof (radius_range margin Hm) as Rr.
  pose proof (smooth_le_all 0 dm sm (smooth_radius margin) e z ltac:(lia) ltac:(lia) ltac:(rewrite C2; reflexivity) ltac:(lia) Es ltac:(lia) ltac:(lia)) as U.
  rewrite R2, C2 in U. specialize (U ltac:(intros; rewrite Z0 by lia; lra)).
  pose proof (smooth_bounds dm sm (smooth_radius margin) ltac:(lia) ltac:(lia) ltac:(rewrite C2; reflexivity) ltac:(lia)) as L.
  rewrite R2, C2 in L. specialize (L ltac:(intros; rewrite Z0 by lia; lra) Es e z He' Hz'). rewrite Z0 in L by lia. tR. lra.
Qed.

(** C111. In free space, at rest, with the goal (and the nearest point of the line to it) straight ahead at an elevation of at most 45 degrees: the direction ranked
    first is at most half a cell (3 degrees) off in elevation and azimuth. For every priority queue, distance, weights and smoothing. *)
Theorem C111_free_space_at_rest :
  forall (cast : R -> Z) top (h : hist Rn) (position : vec3 Rn) (eg zg d el dl : R) (cp : costParameters Rn) (margin mx mn : R) (n : Z) out img best more,
  reachable Rn h -> h_res h = ALPHA_RES -> 0 <= margin <= 180 -> is_priority_queue Rn top -> (1 <= n)%Z ->
  (forall e z, (0 <= e < 30)%Z -> (0 <= z < 60)%Z -> h_get Rn h e z = Some (0 : Rn)) ->
  -45 <= eg <= 45 -> -180 < zg <= 180 -> 0 < d -> -90 < el < 90 -> 0 < dl -> 0 < yaw_cost_param cp -> 0 < pitch_cost_param cp ->
  let goal := at_polar position eg zg d in let closest := at_polar position el zg dl in
  cost_matrix_of cast h goal position (V3 (0 : Rn) 0 0) cp margin closest mx mn = Some (out, img) ->
  getBestCandidatesFromCostMatrix Rn top out n = Some (best :: more) ->
  Rabs (c_e best - eg) <= 3 /\ exists k : Z, Rabs (c_z best - zg + 360 * IZR k) <= 3.
Proof.
  intros cast top h position eg zg d el dl cp margin mx mn n out img best more Hr H6 Hm PQ Hn Hemp Heg Hzg Hd Hel Hdl Hy Hp goal closest E B.
  destruct (empty_matrices cast h goal position _ cp margin closest mx mn out img Hr H6 Hm Hemp E) as (facing & R1 & C1 & S).
  destruct (best_min top out n best more PQ Hn B) as (e0 & z0 & He0 & Hz0 & Ee & Ez & Hmin). rewrite R1 in He0, Hmin. rewrite C1 in Hz0, Hmin.
  set (A := fun x => angleDifference Rn (cz x) zg). set (kq := near_factor d). set (yp := yaw_cost_param cp) in *. set (pp := pitch_cost_param cp) in *.
  assert (K1 : 1 <= kq) by (apply near_factor_ge1, Hd).
  assert (EV : forall e x dd, snd (costFunction Rn Rtrig (Pol (ce e) (cz x) 1) dd goal position (V3 (0 : Rn) 0 0) cp closest facing) = yp * A x ^ 2 + kq * (pp * (ce e - eg) ^ 2)).
  { intros e x dd. destruct (other_cost_R (Pol (ce e) (cz x) 1) dd goal position (V3 (0 : Rn) 0 0) cp closest facing) as (w & nv & _ & Hnv & _ & ->).
    unfold goal at 1 2 3, closest. rewrite !polar_of_at, dist_of_at by (try assumption; lra). cbn [pe pz]. fold (A x) kq yp pp.
    assert (V0 : v3norm Rn (V3 (0 : Rn) 0 0) = 0). { unfold v3norm, v3sqnorm, v3dot. cbn [vx vy vz]. rn. tR. replace (0 * 0 + 0 * 0 + 0 * 0) with 0 by ring. apply sqrt_0. }
    rewrite V0 in *. assert (nv = 0) as ->. { apply Rabs_le_inv in Hnv. tR. lra. } tR. ring. }
  destruct (nearest_column zg Hzg) as (zn & Hzn & Az & Amin). destruct (nearest_row eg Heg) as (en & Hen & De & Dmin). fold (A zn) in Az, Amin.
  assert (M : forall e z, (0 <= e < 30)%Z -> (0 <= z < 60)%Z -> yp * A zn ^ 2 + kq * (pp * (ce e - eg) ^ 2) <= cell out e z).
  { intros e z He Hz. destruct (S e z He Hz) as (S1 & ->). apply line_ge; [exact S1|exact Hz|].
    intros x Hx. rewrite EV. pose proof (abs_sq _ _ (Amin x Hx)) as Q. fold (A x) in Q. nra. }
  assert (X : cell out en zn = yp * A zn ^ 2 + kq * (pp * (ce en - eg) ^ 2)).
  { destruct (S en zn ltac:(lia) Hzn) as (_ & ->). rewrite step_level by exact Hen. rewrite line_of_1. apply EV. }
  pose proof (Hmin en zn ltac:(lia) Hzn) as H1. pose proof (M e0 z0 He0 Hz0) as H2. rewrite X in H1.
  pose proof (abs_sq _ _ (Dmin e0)) as Q1.
  assert (Kp : 0 < kq * pp) by (apply Rmult_lt_0_compat; lra).
  assert (Q2 : (ce e0 - eg) ^ 2 <= (ce en - eg) ^ 2). { apply Rmult_le_reg_l with (kq * pp); [exact Kp|]. lra. }
  assert (De0 : Rabs (ce e0 - eg) <= 3). { apply sq_abs; [lra|]. apply Rle_trans with (1 := Q2). rewrite <- (Rabs_pos_eq 3) in De by lra. apply abs_sq in De. lra. }
  assert (L0 : (7 <= e0 <= 22)%Z).
  { apply Rabs_le_inv in De0. unfold ce in De0. rewrite minus_IZR, mult_IZR in De0. split; [cut (6 < e0)%Z; [lia|]|cut (e0 < 23)%Z; [lia|]]; apply lt_IZR; lra. }
  assert (X0 : cell out e0 z0 = yp * A z0 ^ 2 + kq * (pp * (ce e0 - eg) ^ 2)).
  { destruct (S e0 z0 He0 Hz0) as (_ & ->). rewrite step_level by exact L0. rewrite line_of_1. apply EV. }
  rewrite X0 in H1.
  assert (Q3 : A z0 ^ 2 <= A zn ^ 2). { apply Rmult_le_reg_l with yp; [lra|]. assert (kq * pp * (ce en - eg) ^ 2 <= kq * pp * (ce e0 - eg) ^ 2) by (apply Rmult_le_compat_l; lra). lra. }
  assert (A3 : Rabs (A z0) <= 3). { apply sq_abs; [lra|]. apply Rle_trans with (1 := Q3). rewrite <- (Rabs_pos_eq 3) in Az by lra. apply abs_sq in Az. lra. }
  rewrite Ee, Ez. split; [exact De0|]. destruct (angleDifference_spec (cz z0) zg) as (_ & k & Ek). exists k. fold (A z0) in Ek. rewrite <- Ek. exact A3.
Qed.
Print Assumptions C111_free_space_at_rest.
Lemma sq1 a : sin a * sin a + cos a * cos a = 1. Proof. pose proof (sin2_cos2 a) as H. unfold Rsqr in H. exact H. Qed.
Lemma norm_at (e z s : R) : 0 <= s -> v3norm Rn (at_polar (V3 (0 : Rn) 0 0) e z s) = s.
Proof.
  intros Hs. unfold v3norm, v3sqnorm, v3dot, polarHistogramToCartesian. cbn [vx vy vz pe pz pr Rtrig t_sin t_cos]. rn. tR.
  set (E := e * _). set (Z0 := z * _). pose proof (sq1 E) as P1. pose proof (sq1 Z0) as P2.
  replace (_ + _) with (s * s * ((cos E * cos E) * (sin Z0 * sin Z0 + cos Z0 * cos Z0) + sin E * sin E)) by ring.
  rewrite P2, Rmult_1_r, (Rplus_comm _ (sin E * sin E)), P1, Rmult_1_r. apply sqrt_square, Hs.
Qed.
Definition rad (a : R) : R := a * (PI / 180).
Lemma dot_at (e z eg zg s : R) :
  v3dot Rn (v3normalized Rn (at_polar (V3 (0 : Rn) 0 0) e z 1)) (at_polar (V3 (0 : Rn) 0 0) eg zg s) =
  s * (cos (rad (e - eg)) - cos (rad e) * cos (rad eg) * (1 - cos (rad (z - zg)))).
Proof.
  pose proof (norm_at e z 1 ltac:(lra)) as N1. set (c := at_polar (V3 (0 : Rn) 0 0) e z 1) in *.
  change (sqrt (v3sqnorm Rn c) = 1) in N1.
  assert (Hs : 0 < v3sqnorm Rn c). { destruct (Rlt_le_dec 0 (v3sqnorm Rn c)) as [|L]; [assumption|]. rewrite sqrt_neg_0 in N1 by exact L. lra. }
  assert (HB : ltb Rn (ofZ Rn 0) (v3sqnorm Rn c) = true). { rn. destruct (R_ltb_spec 0 (v3sqnorm Rn c)); [reflexivity|]. exfalso. tR. lra. }
  unfold v3normalized. cbv zeta. rewrite HB. change (sqrtv Rn (v3sqnorm Rn c)) with (sqrt (v3sqnorm Rn c)). rewrite N1.
  unfold c, v3dot, polarHistogramToCartesian, DEG_TO_RAD. cbn [vx vy vz pe pz pr Rtrig t_sin t_cos]. rn. tR.
  replace (rad (e - eg)) with (rad e - rad eg) by (unfold rad; ring). replace (rad (z - zg)) with (rad z - rad zg) by (unfold rad; ring).
  fold (rad e) (rad eg) (rad z) (rad zg). rewrite !cos_minus. unfold Rdiv. rewrite Rinv_1. ring.
Qed.
Lemma cos3 a : Rabs a <= 3 -> cos (rad 3) <= cos (rad a).
Proof.
  intros H. apply Rabs_le_inv in H. pose proof PI_RGT_0 as HP. unfold rad in *.
  destruct (Rle_dec 0 a) as [L|L]; [apply cos_decr_1; nra|]. rewrite <- (cos_neg (a * _)). apply cos_decr_1; nra.
Qed.
(** ... and for a vehicle that already flies towards the goal, at any speed s: *)
Theorem C111_free_space_moving :
  forall (cast : R -> Z) top (h : hist Rn) (position : vec3 Rn) (eg zg d el dl s : R) (cp : costParameters Rn) (margin mx mn : R) (n : Z) out img best more,
  reachable Rn h -> h_res h = ALPHA_RES -> 0 <= margin <= 180 -> is_priority_queue Rn top -> (1 <= n)%Z ->
  (forall e z, (0 <= e < 30)%Z -> (0 <= z < 60)%Z -> h_get Rn h e z = Some (0 : Rn)) ->
  -45 <= eg <= 45 -> -180 < zg <= 180 -> 0 < d -> -90 < el < 90 -> 0 < dl -> 0 <= s ->
  0 <= velocity_cost_param cp -> 0 < yaw_cost_param cp -> 0 < pitch_cost_param cp ->
  let goal := at_polar position eg zg d in let closest := at_polar position el zg dl in let velocity := at_polar (V3 (0 : Rn) 0 0) eg zg s in
  let excess := velocity_cost_param cp * s * (2 - 2 * cos (rad 3)) in
  9 * pitch_cost_param cp + 9 * yaw_cost_param cp + excess < pitch_cost_param cp * (51 - Rabs eg) ^ 2 ->
  cost_matrix_of cast h goal position velocity cp margin closest mx mn = Some (out, img) ->
  getBestCandidatesFromCostMatrix Rn top out n = Some (best :: more) ->
  exists dz : R, (exists k : Z, dz = c_z best - zg + 360 * IZR k) /\
  pitch_cost_param cp * (c_e best - eg) ^ 2 + yaw_cost_param cp * dz ^ 2 <= 9 * pitch_cost_param cp + 9 * yaw_cost_param cp + excess.
Proof.
  intros cast top h position eg zg d el dl s cp margin mx mn n out img best more Hr H6 Hm PQ Hn Hemp Heg Hzg Hd Hel Hdl Hs Hv Hy Hp goal closest velocity X Hsmall E B.
  destruct (empty_matrices cast h goal position _ cp margin closest mx mn out img Hr H6 Hm Hemp E) as (facing & R1 & C1 & S).
  destruct (best_min top out n best more PQ Hn B) as (e0 & z0 & He0 & Hz0 & Ee & Ez & Hmin). rewrite R1 in He0, Hmin. rewrite C1 in Hz0, Hmin.
  set (A := fun x => angleDifference Rn (cz x) zg). set (kq := near_factor d). set (yp := yaw_cost_param cp) in *. set (pp := pitch_cost_param cp) in *.
  set (vp := velocity_cost_param cp) in *.
  assert (K1 : 1 <= kq) by (apply near_factor_ge1, Hd).
  assert (EV : forall e x dd, exists nv, Rabs nv <= s /\
     nv = s * (cos (rad (ce e - eg)) - cos (rad (ce e)) * cos (rad eg) * (1 - cos (rad (cz x - zg)))) /\
     snd (costFunction Rn Rtrig (Pol (ce e) (cz x) 1) dd goal position velocity cp closest facing) = vp * (s - nv) + yp * A x ^ 2 + kq * (pp * (ce e - eg) ^ 2)).
  { intros e x dd. destruct (other_cost_R (Pol (ce e) (cz x) 1) dd goal position velocity cp closest facing) as (w & nv & _ & Hnv & Env & ->). exists nv.
    unfold velocity in Hnv, Env |- *. rewrite norm_at in Hnv by exact Hs. rewrite norm_at by exact Hs. rewrite dot_at in Env. split; [exact Hnv|]. split; [exact Env|].
    unfold goal, closest. rewrite !polar_of_at, dist_of_at by (try assumption; lra). cbn [pe pz]. fold (A x) kq yp pp vp. tR. ring. }
  destruct (nearest_column zg Hzg) as (zn & Hzn & Az & Amin). destruct (nearest_row eg Heg) as (en & Hen & De & Dmin). fold (A zn) in Az, Amin.
  set (D := fun e => ce e - eg) in *.
  assert (M : forall e z, (0 <= e < 30)%Z -> (0 <= z < 60)%Z -> kq * (pp * D e ^ 2) <= cell out e z).
  { intros e z He Hz. destruct (S e z He Hz) as (S1 & ->). apply line_ge; [exact S1|exact Hz|].
    intros x Hx. destruct (EV e x (hval h e x)) as (nv & N1 & _ & ->). apply Rabs_le_inv in N1. unfold D. pose proof (pow2_ge_0 (A x)). nra. }
  assert (U : cell out en zn <= yp * A zn ^ 2 + kq * (pp * D en ^ 2) + X).
  { destruct (S en zn ltac:(lia) Hzn) as (_ & ->). rewrite step_level by exact Hen. rewrite line_of_1.
    destruct (EV en zn (hval h en zn)) as (nv & N1 & N2 & ->). pose proof (cos3 _ De) as C3.
    assert (C4 : cos (rad 3) <= cos (rad (cz zn - zg))).
    { destruct (angleDifference_spec (cz zn) zg) as (_ & k & Ek). fold (A zn) in Ek.
      replace (cos (rad (cz zn - zg))) with (cos (rad (A zn))); [apply cos3, Az|].
      assert (HD : forall a, rad a = a * PI / 180) by (intros; unfold rad; field). rewrite !HD. apply cos_deg_heading. exists k. exact Ek. }
    pose proof (COS_bound (rad (ce en))) as B1. pose proof (COS_bound (rad eg)) as B2. pose proof (COS_bound (rad (cz zn - zg))) as B3.
    assert (P1 : cos (rad (ce en)) * cos (rad eg) <= 1) by nra.
    set (cc := cos (rad (ce en)) * cos (rad eg)) in *. set (t := 1 - cos (rad (cz zn - zg))) in *.
    assert (T0 : 0 <= t <= 1 - cos (rad 3)) by (unfold t; lra). assert (P2 : cc * t <= t) by nra.
    assert (V1 : s * (2 * cos (rad 3) - 1) <= nv). { rewrite N2. apply Rmult_le_compat_l; [exact Hs|]. unfold D in C3. lra. }
    assert (V2 : vp * (s - nv) <= X). { unfold X. rewrite Rmult_assoc. apply Rmult_le_compat_l; [exact Hv|]. nra. }
    unfold D. lra. }
  pose proof (Hmin en zn ltac:(lia) Hzn) as H1. pose proof (M e0 z0 He0 Hz0) as H2.
  pose proof (abs_sq _ _ (Dmin e0)) as Q1. fold (D en) (D e0) in Q1.
  assert (De9 : D en ^ 2 <= 9). { rewrite <- (Rabs_pos_eq 3) in De by lra. apply abs_sq in De. unfold D. lra. }
  assert (Az9 : A zn ^ 2 <= 9). { rewrite <- (Rabs_pos_eq 3) in Az by lra. apply abs_sq in Az. lra. }
  assert (KD : (kq - 1) * pp * D en ^ 2 <= (kq - 1) * pp * D e0 ^ 2) by (apply Rmult_le_compat_l; [apply Rmult_le_pos; lra|exact Q1]).
  assert (W : forall y, y + kq * (pp * D e0 ^ 2) <= yp * A zn ^ 2 + kq * (pp * D en ^ 2) + X -> pp * D e0 ^ 2 + y <= 9 * pp + 9 * yp + X).
  { intros y Hyy. assert (pp * D en ^ 2 <= pp * 9) by (apply Rmult_le_compat_l; lra). assert (yp * A zn ^ 2 <= yp * 9) by (apply Rmult_le_compat_l; lra). nra. }
  assert (L0 : (7 <= e0 <= 22)%Z).
  { assert (H3 : pp * D e0 ^ 2 < pp * (51 - Rabs eg) ^ 2). { pose proof (W 0 ltac:(lra)). lra. }
    apply Rmult_lt_reg_l in H3; [|lra]. assert (H4 : Rabs (D e0) < 51 - Rabs eg).
    { rewrite <- (pow2_abs (D e0)) in H3. pose proof (Rabs_pos (D e0)). assert (Rabs eg <= 45) by (apply Rabs_le; lra). nra. }
    apply Rabs_def2 in H4. assert (eg <= Rabs eg) by apply Rle_abs. assert (- eg <= Rabs eg) by (rewrite <- Rabs_Ropp; apply Rle_abs).
    unfold D, ce in H4. rewrite minus_IZR, mult_IZR in H4. split; [cut (6 < e0)%Z; [lia|]|cut (e0 < 23)%Z; [lia|]]; apply lt_IZR; lra. }
  destruct (S e0 z0 He0 Hz0) as (_ & X0). rewrite step_level, line_of_1 in X0 by exact L0.
  destruct (EV e0 z0 (hval h e0 z0)) as (nv & N1 & _ & E0). rewrite E0 in X0. apply Rabs_le_inv in N1.
  exists (A z0). split. { destruct (angleDifference_spec (cz z0) zg) as (_ & k & Ek). exists k. rewrite Ez. exact Ek. }
  rewrite Ee. fold (D e0). apply W. rewrite X0 in H1. assert (0 <= vp * (s - nv)) by (apply Rmult_le_pos; lra). fold (D e0) in H1. lra.
Qed.
Print Assumptions C111_free_space_moving.
(** the planner's default weights *)
Definition default_cp : costParameters Rn := CostParams (3 : Rn) (25 : Rn) (6000 : Rn) (17 / 2 : Rn).
(** an empty histogram, the default weights and smoothing margin, a goal 20 m away at azimuth 20 and elevation 10 degrees: the direction ranked first is that of the
    cell with the centre (9, 21) *)
Example C111_example_rest :
  exists (cast : R -> Z) top (h : hist Rn) out img best,
  reachable Rn h /\ h_res h = ALPHA_RES /\ is_priority_queue Rn top /\
  (forall e z, (0 <= e < 30)%Z -> (0 <= z < 60)%Z -> h_get Rn h e z = Some (0 : Rn)) /\
  0 < yaw_cost_param default_cp /\ 0 < pitch_cost_param default_cp /\
  let goal := at_polar (V3 (0 : Rn) 0 0) 10 20 20 in
  cost_matrix_of cast h goal (V3 (0 : Rn) 0 0) (V3 (0 : Rn) 0 0) default_cp 40 goal 15 (1 / 5) = Some (out, img) /\
  getBestCandidatesFromCostMatrix Rn top out 1 = Some [best] /\ c_e best = 9.
Proof.
  destruct empty_hist as (h & H1 & H2 & H3). exists (Ztrunc : R -> Z), (scan_top Rn). set (goal := at_polar (V3 (0 : Rn) 0 0) 10 20 20).
  destruct (ranking_returns (Ztrunc : R -> Z) (scan_top Rn) h goal (V3 (0 : Rn) 0 0) (V3 (0 : Rn) 0 0) default_cp 40 goal 15 (1 / 5) H1 H2 ltac:(lra) (scan_top_pq Rn ordered_Rn))
    as (out & img & best & E & B). exists h, out, img, best.
  do 2 (split; [assumption|]). split; [exact (scan_top_pq Rn ordered_Rn)|]. split; [exact H3|]. cbn [yaw_cost_param pitch_cost_param default_cp]. do 2 (split; [lra|]).
  split; [exact E|]. split; [exact B|].
  destruct (C111_free_space_at_rest (Ztrunc : R -> Z) (scan_top Rn) h (V3 (0 : Rn) 0 0) 10 20 20 10 20 default_cp 40 15 (1 / 5) 1 out img best []
    H1 H2 ltac:(lra) (scan_top_pq Rn ordered_Rn) ltac:(lia) H3 ltac:(lra) ltac:(lra) ltac:(lra) ltac:(lra) ltac:(lra) ltac:(cbn [yaw_cost_param default_cp]; lra) ltac:(cbn [pitch_cost_param default_cp]; lra) E B) as (K & _).
  destruct (best_min (scan_top Rn) out 1 best [] (scan_top_pq Rn ordered_Rn) ltac:(lia) B) as (e0 & z0 & _ & _ & Ee & _). rewrite Ee in K |- *. unfold ce in *.
  apply Rabs_le_inv in K. assert (L1 : (7 <= 6 * e0 - 87)%Z) by (apply le_IZR; lra). assert (L2 : (6 * e0 - 87 <= 13)%Z) by (apply le_IZR; lra).
  replace (6 * e0 - 87)%Z with 9%Z by lia. reflexivity.
Qed.
(** flying at 3 m/s with the default weights meets the premise: 9 * 25 + 9 * 3 + 50 < 25 * 41^2 *)
Example C111_example_moving :
  let excess := velocity_cost_param default_cp * 3 * (2 - 2 * cos (rad 3)) in
  9 * pitch_cost_param default_cp + 9 * yaw_cost_param default_cp + excess < pitch_cost_param default_cp * (51 - Rabs 10) ^ 2 /\ 0 <= velocity_cost_param default_cp.
Proof.
  cbn [velocity_cost_param yaw_cost_param pitch_cost_param default_cp]. rewrite Rabs_pos_eq by lra.
  assert (K : 1 / 2 <= cos (rad 3)).
  { rewrite <- cos_PI3. pose proof PI_RGT_0 as HP. unfold rad. apply cos_decr_1; lra. }
  tR. split; lra.
Qed.

(** every cell within r rows and columns of (e, z), in rows with skipped columns up to the next evaluated column, satisfies P *)
Definition all_around (h : hist Rn) (r e z : Z) (P : R -> Prop) : Prop :=
  forall e' k, (Z.abs (e' - e) <= r)%Z -> (Z.abs k <= r + (step_of e' - 1))%Z -> exists d : R, h_get Rn h e' (z + k) = Some (d : Rn) /\ P d.

Lemma hval_mod (h : hist Rn) e z : reachable Rn h -> h_res h = ALPHA_RES -> h_get Rn h e (z mod 60) = h_get Rn h e z.
Proof.
  intros Hr H6. pose proof (get_periodic Rn h e (z mod 60) 0 (z / 60) Hr ltac:(rewrite H6; unfold ALPHA_RES; lia)) as (K & _).
  rewrite H6 in K. change (360 / ALPHA_RES)%Z with 60%Z in K. rewrite Z.mul_0_l, Z.add_0_r in K.
  replace (z mod 60 + z / 60 * 60)%Z with z in K by (pose proof (Z.div_mod z 60); lia). symmetry. exact K.
Qed.
Lemma around_smoothed (P Q : R -> Prop) (h : hist Rn) (o : R) (dm sm : mat Rn) r e z :
  reachable Rn h -> h_res h = ALPHA_RES -> rows dm = 30%Z -> cols dm = 60%Z -> (0 <= r)%Z -> smoothPolarMatrix Rn dm r = Some sm ->
  (forall i j, (0 <= i < 30)%Z -> (0 <= j < 60)%Z -> (1 <= step_of i)%Z /\ cell dm i j = line_of (fun x => obst o (hval h i x)) (step_of i) j) ->
  (r <= e < 30 - r)%Z -> (0 <= z < 60)%Z -> all_around h r e z P ->
  (forall x y t, 0 <= t <= 1 -> Q x -> Q y -> Q (x + t * (y - x))) -> (forall d, P d -> Q (obst o d)) ->
  (forall L, (forall x, Q x -> L <= x) -> L * (1 + IZR r) ^ 2 <= cell sm e z) /\
  (forall L, (forall x, Q x -> x <= L) -> cell sm e z <= L * (1 + IZR r) ^ 2).
Proof.
  intros Hr H6 R2 C2 Hr0 Es S He Hz Ha HQ HPQ. assert (C60 : (cols dm mod 2 = 0)%Z) by (rewrite C2; reflexivity).
  apply (smooth_window Q dm sm r e z); try assumption; try (rewrite ?R2, ?C2; lia).
  intros e' k He' Hk. rewrite C2. destruct (S e' ((z + k) mod 60)%Z ltac:(lia) ltac:(apply Z.mod_pos_bound; lia)) as (S1 & ->).
  apply (line_window Q); [exact S1|apply Z.mod_pos_bound; lia|exact HQ|]. intros k' Hk'. rewrite Zplus_mod_idemp_l. unfold hval. rewrite hval_mod by assumption.
  destruct (Ha e' (k + k')%Z He' ltac:(lia)) as (d & Ed & Hd). rewrite <- Z.add_assoc, Ed. apply HPQ, Hd.
Qed.
Lemma obst_mono o d1 d2 : 0 < d1 <= d2 -> obst o d2 <= obst o d1.
Proof.
  intros H. unfold obst. destruct (R_ltb_spec 0 d1); [|lra]. destruct (R_ltb_spec 0 d2); [|lra].
  pose proof (sat_mono (o - d2) (o - d1) ltac:(lra)). lra.
Qed.
Lemma obst_range o d : 0 <= obst o d < 10000.
Proof. unfold obst. pose proof (sat_bounds (o - d)). destruct (R_ltb 0 d); lra. Qed.
Lemma obst_free o d : d <= 0 -> obst o d = 0.
Proof. intros H. unfold obst. destruct (R_ltb_spec 0 d); [lra|reflexivity]. Qed.
Lemma obst_pos o d : 0 < d -> 0 < obst o d.
Proof. intros H. unfold obst. pose proof (sat_bounds (o - d)). destruct (R_ltb_spec 0 d); lra. Qed.

(** C112. If everything within the smoothing margin of one direction is blocked by obstacles nearer than dmax and everything within the margin of another direction
    is free, then the other one is cheaper and the first is never ranked first, as long as the weights cannot outweigh the obstacles: here U is the most that turning
    (half a circle), climbing and changing the velocity can cost. Goal at least 5 m away. *)
Theorem C112_walled_direction_not_chosen :
  forall (cast : R -> Z) (h : hist Rn) (position velocity : vec3 Rn) (eg zg d : R) closest (cp : costParameters Rn) (margin mx mn : R) out img (e1 z1 e2 z2 : Z) (dmax : R),
  reachable Rn h -> h_res h = ALPHA_RES -> 0 <= margin <= 180 -> 5 <= d -> -90 < eg < 90 -> -180 < zg <= 180 ->
  0 <= yaw_cost_param cp /\ 0 <= pitch_cost_param cp /\ 0 <= velocity_cost_param cp ->
  let goal := at_polar position eg zg d in let r := Zceil (margin / 6) in
  (r <= e1 < 30 - r)%Z -> (0 <= z1 < 60)%Z -> (r <= e2 < 30 - r)%Z -> (0 <= z2 < 60)%Z ->
  all_around h r e1 z1 (fun x => 0 < x <= dmax) -> all_around h r e2 z2 (fun x => x = 0) ->
  let o := obstacle_cost_param cp in
  let U := yaw_cost_param cp * 180 ^ 2 + pitch_cost_param cp * (IZR (6 * e2 - 87) - eg) ^ 2 + 2 * velocity_cost_param cp * v3norm Rn velocity in
  U < 5000 * (1 + (o - dmax) / sqrt (1 + (o - dmax) * (o - dmax))) * (1 + IZR r) ^ 2 ->
  cost_matrix_of cast h goal position velocity cp margin closest mx mn = Some (out, img) ->
  cell out e2 z2 < cell out e1 z1 /\
  forall top n best more, is_priority_queue Rn top -> (1 <= n)%Z -> getBestCandidatesFromCostMatrix Rn top out n = Some (best :: more) ->
    ~ (c_e best = IZR (6 * e1 - 87) /\ c_z best = IZR (6 * z1 - 177)).
Proof.
  intros cast h position velocity eg zg d closest cp margin mx mn out img e1 z1 e2 z2 dmax Hr H6 Hm Hd Heg Hzg (Hy & Hp & Hv) goal r He1 Hz1 He2 Hz2 Ha1 Ha2 o U HU E.
  destruct (matrices cast h goal position velocity cp margin closest mx mn out img Hr H6 Hm E) as (facing & cm & dm & sm & _ & R1 & C1 & R2 & C2 & Es & S).
  pose proof (radius_range margin Hm) as Rr. change (smooth_radius margin) with r in Rr, Es. fold o in S.
  assert (S' : forall i j, (0 <= i < 30)%Z -> (0 <= j < 60)%Z -> (1 <= step_of i)%Z /\ cell dm i j = line_of (fun x => obst o (hval h i x)) (step_of i) j).
  { intros i j Hi Hj. destruct (S i j Hi Hj) as (A1 & _ & A3 & _). split; assumption. }
  assert (Dpos : 0 < dmax). { destruct (Ha1 e1 0%Z ltac:(lia) ltac:(destruct (S' e1 z1 ltac:(lia) Hz1); lia)) as (x & _ & X). lra. }
  set (B := 5000 * (1 + (o - dmax) / sqrt (1 + (o - dmax) * (o - dmax)))) in *.
  assert (EB : obst o dmax = B). { unfold obst. destruct (R_ltb_spec 0 dmax); [reflexivity|lra]. }
  assert (L1 : B * (1 + IZR r) ^ 2 <= cell sm e1 z1).
  { assert (Q1 : forall x y t : R, 0 <= t <= 1 -> B <= x -> B <= y -> B <= x + t * (y - x)) by (intros; apply conv_ge; assumption).
    assert (Q2 : forall x : R, 0 < x <= dmax -> B <= obst o x) by (intros x Hx; rewrite <- EB; apply obst_mono, Hx).
    apply (proj1 (around_smoothed _ (fun x => B <= x) h o dm sm r e1 z1 Hr H6 R2 C2 ltac:(lia) Es S' He1 Hz1 Ha1 Q1 Q2)). intros; assumption. }
  assert (L2 : cell sm e2 z2 <= 0 * (1 + IZR r) ^ 2).
  { assert (Q1 : forall x y t : R, 0 <= t <= 1 -> x <= 0 -> y <= 0 -> x + t * (y - x) <= 0) by (intros; apply conv_le; assumption).
    assert (Q2 : forall x : R, x = 0 -> obst o x <= 0) by (intros x ->; rewrite obst_free by lra; lra).
    apply (proj2 (around_smoothed _ (fun x => x <= 0) h o dm sm r e2 z2 Hr H6 R2 C2 ltac:(lia) Es S' He2 Hz2 Ha2 Q1 Q2)). intros; assumption. }
  rewrite Rmult_0_l in L2.
  assert (Hne : goal <> position).
  { intros X. pose proof (dist_of_at position eg zg d ltac:(lra) Heg Hzg) as K. fold goal in K. rewrite X in K.
    assert (v3norm Rn (v3sub Rn position position) = 0); [|tR; lra].
    unfold v3norm, v3sqnorm, v3sub, v3dot. cbn [vx vy vz]. rn. tR. rewrite !Rminus_diag_eq by reflexivity. replace (0 * 0 + 0 * 0 + 0 * 0) with 0 by ring. apply sqrt_0. }
  destruct (S e1 z1 ltac:(lia) Hz1) as (T1 & O1 & _ & M1). destruct (S e2 z2 ltac:(lia) Hz2) as (T2 & O2 & _ & M2).
  assert (C1' : 0 <= cell cm e1 z1). { rewrite M1. apply line_ge; [exact T1|exact Hz1|]. intros x _. apply other_cost_nonneg; [split; [exact Hy|split; [exact Hp|exact Hv]]|exact Hne]. }
  assert (C2' : cell cm e2 z2 <= U).
  { rewrite M2. apply line_le; [exact T2|exact Hz2|]. intros x _.
    destruct (other_cost_R (Pol (ce e2) (cz x) 1) (hval h e2 x) goal position velocity cp closest facing) as (w & nv & Hw & Hnv & _ & ->).
    unfold goal. rewrite dist_of_at, polar_of_at by (try assumption; lra). cbn [pe pz]. unfold near_factor. destruct (R_ltb_spec d 5); [lra|].
    apply Rabs_le_inv in Hnv. set (vn := v3norm Rn velocity) in *.
    set (A := angleDifference Rn (cz x) zg). set (A2 := angleDifference Rn (cz x) _).
    assert (QA : A ^ 2 <= 180 ^ 2) by (destruct (angleDifference_spec (cz x) zg) as (K & _); fold A in K; nra).
    assert (QB : A2 ^ 2 <= 180 ^ 2) by (destruct (angleDifference_spec (cz x) (pz (cartesianToPolarHistogram Rn Rtrig closest position))) as (K & _); fold A2 in K; nra).
    assert (V : velocity_cost_param cp * (vn - nv) <= 2 * velocity_cost_param cp * vn).
    { replace (2 * velocity_cost_param cp * vn) with (velocity_cost_param cp * (2 * vn)) by ring. apply Rmult_le_compat_l; [exact Hv|]. tR. lra. }
    assert (Y : forall w', 0 <= w' -> forall q, q <= 180 ^ 2 -> w' * yaw_cost_param cp * q <= w' * yaw_cost_param cp * 180 ^ 2).
    { intros w' Hw' q Hq. apply Rmult_le_compat_l; [apply Rmult_le_pos; assumption|exact Hq]. }
    pose proof (Y (1 - w) ltac:(destruct Hw; lra) _ QA) as Y1. pose proof (Y w ltac:(destruct Hw; lra) _ QB) as Y2.
    unfold U. fold vn. unfold ce. tR. lra. }
  assert (Lt : cell out e2 z2 < cell out e1 z1) by (rewrite O1, O2; lra).
  split; [exact Lt|]. intros top n best more PQ Hn HB (K1 & K2).
  destruct (best_min top out n best more PQ Hn HB) as (e0 & z0 & _ & _ & Ee & Ez & Hmin). rewrite R1, C1 in Hmin.
  rewrite Ee in K1. rewrite Ez in K2. unfold ce in K1. unfold cz in K2. apply eq_IZR in K1, K2. assert (e0 = e1) by lia. assert (z0 = z1) by lia. subst e0 z0.
  pose proof (Hmin e2 z2 ltac:(lia) Hz2) as K. lra.
Qed.
Print Assumptions C112_walled_direction_not_chosen.

(** a wall of obstacles 2 m away in the columns 20 to 40 (azimuths -57 to 63 degrees), the goal 20 m ahead behind it, flying at 2 m/s: straight ahead costs more than
    straight back *)
Example C112_example :
  exists (h : hist Rn), reachable Rn h /\ h_res h = ALPHA_RES /\
  let r := Zceil (40 / 6) in
  (r <= 15 < 30 - r)%Z /\ all_around h r 15 30 (fun x => 0 < x <= 2) /\ all_around h r 15 0 (fun x => x = 0) /\
  let velocity := V3 (0 : Rn) 2 0 in let o := obstacle_cost_param default_cp in
  yaw_cost_param default_cp * 180 ^ 2 + pitch_cost_param default_cp * (IZR (6 * 15 - 87) - 0) ^ 2 + 2 * velocity_cost_param default_cp * v3norm Rn velocity
    < 5000 * (1 + (o - 2) / sqrt (1 + (o - 2) * (o - 2))) * (1 + IZR r) ^ 2 /\
  exists out img, cost_matrix_of (Ztrunc : R -> Z) h (at_polar (V3 (0 : Rn) 0 0) 0 0 20) (V3 (0 : Rn) 0 0) velocity default_cp 40 (V3 (0 : Rn) 0 0) 15 (1 / 5) = Some (out, img).
Proof.
  destruct (paint (fun _ z => if (20 <=? z)%Z && (z <=? 40)%Z then 2 else 0)) as (h & H1 & H2 & H3). exists h. do 2 (split; [assumption|]).
  assert (Er : Zceil (40 / 6) = 7%Z). { apply Zceil_imp. rewrite minus_IZR. split; lra. }
  cbv zeta. rewrite Er. split; [lia|].
  assert (W : forall e' k z, (0 <= e' < 30)%Z -> h_get Rn h e' (z + k) = Some (if (20 <=? (z + k) mod 60)%Z && ((z + k) mod 60 <=? 40)%Z then 2 else 0 : R)).
  { intros e' k z He. rewrite <- hval_mod by assumption. rewrite H3 by (try apply Z.mod_pos_bound; lia). reflexivity. }
  split.
  { intros e' k He' Hk. rewrite step_level in Hk by lia. rewrite W by lia. exists 2.
    rewrite Z.mod_small by lia. rewrite (proj2 (Z.leb_le 20 _)) by lia. rewrite (proj2 (Z.leb_le _ 40)) by lia. split; [reflexivity|lra]. }
  split.
  { intros e' k He' Hk. rewrite step_level in Hk by lia. rewrite W by lia. exists 0.
    destruct (Z.leb_spec 20 ((0 + k) mod 60)) as [A|A]; [|split; reflexivity]. destruct (Z.leb_spec ((0 + k) mod 60) 40) as [B|B]; [|split; reflexivity].
    exfalso. pose proof (Z.div_mod (0 + k) 60 ltac:(lia)). destruct (Z.le_gt_cases 0 k); [rewrite Z.mod_small in * by lia; lia|].
    replace ((0 + k) mod 60)%Z with (k + 60)%Z in *; [lia|]. apply (Z.mod_unique _ _ (-1)); lia. }
  split.
  { cbn [velocity_cost_param yaw_cost_param pitch_cost_param obstacle_cost_param default_cp].
    assert (V : v3norm Rn (V3 (0 : Rn) 2 0) = 2). { unfold v3norm, v3sqnorm, v3dot. cbn [vx vy vz]. rn. tR. replace (0 * 0 + 2 * 2 + 0 * 0) with (2 * 2) by ring. apply sqrt_square. lra. }
    rewrite V. change (6 * 15 - 87)%Z with 3%Z. tR. set (q := sqrt _).
    assert (Q : 0 < q <= 7). { unfold q. split; [apply sqrt_lt_R0; lra|]. rewrite <- (sqrt_square 7) by lra. apply sqrt_le_1; lra. }
    assert (13 / 14 <= (17 / 2 - 2) / q). { apply Rmult_le_reg_r with q; [lra|]. unfold Rdiv at 2. rewrite Rmult_assoc, Rinv_l by lra. lra. }
    lra. }
  destruct (every_cell_filled (Ztrunc : R -> Z) h (at_polar (V3 (0 : Rn) 0 0) 0 0 20) (V3 (0 : Rn) 0 0) (V3 (0 : Rn) 2 0) default_cp 40 (V3 (0 : Rn) 0 0) 15 (1 / 5) H1 H2 ltac:(lra))
    as (facing & cm & dm & sm & img & out & _ & E2 & _). exists out, img. exact E2.
Qed.

(** C112 near the goal: within 5 m of the goal the pitch weight grows with 25 / d^2, and a blocked direction is ranked first although another one is free all around.
    Goal 1 m away, 45 degrees below; everything below the horizon (rows 0 to 14) blocked at half a metre, everything above free; default weights, at rest. *)
Theorem C112_walled_direction_not_chosen_refuted :
  exists (h : hist Rn) out img best (e z : Z) (d : R),
  reachable Rn h /\ h_res h = ALPHA_RES /\
  (forall e' z', (0 <= e' < 30)%Z -> (0 <= z' < 60)%Z -> h_get Rn h e' z' = Some (if (e' <=? 14)%Z then 1 / 2 else 0 : R)) /\
  let goal := at_polar (V3 (0 : Rn) 0 0) (-45) 3 1 in
  cost_matrix_of (Ztrunc : R -> Z) h goal (V3 (0 : Rn) 0 0) (V3 (0 : Rn) 0 0) default_cp 40 goal 15 (1 / 5) = Some (out, img) /\
  getBestCandidatesFromCostMatrix Rn (scan_top Rn) out 1 = Some [best] /\
  all_around h (Zceil (40 / 6)) 22 0 (fun x => x = 0) /\
  c_e best = IZR (6 * e - 87) /\ c_z best = IZR (6 * z - 177) /\ (0 <= e < 30)%Z /\ (0 <= z < 60)%Z /\ h_get Rn h e z = Some (d : Rn) /\ d = 1 / 2.
Proof.
  destruct (paint (fun e _ => if (e <=? 14)%Z then 1 / 2 else 0)) as (h & H1 & H2 & H3). set (goal := at_polar (V3 (0 : Rn) 0 0) (-45) 3 1).
  destruct (ranking_returns (Ztrunc : R -> Z) (scan_top Rn) h goal (V3 (0 : Rn) 0 0) (V3 (0 : Rn) 0 0) default_cp 40 goal 15 (1 / 5) H1 H2 ltac:(lra) (scan_top_pq Rn ordered_Rn))
    as (out & img & best & E & B).
  destruct (best_min (scan_top Rn) out 1 best [] (scan_top_pq Rn ordered_Rn) ltac:(lia) B) as (e0 & z0 & He0 & Hz0 & Ee & Ez & Hmin).
  destruct (matrices _ h goal (V3 (0 : Rn) 0 0) (V3 (0 : Rn) 0 0) default_cp 40 goal 15 (1 / 5) out img H1 H2 ltac:(lra) E) as (facing & cm & dm & sm & _ & R1 & C1 & R2 & C2 & Es & S).
  rewrite R1 in He0, Hmin. rewrite C1 in Hz0, Hmin.
  assert (Er : smooth_radius 40 = 7%Z). { apply Zceil_imp. rewrite minus_IZR. split; lra. } rewrite Er in Es.
  exists h, out, img, best, e0, z0, (1 / 2). do 2 (split; [assumption|]). split; [exact H3|]. split; [exact E|]. split; [exact B|]. split.
  { unfold smooth_radius in Er. rewrite Er. intros e' k He' Hk. rewrite <- hval_mod by assumption. rewrite H3 by (try apply Z.mod_pos_bound; lia). exists 0.
    destruct (Z.leb_spec e' 14); [lia|]. split; reflexivity. }
  do 2 (split; [assumption|]). do 2 (split; [lia|]). split; [|reflexivity]. rewrite H3 by lia. destruct (Z.leb_spec e0 14) as [|L]; [reflexivity|]. exfalso.
  assert (Dm : forall i j, (0 <= i < 30)%Z -> (0 <= j < 60)%Z -> 0 <= cell dm i j <= 10000).
  { intros i j Hi Hj. destruct (S i j Hi Hj) as (T1 & _ & -> & _). split; [apply line_ge|apply line_le]; try assumption; intros x _; pose proof (obst_range (obstacle_cost_param default_cp) (hval h i x)); lra. }
  assert (N0 : v3norm Rn (V3 (0 : Rn) 0 0) = 0). { unfold v3norm, v3sqnorm, v3dot. cbn [vx vy vz]. rn. tR. replace (0 * 0 + 0 * 0 + 0 * 0) with 0 by ring. apply sqrt_0. }
  assert (EV : forall e x dd, snd (costFunction Rn Rtrig (Pol (ce e) (cz x) 1) dd goal (V3 (0 : Rn) 0 0) (V3 (0 : Rn) 0 0) default_cp goal facing) =
    3 * angleDifference Rn (cz x) 3 ^ 2 + 625 * (ce e + 45) ^ 2).
  { intros e x dd. destruct (other_cost_R (Pol (ce e) (cz x) 1) dd goal (V3 (0 : Rn) 0 0) (V3 (0 : Rn) 0 0) default_cp goal facing) as (w & nv & _ & Hnv & _ & ->).
    rewrite N0 in *. assert (nv = 0) as -> by (apply Rabs_le_inv in Hnv; tR; lra). unfold goal. rewrite !polar_of_at, dist_of_at by lra. cbn [pe pz].
    unfold near_factor. destruct (R_ltb_spec 1 5); [|lra]. cbn [velocity_cost_param yaw_cost_param pitch_cost_param default_cp]. tR. field. }
  pose proof (smooth_le_all 10000 dm sm 7 7 30 ltac:(lia) ltac:(lia) ltac:(rewrite C2; reflexivity) ltac:(lia) Es ltac:(lia) ltac:(lia)) as U.
  rewrite R2, C2 in U. specialize (U ltac:(intros; apply Dm; assumption)).
  pose proof (smooth_bounds dm sm 7 ltac:(lia) ltac:(lia) ltac:(rewrite C2; reflexivity) ltac:(lia)) as Lb.
  rewrite R2, C2 in Lb. specialize (Lb ltac:(intros; apply Dm; assumption) Es e0 z0 He0 Hz0). pose proof (Dm e0 z0 He0 Hz0) as D0.
  destruct (S 7%Z 30%Z ltac:(lia) ltac:(lia)) as (_ & O1 & _ & M1). rewrite step_level, line_of_1, EV in M1 by lia.
  destruct (S e0 z0 He0 Hz0) as (T2 & O2 & _ & M2).
  assert (G : 625 * 48 ^ 2 <= cell cm e0 z0).
  { rewrite M2. apply line_ge; [exact T2|exact Hz0|]. intros x Hx. rewrite EV. assert (48 <= ce e0 + 45). { unfold ce. rewrite minus_IZR, mult_IZR. assert (15 <= IZR e0) by (apply IZR_le; lia). lra. }
    pose proof (pow2_ge_0 (angleDifference Rn (cz x) 3)). nra. }
  assert (A0 : angleDifference Rn (cz 30) 3 = 0). { destruct (angleDifference_spec (cz 30) 3) as (B1 & B2). unfold cz in *. apply canonical_unique; [exact B1|lra|]. destruct B2 as (k & ->). exists k. change (6 * 30 - 177)%Z with 3%Z. lra. }
  rewrite A0 in M1. unfold ce in M1. change (6 * 7 - 87)%Z with (-45)%Z in M1.
  pose proof (Hmin 7%Z 30%Z ltac:(lia) ltac:(lia)) as Hx. rewrite O1, O2, M1 in Hx. tR. cbn [IZR] in *. lra.
Qed.
Print Assumptions C112_walled_direction_not_chosen_refuted.

(** C113. Nearer or additional obstacles never make any direction cheaper, and raise the cost of every direction within the smoothing margin, rows and columns, of the
    changed cell, if its column is one that is evaluated (every column between -48 and 48 degrees). The one flag that switches the yaw weights has to be the same. *)
Definition not_farther (d1 d2 : R) : Prop := d2 = d1 \/ (d1 <= 0 /\ 0 < d2) \/ 0 < d2 <= d1.
Lemma obst_not_farther o d1 d2 : not_farther d1 d2 -> obst o d1 <= obst o d2.
Proof.
  intros [->|[(A & B)|A]]; [lra|rewrite (obst_free o d1) by exact A; apply Rlt_le, obst_pos, B|apply obst_mono, A].
Qed.
Lemma sat_mono_strict a b : a < b -> a / sqrt (1 + a * a) < b / sqrt (1 + b * b).
Proof.
  intros H. destruct (sat_mono a b ltac:(lra)) as [K|K]; [exact K|]. exfalso.
  assert (Sa : 0 < sqrt (1 + a * a)) by (apply sqrt_lt_R0; nra). assert (Sb : 0 < sqrt (1 + b * b)) by (apply sqrt_lt_R0; nra).
  pose proof (sqrt_sqrt (1 + a * a) ltac:(nra)) as Qa. pose proof (sqrt_sqrt (1 + b * b) ltac:(nra)) as Qb. set (p := sqrt (1 + a * a)) in *. set (q := sqrt (1 + b * b)) in *.
  assert (E : a * q = b * p). { apply (f_equal (fun x => x * p * q)) in K. field_simplify in K; lra. }
  assert (E2 : (a * q) * (a * q) = (b * p) * (b * p)) by (rewrite E; reflexivity).
  assert (E3 : a * a = b * b) by nra. assert (E4 : p = q). { unfold p, q. rewrite E3. reflexivity. }
  rewrite E4 in E. apply Rmult_eq_reg_r in E; lra.
Qed.
Lemma obst_strict o d1 d2 : (d1 <= 0 /\ 0 < d2) \/ 0 < d2 < d1 -> obst o d1 < obst o d2.
Proof.
  intros [(A & B)|A]; [rewrite (obst_free o d1) by exact A; apply obst_pos, B|].
  unfold obst. destruct (R_ltb_spec 0 d1); [|lra]. destruct (R_ltb_spec 0 d2); [|lra].
  pose proof (sat_mono_strict (o - d1) (o - d2) ltac:(lra)). lra.
Qed.

Theorem C113_obstacle_raises_cost :
  forall (cast : R -> Z) (h1 h2 : hist Rn) goal position velocity (cp : costParameters Rn) closest (margin mx mn : R) out1 out2 img1 img2,
  reachable Rn h1 -> h_res h1 = ALPHA_RES -> reachable Rn h2 -> h_res h2 = ALPHA_RES -> 0 <= margin <= 180 ->
  (forall e z, (0 <= e < 30)%Z -> (0 <= z < 60)%Z ->
     exists d1 d2 : R, h_get Rn h1 e z = Some (d1 : Rn) /\ h_get Rn h2 e z = Some (d2 : Rn) /\ (d2 = d1 \/ (d1 <= 0 /\ 0 < d2) \/ 0 < d2 <= d1)) ->
  obstacleFacingGoal Rn Rtrig cast h2 goal position mx mn = obstacleFacingGoal Rn Rtrig cast h1 goal position mx mn ->
  cost_matrix_of cast h1 goal position velocity cp margin closest mx mn = Some (out1, img1) ->
  cost_matrix_of cast h2 goal position velocity cp margin closest mx mn = Some (out2, img2) ->
  forall e z, (0 <= e < 30)%Z -> (0 <= z < 60)%Z ->
  cell out1 e z <= cell out2 e z /\
  forall eo zo (d1 d2 : R), (0 <= eo < 30)%Z -> (0 <= zo < 60)%Z ->
    ((7 <= eo <= 22)%Z \/ (zo mod ZnearestA (1 / cos (IZR (6 * eo - 87) * (PI / 180))) = 0)%Z) ->
    h_get Rn h1 eo zo = Some (d1 : Rn) -> h_get Rn h2 eo zo = Some (d2 : Rn) -> (d1 <= 0 /\ 0 < d2) \/ 0 < d2 < d1 ->
    (Z.abs (eo - e) <= Zceil (margin / 6))%Z -> (exists k, Z.abs k <= Zceil (margin / 6) /\ zo = (z + k) mod 60)%Z ->
    cell out1 e z < cell out2 e z.
Proof.
  intros cast h1 h2 goal position velocity cp closest margin mx mn out1 out2 img1 img2 Hr1 H61 Hr2 H62 Hm Hnf Hface E1 E2 e z He Hz.
  destruct (matrices cast h1 goal position velocity cp margin closest mx mn out1 img1 Hr1 H61 Hm E1) as (facing & cm1 & dm1 & sm1 & F1 & R1 & C1 & R2 & C2 & Es1 & S1).
  destruct (matrices cast h2 goal position velocity cp margin closest mx mn out2 img2 Hr2 H62 Hm E2) as (facing' & cm2 & dm2 & sm2 & F2 & R3 & C3 & R4 & C4 & Es2 & S2).
  assert (facing' = facing) as -> by congruence. pose proof (radius_range margin Hm) as Rr.
  assert (V : forall i x, (0 <= i < 30)%Z -> (0 <= x < 60)%Z -> obst (obstacle_cost_param cp) (hval h1 i x) <= obst (obstacle_cost_param cp) (hval h2 i x)).
  { intros i x Hi Hx. destruct (Hnf i x Hi Hx) as (d1 & d2 & G1 & G2 & NF). unfold hval. rewrite G1, G2. apply obst_not_farther, NF. }
  assert (D : forall i j, (0 <= i < 30)%Z -> (0 <= j < 60)%Z -> cell dm1 i j <= cell dm2 i j).
  { intros i j Hi Hj. destruct (S1 i j Hi Hj) as (T1 & _ & -> & _). destruct (S2 i j Hi Hj) as (_ & _ & -> & _). apply line_mono; try assumption. intros x Hx. apply V; assumption. }
  assert (C : cell cm1 e z = cell cm2 e z).
  { destruct (S1 e z He Hz) as (T1 & _ & _ & ->). destruct (S2 e z He Hz) as (_ & _ & _ & ->). apply Rle_antisym; apply line_mono; try assumption; intros x Hx; apply Req_le; reflexivity. }
  destruct (S1 e z He Hz) as (_ & O1 & _). destruct (S2 e z He Hz) as (_ & O2 & _).
  destruct (smooth_mono dm1 dm2 sm1 sm2 (smooth_radius margin) ltac:(congruence) ltac:(congruence) ltac:(lia) ltac:(lia) ltac:(rewrite C2; reflexivity) ltac:(lia) Es1 Es2
    ltac:(rewrite R2, C2; exact D) e z ltac:(lia) ltac:(lia)) as (M1 & M2).
  split; [rewrite O1, O2, C; lra|]. intros eo zo d1 d2 Heo Hzo Hcol G1 G2 Hst Hde (k & Hk & Ezo).
  assert (Hcol' : (zo mod step_of eo = 0)%Z).
  { destruct Hcol as [L|L]; [rewrite step_level by exact L; apply Z.mod_1_r|]. unfold step_of. replace (6 * eo + 3 - 90)%Z with (6 * eo - 87)%Z by lia. exact L. }
  assert (St : cell dm1 eo zo < cell dm2 eo zo).
  { destruct (S1 eo zo Heo Hzo) as (_ & _ & -> & _). destruct (S2 eo zo Heo Hzo) as (_ & _ & -> & _). rewrite !line_at by exact Hcol'. unfold hval. rewrite G1, G2. apply obst_strict, Hst. }
  fold (smooth_radius margin) in Hde, Hk.
  assert (L1 : (- smooth_radius margin <= eo - e <= smooth_radius margin)%Z) by (apply Z.abs_le; exact Hde).
  assert (L2 : (- smooth_radius margin <= k <= smooth_radius margin)%Z) by (apply Z.abs_le; exact Hk).
  specialize (M2 k (eo - e)%Z L1 L2). rewrite (Zplus_minus e eo) in M2. unfold sphere_at, sphere_cell in M2. rewrite R2, R4, C2, C4 in M2.
  rewrite (proj2 (Z.ltb_ge eo 0) (proj1 Heo)), (proj2 (Z.ltb_lt eo 30) (proj2 Heo)) in M2. rewrite <- Ezo in M2. specialize (M2 St). rewrite O1, O2, C. lra.
Qed.
Print Assumptions C113_obstacle_raises_cost.
(** one more obstacle straight ahead, outside the 5 x 11 cells looked at for the yaw weights; the goal is to the side *)
Example C113_example :
  exists h1 h2 : hist Rn, reachable Rn h1 /\ h_res h1 = ALPHA_RES /\ reachable Rn h2 /\ h_res h2 = ALPHA_RES /\
  (forall e z, (0 <= e < 30)%Z -> (0 <= z < 60)%Z ->
     exists d1 d2 : R, h_get Rn h1 e z = Some (d1 : Rn) /\ h_get Rn h2 e z = Some (d2 : Rn) /\ (d2 = d1 \/ (d1 <= 0 /\ 0 < d2) \/ 0 < d2 <= d1)) /\
  h_get Rn h1 15 30 = Some (0 : Rn) /\ h_get Rn h2 15 30 = Some (3 : Rn) /\
  forall position : vec3 Rn, let goal := at_polar position 3 (-117) 20 in
  obstacleFacingGoal Rn Rtrig (Ztrunc : R -> Z) h2 goal position 15 (1 / 5) = obstacleFacingGoal Rn Rtrig (Ztrunc : R -> Z) h1 goal position 15 (1 / 5).
Proof.
  destruct (paint (fun _ _ => 0)) as (h1 & H1 & H2 & H3).
  destruct (set_cell h1 15 30 (3 : Rn) H1 H2 ltac:(lia) ltac:(lia)) as (h2 & _ & K1 & K2 & K3).
  exists h1, h2. do 4 (split; [assumption|]). split.
  { intros e z He Hz. rewrite K3 by assumption. rewrite H3 by assumption. exists 0. destruct ((e =? 15)%Z && (z =? 30)%Z).
    - exists 3. do 2 (split; [reflexivity|]). right; left; lra.
    - exists 0. do 2 (split; [reflexivity|]). left; reflexivity. }
  split; [apply H3; lia|]. split; [rewrite K3 by lia; reflexivity|]. intros position goal.
  apply (facing_window h1 h2 goal position 15 10 20); [lia|lia| |].
  - unfold goal. rewrite polar_of_at by lra. unfold ce, cz. reflexivity.
  - intros e z He Hz. rewrite K3 by lia. destruct (Z.eqb_spec z 30); [lia|]. rewrite andb_false_r. reflexivity.
Qed.
(** ... but above and below 48 degrees only every second (fourth, tenth, ...) column is evaluated: a single obstacle in a column in between, at 57 degrees elevation,
    changes no cost at all, whatever its distance d, the position, velocity, weights and smoothing margin (goal and nearest point of the line in one direction) *)
Theorem C113_obstacle_raises_cost_refuted :
  forall d : R, 0 < d -> exists h1 h2 : hist Rn, reachable Rn h1 /\ h_res h1 = ALPHA_RES /\ reachable Rn h2 /\ h_res h2 = ALPHA_RES /\
  (forall e z, (0 <= e < 30)%Z -> (0 <= z < 60)%Z -> h_get Rn h1 e z = Some (0 : Rn) /\ h_get Rn h2 e z = Some (if (e =? 24)%Z && (z =? 1)%Z then d else 0 : R)) /\
  forall (cast : R -> Z) goal position velocity (cp : costParameters Rn) (margin mx mn : R), 0 <= margin <= 180 ->
  exists out1 out2 img1 img2,
  cost_matrix_of cast h1 goal position velocity cp margin goal mx mn = Some (out1, img1) /\
  cost_matrix_of cast h2 goal position velocity cp margin goal mx mn = Some (out2, img2) /\
  forall e z, (0 <= e < 30)%Z -> (0 <= z < 60)%Z -> cell out2 e z = cell out1 e z.
Proof.
  intros d Hd. destruct (paint (fun _ _ => 0)) as (h1 & H1 & H2 & H3).
  destruct (set_cell h1 24 1 (d : Rn) H1 H2 ltac:(lia) ltac:(lia)) as (h2 & _ & K1 & K2 & K3).
  exists h1, h2. do 4 (split; [assumption|]). split.
  { intros e z He Hz. split; [apply H3; assumption|]. rewrite K3 by assumption. rewrite H3 by assumption. destruct ((e =? 24)%Z && (z =? 1)%Z); reflexivity. }
  intros cast goal position velocity cp margin mx mn Hm.
  destruct (ranking_returns cast (scan_top Rn) h1 goal position velocity cp margin goal mx mn H1 H2 Hm (scan_top_pq Rn ordered_Rn)) as (out1 & img1 & _ & E1 & _).
  destruct (ranking_returns cast (scan_top Rn) h2 goal position velocity cp margin goal mx mn K1 K2 Hm (scan_top_pq Rn ordered_Rn)) as (out2 & img2 & _ & E2 & _).
  exists out1, out2, img1, img2. split; [exact E1|]. split; [exact E2|]. intros e z He Hz.
  destruct (matrices cast h1 goal position velocity cp margin goal mx mn out1 img1 H1 H2 Hm E1) as (f1 & cm1 & dm1 & sm1 & F1 & R1 & C1 & R2 & C2 & Es1 & S1).
  destruct (matrices cast h2 goal position velocity cp margin goal mx mn out2 img2 K1 K2 Hm E2) as (f2 & cm2 & dm2 & sm2 & F2 & R3 & C3 & R4 & C4 & Es2 & S2).
  pose proof (radius_range margin Hm) as Rr. set (o := obstacle_cost_param cp) in *.
  assert (HV1 : forall i x, (0 <= i < 30)%Z -> (0 <= x < 60)%Z -> obst o (hval h1 i x) = 0).
  { intros i x Hi Hx. unfold hval. rewrite H3 by assumption. apply obst_free. lra. }
  assert (HV2 : forall i x, (0 <= i < 30)%Z -> (0 <= x < 60)%Z -> i <> 24%Z \/ (x mod 2 = 0)%Z -> obst o (hval h2 i x) = 0).
  { intros i x Hi Hx N. unfold hval. rewrite K3 by assumption. rewrite H3 by assumption. destruct (Z.eqb_spec i 24) as [E|E]; cbn [andb]; [|apply obst_free; lra].
    destruct (Z.eqb_spec x 1) as [Ex|Ex]; [|apply obst_free; lra]. exfalso. rewrite Ex in N. destruct N as [N|N]; [apply N, E|discriminate]. }
  assert (D1 : forall i j, (0 <= i < 30)%Z -> (0 <= j < 60)%Z -> cell dm1 i j = 0).
  { intros i j Hi Hj. destruct (S1 i j Hi Hj) as (T & _ & -> & _). apply Rle_antisym; [apply line_le|apply line_ge]; try assumption; intros x Hx; rewrite HV1 by assumption; apply Rle_refl. }
  assert (D2 : forall i j, (0 <= i < 30)%Z -> (0 <= j < 60)%Z -> cell dm2 i j = 0).
  { intros i j Hi Hj. destruct (S2 i j Hi Hj) as (T & _ & -> & _). destruct (Z.eq_dec i 24) as [E|E].
    - rewrite E, step_24. rewrite (line_odd _ (fun _ => 0)) by (try assumption; intros; apply HV2; try assumption; try lia; right; assumption). exact (line_zero 2 j).
    - apply Rle_antisym; [apply line_le|apply line_ge]; try assumption; intros x Hx; rewrite HV2 by (try assumption; left; assumption); apply Rle_refl. }
  assert (SM : forall dm sm : mat Rn, rows dm = 30%Z -> cols dm = 60%Z -> (forall i j, (0 <= i < 30)%Z -> (0 <= j < 60)%Z -> cell dm i j = 0) ->
    smoothPolarMatrix Rn dm (smooth_radius margin) = Some sm -> cell sm e z = 0).
  { clear - Rr He Hz. intros dm sm Rd Cd Dz Es.
    pose proof (smooth_le_all 0 dm sm (smooth_radius margin) e z ltac:(lia) ltac:(lia) ltac:(rewrite Cd; reflexivity) ltac:(lia) Es ltac:(lia) ltac:(lia)) as U.
    rewrite Rd, Cd in U. specialize (U ltac:(intros; rewrite Dz by assumption; apply Rle_refl)).
    pose proof (smooth_bounds dm sm (smooth_radius margin) ltac:(lia) ltac:(lia) ltac:(rewrite Cd; reflexivity) ltac:(lia)) as L.
    rewrite Rd, Cd in L. specialize (L ltac:(intros; rewrite Dz by assumption; apply Rle_refl) Es e z He Hz). rewrite Dz in L by assumption. tR. lra. }
  destruct (S1 e z He Hz) as (T & O1 & _ & M1). destruct (S2 e z He Hz) as (_ & O2 & _ & M2).
  rewrite O1, O2, (SM dm1 sm1 R2 C2 D1 Es1), (SM dm2 sm2 R4 C4 D2 Es2).
  assert (EV : forall x dd1 dd2, snd (costFunction Rn Rtrig (Pol (ce e) (cz x) 1) dd1 goal position velocity cp goal f1) =
                                 snd (costFunction Rn Rtrig (Pol (ce e) (cz x) 1) dd2 goal position velocity cp goal f2)).
  { intros x dd1 dd2. destruct (other_cost_R (Pol (ce e) (cz x) 1) dd1 goal position velocity cp goal f1) as (w1 & n1 & _ & _ & N1 & ->).
    destruct (other_cost_R (Pol (ce e) (cz x) 1) dd2 goal position velocity cp goal f2) as (w2 & n2 & _ & _ & N2 & ->). rewrite <- N1 in N2. rewrite N2. tR. ring. }
  assert (M : cell cm1 e z = cell cm2 e z); [|rewrite M; reflexivity]. rewrite M1, M2.
  apply Rle_antisym; apply line_mono; try assumption; intros x Hx; apply Req_le; [|symmetry]; apply EV.
Qed.
Print Assumptions C113_obstacle_raises_cost_refuted.
