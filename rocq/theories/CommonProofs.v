From Coq Require Import ZArith Reals List Bool Lra Lia Psatz.
From Flocq Require Import Core.
From Verif Require Import Num CommonModel CommonSpec.
Import ListNotations.
Local Open Scope R_scope.

Lemma Zfloor_unique (x : R) (k : Z) : IZR k <= x < IZR k + 1 -> Zfloor x = k.
Proof. intros H. apply Zfloor_imp. rewrite plus_IZR. exact H. Qed.

Lemma Rfloor_plus_IZR x k : Rfloor (x + IZR k) = Rfloor x + IZR k.
Proof.
  unfold Rfloor. rewrite <- plus_IZR. f_equal. apply Zfloor_unique.
  rewrite plus_IZR. pose proof (Zfloor_lb x). pose proof (Zfloor_ub x). slra.
Qed.

(* ---------------------------------------------------------------- wrapping *)
Lemma wrap180_range (a : R) : -180 <= wrapAngleToPlusMinus180 Rn a < 180.
Proof.
  unfold wrapAngleToPlusMinus180, cst; rn.
  pose proof (Rfloor_bounds (a / 360 + 1 / 2)) as [H1 H2]. slra.
Qed.
Lemma wrap180_congr (a : R) : same_heading 360 (wrapAngleToPlusMinus180 Rn a) a.
Proof.
  unfold wrapAngleToPlusMinus180, cst, same_heading; rn; unfold Rfloor.
  exists (- Zfloor (a / 360 + 1 / 2))%Z. rewrite opp_IZR. lra.
Qed.
Lemma wrap180_id (a : R) : -180 <= a < 180 -> wrapAngleToPlusMinus180 Rn a = a.
Proof.
  intros H. unfold wrapAngleToPlusMinus180, cst; rn; unfold Rfloor.
  rewrite (Zfloor_unique _ 0) by slra. lra.
Qed.
Lemma canonical_unique a b : -180 <= a < 180 -> -180 <= b < 180 -> same_heading 360 a b -> a = b.
Proof.
  intros Ha Hb [k Hk].
  assert (-1 < IZR k < 1) by slra.
  assert (k = 0)%Z. { destruct H as [H1 H2]. apply lt_IZR in H1. apply lt_IZR in H2. lia. }
  subst k. lra.
Qed.
Lemma wrap180_unique a b : same_heading 360 a b ->
  wrapAngleToPlusMinus180 Rn a = wrapAngleToPlusMinus180 Rn b.
Proof.
  intros [k Hk]. apply canonical_unique; try apply wrap180_range.
  destruct (wrap180_congr a) as [ka Ha]. destruct (wrap180_congr b) as [kb Hb].
  exists (ka + k - kb)%Z. rewrite minus_IZR, plus_IZR. lra.
Qed.
Lemma wrapPI_range (a : R) : - PI <= wrapAngleToPlusMinusPI Rn a < PI.
Proof.
  unfold wrapAngleToPlusMinusPI, cst; rn.
  pose proof PI_RGT_0.
  pose proof (Rfloor_bounds (a / (2 * PI) + 1 / 2)) as [H1 H2].
  set (f := Rfloor _) in *.
  assert (a = 2 * PI * (a / (2 * PI))) by (field; lra).
  set (q := a / (2 * PI)) in *. clearbody f q. subst a. split.
  - nra.
  - nra.
Qed.
Lemma wrapPI_congr (a : R) : same_heading (2 * PI) (wrapAngleToPlusMinusPI Rn a) a.
Proof.
  unfold wrapAngleToPlusMinusPI, cst, same_heading; rn; unfold Rfloor.
  exists (- Zfloor (a / (2 * PI) + 1 / 2))%Z. rewrite opp_IZR. lra.
Qed.
Lemma wrapPI_id (a : R) : - PI <= a < PI -> wrapAngleToPlusMinusPI Rn a = a.
Proof.
  intros H. unfold wrapAngleToPlusMinusPI, cst; rn; unfold Rfloor. pose proof PI_RGT_0 as HP.
  assert (a = 2 * PI * (a / (2 * PI))) as Ha by (field; lra).
  rewrite (Zfloor_unique _ 0); [lra|].
  set (q := a / (2 * PI)) in *. clearbody q. subst a. split; nra.
Qed.

(* ---------------------------------------------------------------- index range *)
Lemma clampIndex_range i n : (0 < n)%Z -> (0 <= clampIndex i n < n)%Z.
Proof.
  intros Hn. unfold clampIndex.
  destruct (Z.leb_spec n i); cbn zeta.
  - destruct (Z.ltb_spec (n - 1) 0); lia.
  - destruct (Z.ltb_spec i 0); lia.
Qed.
Lemma clampIndex_id i n : (0 <= i < n)%Z -> clampIndex i n = i.
Proof.
  intros Hn. unfold clampIndex. destruct (Z.leb_spec n i); [lia|].
  destruct (Z.ltb_spec i 0); lia.
Qed.
Lemma polarToHistogramIndex_range (N : num) (cast : N -> Z) p res x y :
  (1 <= res <= 180)%Z -> polarToHistogramIndex N cast p res = (x, y) ->
  (0 <= x < 360 / res)%Z /\ (0 <= y < 180 / res)%Z.
Proof.
  intros Hr H. unfold polarToHistogramIndex in H. injection H as <- <-.
  assert (1 <= 180 / res)%Z by (apply Z.div_le_lower_bound; lia).
  assert (1 <= 360 / res)%Z by (apply Z.div_le_lower_bound; lia).
  split; apply clampIndex_range; lia.
Qed.

(* ---------------------------------------------------------------- wrapPolar *)
Lemma wrapPolar_range (p : polar Rn) :
  -90 <= pe (wrapPolar Rn p) <= 90 /\ -180 <= pz (wrapPolar Rn p) <= 180.
Proof.
  destruct p as [e z r]. unfold wrapPolar; cbn [pe pz pr]; rn.
  pose proof (wrap180_range e). pose proof (wrap180_range z).
  set (e' := wrapAngleToPlusMinus180 Rn e) in *. set (z' := wrapAngleToPlusMinus180 Rn z) in *.
  clearbody e' z'. rn.
  rcases; cbn [pe pz pr]; slra.
Qed.
Lemma wrapPolar_range_strict (p : polar Rn) :
  -180 <= pz (wrapPolar Rn p) < 180.
Proof.
  destruct p as [e z r]. unfold wrapPolar; cbn [pe pz pr]; rn.
  pose proof (wrap180_range e). pose proof (wrap180_range z).
  set (e' := wrapAngleToPlusMinus180 Rn e) in *. set (z' := wrapAngleToPlusMinus180 Rn z) in *.
  clearbody e' z'. rn.
  rcases; cbn [pe pz pr]; slra.
Qed.

Lemma cos_period_Z x k : cos (x + 2 * PI * IZR k) = cos x.
Proof.
  destruct (Z_le_gt_dec 0 k).
  - replace (IZR k) with (INR (Z.to_nat k)) by (rewrite INR_IZR_INZ, Z2Nat.id by lia; reflexivity).
    rewrite <- (cos_period x (Z.to_nat k)). f_equal. ring.
  - rewrite <- (cos_period (x + 2 * PI * IZR k) (Z.to_nat (- k))). f_equal.
    rewrite INR_IZR_INZ, Z2Nat.id by lia. rewrite opp_IZR. ring.
Qed.
Lemma sin_period_Z x k : sin (x + 2 * PI * IZR k) = sin x.
Proof.
  destruct (Z_le_gt_dec 0 k).
  - replace (IZR k) with (INR (Z.to_nat k)) by (rewrite INR_IZR_INZ, Z2Nat.id by lia; reflexivity).
    rewrite <- (sin_period x (Z.to_nat k)). f_equal. ring.
  - rewrite <- (sin_period (x + 2 * PI * IZR k) (Z.to_nat (- k))). f_equal.
    rewrite INR_IZR_INZ, Z2Nat.id by lia. rewrite opp_IZR. ring.
Qed.
Lemma cos_deg_heading a b : same_heading 360 a b -> cos (a * PI / 180) = cos (b * PI / 180).
Proof.
  intros [k ->]. rewrite <- (cos_period_Z (b * PI / 180) k). f_equal. field.
Qed.
Lemma sin_deg_heading a b : same_heading 360 a b -> sin (a * PI / 180) = sin (b * PI / 180).
Proof.
  intros [k ->]. rewrite <- (sin_period_Z (b * PI / 180) k). f_equal. field.
Qed.
Lemma cos_deg_plus180 z : cos ((z + 180) * PI / 180) = - cos (z * PI / 180).
Proof. replace ((z + 180) * PI / 180) with (z * PI / 180 + PI) by field. apply neg_cos. Qed.
Lemma sin_deg_plus180 z : sin ((z + 180) * PI / 180) = - sin (z * PI / 180).
Proof. replace ((z + 180) * PI / 180) with (z * PI / 180 + PI) by field. apply neg_sin. Qed.
Lemma cos_deg_minus180 z : cos ((z - 180) * PI / 180) = - cos (z * PI / 180).
Proof. pose proof (cos_deg_plus180 (z - 180)). replace (z - 180 + 180) with z in H by ring. lra. Qed.
Lemma sin_deg_minus180 z : sin ((z - 180) * PI / 180) = - sin (z * PI / 180).
Proof. pose proof (sin_deg_plus180 (z - 180)). replace (z - 180 + 180) with z in H by ring. lra. Qed.

Lemma wrapPolar_direction (p : polar Rn) :
  hist_direction (pe (wrapPolar Rn p)) (pz (wrapPolar Rn p)) = hist_direction (pe p) (pz p) /\
  pr (wrapPolar Rn p) = pr p.
Proof.
  destruct p as [e z r]. unfold wrapPolar; cbn [pe pz pr]; rn.
  pose proof (wrap180_congr e) as He. pose proof (wrap180_congr z) as Hz.
  set (e' := wrapAngleToPlusMinus180 Rn e) in *. set (z' := wrapAngleToPlusMinus180 Rn z) in *.
  clearbody e' z'. rn.
  assert (Ez : forall x, hist_direction x z' = hist_direction x z).
  { intros x. unfold hist_direction. rewrite (cos_deg_heading _ _ Hz), (sin_deg_heading _ _ Hz). reflexivity. }
  assert (Ee : hist_direction e' z = hist_direction e z).
  { unfold hist_direction. rewrite (cos_deg_heading _ _ He), (sin_deg_heading _ _ He). reflexivity. }
  assert (C1 : cos ((180 - e') * PI / 180) = - cos (e' * PI / 180)).
  { replace ((180 - e') * PI / 180) with (PI - e' * PI / 180) by field.
    rewrite cos_minus, cos_PI, sin_PI. ring. }
  assert (S1 : sin ((180 - e') * PI / 180) = sin (e' * PI / 180)).
  { replace ((180 - e') * PI / 180) with (PI - e' * PI / 180) by field. apply sin_PI_x. }
  assert (C2 : cos (- (180 + e') * PI / 180) = - cos (e' * PI / 180)).
  { replace (- (180 + e') * PI / 180) with (- (e' * PI / 180 + PI)) by field.
    rewrite cos_neg. apply neg_cos. }
  assert (S2 : sin (- (180 + e') * PI / 180) = sin (e' * PI / 180)).
  { replace (- (180 + e') * PI / 180) with (- (e' * PI / 180 + PI)) by field.
    rewrite sin_neg, neg_sin. ring. }
  rewrite <- Ee, <- (Ez e').
  split; [|rcases; reflexivity].
  rcases; cbn [pe pz pr]; unfold hist_direction;
    rewrite ?C1, ?S1, ?C2, ?S2, ?cos_deg_plus180, ?sin_deg_plus180, ?cos_deg_minus180, ?sin_deg_minus180;
    try reflexivity; f_equal; try f_equal; ring.
Qed.

Lemma polarHistogramToCartesian_dir (p : polar Rn) (pos : vec3 Rn) :
  polarHistogramToCartesian Rn Rtrig p pos =
  let '(dx, dy, dz) := hist_direction (pe p) (pz p) in
  V3 (vx pos + pr p * dx) (vy pos + pr p * dy) (vz pos + pr p * dz).
Proof.
  unfold polarHistogramToCartesian, hist_direction, DEG_TO_RAD; rn. cbn [Rtrig t_sin t_cos].
  replace (pe p * (PI / 180)) with (pe p * PI / 180) by field.
  replace (pz p * (PI / 180)) with (pz p * PI / 180) by field.
  f_equal; ring.
Qed.
Lemma wrapPolar_cartesian (p : polar Rn) (pos : vec3 Rn) :
  polarHistogramToCartesian Rn Rtrig (wrapPolar Rn p) pos = polarHistogramToCartesian Rn Rtrig p pos.
Proof.
  rewrite !polarHistogramToCartesian_dir. destruct (wrapPolar_direction p) as [-> ->]. reflexivity.
Qed.

(* ---------------------------------------------------------------- atan2 *)
Lemma circle_unique a b : - PI < a <= PI -> - PI < b <= PI -> cos a = cos b -> sin a = sin b -> a = b.
Proof.
  intros Ha Hb Hc Hs.
  assert (Hcd : cos (a - b) = 1).
  { rewrite cos_minus. rewrite Hc, Hs. pose proof (sin2_cos2 b) as H. unfold Rsqr in H. lra. }
  pose proof PI_RGT_0 as HP.
  assert (Hd : - (2 * PI) < a - b < 2 * PI) by slra.
  set (d := a - b) in *. assert (d = 0); [|unfold d in *; lra]. clearbody d. clear a b Ha Hb Hc Hs.
  assert (Hh : sin (d / 2) = 0).
  { replace d with (2 * (d / 2)) in Hcd by field. rewrite cos_2a_sin in Hcd. nra. }
  destruct (Rtotal_order d 0) as [H|[H|H]]; [|assumption|].
  - exfalso. assert (0 < sin (- (d / 2))) by (apply sin_gt_0; lra). rewrite sin_neg in H0. lra.
  - exfalso. assert (0 < sin (d / 2)) by (apply sin_gt_0; lra). lra.
Qed.

Lemma sqrt_scale x k : 0 <= k -> sqrt (k * k * x) = k * sqrt x.
Proof. intros Hk. rewrite sqrt_mult_alt by nra. rewrite sqrt_square by lra. reflexivity. Qed.

Lemma cos_atan_pos x y : 0 < x -> cos (atan (y / x)) = x / sqrt (x * x + y * y).
Proof.
  intros Hx. rewrite cos_atan. unfold Rsqr.
  replace (1 + y / x * (y / x)) with ((x * x + y * y) / (x * x)) by (field; lra).
  rewrite sqrt_div_alt by nra. rewrite sqrt_square by lra.
  assert (0 < sqrt (x * x + y * y)) by (apply sqrt_lt_R0; nra). field. lra.
Qed.
Lemma sin_atan_pos x y : 0 < x -> sin (atan (y / x)) = y / sqrt (x * x + y * y).
Proof.
  intros Hx. rewrite sin_atan. unfold Rsqr.
  replace (1 + y / x * (y / x)) with ((x * x + y * y) / (x * x)) by (field; lra).
  rewrite sqrt_div_alt by nra. rewrite sqrt_square by lra.
  assert (0 < sqrt (x * x + y * y)) by (apply sqrt_lt_R0; nra). field. lra.
Qed.

Lemma Ratan2_spec x y : (x <> 0 \/ y <> 0) ->
  cos (Ratan2 y x) = x / sqrt (x * x + y * y) /\ sin (Ratan2 y x) = y / sqrt (x * x + y * y).
Proof.
  intros Hxy. unfold Ratan2.
  destruct (Rlt_dec 0 x) as [Hx|Hx].
  { split; [apply cos_atan_pos | apply sin_atan_pos]; assumption. }
  destruct (Rlt_dec x 0) as [Hx'|Hx'].
  { assert (Hm : 0 < - x) by lra.
    replace (y / x) with ((- y) / (- x)) by (field; lra).
    pose proof (cos_atan_pos (- x) (- y) Hm) as C. pose proof (sin_atan_pos (- x) (- y) Hm) as S.
    replace (- x * - x + - y * - y) with (x * x + y * y) in C, S by ring.
    set (A := atan (- y / - x)) in *.
    assert (cos (A + PI) = x / sqrt (x * x + y * y) /\ sin (A + PI) = y / sqrt (x * x + y * y)) as [C1 S1].
    { rewrite neg_cos, neg_sin, C, S. unfold Rdiv. split; ring. }
    assert (cos (A - PI) = x / sqrt (x * x + y * y) /\ sin (A - PI) = y / sqrt (x * x + y * y)) as [C2 S2].
    { replace (A - PI) with (A + PI + 2 * PI * IZR (-1)) by (simpl; ring).
      rewrite cos_period_Z, sin_period_Z. split; assumption. }
    destruct (Rle_dec 0 y); split; assumption. }
  assert (x = 0) by lra. subst x.
  replace (0 * 0 + y * y) with (y * y) by ring.
  destruct (Rlt_dec 0 y) as [Hy|Hy].
  { rewrite cos_PI2, sin_PI2, sqrt_square by lra. split; field; lra. }
  destruct (Rlt_dec y 0) as [Hy'|Hy'].
  { rewrite cos_neg, sin_neg, cos_PI2, sin_PI2.
    replace (y * y) with ((- y) * (- y)) by ring. rewrite sqrt_square by lra. split; field; lra. }
  exfalso. destruct Hxy; lra.
Qed.
Lemma Ratan2_range y x : - PI < Ratan2 y x <= PI.
Proof.
  unfold Ratan2. pose proof PI_RGT_0 as HP.
  pose proof (atan_bound (y / x)) as B.
  destruct (Rlt_dec 0 x); [slra|].
  destruct (Rlt_dec x 0) as [Hx|Hx].
  - assert (Hs : forall t, 0 < t -> 0 < atan t) by (intros t Ht; rewrite <- atan_0; apply atan_increasing; lra).
    assert (Hn : forall t, t <= 0 -> atan t <= 0).
    { intros t Ht. destruct (Req_dec t 0) as [->|]; [rewrite atan_0; lra|].
      rewrite <- atan_0. apply Rlt_le, atan_increasing. lra. }
    destruct (Rle_dec 0 y) as [Hy|Hy].
    + assert (y / x <= 0).
      { unfold Rdiv. assert (/ x < 0) by (apply Rinv_lt_0_compat; lra). nra. }
      pose proof (Hn _ H). slra.
    + assert (0 < y / x).
      { unfold Rdiv. assert (/ x < 0) by (apply Rinv_lt_0_compat; lra). nra. }
      pose proof (Hs _ H). slra.
  - destruct (Rlt_dec 0 y); [slra|]. destruct (Rlt_dec y 0); slra.
Qed.
Lemma Ratan2_polar r t : 0 < r -> - PI < t <= PI -> Ratan2 (r * sin t) (r * cos t) = t.
Proof.
  intros Hr Ht.
  assert (Hsc : (r * cos t) * (r * cos t) + (r * sin t) * (r * sin t) = r * r).
  { pose proof (sin2_cos2 t) as H. unfold Rsqr in H. nra. }
  assert (Hne : r * cos t <> 0 \/ r * sin t <> 0).
  { destruct (Req_dec (r * cos t) 0) as [E|E]; [right|left; assumption]. intros E2.
    rewrite E, E2 in Hsc. nra. }
  destruct (Ratan2_spec _ _ Hne) as [C S]. rewrite Hsc in C, S. rewrite sqrt_square in C, S by lra.
  apply circle_unique; [apply Ratan2_range | assumption | |].
  - rewrite C. field. lra.
  - rewrite S. field. lra.
Qed.

(* ---------------------------------------------------------------- conversions *)
Lemma deg_rad x : x * (180 / PI) * (PI / 180) = x.
Proof. pose proof PI_RGT_0. field. lra. Qed.

Lemma cart_polar_cart (p pos : vec3 Rn) :
  polarHistogramToCartesian Rn Rtrig (cartesianToPolarHistogram Rn Rtrig p pos) pos = p.
Proof.
  destruct p as [px py pz'], pos as [ox oy oz].
  unfold polarHistogramToCartesian, cartesianToPolarHistogram, DEG_TO_RAD, RAD_TO_DEG, v2norm.
  cbn [pe pz pr vx vy vz]; rn. cbn [Rtrig t_sin t_cos t_atan2].
  rewrite !deg_rad.
  set (dx := px - ox). set (dy := py - oy). set (dz := pz' - oz).
  set (den := sqrt (dx * dx + dy * dy)).
  assert (Hden : den * den = dx * dx + dy * dy) by (apply sqrt_sqrt; nra).
  assert (Hden0 : 0 <= den) by apply sqrt_pos.
  set (r := sqrt (dx * dx + dy * dy + dz * dz)).
  assert (Hr : r = sqrt (den * den + dz * dz)) by (unfold r; f_equal; lra).
  assert (Hr2 : r * r = dx * dx + dy * dy + dz * dz) by (apply sqrt_sqrt; nra).
  assert (Hr0 : 0 <= r) by apply sqrt_pos.
  destruct (Req_dec r 0) as [Hz|Hnz].
  { assert (dx = 0 /\ dy = 0 /\ dz = 0) as (E1 & E2 & E3).
    { rewrite Hz in Hr2. repeat split; nra. }
    rewrite Hz. f_equal; unfold dx, dy, dz in *; lra. }
  assert (Hne : den <> 0 \/ dz <> 0).
  { destruct (Req_dec den 0); [right|left; assumption]. intros E. apply Hnz. rewrite Hr, H, E.
    replace (0 * 0 + 0 * 0) with 0 by ring. apply sqrt_0. }
  destruct (Ratan2_spec _ _ Hne) as [Ce Se]. rewrite <- Hr in Ce, Se. rewrite Ce, Se.
  destruct (Req_dec den 0) as [Hd|Hd].
  { assert (dx = 0 /\ dy = 0) as (E1 & E2) by (rewrite Hd in Hden; split; nra).
    rewrite Hd. f_equal.
    - unfold dx in E1. unfold Rdiv. rewrite Rmult_0_l, Rmult_0_r, Rmult_0_l. lra.
    - unfold dy in E2. unfold Rdiv. rewrite Rmult_0_l, Rmult_0_r, Rmult_0_l. lra.
    - replace (oz + r * (dz / r)) with (oz + dz) by (field; assumption). unfold dz; lra. }
  assert (Hne2 : dy <> 0 \/ dx <> 0).
  { destruct (Req_dec dy 0) as [E1|]; [right|left; assumption]. intros E2. apply Hd.
    rewrite E1, E2 in Hden. nra. }
  destruct (Ratan2_spec _ _ Hne2) as [Cz Sz].
  replace (dy * dy + dx * dx) with (dx * dx + dy * dy) in Cz, Sz by ring. fold den in Cz, Sz.
  rewrite Cz, Sz. f_equal.
  - replace (ox + r * (den / r) * (dx / den)) with (ox + dx) by (field; split; assumption). unfold dx; lra.
  - replace (oy + r * (den / r) * (dy / den)) with (oy + dy) by (field; split; assumption). unfold dy; lra.
  - replace (oz + r * (dz / r)) with (oz + dz) by (field; assumption). unfold dz; lra.
Qed.

Lemma polar_cart_polar (p : polar Rn) (pos : vec3 Rn) :
  0 < pr p -> -90 < pe p < 90 -> -180 < pz p <= 180 ->
  cartesianToPolarHistogram Rn Rtrig (polarHistogramToCartesian Rn Rtrig p pos) pos = p.
Proof.
  destruct p as [e z r], pos as [ox oy oz].
  unfold polarHistogramToCartesian, cartesianToPolarHistogram, DEG_TO_RAD, RAD_TO_DEG, v2norm.
  cbn [pe pz pr vx vy vz]; rn. cbn [Rtrig t_sin t_cos t_atan2]. intros Hr He Hz.
  pose proof PI_RGT_0 as HP.
  set (a := e * (PI / 180)). set (b := z * (PI / 180)).
  assert (Ha : - (PI / 2) < a < PI / 2) by (unfold a; split; nra).
  assert (Hb : - PI < b <= PI) by (unfold b; split; nra).
  assert (Hc : 0 < cos a) by (apply cos_gt_0; lra).
  assert (Ha2 : - PI < a <= PI) by slra.
  assert (Hrc : 0 < r * cos a) by nra.
  replace (ox + r * cos a * sin b - ox) with (r * cos a * sin b) by ring.
  replace (oy + r * cos a * cos b - oy) with (r * cos a * cos b) by ring.
  replace (oz + r * sin a - oz) with (r * sin a) by ring.
  pose proof (sin2_cos2 b) as Tb. pose proof (sin2_cos2 a) as Ta. unfold Rsqr in Ta, Tb.
  assert (Hden : sqrt (r * cos a * sin b * (r * cos a * sin b) + r * cos a * cos b * (r * cos a * cos b)) = r * cos a).
  { replace (r * cos a * sin b * (r * cos a * sin b) + r * cos a * cos b * (r * cos a * cos b))
      with ((r * cos a) * (r * cos a) * (sin b * sin b + cos b * cos b)) by ring.
    rewrite Tb, Rmult_1_r. apply sqrt_square. lra. }
  rewrite Hden. f_equal.
  - rewrite (Ratan2_polar r a Hr Ha2). unfold a. field. lra.
  - rewrite (Ratan2_polar (r * cos a) b Hrc Hb). unfold b. field. lra.
  - replace (r * cos a * sin b * (r * cos a * sin b) + r * cos a * cos b * (r * cos a * cos b) + r * sin a * (r * sin a))
      with (r * r * (cos a * cos a * (sin b * sin b + cos b * cos b) + sin a * sin a)) by ring.
    rewrite Tb, Rmult_1_r. replace (cos a * cos a + sin a * sin a) with 1 by lra.
    rewrite Rmult_1_r. apply sqrt_square. lra.
Qed.

(** The FCU polar conversion followed by its claimed inverse mirrors the vertical axis. *)
Lemma fcu_roundtrip_mirror (p pos : vec3 Rn) :
  polarFCUToCartesian Rn Rtrig (cartesianToPolarFCU Rn Rtrig p pos) pos =
  V3 (vx p) (vy p) (2 * vz pos - vz p).
Proof.
  pose proof (cart_polar_cart p pos) as RT. rewrite polarHistogramToCartesian_dir in RT.
  unfold cartesianToPolarFCU.
  set (q := cartesianToPolarHistogram Rn Rtrig p pos) in *.
  destruct (wrapPolar_direction (Pol (opp Rn (pe q)) (add Rn (opp Rn (pz q)) (ofZ Rn 90)) (pr q))) as [HD HR].
  cbn [pe pz pr] in HD, HR. rn.
  set (w := wrapPolar Rn _) in *.
  assert (E : polarFCUToCartesian Rn Rtrig w pos =
     let '(dx, dy, dz) := hist_direction (pe w) (pz w) in
     V3 (vx pos + pr w * dy) (vy pos + pr w * dx) (vz pos + pr w * dz)).
  { unfold polarFCUToCartesian, hist_direction, DEG_TO_RAD; rn. cbn [Rtrig t_sin t_cos].
    replace ((90 - pe w) * (PI / 180)) with (PI / 2 - pe w * PI / 180) by field.
    replace (pz w * (PI / 180)) with (pz w * PI / 180) by field.
    rewrite sin_shift, cos_shift. f_equal; ring. }
  rn. rewrite E, HD, HR. clear E HD HR. clearbody w q. clear w.
  unfold hist_direction in *.
  replace (- pe q * PI / 180) with (- (pe q * PI / 180)) by field.
  replace ((- pz q + 90) * PI / 180) with (PI / 2 - pz q * PI / 180) by field.
  rewrite cos_neg, sin_neg, sin_shift, cos_shift.
  destruct p as [px py pz'], pos as [ox oy oz]. cbn [vx vy vz] in *.
  injection RT as Rx Ry Rz. tR. f_equal; lra.
Qed.

(* ---------------------------------------------------------------- cells *)
Lemma Ztrunc_IZR' k : Ztrunc (IZR k) = k.
Proof. apply Ztrunc_IZR. Qed.

Lemma Zfloor_div_center (i res c : Z) : (0 < res)%Z -> (0 <= c < res)%Z ->
  Zfloor (IZR (i * res + c) / IZR res) = i.
Proof.
  intros Hr Hc. apply Zfloor_unique.
  assert (0 < IZR res) by (apply IZR_lt; lia).
  assert (0 <= IZR c < IZR res) by (split; [apply IZR_le | apply IZR_lt]; lia).
  rewrite plus_IZR, mult_IZR.
  replace ((IZR i * IZR res + IZR c) / IZR res) with (IZR i + IZR c / IZR res) by (field; lra).
  assert (0 <= IZR c / IZR res) by (apply Rmult_le_pos; [lra| apply Rlt_le, Rinv_0_lt_compat; lra]).
  assert (IZR c / IZR res < 1).
  { apply (Rmult_lt_reg_r (IZR res)); [lra|]. unfold Rdiv. rewrite Rmult_assoc, Rinv_l; lra. }
  slra.
Qed.

Lemma histogramIndex_roundtrip_R (e z res : Z) (rad : R) :
  (1 <= res <= 180)%Z -> (0 <= e < 180 / res)%Z -> (0 <= z < 360 / res)%Z ->
  polarToHistogramIndex Rn (Ztrunc : Rn -> Z) (histogramIndexToPolar Rn e z res rad) res = (z, e).
Proof.
  intros Hr He Hz.
  assert (Hc : (0 <= res / 2 < res)%Z) by (split; [apply Z.div_pos; lia | apply Z.div_lt; lia]).
  assert (HE : (e * res + res / 2 < 180)%Z).
  { assert ((e + 1) * res <= 180 / res * res)%Z by (apply Z.mul_le_mono_nonneg_r; lia).
    pose proof (Z.mul_div_le 180 res). lia. }
  assert (HZ : (z * res + res / 2 < 360)%Z).
  { assert ((z + 1) * res <= 360 / res * res)%Z by (apply Z.mul_le_mono_nonneg_r; lia).
    pose proof (Z.mul_div_le 360 res). lia. }
  unfold polarToHistogramIndex, histogramIndexToPolar, wrapPolar; cbn [pe pz pr]; rn.
  assert (HE0 : (0 <= e * res)%Z) by nia.
  assert (HZ0 : (0 <= z * res)%Z) by nia.
  set (ce := (e * res + res / 2)%Z) in *. set (cz := (z * res + res / 2)%Z) in *.
  assert (Be : 0 <= IZR ce < 180) by (split; [apply IZR_le | apply IZR_lt]; lia).
  assert (Bz : 0 <= IZR cz < 360) by (split; [apply IZR_le | apply IZR_lt]; lia).
  rewrite !minus_IZR. rewrite !wrap180_id by slra.
  destruct (R_ltb_spec 90 (IZR ce - 90)); [lra|].
  destruct (R_ltb_spec (IZR ce - 90) (-90)); [lra|]. cbn [pe pz pr].
  assert (0 < IZR res) by (apply IZR_lt; lia).
  replace ((IZR ce - 90) / IZR res + 90 / IZR res) with (IZR ce / IZR res) by (field; lra).
  replace ((IZR cz - 180) / IZR res + 180 / IZR res) with (IZR cz / IZR res) by (field; lra).
  unfold Rfloor. rewrite !Ztrunc_IZR'. unfold ce, cz. rewrite !Zfloor_div_center by lia.
  rewrite !clampIndex_id by lia. reflexivity.
Qed.

Lemma floor_cell (x : R) (n res : Z) : (0 < res)%Z -> 0 <= x <= IZR (n * res) -> (0 < n)%Z ->
  let i := clampIndex (Zfloor (x / IZR res)) n in
  IZR (i * res) <= x <= IZR (i * res) + IZR res.
Proof.
  intros Hr Hx Hn i.
  assert (Hr' : 0 < IZR res) by (apply IZR_lt; lia).
  pose proof (Zfloor_lb (x / IZR res)) as L. pose proof (Zfloor_ub (x / IZR res)) as U.
  set (f := Zfloor (x / IZR res)) in *.
  assert (Hx' : x = x / IZR res * IZR res) by (field; lra).
  assert (Hf0 : (0 <= f)%Z).
  { apply Zfloor_lub. simpl. apply Rmult_le_pos; [lra| apply Rlt_le, Rinv_0_lt_compat; lra]. }
  assert (HfL : IZR f * IZR res <= x) by (rewrite Hx'; apply Rmult_le_compat_r; lra).
  assert (HfU : x < (IZR f + 1) * IZR res) by (rewrite Hx' at 1; apply Rmult_lt_compat_r; lra).
  unfold i, clampIndex. destruct (Z.leb_spec n f) as [H|H].
  - destruct (Z.ltb_spec (n - 1) 0); [lia|]. rewrite mult_IZR, minus_IZR. rewrite mult_IZR in Hx.
    assert (IZR n <= IZR f) by (apply IZR_le; lia). split; nra.
  - destruct (Z.ltb_spec f 0); [lia|]. rewrite mult_IZR. split; nra.
Qed.

(** every direction lies inside the closed angular cell it is assigned to *)
Lemma polarToHistogramIndex_cell (p : polar Rn) (res x y : Z) :
  (0 < res)%Z -> (180 mod res = 0)%Z ->
  polarToHistogramIndex Rn (Ztrunc : Rn -> Z) p res = (x, y) ->
  let w := wrapPolar Rn p in
  IZR (x * res - 180) <= pz w <= IZR (x * res - 180 + res) /\
  IZR (y * res - 90) <= pe w <= IZR (y * res - 90 + res).
Proof.
  intros Hr Hd H w. unfold polarToHistogramIndex in H. fold w in H. rn. unfold Rfloor in H.
  rewrite !Ztrunc_IZR' in H. injection H as <- <-.
  destruct (wrapPolar_range p) as [Re Rz]. fold w in Re, Rz.
  assert (Hd1 : (180 = 180 / res * res)%Z).
  { pose proof (Z.div_mod 180 res ltac:(lia)). lia. }
  assert (Hd2 : (360 / res = 2 * (180 / res))%Z).
  { replace 360%Z with (2 * (180 / res) * res)%Z by lia. rewrite Z.div_mul by lia. reflexivity. }
  assert (Hn : (0 < 180 / res)%Z) by nia.
  assert (Hr' : 0 < IZR res) by (apply IZR_lt; lia).
  tR.
  replace (pz w / IZR res + 180 / IZR res) with ((pz w + 180) / IZR res) by (field; lra).
  replace (pe w / IZR res + 90 / IZR res) with ((pe w + 90) / IZR res) by (field; lra).
  assert (B1 : 0 <= pz w + 180 <= IZR (360 / res * res)).
  { replace (360 / res * res)%Z with 360%Z by lia. slra. }
  assert (B2 : 0 <= pe w + 90 <= IZR (180 / res * res)) by (rewrite <- Hd1; slra).
  pose proof (floor_cell _ _ _ Hr B1 ltac:(lia)) as F1.
  pose proof (floor_cell _ _ _ Hr B2 ltac:(lia)) as F2. cbv zeta in F1, F2.
  rewrite !plus_IZR, !minus_IZR. slra.
Qed.

Lemma polarToHistogramIndex_near (p : polar Rn) (res x y : Z) (rad : R) :
  (0 < res)%Z -> (180 mod res = 0)%Z ->
  polarToHistogramIndex Rn (Ztrunc : Rn -> Z) p res = (x, y) ->
  let w := wrapPolar Rn p in let c := histogramIndexToPolar Rn y x res rad in
  Rabs (pz w - pz c) <= IZR (res - res / 2) /\ Rabs (pe w - pe c) <= IZR (res - res / 2).
Proof.
  intros Hr Hd H w c. pose proof (polarToHistogramIndex_cell p res x y Hr Hd H) as HC.
  cbv zeta in HC. fold w in HC. unfold c, histogramIndexToPolar; cbn [pe pz]; rn.
  assert (Hh : (0 <= res / 2 <= res - res / 2)%Z).
  { pose proof (Z.mul_div_le res 2 ltac:(lia)). split; [apply Z.div_pos; lia| lia]. }
  assert (Hh1 : IZR (res / 2) <= IZR (res - res / 2)) by (apply IZR_le; lia).
  repeat (rewrite ?plus_IZR in *; rewrite ?minus_IZR in *).
  split; apply Rabs_le; slra.
Qed.

(* ---------------------------------------------------------------- angle differences *)
Lemma Rfmod360_bound x : -360 < Rfmod x 360 < 360 /\ same_heading 360 (Rfmod x 360) x.
Proof.
  unfold Rfmod. split.
  - unfold Ztrunc. destruct (Rlt_bool_spec (x / 360) 0) as [H|H].
    + pose proof (Zceil_ub (x / 360)). pose proof (Zceil_lb (x / 360)). slra.
    + pose proof (Zfloor_lb (x / 360)). pose proof (Zfloor_ub (x / 360)). slra.
  - exists (- Ztrunc (x / 360))%Z. rewrite opp_IZR. ring.
Qed.
Lemma angleDifference_spec (a b : R) :
  -180 <= angleDifference Rn a b < 180 /\ same_heading 360 (angleDifference Rn a b) (a - b).
Proof.
  unfold angleDifference; rn. destruct (Rfmod360_bound (a - b)) as [B [k K]].
  set (m := Rfmod (a - b) 360) in *. clearbody m.
  destruct (R_leb_spec 0 m); [destruct (R_ltb_spec m 180)| destruct (R_leb_spec (-180) m)]; (split; [slra|]).
  - exists k. lra.
  - exists (k - 1)%Z. rewrite minus_IZR. lra.
  - exists k. lra.
  - exists (k + 1)%Z. rewrite plus_IZR. lra.
Qed.
Lemma angleDifference_wrap (a b : R) : angleDifference Rn a b = wrapAngleToPlusMinus180 Rn (a - b).
Proof.
  destruct (angleDifference_spec a b) as [B [k K]].
  apply canonical_unique; [exact B| apply wrap180_range|].
  destruct (wrap180_congr (a - b)) as [k' K']. exists (k - k')%Z. rewrite minus_IZR. lra.
Qed.
Lemma indexAngleDifference_sym (a b : R) : indexAngleDifference Rn a b = indexAngleDifference Rn b a.
Proof.
  unfold indexAngleDifference; rn. rewrite !minv_Rn.
  replace (Rabs (b - a)) with (Rabs (a - b)) by (apply Rabs_minus_sym).
  replace (Rabs (b - a - 360)) with (Rabs (a - b + 360)) by (rewrite <- Rabs_Ropp; f_equal; ring).
  replace (Rabs (b - a + 360)) with (Rabs (a - b - 360)) by (rewrite <- Rabs_Ropp; f_equal; ring).
  unfold Rmin. repeat destruct (Rle_dec _ _); lra.
Qed.
Lemma indexAngleDifference_circular (a b : R) : -540 <= a - b <= 540 ->
  is_circular_distance a b (indexAngleDifference Rn a b).
Proof.
  intros Hd. unfold indexAngleDifference; rn. rewrite !minv_Rn.
  set (d := a - b) in *.
  assert (R0 : Rabs d = Rabs (d + 360 * IZR 0)) by (f_equal; ring).
  assert (R1 : Rabs (d - 360) = Rabs (d + 360 * IZR (-1))) by (f_equal; ring).
  assert (R2 : Rabs (d + 360) = Rabs (d + 360 * IZR 1)) by (f_equal; ring).
  split; fold d.
  - unfold Rmin. repeat destruct (Rle_dec _ _); eauto.
  - intros k.
    assert (Hk : (k <= -2 \/ k = -1 \/ k = 0 \/ k = 1 \/ k >= 2)%Z) by lia.
    assert (Rmin (Rmin (Rabs d) (Rabs (d - 360))) (Rabs (d + 360)) <= Rabs (d + 360 * IZR k)); [|assumption].
    destruct Hk as [Hk|[->|[->|[->|Hk]]]].
    + assert (IZR k <= -2) by (apply IZR_le; lia).
      apply Rle_trans with (Rabs (d - 360)).
      * unfold Rmin; repeat destruct (Rle_dec _ _); lra.
      * rewrite (Rabs_left1 (d + 360 * IZR k)) by lra. apply Rabs_le. slra.
    + unfold Rmin; repeat destruct (Rle_dec _ _); lra.
    + unfold Rmin; repeat destruct (Rle_dec _ _); lra.
    + unfold Rmin; repeat destruct (Rle_dec _ _); lra.
    + assert (2 <= IZR k) by (apply IZR_le; lia).
      apply Rle_trans with (Rabs (d + 360)).
      * unfold Rmin; repeat destruct (Rle_dec _ _); lra.
      * rewrite (Rabs_right (d + 360 * IZR k)) by lra. apply Rabs_le. slra.
Qed.

Lemma getAngularVelocity_spec (d c : R) : - PI <= c <= PI ->
  same_heading (2 * PI) (2 * getAngularVelocity Rn d c) (d - c) /\
  Rabs (getAngularVelocity Rn d c) <= PI / 2.
Proof.
  intros Hc. unfold getAngularVelocity, cst; rn.
  pose proof (wrapPI_range d) as B. destruct (wrapPI_congr d) as [k K].
  set (w := wrapAngleToPlusMinusPI Rn d) in *. clearbody w. tR. pose proof PI_RGT_0 as HP.
  set (v := w - c).
  assert (Bv : - (2 * PI) <= v < 2 * PI) by (unfold v; slra).
  assert (Kv : v = d - c + 2 * PI * IZR k) by (unfold v; lra). clearbody v.
  destruct (R_ltb_spec 0 v).
  - rewrite (Rabs_right v) by lra. rewrite (Rabs_left1 (- (2 * PI - v))) by lra.
    destruct (R_leb_spec v (- - (2 * PI - v))).
    + split; [exists k; lra|]. rewrite Rabs_right by lra. lra.
    + split; [exists (k - 1)%Z; rewrite minus_IZR; lra|].
      rewrite Rabs_left1 by lra. lra.
  - rewrite (Rabs_left1 v) by lra. rewrite (Rabs_right (2 * PI + v)) by lra.
    destruct (R_leb_spec (- v) (2 * PI + v)).
    + split; [exists k; lra|]. rewrite Rabs_left1 by lra. lra.
    + split; [exists (k + 1)%Z; rewrite plus_IZR; lra|].
      rewrite Rabs_right by lra. lra.
Qed.

(* ---------------------------------------------------------------- cameras *)
Section Cams.
Context (N : num).
Local Notation sees f p := (pointInsideYawFOV N f p = true).

Lemma pointInsideYawFOVs_spec fs p :
  pointInsideYawFOVs N fs p = true <-> exists f, In f fs /\ sees f p.
Proof.
  induction fs as [|f fs IH]; cbn [pointInsideYawFOVs].
  - split; [discriminate| intros (f & [] & _)].
  - destruct (pointInsideYawFOV N f p) eqn:E.
    + split; [intros _; exists f; split; [left; reflexivity| exact E] | reflexivity].
    + rewrite IH. split.
      * intros (g & Hg & Hs). exists g. split; [right|]; assumption.
      * intros (g & [->|Hg] & Hs); [congruence|]. exists g. split; assumption.
Qed.
Lemma pointInsideFOVs_spec fs p :
  pointInsideFOVs N fs p = true <-> exists f, In f fs /\ pointInsideFOV N f p = true.
Proof.
  induction fs as [|f fs IH]; cbn [pointInsideFOVs].
  - split; [discriminate| intros (f & [] & _)].
  - destruct (pointInsideFOV N f p) eqn:E.
    + split; [intros _; exists f; split; [left; reflexivity| exact E] | reflexivity].
    + rewrite IH. split.
      * intros (g & Hg & Hs). exists g. split; [right|]; assumption.
      * intros (g & [->|Hg] & Hs); [congruence|]. exists g. split; assumption.
Qed.

(** the cameras that see the direction, as positions in the list *)
Definition seers (fs : list (fov N)) (p : polar N) : nat :=
  length (filter (fun f => pointInsideYawFOV N f p) fs).

Lemma isInWhichFOV_loop_true fs p i idx r j :
  isInWhichFOV_loop N fs p i true idx = (r, j) ->
  (r = true -> seers fs p = 0%nat /\ j = idx) /\ (r = false -> seers fs p <> 0%nat /\ j = (-1)%Z).
Proof.
  revert i. induction fs as [|f fs IH]; intros i H; cbn [isInWhichFOV_loop] in H; unfold seers in *; cbn [filter].
  - injection H as <- <-. split; [auto|discriminate].
  - destruct (pointInsideYawFOV N f p).
    + injection H as <- <-. split; [discriminate|]. intros _. cbn. split; [discriminate|reflexivity].
    + apply (IH _ H).
Qed.
Lemma isInWhichFOV_loop_false fs p i r j :
  isInWhichFOV_loop N fs p i false (-1) = (r, j) ->
  (r = true -> seers fs p = 1%nat /\ (i <= j)%Z /\
      exists f, nth_error fs (Z.to_nat (j - i)) = Some f /\ sees f p) /\
  (r = false -> seers fs p <> 1%nat /\ j = (-1)%Z).
Proof.
  revert i. induction fs as [|f fs IH]; intros i H; cbn [isInWhichFOV_loop] in H.
  - injection H as <- <-. split; [discriminate|]. intros _. split; [discriminate|reflexivity].
  - unfold seers in *; cbn [filter]. destruct (pointInsideYawFOV N f p) eqn:E.
    + apply isInWhichFOV_loop_true in H as [H1 H2]. unfold seers in *. split; intros Hr.
      * destruct (H1 Hr) as [L ->]. cbn [length]. rewrite L. split; [reflexivity|]. split; [lia|].
        exists f. replace (i - i)%Z with 0%Z by lia. split; [reflexivity| exact E].
      * destruct (H2 Hr) as [L ->]. cbn [length]. split; [lia| reflexivity].
    + destruct (IH _ H) as [H1 H2]. split; intros Hr.
      * destruct (H1 Hr) as (L & Hj & g & Hg & Hs). split; [exact L|]. split; [lia|].
        exists g. split; [|exact Hs].
        replace (Z.to_nat (j - i)) with (S (Z.to_nat (j - Z.succ i))) by lia. exact Hg.
      * apply (H2 Hr).
Qed.
End Cams.

(** "exactly one camera sees it, and it is camera number j" *)
Lemma filter_length_one {A} (f : A -> bool) (l : list A) :
  length (filter f l) = 1%nat <->
  exists i x, nth_error l i = Some x /\ f x = true /\
    (forall k y, nth_error l k = Some y -> f y = true -> k = i).
Proof.
  induction l as [|a l IH]; cbn [filter length].
  - split; [discriminate|]. intros (i & x & H & _). destruct i; discriminate.
  - destruct (f a) eqn:E.
    + cbn [length]. split.
      * intros H. injection H as H. exists 0%nat, a. repeat split; [exact E|].
        intros [|k] y Hy Hf; [reflexivity|]. cbn in Hy. exfalso.
        assert (In y (filter f l)) by (apply filter_In; split; [eapply nth_error_In; eassumption|exact Hf]).
        destruct (filter f l); [contradiction|discriminate].
      * intros (i & x & Hi & Hf & Hu). f_equal.
        assert (i = 0%nat) by (symmetry; apply (Hu 0%nat a eq_refl E)). subst i.
        destruct (filter f l) as [|b r] eqn:F; [reflexivity|].
        assert (HI : In b (filter f l)) by (rewrite F; left; reflexivity).
        apply filter_In in HI as [HI Hb]. apply In_nth_error in HI as [k Hk].
        specialize (Hu (S k) b Hk Hb). discriminate.
    + rewrite IH. split.
      * intros (i & x & Hi & Hf & Hu). exists (S i), x. repeat split; try assumption.
        intros [|k] y Hy Hfy; [cbn in Hy; congruence|]. f_equal. eapply Hu; eassumption.
      * intros ([|i] & x & Hi & Hf & Hu); [cbn in Hi; congruence|].
        exists i, x. repeat split; try assumption. intros k y Hy Hfy.
        specialize (Hu (S k) y Hy Hfy). congruence.
Qed.

Lemma isInWhichFOV_spec (N : num) fs p r j :
  isInWhichFOV N fs p = (r, j) ->
  (r = true <-> exists i f, nth_error fs i = Some f /\ pointInsideYawFOV N f p = true /\
      (forall k g, nth_error fs k = Some g -> pointInsideYawFOV N g p = true -> k = i)) /\
  (r = true -> (0 <= j)%Z /\ exists f, nth_error fs (Z.to_nat j) = Some f /\ pointInsideYawFOV N f p = true) /\
  (r = false -> j = (-1)%Z).
Proof.
  intros H. apply isInWhichFOV_loop_false in H as [H1 H2].
  rewrite <- filter_length_one. repeat split.
  - intros Hr. apply H1, Hr.
  - intros HL. destruct r; [reflexivity|]. destruct (H2 eq_refl) as [HN _]. exfalso. apply HN, HL.
  - apply H1, H.
  - destruct (H1 H) as (_ & Hj & f & Hf & Hs). rewrite Z.sub_0_r in Hf. exists f. split; assumption.
  - intros Hr. apply H2, Hr.
Qed.

Lemma isOnEdgeOfFOV_spec (N : num) fs p :
  exists r j, isOnEdgeOfFOV N fs p = Some (r, j) /\
  (r = true -> isInWhichFOV N fs p = (true, j)) /\ (r = false -> j = (-1)%Z).
Proof.
  unfold isOnEdgeOfFOV. destruct (isInWhichFOV N fs p) as [r0 j0] eqn:E.
  destruct (isInWhichFOV_spec N fs p r0 j0 E) as (_ & H2 & H3). destruct r0.
  - destruct (H2 eq_refl) as (Hj & f & Hf & _). destruct (Z.ltb_spec j0 0); [lia|]. rewrite Hf.
    destruct (pointInsideYawFOVs N fs _).
    + exists false, (-1)%Z. repeat split; intros; try discriminate.
    + exists true, j0. repeat split; intros; try discriminate.
  - rewrite (H3 eq_refl). exists false, (-1)%Z. repeat split; intros; try discriminate.
Qed.

Lemma scaleToFOV_range (fs : list (fov Rn)) (p : polar Rn) :
  (forall f, In f fs -> 0 < h_fov_deg f) ->
  exists s, scaleToFOV Rn fs p = Some s /\ 0 <= s <= 1 /\
   ((forall f, In f fs -> pointInsideYawFOV Rn f p = false) -> s = 0) /\
   (forall f g i j, nth_error fs i = Some f -> nth_error fs j = Some g -> i <> j ->
      pointInsideYawFOV Rn f p = true -> pointInsideYawFOV Rn g p = true -> s = 1).
Proof.
  intros Hpos. unfold scaleToFOV.
  destruct (isOnEdgeOfFOV_spec Rn fs p) as (r & j & E & Et & Ef). rewrite E. destruct r.
  - specialize (Et eq_refl). destruct (isInWhichFOV_spec Rn fs p true j Et) as (H1 & H2 & _).
    destruct (H2 eq_refl) as (Hj & f & Hf & Hs). destruct (Z.ltb_spec j 0); [lia|]. rewrite Hf.
    eexists; split; [reflexivity|].
    assert (Hh : 0 < h_fov_deg f) by (apply Hpos; eapply nth_error_In; eassumption).
    split.
    + rn. rewrite !minv_Rn. set (d := Rabs (yaw_deg f - pz p)).
      set (m := Rmin d (Rabs (360 - d))).
      assert (Hm : 0 <= m) by (unfold m; apply Rmin_glb; apply Rabs_pos).
      assert (Hc : 0 <= Rmin (h_fov_deg f / 2) m <= h_fov_deg f / 2).
      { split; [apply Rmin_glb; tR; lra| apply Rmin_l]. }
      set (c := Rmin (h_fov_deg f / 2) m) in *. clearbody c. tR.
      assert (0 <= 2 * c / h_fov_deg f <= 1).
      { split.
        - apply Rmult_le_pos; [lra| apply Rlt_le, Rinv_0_lt_compat; lra].
        - apply (Rmult_le_reg_r (h_fov_deg f)); [lra|]. unfold Rdiv.
          rewrite Rmult_assoc, Rinv_l by lra. lra. }
      slra.
    + split.
      * intros Hn. specialize (Hn f (nth_error_In _ _ Hf)). congruence.
      * intros f1 g1 i1 j1 Hi1 Hj1 Hij Hsf Hsg. exfalso. apply Hij.
        destruct (proj1 H1 eq_refl) as (i & f0 & _ & _ & Hu).
        rewrite (Hu _ _ Hi1 Hsf), (Hu _ _ Hj1 Hsg). reflexivity.
  - eexists; split; [reflexivity|].
    destruct (pointInsideYawFOVs Rn fs p) eqn:Ep; rn.
    + split; [slra|]. split; [|reflexivity].
      intros Hn. exfalso. apply pointInsideYawFOVs_spec in Ep as (f & Hf & Hs). rewrite (Hn f Hf) in Hs. discriminate.
    + split; [slra|]. split; [reflexivity|].
      intros f g i j0 Hi _ _ Hs _. exfalso.
      assert (pointInsideYawFOVs Rn fs p = true); [|congruence].
      apply pointInsideYawFOVs_spec. exists f. split; [eapply nth_error_In; eassumption|exact Hs].
Qed.

(** Camera view membership measured on the circle. *)
Lemma pointInsideYawFOV_circle (f : fov Rn) (p : polar Rn) :
  -180 <= yaw_deg f - h_fov_deg f / 2 -> yaw_deg f + h_fov_deg f / 2 < 180 -> 0 <= h_fov_deg f ->
  -180 <= pz p < 180 ->
  (pointInsideYawFOV Rn f p = true <-> yaw_deg f - h_fov_deg f / 2 <= pz p <= yaw_deg f + h_fov_deg f / 2).
Proof.
  intros Hl Hu Hh Hp. unfold pointInsideYawFOV; rn. tR.
  rewrite !wrap180_id by slra. rewrite andb_true_iff, !R_leb_true. tauto.
Qed.
