(** C07, C10 continued: the edge of the cameras' fields of view and the estimated field of view. *)
From Coq Require Import ZArith Reals List Bool Lia Lra.
From Flocq Require Import Core.
From Verif Require Import Num CommonModel CommonSpec CommonProofs CommonProofs2.
Import ListNotations.
Local Open Scope R_scope.

(* ---------------------------------------------------------------- the edge *)
(** [z] is reached from the camera's axis by turning to the side of increasing azimuth by less than half a circle *)
Definition on_positive_side (f : fov Rn) (z : R) : Prop := exists k : Z, 0 < z - yaw_deg f + 360 * IZR k < 180.
Lemma side_spec (f : fov Rn) (z : R) : ltb Rn (ofZ Rn 0) (wrapAngleToPlusMinus180 Rn (sub Rn z (yaw_deg f))) = true <-> on_positive_side f z.
Proof.
  rn. rewrite R_ltb_true. unfold on_positive_side. pose proof (wrap180_range (z - yaw_deg f)) as W. destruct (wrap180_congr (z - yaw_deg f)) as (k & Hk).
  set (w := wrapAngleToPlusMinus180 Rn (z - yaw_deg f)) in *. split.
  - intros H. exists k. lra.
  - intros (j & Hj). assert (E : w = z - yaw_deg f + 360 * IZR j).
    { apply canonical_unique; [exact W|lra|]. exists (k - j)%Z. rewrite minus_IZR. lra. }
    lra.
Qed.
(** C07. A direction is on the edge of camera j exactly if j is the only camera that contains it and no camera contains the direction three degrees (half a column) beyond the
    border of camera j on that side of its axis. *)
Theorem C07_edge :
  forall (fs : list (fov Rn)) (p : polar Rn) (j : Z),
  isOnEdgeOfFOV Rn fs p = Some (true, j) <->
  isInWhichFOV Rn fs p = (true, j) /\
  exists f border, nth_error fs (Z.to_nat j) = Some f /\ -180 <= border < 180 /\
    (on_positive_side f (pz p) -> same_heading 360 border (yaw_deg f + h_fov_deg f / 2 + 3)) /\
    (~ on_positive_side f (pz p) -> same_heading 360 border (yaw_deg f - h_fov_deg f / 2 - 3)) /\
    forall g, In g fs -> pointInsideYawFOV Rn g (Pol (pe p) border (pr p)) = false.
Proof.
  intros fs p j. unfold isOnEdgeOfFOV. destruct (isInWhichFOV Rn fs p) as [r i] eqn:E. destruct (isInWhichFOV_spec Rn fs p r i E) as (_ & H2 & _).
  destruct r; [|split; [discriminate|intros (X & _); discriminate]].
  destruct (H2 eq_refl) as (Hi & f & Hf & _). destruct (Z.ltb_spec i 0); [lia|]. rewrite Hf.
  assert (S : forall b, (pointInsideYawFOVs Rn fs (Pol (pe p) b (pr p)) = false <-> forall g, In g fs -> pointInsideYawFOV Rn g (Pol (pe p) b (pr p)) = false)).
  { intros b. pose proof (pointInsideYawFOVs_spec Rn fs (Pol (pe p) b (pr p))) as S. destruct (pointInsideYawFOVs Rn fs (Pol (pe p) b (pr p))); split; try discriminate; try reflexivity.
    - intros X. destruct (proj1 S eq_refl) as (g & G1 & G2). rewrite (X g G1) in G2. discriminate.
    - intros _ g Hg. destruct (pointInsideYawFOV Rn g (Pol (pe p) b (pr p))) eqn:X; [|reflexivity]. discriminate (proj2 S (ex_intro _ g (conj Hg X))). }
  set (z := if ltb Rn (ofZ Rn 0) _ then _ else _).
  assert (Z1 : -180 <= z < 180) by (unfold z; destruct (ltb Rn _ _); apply wrap180_range).
  assert (Z2 : on_positive_side f (pz p) -> same_heading 360 z (yaw_deg f + h_fov_deg f / 2 + 3)).
  { intros X. apply side_spec in X. unfold z. rewrite X. rn. change (IZR ALPHA_RES) with 6. destruct (wrap180_congr (yaw_deg f + h_fov_deg f / 2 + 6 / 2)) as (k & Hk). exists k. rewrite Hk. tR. lra. }
  assert (Z3 : ~ on_positive_side f (pz p) -> same_heading 360 z (yaw_deg f - h_fov_deg f / 2 - 3)).
  { intros X. unfold z. destruct (ltb Rn (ofZ Rn 0) (wrapAngleToPlusMinus180 Rn (sub Rn (pz p) (yaw_deg f)))) eqn:Y; [apply side_spec in Y; contradiction|].
    rn. change (IZR ALPHA_RES) with 6. destruct (wrap180_congr (yaw_deg f - h_fov_deg f / 2 - 6 / 2)) as (k & Hk). exists k. rewrite Hk. tR. lra. }
  clearbody z. specialize (S z). split.
  - destruct (pointInsideYawFOVs Rn fs (Pol (pe p) z (pr p))); [discriminate|]. intros [= <-]. split; [reflexivity|].
    exists f, z. repeat (split; [assumption|]). apply S. reflexivity.
  - intros ([= ->] & f' & b & Hf' & B1 & B2 & B3 & B4). rewrite Hf in Hf'. injection Hf' as <-.
    assert (Eb : b = z).
    { apply canonical_unique; [exact B1|exact Z1|]. destruct (ltb Rn (ofZ Rn 0) (wrapAngleToPlusMinus180 Rn (sub Rn (pz p) (yaw_deg f)))) eqn:Y.
      - apply side_spec in Y. destruct (B2 Y) as (k & Hk). destruct (Z2 Y) as (k' & Hk'). exists (k - k')%Z. rewrite minus_IZR. lra.
      - assert (Y' : ~ on_positive_side f (pz p)) by (intros X; apply side_spec in X; congruence).
        destruct (B3 Y') as (k & Hk). destruct (Z3 Y') as (k' & Hk'). exists (k - k')%Z. rewrite minus_IZR. lra. }
    subst b. apply S in B4. rewrite B4. reflexivity.
Qed.
Print Assumptions C07_edge.
(** On the edge the scale falls linearly from 1 on the axis to 0 at the border. *)
Theorem C07_scale_on_edge :
  forall (fs : list (fov Rn)) (p : polar Rn) (j : Z) f d,
  isOnEdgeOfFOV Rn fs p = Some (true, j) -> nth_error fs (Z.to_nat j) = Some f -> -180 <= pz p < 180 -> -180 <= yaw_deg f <= 180 ->
  is_circular_distance (pz p) (yaw_deg f) d -> d <= h_fov_deg f / 2 ->
  scaleToFOV Rn fs p = Some (1 - 2 * d / h_fov_deg f).
Proof.
  intros fs p j f d E Hf Hp Hy (( k & Hk) & Hmin) Hd. unfold scaleToFOV. rewrite E.
  assert (Hj : (0 <= j)%Z).
  { destruct (isOnEdgeOfFOV_spec Rn fs p) as (r & j' & E' & H1 & _). rewrite E in E'. injection E' as <- <-.
    destruct (isInWhichFOV_spec Rn fs p true j (H1 eq_refl)) as (_ & H2 & _). exact (proj1 (H2 eq_refl)). }
  destruct (Z.ltb_spec j 0); [lia|]. rewrite Hf. f_equal.
  set (z := pz p) in *. set (y := yaw_deg f) in *. set (h := h_fov_deg f) in *. clearbody z y h.
  assert (D : d = Rmin (Rabs (y - z)) (Rabs (360 - Rabs (y - z)))).
  { pose proof (Hmin 0%Z) as M0. pose proof (Hmin 1%Z) as M1. pose proof (Hmin (-1)%Z) as M2. apply Rle_antisym.
    - rewrite Rmult_0_r, Rplus_0_r in M0. rewrite Rabs_minus_sym in M0. apply Rmin_glb; [exact M0|].
      unfold Rabs at 2. destruct (Rcase_abs (y - z)).
      + replace (360 - - (y - z)) with (- (z - y + 360 * -1)) by ring. rewrite Rabs_Ropp. exact M2.
      + replace (360 - (y - z)) with (z - y + 360 * 1) by ring. exact M1.
    - rewrite Hk. assert (A : Rabs (y - z) <= 360) by (apply Rabs_le; lra). rewrite (Rabs_pos_eq (360 - _)) by lra.
      destruct (Z.eq_dec k 0) as [->|K]; [rewrite Rmult_0_r, Rplus_0_r, Rabs_minus_sym; apply Rmin_l|].
      apply Rle_trans with (1 := Rmin_r _ _). assert (KK : (k <= -1 \/ 1 <= k)%Z) by lia.
      destruct KK as [KK|KK]; apply IZR_le in KK.
      + rewrite (Rabs_left1 (z - y + 360 * IZR k)) by nra. unfold Rabs; destruct (Rcase_abs (y - z)); nra.
      + rewrite (Rabs_pos_eq (z - y + 360 * IZR k)) by nra. unfold Rabs; destruct (Rcase_abs (y - z)); nra. }
  unfold minv. rn. change (IZR 360) with 360.
  set (a := Rabs (y - z)) in *. set (b := Rabs (360 - a)) in *.
  destruct (R_ltb_spec b a) as [U|U].
  - assert (X : d = b) by (rewrite D; unfold Rmin; destruct (Rle_dec a b); lra). rewrite <- X. clearbody b.
    destruct (R_ltb_spec d (h / 2)); [reflexivity|]. replace d with (h / 2) by lra. reflexivity.
  - assert (X : d = a) by (rewrite D; unfold Rmin; destruct (Rle_dec a b); lra). rewrite <- X. clearbody a b.
    destruct (R_ltb_spec d (h / 2)); [reflexivity|]. replace d with (h / 2) by lra. reflexivity.
Qed.
Print Assumptions C07_scale_on_edge.

(* ---------------------------------------------------------------- the estimate *)
(** azimuth and elevation (positive downwards) of a point seen from the vehicle; C101_body_direction says what they mean *)
Definition azimuth (p : vec3 Rn) : R := pz (cartesianToPolarFCU Rn Rtrig p (V3 0 0 0 : vec3 Rn)).
Definition elevation (p : vec3 Rn) : R := pe (cartesianToPolarFCU Rn Rtrig p (V3 0 0 0 : vec3 Rn)).
(** [lo] and [hi] are the least and the greatest value of [f] on the points [m] *)
Definition spans (f : vec3 Rn -> R) (m : list (vec3 Rn)) (lo hi : R) : Prop :=
  (exists p, In p m /\ f p = lo) /\ (exists p, In p m /\ f p = hi) /\ forall p, In p m -> lo <= f p <= hi.

Lemma azimuth_range p : -180 <= azimuth p < 180.
Proof. apply wrapPolar_range_strict. Qed.
Lemma elevation_range p : -90 <= elevation p <= 90.
Proof. unfold elevation, cartesianToPolarFCU. match goal with |- context [wrapPolar Rn ?q] => exact (proj1 (wrapPolar_range q)) end. Qed.

Lemma bounds_fold m : forall a b c d, exists a' b' c' d', fold_left (fovBounds_step Rn Rtrig) m (a, b, c, d) = (a', b', c', d') /\
  (a' <= a /\ (a' = a \/ exists p, In p m /\ a' = azimuth p + 180) /\ forall p, In p m -> a' <= azimuth p + 180) /\
  (b <= b' /\ (b' = b \/ exists p, In p m /\ b' = azimuth p + 180) /\ forall p, In p m -> azimuth p + 180 <= b') /\
  (c' <= c /\ (c' = c \/ exists p, In p m /\ c' = elevation p + 90) /\ forall p, In p m -> c' <= elevation p + 90) /\
  (d <= d' /\ (d' = d \/ exists p, In p m /\ d' = elevation p + 90) /\ forall p, In p m -> elevation p + 90 <= d').
Proof.
  induction m as [|q m IH]; intros a b c d; cbn [fold_left].
  - exists a, b, c, d. split; [reflexivity|]. repeat (split; [|]); auto; try (apply Rle_refl); intros p [].
  - set (acc := fovBounds_step Rn Rtrig (a, b, c, d) q).
    assert (E : acc = (Rmin (azimuth q + 180) a, Rmax (azimuth q + 180) b, Rmin (elevation q + 90) c, Rmax (elevation q + 90) d)).
    { unfold acc, fovBounds_step, minv, maxv. change (V3 (ofZ Rn 0) (ofZ Rn 0) (ofZ Rn 0)) with (V3 0 0 0 : vec3 Rn).
      change (pz (cartesianToPolarFCU Rn Rtrig q (V3 0 0 0 : vec3 Rn))) with (azimuth q). change (pe (cartesianToPolarFCU Rn Rtrig q (V3 0 0 0 : vec3 Rn))) with (elevation q).
      rn. unfold Rmin, Rmax. repeat (f_equal); match goal with |- (if R_ltb ?x ?y then _ else _) = _ => destruct (R_ltb_spec x y) end;
        match goal with |- context [Rle_dec ?x ?y] => destruct (Rle_dec x y) end; tR; lra. }
    rewrite E. destruct (IH (Rmin (azimuth q + 180) a) (Rmax (azimuth q + 180) b) (Rmin (elevation q + 90) c) (Rmax (elevation q + 90) d))
      as (a' & b' & c' & d' & F & (A1 & A2 & A3) & (B1 & B2 & B3) & (C1 & C2 & C3) & (D1 & D2 & D3)).
    exists a', b', c', d'. split; [exact F|].
    pose proof (Rmin_l (azimuth q + 180) a). pose proof (Rmin_r (azimuth q + 180) a). pose proof (Rmax_l (azimuth q + 180) b). pose proof (Rmax_r (azimuth q + 180) b).
    pose proof (Rmin_l (elevation q + 90) c). pose proof (Rmin_r (elevation q + 90) c). pose proof (Rmax_l (elevation q + 90) d). pose proof (Rmax_r (elevation q + 90) d).
    split; [|split; [|split]].
    + split; [lra|]. split; [|intros p [->|Hp]; [lra|auto]]. destruct A2 as [A2|(p & P1 & P2)]; [|right; exists p; split; [right|]; auto].
      unfold Rmin in A2. destruct (Rle_dec (azimuth q + 180) a); [right; exists q; split; [left; reflexivity|exact A2]|left; exact A2].
    + split; [lra|]. split; [|intros p [->|Hp]; [lra|auto]]. destruct B2 as [X2|(p & P1 & P2)]; [|right; exists p; split; [right|]; auto].
      unfold Rmax in X2. destruct (Rle_dec (azimuth q + 180) b); [left; exact X2|right; exists q; split; [left; reflexivity|exact X2]].
    + split; [lra|]. split; [|intros p [->|Hp]; [lra|auto]]. destruct C2 as [X2|(p & P1 & P2)]; [|right; exists p; split; [right|]; auto].
      unfold Rmin in X2. destruct (Rle_dec (elevation q + 90) c); [right; exists q; split; [left; reflexivity|exact X2]|left; exact X2].
    + split; [lra|]. split; [|intros p [->|Hp]; [lra|auto]]. destruct D2 as [X2|(p & P1 & P2)]; [|right; exists p; split; [right|]; auto].
      unfold Rmax in X2. destruct (Rle_dec (elevation q + 90) d); [left; exact X2|right; exists q; split; [left; reflexivity|exact X2]].
Qed.
Lemma bounds_spans m lo hi e1 e2 : spans azimuth m lo hi -> spans elevation m e1 e2 ->
  fold_left (fovBounds_step Rn Rtrig) m (ofZ Rn 9999, ofZ Rn (-9999), ofZ Rn 9999, ofZ Rn (-9999)) = (lo + 180, hi + 180, e1 + 90, e2 + 90).
Proof.
  intros ((pl & L1 & L2) & (ph & H1 & H2) & HB) ((ql & M1 & M2) & (qh & N1 & N2) & EB). rn.
  destruct (bounds_fold m 9999 (-9999) 9999 (-9999)) as (a & b & c & d & F & (A1 & A2 & A3) & (B1 & B2 & B3) & (C1 & C2 & C3) & (D1 & D2 & D3)).
  rewrite F. pose proof (azimuth_range pl) as R1. pose proof (azimuth_range ph) as R2. pose proof (elevation_range ql) as R3. pose proof (elevation_range qh) as R4.
  assert (Ea : a = lo + 180). { pose proof (A3 pl L1). destruct A2 as [->|(p & P & ->)]; [lra|]. pose proof (HB p P). lra. }
  assert (Eb : b = hi + 180). { pose proof (B3 ph H1). destruct B2 as [->|(p & P & ->)]; [lra|]. pose proof (HB p P). lra. }
  assert (Ec : c = e1 + 90). { pose proof (C3 ql M1). destruct C2 as [->|(p & P & ->)]; [lra|]. pose proof (EB p P). lra. }
  assert (Ed : d = e2 + 90). { pose proof (D3 qh N1). destruct D2 as [->|(p & P & ->)]; [lra|]. pose proof (EB p P). lra. }
  subst. reflexivity.
Qed.

(** C10. What the estimate becomes: the openings are the greatest seen so far, the axis is in the middle of the points that widened it - the middle of the shorter way round. *)
Theorem C10_estimate :
  forall (f : fov Rn) (m : list (vec3 Rn)) lo hi e1 e2, spans azimuth m lo hi -> spans elevation m e1 e2 ->
  let f' := updateFOVFromMaxima Rn Rtrig f m in
  h_fov_deg f' = Rmax (h_fov_deg f) (Rmin (hi - lo) (360 - (hi - lo))) /\
  v_fov_deg f' = Rmax (v_fov_deg f) (e2 - e1) /\
  (h_fov_deg f < h_fov_deg f' -> -180 <= yaw_deg f' < 180 /\
     (hi - lo <= 180 -> yaw_deg f' = (lo + hi) / 2) /\ (180 < hi - lo -> same_heading 360 (yaw_deg f') ((lo + hi) / 2 + 180))) /\
  (v_fov_deg f < v_fov_deg f' -> pitch_deg f' = (e1 + e2) / 2).
Proof.
  intros f m lo hi e1 e2 Sa Se. cbv zeta. unfold updateFOVFromMaxima. rewrite (bounds_spans m lo hi e1 e2 Sa Se).
  assert (Rl : -180 <= lo < 180) by (destruct Sa as ((p & _ & <-) & _); apply azimuth_range).
  assert (Rh : -180 <= hi < 180) by (destruct Sa as (_ & (p & _ & <-) & _); apply azimuth_range).
  assert (R1 : -90 <= e1 <= 90) by (destruct Se as ((p & _ & <-) & _); apply elevation_range).
  assert (R2 : -90 <= e2 <= 90) by (destruct Se as (_ & (p & _ & <-) & _); apply elevation_range).
  rn. set (hd := minv Rn _ _).
  assert (Ehd : hd = Rmin (hi - lo) (360 - (hi - lo))).
  { unfold hd, minv. rn. unfold Rmin. match goal with |- (if R_ltb ?x ?y then _ else _) = _ => destruct (R_ltb_spec x y) end; match goal with |- context [Rle_dec ?x ?y] => destruct (Rle_dec x y) end; tR; lra. }
  set (vd := minv Rn (e2 + 90 - (e1 + 90)) _).
  assert (Evd : vd = e2 - e1). { unfold vd, minv. rn. match goal with |- (if R_ltb ?x ?y then _ else _) = _ => destruct (R_ltb_spec x y) end; tR; lra. }
  clearbody hd vd.
  assert (Ey : h_fov_deg f < hd -> let y := if R_leb (hi + 180 - (lo + 180)) hd then wrapAngleToPlusMinus180 Rn ((hi + 180 + (lo + 180)) / 2 - 180) else wrapAngleToPlusMinus180 Rn ((hi + 180 + (lo + 180)) / 2) in
    -180 <= y < 180 /\ (hi - lo <= 180 -> y = (lo + hi) / 2) /\ (180 < hi - lo -> same_heading 360 y ((lo + hi) / 2 + 180))).
  { intros _. cbv zeta. destruct (R_leb_spec (hi + 180 - (lo + 180)) hd) as [G|G].
    - split; [apply wrap180_range|]. split.
      + intros _. rewrite wrap180_id by lra. tR. lra.
      + intros X. exfalso. rewrite Ehd in G. pose proof (Rmin_r (hi - lo) (360 - (hi - lo))). lra.
    - split; [apply wrap180_range|]. split.
      + intros X. exfalso. apply G. rewrite Ehd. unfold Rmin. destruct (Rle_dec _ _); lra.
      + intros X. destruct (wrap180_congr ((hi + 180 + (lo + 180)) / 2)) as (k & Hk). exists k. rewrite Hk. tR. lra. }
  rewrite Evd. clear vd Evd. rewrite Ehd in *. clear hd Ehd. set (hd := Rmin _ _) in *.
  destruct (R_ltb_spec (h_fov_deg f) hd) as [G|G]; cbn [h_fov_deg v_fov_deg yaw_deg pitch_deg];
  (destruct (R_ltb_spec (v_fov_deg f) (e2 - e1)) as [G'|G']; cbn [h_fov_deg v_fov_deg yaw_deg pitch_deg]);
  (split; [unfold Rmax; destruct (Rle_dec _ _); tR; lra|]); (split; [unfold Rmax; destruct (Rle_dec _ _); tR; lra|]);
  (split; [first [intros _; exact (Ey G)|intros X; exfalso; tR; lra]|]); intros X; tR; lra.
Qed.
Print Assumptions C10_estimate.
(** So, when the estimate is widened by points that lie within half a circle, all of them are inside it. *)
Theorem C10_points_inside :
  forall (f : fov Rn) (m : list (vec3 Rn)) lo hi e1 e2, spans azimuth m lo hi -> spans elevation m e1 e2 ->
  let f' := updateFOVFromMaxima Rn Rtrig f m in
  (h_fov_deg f < h_fov_deg f' -> hi - lo <= 180 -> forall p, In p m -> exists k : Z, Rabs (azimuth p - yaw_deg f' + 360 * IZR k) <= h_fov_deg f' / 2) /\
  (v_fov_deg f < v_fov_deg f' -> forall p, In p m -> Rabs (elevation p - pitch_deg f') <= v_fov_deg f' / 2).
Proof.
  intros f m lo hi e1 e2 Sa Se f'. destruct (C10_estimate f m lo hi e1 e2 Sa Se) as (H1 & H2 & H3 & H4). fold f' in H1, H2, H3, H4. split.
  - intros G S p Hp. destruct (H3 G) as (_ & Y & _). specialize (Y S). pose proof (proj2 (proj2 Sa) p Hp) as B. exists 0%Z.
    assert (E : h_fov_deg f' = hi - lo). { rewrite H1 in G |- *. revert G. unfold Rmax. destruct (Rle_dec (h_fov_deg f) _); [|intros G; tR; lra]. unfold Rmin. destruct (Rle_dec _ _); intros G; tR; lra. }
    rewrite E, Y. rewrite Rmult_0_r, Rplus_0_r. apply Rabs_le. tR. lra.
  - intros G p Hp. specialize (H4 G). pose proof (proj2 (proj2 Se) p Hp) as B.
    assert (E : v_fov_deg f' = e2 - e1). { rewrite H2 in G |- *. revert G. unfold Rmax. destruct (Rle_dec _ _); intros G; tR; lra. }
    rewrite E, H4. apply Rabs_le. tR. lra.
Qed.
Print Assumptions C10_points_inside.

(** Points spread over more than half a circle are not: with one point ahead and two far behind, the estimate covers the quarter behind only. *)
Lemma azimuth_of z : -180 < z <= 180 -> azimuth (polarHistogramToCartesian Rn Rtrig (Pol (0 : Rn) (z : Rn) (1 : Rn)) (V3 0 0 0 : vec3 Rn)) = wrapAngleToPlusMinus180 Rn (90 - z) /\
  elevation (polarHistogramToCartesian Rn Rtrig (Pol (0 : Rn) (z : Rn) (1 : Rn)) (V3 0 0 0 : vec3 Rn)) = 0.
Proof.
  intros Hz. unfold azimuth, elevation, cartesianToPolarFCU. rewrite polar_cart_polar; cbn [pe pz pr]; [|tR; lra|tR; lra|exact Hz].
  rn. unfold wrapPolar. cbn [pe pz pr]. rn. replace (- 0) with 0 by ring. rewrite (wrap180_id 0) by lra. rn.
  destruct (R_ltb_spec 90 0); [lra|]. destruct (R_ltb_spec 0 (-90)); [lra|]. cbn [pe pz]. split; [|reflexivity]. f_equal. tR. lra.
Qed.
Definition at_azimuth (z : R) : vec3 Rn := polarHistogramToCartesian Rn Rtrig (Pol (0 : Rn) (z : Rn) (1 : Rn)) (V3 0 0 0 : vec3 Rn).
Lemma az_ahead : azimuth (at_azimuth 90) = 0. Proof. unfold at_azimuth. rewrite (proj1 (azimuth_of 90 ltac:(lra))). rewrite wrap180_id; lra. Qed.
Lemma az_left : azimuth (at_azimuth (-45)) = 135. Proof. unfold at_azimuth. rewrite (proj1 (azimuth_of (-45) ltac:(lra))). rewrite wrap180_id; lra. Qed.
Lemma az_right : azimuth (at_azimuth (-135)) = -135.
Proof. unfold at_azimuth. rewrite (proj1 (azimuth_of (-135) ltac:(lra))). rewrite (wrap180_unique _ (-135)); [apply wrap180_id; lra|]. exists 1%Z. lra. Qed.
Lemma el_zero z : -180 < z <= 180 -> elevation (at_azimuth z) = 0. Proof. intros H. exact (proj2 (azimuth_of z H)). Qed.
Theorem C10_points_inside_refuted :
  exists (f : fov Rn) (m : list (vec3 Rn)) p, let f' := updateFOVFromMaxima Rn Rtrig f m in
  h_fov_deg f < h_fov_deg f' /\ h_fov_deg f' = 90 /\ In p m /\ forall k : Z, 180 <= Rabs (azimuth p - yaw_deg f' + 360 * IZR k).
Proof.
  exists (Fov (0 : Rn) (0 : Rn) (0 : Rn) (0 : Rn)), [at_azimuth 90; at_azimuth (-45); at_azimuth (-135)], (at_azimuth 90).
  assert (Sa : spans azimuth [at_azimuth 90; at_azimuth (-45); at_azimuth (-135)] (-135) 135).
  { split; [exists (at_azimuth (-135)); split; [cbn; auto|exact az_right]|]. split; [exists (at_azimuth (-45)); split; [cbn; auto|exact az_left]|].
    intros p [<-|[<-|[<-|[]]]]; [rewrite az_ahead|rewrite az_left|rewrite az_right]; lra. }
  assert (Se : spans elevation [at_azimuth 90; at_azimuth (-45); at_azimuth (-135)] 0 0).
  { split; [exists (at_azimuth 90); split; [cbn; auto|apply el_zero; lra]|]. split; [exists (at_azimuth 90); split; [cbn; auto|apply el_zero; lra]|].
    intros p [<-|[<-|[<-|[]]]]; rewrite el_zero; lra. }
  destruct (C10_estimate (Fov (0 : Rn) (0 : Rn) (0 : Rn) (0 : Rn)) _ _ _ _ _ Sa Se) as (H1 & _ & H3 & _). cbv zeta.
  set (f' := updateFOVFromMaxima Rn Rtrig _ _) in *. cbn [h_fov_deg] in *.
  assert (E : h_fov_deg f' = 90). { rewrite H1. unfold Rmax, Rmin. destruct (Rle_dec (135 - -135) _); destruct (Rle_dec _ _); tR; lra. }
  rewrite E in H3. destruct (H3 ltac:(tR; lra)) as (_ & _ & Y). destruct (Y ltac:(lra)) as (j & Hj).
  split; [rewrite E; tR; lra|]. split; [exact E|]. split; [left; reflexivity|]. intros k. rewrite az_ahead, Hj.
  replace (0 - ((-135 + 135) / 2 + 180 + 360 * IZR j) + 360 * IZR k) with (180 * IZR (2 * (k - j) - 1)) by (rewrite minus_IZR, mult_IZR, minus_IZR; lra).
  rewrite Rabs_mult, (Rabs_pos_eq 180) by lra. rewrite <- abs_IZR.
  assert (1 <= IZR (Z.abs (2 * (k - j) - 1))) by (apply IZR_le; lia). lra.
Qed.
Print Assumptions C10_points_inside_refuted.

(** a camera that sees one point to the left and one ahead *)
Example C10_inside_example : spans azimuth [at_azimuth 90; at_azimuth (-45)] 0 135 /\ spans elevation [at_azimuth 90; at_azimuth (-45)] 0 0 /\
  h_fov_deg (updateFOVFromMaxima Rn Rtrig (Fov (0 : Rn) (0 : Rn) (0 : Rn) (0 : Rn)) [at_azimuth 90; at_azimuth (-45)]) = 135.
Proof.
  assert (Sa : spans azimuth [at_azimuth 90; at_azimuth (-45)] 0 135).
  { split; [exists (at_azimuth 90); split; [cbn; auto|exact az_ahead]|]. split; [exists (at_azimuth (-45)); split; [cbn; auto|exact az_left]|].
    intros p [<-|[<-|[]]]; [rewrite az_ahead|rewrite az_left]; lra. }
  assert (Se : spans elevation [at_azimuth 90; at_azimuth (-45)] 0 0).
  { split; [exists (at_azimuth 90); split; [cbn; auto|apply el_zero; lra]|]. split; [exists (at_azimuth 90); split; [cbn; auto|apply el_zero; lra]|].
    intros p [<-|[<-|[]]]; rewrite el_zero; lra. }
  split; [exact Sa|]. split; [exact Se|]. rewrite (proj1 (C10_estimate _ _ _ _ _ _ Sa Se)). cbn [h_fov_deg]. unfold Rmax, Rmin. destruct (Rle_dec _ _); destruct (Rle_dec _ _); tR; lra.
Qed.
Example C07_edge_example : isOnEdgeOfFOV Rn [Fov (0 : Rn) (0 : Rn) (60 : Rn) (40 : Rn)] (Pol (0 : Rn) (20 : Rn) (1 : Rn)) = Some (true, 0%Z).
Proof.
  assert (I : forall b, -180 <= b < 180 -> (b < -30 \/ 30 < b) -> pointInsideYawFOV Rn (Fov (0 : Rn) (0 : Rn) (60 : Rn) (40 : Rn)) (Pol (0 : Rn) (b : Rn) (1 : Rn)) = false).
  { intros b H1 H2. destruct (pointInsideYawFOV Rn _ _) eqn:E; [|reflexivity]. apply pointInsideYawFOV_circle in E; cbn [yaw_deg h_fov_deg pz] in *; tR; lra. }
  assert (J : isInWhichFOV Rn [Fov (0 : Rn) (0 : Rn) (60 : Rn) (40 : Rn)] (Pol (0 : Rn) (20 : Rn) (1 : Rn)) = (true, 0%Z)).
  { assert (K : pointInsideYawFOV Rn (Fov (0 : Rn) (0 : Rn) (60 : Rn) (40 : Rn)) (Pol (0 : Rn) (20 : Rn) (1 : Rn)) = true) by (apply pointInsideYawFOV_circle; cbn [yaw_deg h_fov_deg pz]; tR; lra).
    unfold isInWhichFOV. cbn [isInWhichFOV_loop]. rewrite K. reflexivity. }
  apply C07_edge. split; [exact J|]. exists (Fov (0 : Rn) (0 : Rn) (60 : Rn) (40 : Rn)), 33. split; [reflexivity|]. split; [lra|]. cbn [yaw_deg h_fov_deg pz pe pr].
  split; [intros _; exists 0%Z; tR; lra|]. split; [intros X; exfalso; apply X; exists 0%Z; cbn [yaw_deg]; tR; lra|].
  intros g [<-|[]]. apply I; lra.
Qed.
