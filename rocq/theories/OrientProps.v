(** Properties C11 and C12, continued: orientations and yaws in the two frames. *)
From Coq Require Import ZArith Reals List Bool Lra.
From Verif Require Import Num CommonModel CommonSpec CommonProofs CommonProofs2.
Import ListNotations.
Local Open Scope R_scope.

(** C12. The yaw and pitch of an orientation are the angles it was made from, whatever the roll. *)
Theorem C12_quaternion_angles :
  forall roll pitch yaw : R, - PI < yaw <= PI -> - PI / 2 < pitch < PI / 2 ->
  getYawFromQuaternion Rn Rtrig (quaternionFromRPY Rn Rtrig (V3 (roll : Rn) pitch yaw)) = yaw * 180 / PI /\
  getPitchFromQuaternion Rn Rtrig (quaternionFromRPY Rn Rtrig (V3 (roll : Rn) pitch yaw)) = pitch * 180 / PI.
Proof.
  intros roll pitch yaw Hy Hp. pose proof PI_RGT_0 as HP.
  unfold getYawFromQuaternion, getPitchFromQuaternion, quaternionFromRPY, qmul, qaxis_x, qaxis_y, qaxis_z, RAD_TO_DEG.
  rn. cbn [Rtrig t_sin t_cos t_atan2 t_asin qw qx qy qz vx vy vz]. tR.
  assert (D : forall a, sin a = 2 * sin (a / 2) * cos (a / 2) /\ cos a = cos (a / 2) * cos (a / 2) - sin (a / 2) * sin (a / 2) /\
            cos (a / 2) * cos (a / 2) = 1 - sin (a / 2) * sin (a / 2)).
  { intros a. split; [rewrite <- sin_2a; f_equal; field|]. split; [rewrite <- cos_2a; f_equal; field|]. pose proof (sin2_cos2 (a / 2)) as Q. unfold Rsqr in Q. lra. }
  destruct (D yaw) as (Sy & Cy & Ey). destruct (D pitch) as (Sp & Cp & Ep). destruct (D roll) as (_ & _ & Er). clear D.
  assert (Pc : 0 < cos pitch) by (apply cos_gt_0; lra).
  set (c1 := cos (yaw / 2)) in *. set (s1 := sin (yaw / 2)) in *. set (c2 := cos (pitch / 2)) in *. set (s2 := sin (pitch / 2)) in *.
  set (c3 := cos (roll / 2)) in *. set (s3 := sin (roll / 2)) in *. clearbody c1 s1 c2 s2 c3 s3.
  assert (X1 : forall k, k = (c3 * c3 + s3 * s3) * k) by (intros k; rewrite Er; ring).
  assert (X2 : 1 = (c1 * c1 + s1 * s1) * (c2 * c2 + s2 * s2)) by (rewrite Ey, Ep; ring).
  split.
  - match goal with |- Ratan2 ?a ?b * _ = _ => replace a with (cos pitch * sin yaw); [replace b with (cos pitch * cos yaw)|] end.
    + rewrite Ratan2_polar by assumption. field. lra.
    + rewrite Cp, Cy. match goal with |- ?l = 1 - ?r => transitivity (1 * (c3 * c3 + s3 * s3) - r); [rewrite (X1 l), X2; ring|rewrite Er; ring] end.
    + rewrite Cp, Sy. match goal with |- ?l = _ => rewrite (X1 l) end. ring.
  - match goal with |- (if R_leb 1 (Rabs ?a) then _ else _) * _ = _ => replace a with (sin pitch) end.
    + destruct (R_leb_spec 1 (Rabs (sin pitch))) as [H|H].
      * exfalso. assert (Rabs (sin pitch) < 1); [|lra]. apply Rabs_def1.
        -- rewrite <- sin_PI2. apply sin_increasing_1; lra.
        -- rewrite <- sin_PI2, <- sin_neg. apply sin_increasing_1; lra.
      * rewrite asin_sin by lra. field. lra.
    + rewrite Sp. match goal with |- ?l = _ => rewrite (X1 l) end. transitivity ((c3 * c3 + s3 * s3) * (2 * s2 * c2) * (c1 * c1 + s1 * s1)); [rewrite Ey; ring|ring].
Qed.
Print Assumptions C12_quaternion_angles.
Example C12_quaternion_example : - PI < 1 <= PI /\ - PI / 2 < 1 < PI / 2.
Proof. pose proof PI2_3_2. pose proof PI_RGT_0. lra. Qed.

Lemma Ratan2_swap x y : x <> 0 \/ y <> 0 -> same_heading (2 * PI) (Ratan2 x y) (PI / 2 - Ratan2 y x).
Proof.
  intros H. destruct (Ratan2_spec x y H) as [C S]. pose proof (Ratan2_range y x) as B. set (t := Ratan2 y x) in *. clearbody t.
  set (r := sqrt (x * x + y * y)) in *. pose proof PI_RGT_0 as HP.
  assert (Hr : 0 < r). { apply sqrt_lt_R0. destruct H; nra. }
  assert (Ex : x = r * cos t) by (rewrite C; field; lra). assert (Ey : y = r * sin t) by (rewrite S; field; lra). clear C S. clearbody r.
  destruct (Rle_or_lt (PI / 2 - t) PI) as [L|L].
  - exists 0%Z. rewrite Ex, Ey. replace (r * cos t) with (r * sin (PI / 2 - t)) by (rewrite sin_shift; reflexivity).
    replace (r * sin t) with (r * cos (PI / 2 - t)) by (rewrite cos_shift; reflexivity). rewrite Ratan2_polar by lra. lra.
  - exists (-1)%Z. rewrite Ex, Ey. set (u := PI / 2 - t - 2 * PI).
    assert (Su : sin u = cos t). { replace (cos t) with (sin (PI / 2 - t)) by apply sin_shift. replace (PI / 2 - t) with (u + 2 * INR 1 * PI) by (unfold u; cbn; lra). rewrite sin_period. reflexivity. }
    assert (Cu : cos u = sin t). { replace (sin t) with (cos (PI / 2 - t)) by apply cos_shift. replace (PI / 2 - t) with (u + 2 * INR 1 * PI) by (unfold u; cbn; lra). rewrite cos_period. reflexivity. }
    rewrite <- Su, <- Cu. rewrite Ratan2_polar by (unfold u; lra). unfold u. lra.
Qed.
(** C12. Converting an orientation to the other frame converts its yaw and pitch as the functions for yaw and pitch do. (Unit quaternions that do not point
    straight up or down.) *)
Theorem C12_orientation_yaw_pitch :
  forall q : quat Rn, qw Rn q * qw Rn q + qx Rn q * qx Rn q + qy Rn q * qy Rn q + qz Rn q * qz Rn q = 1 ->
  (Rabs (2 * (qw Rn q * qy Rn q - qz Rn q * qx Rn q)) < 1)%R ->
  same_heading 360 (getYawFromQuaternion Rn Rtrig (orientationToNED Rn Rtrig q)) (yawToNEDdeg Rn (getYawFromQuaternion Rn Rtrig q)) /\
  getPitchFromQuaternion Rn Rtrig (orientationToNED Rn Rtrig q) = pitchtoNED Rn (getPitchFromQuaternion Rn Rtrig q).
Proof.
  intros q. unfold orientationToNED. rewrite quat_ned_enu, quat_aircraft. destruct q as [w x y z]. cbn [qw qx qy qz]. tR. intros U G.
  assert (K : sqrt 2 / 2 * (sqrt 2 / 2) = / 2). { replace (sqrt 2 / 2 * (sqrt 2 / 2)) with (sqrt 2 * sqrt 2 / 4) by field. rewrite sqrt_sqrt by lra. field. }
  set (k := sqrt 2 / 2) in *. clearbody k. assert (K2 : 2 * k * k = 1) by lra.
  set (sy := 2 * (w * z + x * y)). set (cy := 1 - 2 * (y * y + z * z)). set (sp := 2 * (w * y - z * x)) in *.
  pose proof PI_RGT_0 as HP.
  unfold getYawFromQuaternion, getPitchFromQuaternion, yawToNEDdeg, pitchtoNED, qmul, RAD_TO_DEG. rn. cbn [Rtrig t_sin t_cos t_atan2 t_asin qw qx qy qz]. tR.
  fold sy cy sp. split.
  - match goal with |- same_heading _ (Ratan2 ?a ?b * _) _ => replace a with cy; [replace b with sy|] end.
    + assert (N : cy <> 0 \/ sy <> 0).
      { assert (Q : cy * cy + sy * sy + sp * sp = 1).
        { unfold cy, sy, sp.
          transitivity (((w * w + x * x + y * y + z * z) - 2 * (y * y + z * z)) * ((w * w + x * x + y * y + z * z) - 2 * (y * y + z * z)) + 2 * (w * z + x * y) * (2 * (w * z + x * y)) + 2 * (w * y - z * x) * (2 * (w * y - z * x)));
            [rewrite U; ring|]. transitivity ((w * w + x * x + y * y + z * z) * (w * w + x * x + y * y + z * z)); [ring|rewrite U; ring]. }
        destruct (Req_dec cy 0) as [Ec|]; [right|left; assumption]. intros Es. rewrite Ec, Es in Q. apply Rabs_def2 in G. nra. }
      destruct (Ratan2_swap cy sy N) as [n E]. exists n.
      match goal with |- ?l = _ => replace l with (Ratan2 cy sy * 180 / PI) by (field; lra) end. rewrite E. field. lra.
    + unfold sy. transitivity (1 - (2 * k * k) * ((y - x) * (y - x) + (z - w) * (z - w))); [rewrite K2; lra|ring].
    + unfold cy. transitivity ((2 * k * k) * (w * w - z * z + x * x - y * y)); [rewrite K2; lra|ring].
  - match goal with |- (if R_leb 1 (Rabs ?a) then _ else _) * _ = _ => replace a with (- sp) end.
    + rewrite Rabs_Ropp. destruct (R_leb_spec 1 (Rabs sp)); [lra|]. rewrite asin_opp. ring.
    + unfold sp. transitivity ((2 * k * k) * (- (2 * (w * y - z * x)))); [rewrite K2; lra|ring].
Qed.
Print Assumptions C12_orientation_yaw_pitch.
Example C12_orientation_example : exists q : quat Rn, qw Rn q * qw Rn q + qx Rn q * qx Rn q + qy Rn q * qy Rn q + qz Rn q * qz Rn q = 1 /\
  (Rabs (2 * (qw Rn q * qy Rn q - qz Rn q * qx Rn q)) < 1)%R.
Proof. exists (Q4 Rn (1/2) (1/2) (1/2) (1/2)). cbn. tR. split; [lra|]. replace (2 * _) with 0 by field. rewrite Rabs_R0. lra. Qed.

(** C11. The yaw sent for the i-th control point of a Bezier trajectory is that control point's yaw (clockwise from north) counted anticlockwise from east. *)
Theorem C11_bezier_yaw :
  forall (old : list (ptarget Rn)) (cps : list (vec3 Rn * Rn)) (d : Rn) i c, length old = 5%nat -> length cps = 5%nat ->
  nth_error cps i = Some c -> exists q, nth_error (tr_points Rn (transformToBezier Rn old cps d)) i = Some q /\
  cos (pt_yaw Rn q) = sin (snd c) /\ sin (pt_yaw Rn q) = cos (snd c).
Proof.
  intros old cps d i c Ho Hc E. unfold transformToBezier. cbn [tr_points].
  assert (Hlt : (i < length cps)%nat) by (apply nth_error_Some; rewrite E; discriminate).
  destruct (nth_error old i) as [o|] eqn:Eo. 2:{ apply nth_error_None in Eo. rewrite Ho, <- Hc in Eo. exfalso. revert Hlt Eo. clear. intros. apply (Nat.lt_irrefl i). eapply Nat.lt_le_trans; eassumption. }
  exists (fillControlPoint Rn o (fst c) (snd c)). rewrite nth_error_map.
  assert (C : nth_error (combine old cps) i = Some (o, c)).
  { clear - E Eo. revert cps i E Eo. induction old as [|a l IH]; intros cps i E Eo; [destruct i; discriminate|]. destruct cps as [|b cps]; [destruct i; discriminate|].
    destruct i as [|i]; cbn in *; [congruence|]. apply IH; assumption. }
  rewrite C. cbn [option_map fst snd]. split; [reflexivity|]. unfold fillControlPoint, yawToENUrad. cbn [pt_yaw]. rn. tR. split; [apply cos_shift|apply sin_shift].
Qed.
Print Assumptions C11_bezier_yaw.
Example C11_bezier_yaw_example :
  let p := PT Rn (V3 (0:Rn) 0 0) (V3 (0:Rn) 0 0) (V3 (0:Rn) 0 0) 0 0 in length [p; p; p; p; p] = 5%nat.
Proof. reflexivity. Qed.
