(** Rounding error of the binary32 operations, for bounded operands. *)
From Coq Require Import ZArith Reals Lra Lia Bool Psatz.
From Flocq Require Import Core BinarySingleNaN Relative.
From Verif Require Import Num.
Local Open Scope R_scope.

Notation rnd := (round radix2 (FLT_exp (-149) 24) ZnearestE).

Lemma rnd_err x : Rabs (rnd x - x) <= Rabs x * bpow radix2 (-24) + bpow radix2 (-150).
Proof.
  destruct (error_N_FLT radix2 (-149) 24 ltac:(lia) (fun t => negb (Z.even t)) x)
    as (eps & eta & He & Ht & _ & E).
  unfold ZnearestE in *. rewrite E.
  replace (x * (1 + eps) + eta - x) with (x * eps + eta) by ring.
  apply Rle_trans with (Rabs (x * eps) + Rabs eta); [apply Rabs_triang|].
  rewrite Rabs_mult.
  assert (/ 2 * bpow radix2 (- (24) + 1) = bpow radix2 (-24)).
  { replace (-24)%Z with (-(1) + (- (24) + 1))%Z by lia. rewrite (bpow_plus radix2 (-(1))). f_equal. }
  assert (/ 2 * bpow radix2 (-149) = bpow radix2 (-150)).
  { replace (-150)%Z with (-(1) + (-149))%Z by lia. rewrite (bpow_plus radix2 (-(1))). f_equal. }
  rewrite H in He. rewrite H0 in Ht.
  apply Rplus_le_compat; [apply Rmult_le_compat_l; [apply Rabs_pos|assumption]|assumption].
Qed.

Lemma bpow_small : bpow radix2 (-24) <= / 2 /\ 0 < bpow radix2 (-24) /\ bpow radix2 (-150) <= / 2 /\ 0 < bpow radix2 (-150).
Proof.
  assert (forall e, (e <= -1)%Z -> bpow radix2 e <= / 2).
  { intros e He. replace (/ 2) with (bpow radix2 (-1)) by reflexivity. apply bpow_le. lia. }
  repeat split; try apply bpow_gt_0; apply H; lia.
Qed.

(** results below 2^100 do not overflow *)
Lemma rnd_no_overflow x : Rabs x <= bpow radix2 100 ->
  Rlt_bool (Rabs (rnd x)) (bpow radix2 128) = true.
Proof.
  intros H. apply Rlt_bool_true. pose proof (rnd_err x) as E.
  destruct bpow_small as (B1 & B2 & B3 & B4).
  assert (Rabs (rnd x) <= Rabs x + Rabs (rnd x - x)).
  { replace (rnd x) with (x + (rnd x - x)) at 1 by ring. apply Rabs_triang. }
  assert (H2 : bpow radix2 100 * 2 + 1 < bpow radix2 128).
  { assert (1 <= bpow radix2 100) by (change 1 with (bpow radix2 0); apply bpow_le; lia).
    replace (bpow radix2 128) with (bpow radix2 100 * bpow radix2 28) by (rewrite <- bpow_plus; reflexivity).
    assert (4 <= bpow radix2 28) by (replace 4 with (bpow radix2 2) by (simpl; lra); apply bpow_le; lia). nra. }
  pose proof (Rabs_pos x). nra.
Qed.

Section Ops.
Variables x y : f32.
Hypothesis Fx : is_finite x = true.
Hypothesis Fy : is_finite y = true.

Lemma f32_add_R : Rabs (B2R x + B2R y) <= bpow radix2 100 ->
  is_finite (add F32 x y : f32) = true /\ B2R (add F32 x y : f32) = rnd (B2R x + B2R y).
Proof.
  intros H. pose proof (Bplus_correct 24 128 _ _ mode_NE x y Fx Fy) as C.
  cbn [round_mode] in C. change (SpecFloat.fexp 24 128) with (FLT_exp (-149) 24) in C.
  rewrite (rnd_no_overflow _ H) in C. destruct C as (C1 & C2 & _). split; assumption.
Qed.
Lemma f32_sub_R : Rabs (B2R x - B2R y) <= bpow radix2 100 ->
  is_finite (sub F32 x y : f32) = true /\ B2R (sub F32 x y : f32) = rnd (B2R x - B2R y).
Proof.
  intros H. pose proof (Bminus_correct 24 128 _ _ mode_NE x y Fx Fy) as C.
  cbn [round_mode] in C. change (SpecFloat.fexp 24 128) with (FLT_exp (-149) 24) in C.
  rewrite (rnd_no_overflow _ H) in C. destruct C as (C1 & C2 & _). split; assumption.
Qed.
Lemma f32_mul_R : Rabs (B2R x * B2R y) <= bpow radix2 100 ->
  is_finite (mul F32 x y : f32) = true /\ B2R (mul F32 x y : f32) = rnd (B2R x * B2R y).
Proof.
  intros H. pose proof (Bmult_correct 24 128 _ _ mode_NE x y) as C.
  cbn [round_mode] in C. change (SpecFloat.fexp 24 128) with (FLT_exp (-149) 24) in C.
  rewrite (rnd_no_overflow _ H) in C. destruct C as (C1 & C2 & _). rewrite Fx, Fy in C2. split; assumption.
Qed.
Lemma f32_div_R : B2R y <> 0 -> Rabs (B2R x / B2R y) <= bpow radix2 100 ->
  is_finite (div F32 x y : f32) = true /\ B2R (div F32 x y : f32) = rnd (B2R x / B2R y).
Proof.
  intros Hy H. pose proof (Bdiv_correct 24 128 _ _ mode_NE x y Hy) as C.
  cbn [round_mode] in C. change (SpecFloat.fexp 24 128) with (FLT_exp (-149) 24) in C.
  rewrite (rnd_no_overflow _ H) in C. destruct C as (C1 & C2 & _). rewrite Fx in C2. split; assumption.
Qed.
Lemma f32_floor_R : is_finite (floorv F32 x : f32) = true /\ B2R (floorv F32 x : f32) = IZR (Zfloor (B2R x)).
Proof.
  destruct (Bnearbyint_correct 24 128 _ mode_DN x) as (C1 & C2 & _). rewrite Fx in C2.
  split; [exact C2|]. cbn [floorv F32]. rewrite C1. cbn [round_mode].
  unfold round, F2R, scaled_mantissa, cexp, FIX_exp. cbn [Fnum Fexp Z.opp]. rewrite !Rmult_1_r. reflexivity.
Qed.
End Ops.

Lemma f32_ofZ_R (z : Z) : (Z.abs z <= 2 ^ 24)%Z -> is_finite (f32_ofZ z) = true /\ B2R (f32_ofZ z) = IZR z.
Proof.
  intros H. unfold f32_ofZ.
  pose proof (binary_normalize_correct 24 128 _ _ mode_NE z 0 false) as C.
  cbn [round_mode] in C. change (SpecFloat.fexp 24 128) with (FLT_exp (-149) 24) in C.
  assert (E : F2R (Float radix2 z 0) = IZR z) by (unfold F2R; simpl; ring).
  rewrite E in C.
  assert (B : Rabs (IZR z) <= IZR (2 ^ 24)) by (rewrite <- abs_IZR; apply IZR_le; exact H).
  assert (HB : Rabs (IZR z) <= bpow radix2 100).
  { eapply Rle_trans; [exact B|]. change (IZR (2 ^ 24)) with (bpow radix2 24). apply bpow_le. lia. }
  rewrite (rnd_no_overflow _ HB) in C. destruct C as (C1 & C2 & _).
  split; [exact C2|]. rewrite C1. apply round_generic; [apply valid_rnd_N|].
  destruct (Z.eq_dec (Z.abs z) (2 ^ 24)) as [Hz|Hz].
  - assert (Hpow : generic_format radix2 (FLT_exp (-149) 24) (bpow radix2 24)).
    { apply generic_format_bpow. unfold FLT_exp. lia. }
    destruct (Z.abs_eq_or_opp z) as [Ha|Ha]; rewrite Ha in Hz.
    + rewrite Hz. exact Hpow.
    + replace z with (- 2 ^ 24)%Z by lia. rewrite opp_IZR. apply generic_format_opp. exact Hpow.
  - apply generic_format_FLT. exists (Float radix2 z 0); cbn [Fnum Fexp]; [symmetry; exact E| simpl; lia | lia].
Qed.

Lemma f32_half_R : is_finite (cst F32 1 2 : f32) = true /\ B2R (cst F32 1 2 : f32) = / 2.
Proof.
  split; [vm_compute; reflexivity|]. rewrite <- SF2R_B2SF.
  replace (B2SF (cst F32 1 2 : f32)) with (SpecFloat.S754_finite false 8388608 (-24)) by (vm_compute; reflexivity).
  unfold SF2R, F2R. simpl. lra.
Qed.

From Verif Require Import CommonModel.

(** As executed in binary32, wrapping an angle of up to two turns gives an angle within 2e-4 degrees
    of [-180,180] that differs from the argument by a whole number of turns up to 2e-5 degrees. *)
Lemma wrap180_F32 (a : f32) : is_finite a = true -> Rabs (B2R a) <= 720 ->
  is_finite (wrapAngleToPlusMinus180 F32 a : f32) = true /\
  Rabs (B2R (wrapAngleToPlusMinus180 F32 a : f32)) <= 180 + 2 / 10000 /\
  exists k : Z, Rabs (B2R (wrapAngleToPlusMinus180 F32 a : f32) - (B2R a + 360 * IZR k)) <= 2 / 100000.
Proof.
  intros Fa Ha. unfold wrapAngleToPlusMinus180.
  destruct (f32_ofZ_R 360 ltac:(lia)) as [F360 R360].
  destruct f32_half_R as [Fh Rh].
  change (ofZ F32 360) with (f32_ofZ 360).
  assert (P100 : 2000 <= bpow radix2 100).
  { apply Rle_trans with (bpow radix2 11); [simpl; lra|]. apply bpow_le. lia. }
  assert (E24 : bpow radix2 (-24) = / 16777216) by (simpl; lra).
  assert (E150 : 0 < bpow radix2 (-150) <= / 1000000000).
  { split; [apply bpow_gt_0|]. apply Rle_trans with (bpow radix2 (-30)); [apply bpow_le; lia|]. simpl. lra. }
  assert (Ha1 : -720 <= B2R a <= 720) by (apply Rabs_le_inv; exact Ha).
  set (A := B2R a) in *.
  (* quotient *)
  assert (Q0 : Rabs (A / 360) <= 2) by (apply Rabs_le; lra).
  destruct (f32_div_R a (f32_ofZ 360) Fa ltac:(rewrite R360; lra)) as [Fq Rq].
  { rewrite R360. fold A. lra. }
  rewrite R360 in Rq. fold A in Rq.
  pose proof (rnd_err (A / 360)) as Eq. rewrite <- Rq in Eq. rewrite E24 in Eq.
  set (q := div F32 a (f32_ofZ 360)) in *. set (Q := B2R (q : f32)) in *.
  assert (Eq' : Rabs (Q - A / 360) <= 13 / 100000000).
  { pose proof (Rabs_pos (A / 360)). lra. }
  apply Rabs_le_inv in Eq'.
  (* plus half *)
  destruct (f32_add_R q (cst F32 1 2 : f32) Fq Fh) as [Fs Rs].
  { rewrite Rh. fold Q. apply Rabs_le. lra. }
  rewrite Rh in Rs. fold Q in Rs.
  pose proof (rnd_err (Q + / 2)) as Es. rewrite <- Rs in Es. rewrite E24 in Es.
  set (s := add F32 q (cst F32 1 2)) in *. set (S := B2R (s : f32)) in *.
  assert (Es' : Rabs (S - (Q + / 2)) <= 16 / 100000000).
  { assert (Rabs (Q + / 2) <= 251/100) by (apply Rabs_le; lra). lra. }
  apply Rabs_le_inv in Es'.
  (* floor *)
  destruct (f32_floor_R s Fs) as [Ff Rf]. fold S in Rf.
  pose proof (Zfloor_lb S) as L. pose proof (Zfloor_ub S) as U.
  set (k := Zfloor S) in *.
  assert (Hk : (-3 < k < 4)%Z).
  { split; apply lt_IZR; simpl; lra. }
  (* product is exact *)
  destruct (f32_mul_R (f32_ofZ 360) (floorv F32 s : f32) F360 Ff) as [Fm Rm].
  { rewrite R360, Rf. assert (-2 <= IZR k <= 3) by (split; apply IZR_le; lia). apply Rabs_le. lra. }
  rewrite R360, Rf in Rm.
  assert (Rm' : B2R (mul F32 (f32_ofZ 360) (floorv F32 s) : f32) = 360 * IZR k).
  { rewrite Rm. replace (360 * IZR k) with (IZR (360 * k)) by (rewrite mult_IZR; reflexivity).
    apply round_generic; [apply valid_rnd_N|].
    apply generic_format_FLT. exists (Float radix2 (360 * k) 0); cbn [Fnum Fexp];
      [unfold F2R; cbn [Fnum Fexp]; change (bpow radix2 0) with 1; ring| change (radix2 ^ 24)%Z with 16777216%Z; lia | lia]. }
  (* difference *)
  assert (D : -180 - 1/10000 - 5/1000000 <= A - 360 * IZR k <= 180 + 1/10000 + 5/1000000) by lra.
  destruct (f32_sub_R a (mul F32 (f32_ofZ 360) (floorv F32 s) : f32) Fa Fm) as [Fd Rd].
  { rewrite Rm'. fold A. apply Rabs_le. lra. }
  rewrite Rm' in Rd. fold A in Rd.
  pose proof (rnd_err (A - 360 * IZR k)) as Ed. rewrite <- Rd in Ed. rewrite E24 in Ed.
  change (mul F32 (f32_ofZ 360) (floorv F32 s)) with (mul F32 (f32_ofZ 360) (floorv F32 (add F32 (div F32 a (f32_ofZ 360)) (cst F32 1 2)))) in *.
  set (w := sub F32 a (mul F32 (f32_ofZ 360) (floorv F32 (add F32 (div F32 a (f32_ofZ 360)) (cst F32 1 2))))) in *.
  assert (Ed' : Rabs (B2R (w : f32) - (A - 360 * IZR k)) <= 2 / 100000).
  { assert (Rabs (A - 360 * IZR k) <= 181) by (apply Rabs_le; lra). lra. }
  split; [exact Fd|]. split.
  - apply Rabs_le_inv in Ed'. apply Rabs_le. lra.
  - exists (- k)%Z. rewrite opp_IZR. replace (A + 360 * - IZR k) with (A - 360 * IZR k) by ring. exact Ed'.
Qed.
