(** Rounding error of the binary64 operations, for bounded operands. *)
From Coq Require Import ZArith Reals Lra Lia Bool Psatz.
From Flocq Require Import Core BinarySingleNaN Relative.
From Verif Require Import Num64 Num.
Local Open Scope R_scope.

Notation rnd64 := (round radix2 (FLT_exp (-1074) 53) ZnearestE).

Lemma rnd64_err x : Rabs (rnd64 x - x) <= Rabs x * bpow radix2 (-53) + bpow radix2 (-1075).
Proof.
  destruct (error_N_FLT radix2 (-1074) 53 ltac:(lia) (fun t => negb (Z.even t)) x)
    as (eps & eta & He & Ht & _ & E).
  unfold ZnearestE in *. rewrite E.
  replace (x * (1 + eps) + eta - x) with (x * eps + eta) by ring.
  apply Rle_trans with (Rabs (x * eps) + Rabs eta); [apply Rabs_triang|].
  rewrite Rabs_mult.
  assert (/ 2 * bpow radix2 (- (53) + 1) = bpow radix2 (-53)).
  { replace (-53)%Z with (-(1) + (- (53) + 1))%Z by lia. rewrite (bpow_plus radix2 (-(1))). f_equal. }
  assert (/ 2 * bpow radix2 (-1074) = bpow radix2 (-1075)).
  { replace (-1075)%Z with (-(1) + (-1074))%Z by lia. rewrite (bpow_plus radix2 (-(1))). f_equal. }
  rewrite H in He. rewrite H0 in Ht.
  apply Rplus_le_compat; [apply Rmult_le_compat_l; [apply Rabs_pos|assumption]|assumption].
Qed.

Lemma bpow64_small : bpow radix2 (-53) <= / 2 /\ 0 < bpow radix2 (-53) /\ bpow radix2 (-1075) <= / 2 /\ 0 < bpow radix2 (-1075).
Proof.
  assert (forall e, (e <= -1)%Z -> bpow radix2 e <= / 2).
  { intros e He. replace (/ 2) with (bpow radix2 (-1)) by reflexivity. apply bpow_le. lia. }
  repeat split; try apply bpow_gt_0; apply H; lia.
Qed.

(** results below 2^100 do not overflow *)
Lemma rnd64_no_overflow x : Rabs x <= bpow radix2 100 ->
  Rlt_bool (Rabs (rnd64 x)) (bpow radix2 1024) = true.
Proof.
  intros H. apply Rlt_bool_true. pose proof (rnd64_err x) as E.
  destruct bpow64_small as (B1 & B2 & B3 & B4).
  assert (Rabs (rnd64 x) <= Rabs x + Rabs (rnd64 x - x)).
  { replace (rnd64 x) with (x + (rnd64 x - x)) at 1 by ring. apply Rabs_triang. }
  assert (H2 : bpow radix2 100 * 2 + 1 < bpow radix2 1024).
  { assert (1 <= bpow radix2 100) by (change 1 with (bpow radix2 0); apply bpow_le; lia).
    replace (bpow radix2 1024) with (bpow radix2 100 * bpow radix2 924) by (rewrite <- bpow_plus; reflexivity).
    assert (4 <= bpow radix2 924) by (replace 4 with (bpow radix2 2) by (simpl; lra); apply bpow_le; lia). nra. }
  pose proof (Rabs_pos x). nra.
Qed.

Section Ops.
Variables x y : f64.
Hypothesis Fx : is_finite x = true.
Hypothesis Fy : is_finite y = true.

Lemma f64_add_R : Rabs (B2R x + B2R y) <= bpow radix2 100 ->
  is_finite (add F64 x y : f64) = true /\ B2R (add F64 x y : f64) = rnd64 (B2R x + B2R y).
Proof.
  intros H. pose proof (Bplus_correct 53 1024 _ _ mode_NE x y Fx Fy) as C.
  cbn [round_mode] in C. change (SpecFloat.fexp 53 1024) with (FLT_exp (-1074) 53) in C.
  rewrite (rnd64_no_overflow _ H) in C. destruct C as (C1 & C2 & _). split; assumption.
Qed.
Lemma f64_sub_R : Rabs (B2R x - B2R y) <= bpow radix2 100 ->
  is_finite (sub F64 x y : f64) = true /\ B2R (sub F64 x y : f64) = rnd64 (B2R x - B2R y).
Proof.
  intros H. pose proof (Bminus_correct 53 1024 _ _ mode_NE x y Fx Fy) as C.
  cbn [round_mode] in C. change (SpecFloat.fexp 53 1024) with (FLT_exp (-1074) 53) in C.
  rewrite (rnd64_no_overflow _ H) in C. destruct C as (C1 & C2 & _). split; assumption.
Qed.
Lemma f64_mul_R : Rabs (B2R x * B2R y) <= bpow radix2 100 ->
  is_finite (mul F64 x y : f64) = true /\ B2R (mul F64 x y : f64) = rnd64 (B2R x * B2R y).
Proof.
  intros H. pose proof (Bmult_correct 53 1024 _ _ mode_NE x y) as C.
  cbn [round_mode] in C. change (SpecFloat.fexp 53 1024) with (FLT_exp (-1074) 53) in C.
  rewrite (rnd64_no_overflow _ H) in C. destruct C as (C1 & C2 & _). rewrite Fx, Fy in C2. split; assumption.
Qed.
Lemma f64_div_R : B2R y <> 0 -> Rabs (B2R x / B2R y) <= bpow radix2 100 ->
  is_finite (div F64 x y : f64) = true /\ B2R (div F64 x y : f64) = rnd64 (B2R x / B2R y).
Proof.
  intros Hy H. pose proof (Bdiv_correct 53 1024 _ _ mode_NE x y Hy) as C.
  cbn [round_mode] in C. change (SpecFloat.fexp 53 1024) with (FLT_exp (-1074) 53) in C.
  rewrite (rnd64_no_overflow _ H) in C. destruct C as (C1 & C2 & _). rewrite Fx in C2. split; assumption.
Qed.
Lemma f64_floor_R : is_finite (floorv F64 x : f64) = true /\ B2R (floorv F64 x : f64) = IZR (Zfloor (B2R x)).
Proof.
  destruct (Bnearbyint_correct 53 1024 _ mode_DN x) as (C1 & C2 & _). rewrite Fx in C2.
  split; [exact C2|]. cbn [floorv F64]. rewrite C1. cbn [round_mode].
  unfold round, F2R, scaled_mantissa, cexp, FIX_exp. cbn [Fnum Fexp Z.opp]. rewrite !Rmult_1_r. reflexivity.
Qed.
End Ops.

Lemma f64_ofZ_R (z : Z) : (Z.abs z <= 2 ^ 53)%Z -> is_finite (f64_ofZ z) = true /\ B2R (f64_ofZ z) = IZR z.
Proof.
  intros H. unfold f64_ofZ.
  pose proof (binary_normalize_correct 53 1024 _ _ mode_NE z 0 false) as C.
  cbn [round_mode] in C. change (SpecFloat.fexp 53 1024) with (FLT_exp (-1074) 53) in C.
  assert (E : F2R (Float radix2 z 0) = IZR z) by (unfold F2R; simpl; ring).
  rewrite E in C.
  assert (B : Rabs (IZR z) <= IZR (2 ^ 53)) by (rewrite <- abs_IZR; apply IZR_le; exact H).
  assert (HB : Rabs (IZR z) <= bpow radix2 100).
  { eapply Rle_trans; [exact B|]. change (IZR (2 ^ 53)) with (bpow radix2 53). apply bpow_le. lia. }
  rewrite (rnd64_no_overflow _ HB) in C. destruct C as (C1 & C2 & _).
  split; [exact C2|]. rewrite C1. apply round_generic; [apply valid_rnd_N|].
  destruct (Z.eq_dec (Z.abs z) (2 ^ 53)) as [Hz|Hz].
  - assert (Hpow : generic_format radix2 (FLT_exp (-1074) 53) (bpow radix2 53)).
    { apply generic_format_bpow. unfold FLT_exp. lia. }
    destruct (Z.abs_eq_or_opp z) as [Ha|Ha]; rewrite Ha in Hz.
    + rewrite Hz. exact Hpow.
    + replace z with (- 2 ^ 53)%Z by lia. rewrite opp_IZR. apply generic_format_opp. exact Hpow.
  - apply generic_format_FLT. exists (Float radix2 z 0); cbn [Fnum Fexp]; [symmetry; exact E| simpl; lia | lia].
Qed.

Lemma f64_half_R : is_finite (cst F64 1 2 : f64) = true /\ B2R (cst F64 1 2 : f64) = / 2.
Proof.
  split; [vm_compute; reflexivity|]. rewrite <- SF2R_B2SF.
  replace (B2SF (cst F64 1 2 : f64)) with (SpecFloat.S754_finite false 4503599627370496 (-53)) by (vm_compute; reflexivity).
  unfold SF2R, F2R. simpl. lra.
Qed.


Lemma rnd64_exact (x : R) (m e : Z) : x = F2R (Float radix2 m e) -> (Z.abs m < 2 ^ 53)%Z -> (-1074 <= e)%Z -> rnd64 x = x.
Proof.
  intros E Hm He. apply round_generic; [apply valid_rnd_N|].
  apply generic_format_FLT. exists (Float radix2 m e); [exact E|exact Hm|exact He].
Qed.
