(** Cells and centres in double arithmetic. *)
From Coq Require Import ZArith Reals Lra Lia Bool Psatz.
From Flocq Require Import Core BinarySingleNaN Relative.
From Verif Require Import Num Num64 F64Err CommonModel GpModel.
Local Open Scope R_scope.

Lemma f64_fl_R (x : f64) : is_finite x = true -> f64_fl x = Zfloor (B2R x).
Proof.
  intros F. destruct (f64_floor_R x F) as (F2 & E). unfold f64_fl. change (Bnearbyint mode_DN x) with (floorv F64 x : f64).
  apply eq_IZR. rewrite Btrunc_correct by reflexivity. rewrite E.
  unfold round, F2R, scaled_mantissa, cexp, FIX_exp. cbn [Fnum Fexp Z.opp bpow]. rewrite !Rmult_1_r. rewrite Ztrunc_IZR. reflexivity.
Qed.
Lemma mid_exact i : (Z.abs i <= 2 ^ 40)%Z ->
  is_finite (add F64 (ofZ F64 i) (cst F64 1 2) : f64) = true /\ B2R (add F64 (ofZ F64 i) (cst F64 1 2) : f64) = IZR i + / 2.
Proof.
  intros H. destruct (f64_ofZ_R i) as (A & B); [lia|]. destruct f64_half_R as (C & D).
  change (ofZ F64 i) with (f64_ofZ i).
  destruct (f64_add_R (f64_ofZ i) (cst F64 1 2) A C) as (E & F).
  - rewrite B, D. eapply Rle_trans; [apply Rabs_triang|].
    assert (Rabs (IZR i) <= bpow radix2 40) by (rewrite <- abs_IZR; change (bpow radix2 40) with (IZR (2 ^ 40)); apply IZR_le; exact H).
    assert (bpow radix2 40 <= bpow radix2 99) by (apply bpow_le; lia).
    assert (bpow radix2 100 = bpow radix2 99 * 2) by (change 2 with (bpow radix2 1); rewrite <- bpow_plus; reflexivity).
    rewrite (Rabs_pos_eq (/ 2)) by lra. assert (1 <= bpow radix2 99) by (change 1 with (bpow radix2 0); apply bpow_le; lia). lra.
  - split; [exact E|]. rewrite F, B, D. apply (rnd64_exact _ (2 * i + 1) (-1)); [|lia|lia].
    unfold F2R. cbn [Fnum Fexp]. rewrite plus_IZR, mult_IZR. change (bpow radix2 (-1)) with (/ 2). lra.
Qed.
(** one coordinate *)
Lemma roundtrip1 (sc : f64) i : is_finite sc = true -> bpow radix2 (-20) <= B2R sc <= bpow radix2 20 -> (Z.abs i <= 2 ^ 40)%Z ->
  f64_fl (div F64 (pos1 F64 sc i) sc) = i.
Proof.
  intros Fs Hs Hi. destruct (mid_exact i Hi) as (Fm & Em).
  assert (P20 : 0 < bpow radix2 (-20)) by apply bpow_gt_0.
  set (m := IZR i + / 2) in *. set (s := B2R sc) in *.
  assert (Hm : / 2 <= Rabs m <= bpow radix2 40 + 1).
  { split.
    - unfold m. destruct (Z_le_gt_dec 0 i).
      + apply (IZR_le 0) in l. rewrite Rabs_pos_eq; lra.
      + assert (i <= -1)%Z by lia. apply IZR_le in H. rewrite Rabs_left; lra.
    - unfold m. eapply Rle_trans; [apply Rabs_triang|]. rewrite (Rabs_pos_eq (/ 2)) by lra.
      assert (Rabs (IZR i) <= bpow radix2 40) by (rewrite <- abs_IZR; change (bpow radix2 40) with (IZR (2 ^ 40)); apply IZR_le; exact Hi). lra. }
  assert (B40 : bpow radix2 40 + 1 <= bpow radix2 41).
  { replace (bpow radix2 41) with (bpow radix2 40 * 2) by (change 2 with (bpow radix2 1); rewrite <- bpow_plus; reflexivity). assert (1 <= bpow radix2 40) by (change 1 with (bpow radix2 0); apply bpow_le; lia). lra. }
  (* product *)
  assert (Hp : Rabs (s * m) <= bpow radix2 61).
  { rewrite Rabs_mult. rewrite (Rabs_pos_eq s) by lra. replace (bpow radix2 61) with (bpow radix2 20 * bpow radix2 41) by (rewrite <- bpow_plus; reflexivity).
    apply Rmult_le_compat; lra || (try apply Rabs_pos); lra. }
  assert (B61 : bpow radix2 61 <= bpow radix2 100) by (apply bpow_le; lia).
  destruct (f64_mul_R sc (add F64 (ofZ F64 i) (cst F64 1 2)) Fs Fm) as (Fp & Ep); [rewrite Em; fold s m; lra|].
  change (mul F64 sc (add F64 (ofZ F64 i) (cst F64 1 2))) with (pos1 F64 sc i) in Fp, Ep. rewrite Em in Ep. fold s m in Ep.
  pose proof (rnd64_err (s * m)) as Er. rewrite <- Ep in Er. set (p := B2R (pos1 F64 sc i : f64)) in *.
  assert (S0 : s <> 0) by lra.
  set (u := bpow radix2 (-53)) in *. set (v := bpow radix2 (-1075)) in *.
  assert (Hu : 0 < u) by apply bpow_gt_0. assert (Hv : 0 < v) by apply bpow_gt_0.
  assert (Huv : v <= u * bpow radix2 (-20) * / 2).
  { unfold u, v. change (/ 2) with (bpow radix2 (-1)). rewrite <- !bpow_plus. apply bpow_le. lia. }
  assert (Hps : Rabs (p / s - m) <= 2 * u * Rabs m).
  { replace (p / s - m) with ((p - s * m) / s) by (field; lra). unfold Rdiv. rewrite Rabs_mult, Rabs_inv, (Rabs_pos_eq s) by lra.
    apply (Rmult_le_reg_r s); [lra|]. rewrite Rmult_assoc, Rinv_l, Rmult_1_r by lra.
    eapply Rle_trans; [exact Er|]. rewrite Rabs_mult, (Rabs_pos_eq s) by lra.
    assert (v <= s * Rabs m * u).
    { eapply Rle_trans; [exact Huv|]. replace (u * bpow radix2 (-20) * / 2) with ((bpow radix2 (-20) * / 2) * u) by ring.
      apply Rmult_le_compat_r; [lra|]. apply Rmult_le_compat; lra. }
    lra. }
  assert (U1 : u <= / 16 * bpow radix2 (-41)).
  { unfold u. replace (/ 16) with (bpow radix2 (-4)) by (simpl; lra). rewrite <- bpow_plus. apply bpow_le. lia. }
  assert (UM : u * Rabs m <= / 16).
  { apply Rle_trans with (/ 16 * bpow radix2 (-41) * bpow radix2 41).
    - apply Rmult_le_compat; try lra.
    - rewrite Rmult_assoc, <- bpow_plus. simpl. lra. }
  assert (Hq : Rabs (p / s) <= bpow radix2 100).
  { replace (p / s) with (m + (p / s - m)) by ring. eapply Rle_trans; [apply Rabs_triang|].
    assert (bpow radix2 41 + 1 <= bpow radix2 100).
    { replace (bpow radix2 100) with (bpow radix2 41 * bpow radix2 59) by (rewrite <- bpow_plus; reflexivity).
      assert (2 <= bpow radix2 59) by (change 2 with (bpow radix2 1); apply bpow_le; lia).
      assert (1 <= bpow radix2 41) by (change 1 with (bpow radix2 0); apply bpow_le; lia). nra. }
    lra. }
  destruct (f64_div_R (pos1 F64 sc i) sc Fp) as (Fq & Eq); [exact S0|exact Hq|].
  fold p s in Eq. pose proof (rnd64_err (p / s)) as Er2. rewrite <- Eq in Er2. fold u v in Er2.
  rewrite (f64_fl_R _ Fq). apply Zfloor_imp. rewrite plus_IZR.
  set (q := B2R (div F64 (pos1 F64 sc i) sc : f64)) in *.
  assert (Rabs (p / s) <= Rabs m * 2).
  { replace (p / s) with (m + (p / s - m)) by ring. eapply Rle_trans; [apply Rabs_triang|].
    assert (u <= / 16). { unfold u. replace (/ 16) with (bpow radix2 (-4)) by (simpl; lra). apply bpow_le. lia. }
    pose proof (Rabs_pos m). nra. }
  assert (v <= / 16).
  { unfold v. replace (/ 16) with (bpow radix2 (-4)) by (simpl; lra). apply bpow_le. lia. }
  assert (Rabs (p / s) * u <= / 16 * 2) by nra.
  assert (A1 : Rabs (q - p / s) <= / 16 * 3) by lra. assert (A2 : Rabs (p / s - m) <= / 16 * 2) by lra.
  apply Rabs_le_inv in A1. apply Rabs_le_inv in A2. unfold m in *. lra.
Qed.
Lemma roundtrip64 (sc : f64) c : is_finite sc = true -> bpow radix2 (-20) <= B2R sc <= bpow radix2 20 ->
  (Z.abs (cx c) <= 2 ^ 40)%Z -> (Z.abs (cy c) <= 2 ^ 40)%Z -> (Z.abs (cz c) <= 2 ^ 40)%Z ->
  cell_of F64 f64_fl sc (centre F64 sc c) = c.
Proof.
  intros. destruct c as [x y z]. unfold cell_of, centre. cbn [cx cy cz vx vy vz] in *.
  f_equal; apply roundtrip1; auto.
Qed.
