(** The sequence of overestimation factors in doubles. *)
From Coq Require Import ZArith Reals List Bool Lia Lra Psatz.
From Flocq Require Import Core BinarySingleNaN.
From Verif Require Import Num Num64 F64Err CommonModel GpModel GpSearch GpPlan GpSpec GpPlanSpec GpArith GpCostProofs GpPlanProofs.
Import ListNotations.
Local Open Scope R_scope.

Lemma rnd64_le x y : x <= y -> rnd64 x <= rnd64 y.
Proof. apply round_le; typeclasses eauto. Qed.
Lemma rnd64_1 : rnd64 1 = 1.
Proof. apply (rnd64_exact 1 1 0); [rewrite F2R_eq_1 || (unfold F2R; cbn; lra)|lia|lia]. Qed.
Lemma above_one (x : f64) : is_finite x = true -> 1 < B2R x -> 1 + bpow radix2 (-52) <= B2R x.
Proof.
  intros Fx H.
  assert (F1 : generic_format radix2 (FLT_exp (-1074) 53) 1) by (rewrite <- rnd64_1; apply generic_format_round; typeclasses eauto).
  assert (FX : generic_format radix2 (FLT_exp (-1074) 53) (B2R x)) by (apply (generic_format_B2R 53 1024 x)).
  pose proof (succ_le_lt radix2 (FLT_exp (-1074) 53) 1 (B2R x) F1 FX H) as S.
  rewrite succ_eq_pos in S by lra. replace (ulp radix2 (FLT_exp (-1074) 53) 1) with (bpow radix2 (-52)) in S; [exact S|].
  change 1 with (bpow radix2 0) at 1. rewrite ulp_bpow. reflexivity.
Qed.
Lemma lower64 (x : f64) : is_finite x = true -> 1 <= B2R x <= bpow radix2 90 ->
  let y := lower F64 x : f64 in is_finite y = true /\ 1 <= B2R y <= bpow radix2 90 /\ B2R y - 1 <= 9 / 10 * (B2R x - 1).
Proof.
  intros Fx (H1 & H2) y. unfold y, lower.
  destruct (f64_ofZ_R 1) as (F1 & E1); [lia|]. destruct (f64_ofZ_R 4) as (F4 & E4); [lia|].
  assert (P90 : bpow radix2 90 + bpow radix2 90 = bpow radix2 91). { replace 91%Z with (90 + 1)%Z by reflexivity. rewrite bpow_plus. replace (bpow radix2 1) with 2 by (cbn; lra). lra. }
  assert (P91 : bpow radix2 91 <= bpow radix2 100) by (apply bpow_le; lia).
  assert (Q90 : 4 <= bpow radix2 90) by (replace 4 with (bpow radix2 2) by (cbn; lra); apply bpow_le; lia).
  destruct (f64_sub_R x (f64_ofZ 1) Fx F1) as (Fs & Es). { rewrite E1. rewrite Rabs_pos_eq; lra. }
  rewrite E1 in Es. set (s := sub F64 x (ofZ F64 1) : f64). change (sub F64 x (f64_ofZ 1)) with s in Fs, Es.
  assert (S0 : 0 <= B2R s). { rewrite Es. apply round_pos. lra. }
  pose proof (rnd64_err (B2R x - 1)) as Rs. rewrite <- Es, (Rabs_pos_eq (B2R x - 1)) in Rs by lra.
  assert (Hsm : bpow radix2 (-53) <= / 1000 /\ bpow radix2 (-1075) <= bpow radix2 (-53) / 1000).
  { split.
    - replace (/ 1000) with (/ 1000 * 1) by ring. apply Rle_trans with (bpow radix2 (-10)); [apply bpow_le; lia|]. cbn. lra.
    - replace (-1075)%Z with (-53 + -1022)%Z by reflexivity. rewrite bpow_plus. pose proof (bpow_gt_0 radix2 (-53)).
      assert (bpow radix2 (-1022) <= / 1000). { apply Rle_trans with (bpow radix2 (-10)); [apply bpow_le; lia|]. cbn. lra. }
      nra. }
  destruct Hsm as (E53 & E1075). pose proof (bpow_gt_0 radix2 (-53)) as G53. pose proof (bpow_gt_0 radix2 (-1075)) as G1075.
  set (e := bpow radix2 (-53)) in *. set (t := bpow radix2 (-1075)) in *.
  assert (S1 : B2R s <= (B2R x - 1) * (1 + e) + t). { apply Rabs_le_inv in Rs. lra. }
  assert (S2 : B2R s <= bpow radix2 91). { rewrite <- P90. assert ((B2R x - 1) * e <= (B2R x - 1) * / 1000) by (apply Rmult_le_compat_l; lra). lra. }
  destruct (f64_div_R s (f64_ofZ 4) Fs) as (Fd & Ed). { rewrite E4. lra. } { rewrite E4. rewrite Rabs_pos_eq; lra. }
  rewrite E4 in Ed. set (d := div F64 s (ofZ F64 4) : f64). change (div F64 s (f64_ofZ 4)) with d in Fd, Ed.
  assert (D0 : 0 <= B2R d). { rewrite Ed. apply round_pos. lra. }
  pose proof (rnd64_err (B2R s / 4)) as Rd. rewrite <- Ed, (Rabs_pos_eq (B2R s / 4)) in Rd by lra. fold e t in Rd.
  assert (D1 : B2R d <= B2R s / 4 * (1 + e) + t). { apply Rabs_le_inv in Rd. lra. }
  assert (D2 : B2R d + 1 <= bpow radix2 91). { assert (B2R s * e <= B2R s * / 1000) by (apply Rmult_le_compat_l; lra). assert (t <= 1) by lra. assert (8 <= bpow radix2 91) by lra. lra. }
  destruct (f64_add_R d (f64_ofZ 1) Fd F1) as (Fa & Ea). { rewrite E1. rewrite Rabs_pos_eq; lra. }
  rewrite E1 in Ea. change (add F64 d (ofZ F64 1)) with (add F64 d (f64_ofZ 1)). split; [exact Fa|].
  assert (A1 : 1 <= B2R (add F64 d (f64_ofZ 1) : f64)). { rewrite Ea. rewrite <- rnd64_1 at 1. apply rnd64_le. lra. }
  assert (A2 : B2R (add F64 d (f64_ofZ 1) : f64) - 1 <= 9 / 10 * (B2R x - 1)).
  { destruct (Rle_lt_or_eq_dec 1 (B2R x) H1) as [L|L].
    - pose proof (above_one x Fx L) as U. replace (bpow radix2 (-52)) with (2 * e) in U.
      2: { unfold e. replace (-52)%Z with (1 + -53)%Z by reflexivity. rewrite bpow_plus. cbn; lra. }
      pose proof (rnd64_err (B2R d + 1)) as Ra. rewrite <- Ea, (Rabs_pos_eq (B2R d + 1)) in Ra by lra. fold e t in Ra. apply Rabs_le_inv in Ra.
      set (z := B2R x - 1) in *. assert (Z : 2 * e <= z) by (unfold z; lra).
      assert (Z1 : z * e <= z * / 1000) by (apply Rmult_le_compat_l; lra). assert (Z2 : B2R s * e <= B2R s * / 1000) by (apply Rmult_le_compat_l; lra).
      assert (Z3 : B2R d * e <= B2R d * / 1000) by (apply Rmult_le_compat_l; lra). lra.
    - assert (E0 : B2R s = 0). { rewrite Es, <- L, Rminus_diag_eq by reflexivity. apply round_0. typeclasses eauto. }
      assert (E0' : B2R d = 0). { rewrite Ed, E0. unfold Rdiv. rewrite Rmult_0_l. apply round_0. typeclasses eauto. }
      rewrite Ea, E0', Rplus_0_l, rnd64_1. lra. }
  split; [|exact A2]. split; [exact A1|]. lra.
Qed.
Lemma leb64_finite (a b : f64) : is_finite a = true -> is_finite b = true -> (leb F64 a b = true <-> B2R a <= B2R b).
Proof.
  intros Fa Fb. change (leb F64 a b) with (Bleb a b). rewrite (Bleb_correct 53 1024 a b Fa Fb). destruct (Rle_bool_spec (B2R a) (B2R b)); split; intros; try lra; congruence.
Qed.
(** every minimum above 1 is undercut after finitely many reductions *)
Lemma small_64 (P : gcfg F64) : is_finite (min_overestimate P : f64) = true -> 1 < B2R (min_overestimate P : f64) ->
  forall n (x : f64), is_finite x = true -> 1 <= B2R x <= bpow radix2 90 -> (9 / 10) ^ n * (B2R x - 1) < B2R (min_overestimate P : f64) - 1 -> small F64 P n x.
Proof.
  intros Fm Hm. assert (L : forall x : f64, is_finite x = true -> B2R x < B2R (min_overestimate P : f64) -> leb F64 (min_overestimate P) x = false).
  { intros x Fx H. apply not_true_iff_false. rewrite leb64_finite by assumption. lra. }
  induction n as [|n IH]; intros x Fx Hx Hn; cbn [small pow] in *.
  - left. apply L; [exact Fx|lra].
  - right. destruct (lower64 x Fx Hx) as (A & B & D). apply IH; [exact A|exact B|].
    assert (0 <= (9 / 10) ^ n) by (apply pow_le; lra). nra.
Qed.
Lemma pow_small (x e : R) : 0 <= x -> 0 < e -> exists n, (9 / 10) ^ n * x < e.
Proof.
  intros Hx He. destruct (pow_lt_1_zero (9 / 10) ltac:(rewrite Rabs_pos_eq; lra) (e / (x + 1))) as (n & Hn).
  { apply Rmult_lt_0_compat; [exact He|apply Rinv_0_lt_compat; lra]. }
  exists n. specialize (Hn n (le_n _)). rewrite Rabs_pos_eq in Hn by (apply pow_le; lra).
  apply Rmult_lt_compat_r with (r := x + 1) in Hn; [|lra]. replace (e / (x + 1) * (x + 1)) with e in Hn by (field; lra).
  assert (0 < (9 / 10) ^ n) by (apply pow_lt; lra). nra.
Qed.
