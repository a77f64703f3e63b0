(** Averaging four copies of a binary32 value gives the value back. *)
From Coq Require Import ZArith Reals Lia Lra Bool.
From Flocq Require Import Core BinarySingleNaN.
From Verif Require Import Num Mat CommonModel HistModel HistProofs F32Err.
Local Open Scope R_scope.

Notation fmt := (generic_format radix2 (FLT_exp (-149) 24)).

(** rounding of an integer multiple of 2^e with 24+k significant bits *)
Lemma rnd_int n e k : (0 <= k)%Z -> (-149 <= e)%Z -> (2 ^ (23 + k) <= Z.abs n < 2 ^ (24 + k))%Z ->
  rnd (IZR n * bpow radix2 e) = IZR (ZnearestE (IZR n * bpow radix2 (- k))) * bpow radix2 (e + k).
Proof.
  intros Hk He Hn.
  assert (M : mag radix2 (IZR n * bpow radix2 e) = (24 + k + e)%Z :> Z).
  { rewrite mag_mult_bpow by (apply not_0_IZR; intros ->; pose proof (Z.pow_pos_nonneg 2 (23 + k) ltac:(lia) ltac:(lia)); lia).
    replace (24 + k + e)%Z with ((24 + k) + e)%Z by lia. f_equal. apply mag_unique.
    rewrite <- abs_IZR. rewrite <- !IZR_Zpower by lia. cbn [radix_val radix2].
    replace (24 + k - 1)%Z with (23 + k)%Z by lia. split; [apply IZR_le; apply Hn|apply IZR_lt; apply Hn]. }
  unfold round, scaled_mantissa, cexp. rewrite M. unfold FLT_exp.
  replace (Z.max (24 + k + e - 24) (-149)) with (e + k)%Z by lia. unfold F2R. cbn [Fnum Fexp].
  f_equal. f_equal. f_equal. rewrite Rmult_assoc, <- bpow_plus. f_equal. f_equal. lia.
Qed.

Lemma half_pow k : bpow radix2 (- k) = / bpow radix2 k. Proof. apply bpow_opp. Qed.

(** ZnearestE on halves and quarters *)
Lemma ZnE_unique x n : Rabs (x - IZR n) < / 2 -> ZnearestE x = n.
Proof. apply Znearest_imp. Qed.
Lemma ZnE_tie n : (Z.even n = true -> ZnearestE (IZR n + / 2) = n) /\
                  (Z.even n = true -> ZnearestE (IZR n - / 2) = n).
Proof.
  split; intros H.
  - unfold ZnearestE, Znearest.
    assert (F : Zfloor (IZR n + / 2) = n) by (apply Zfloor_imp; rewrite plus_IZR; lra).
    rewrite F. rewrite Rcompare_Eq by lra. now rewrite H.
  - unfold ZnearestE, Znearest.
    assert (F : Zfloor (IZR n - / 2) = (n - 1)%Z) by (apply Zfloor_imp; rewrite plus_IZR, minus_IZR; lra).
    rewrite F. rewrite minus_IZR, Rcompare_Eq by lra.
    assert (Ev : Z.even (n - 1) = false) by (rewrite Z.even_sub, H; reflexivity). rewrite Ev. cbn [negb].
    apply Zceil_imp. rewrite minus_IZR; lra.
Qed.

Lemma fmt_int n e : (Z.abs n <= 2 ^ 24)%Z -> (-149 <= e)%Z -> fmt (IZR n * bpow radix2 e).
Proof.
  intros Hn He. destruct (Z.eq_dec (Z.abs n) (2 ^ 24)) as [E|E].
  - assert (D : IZR n * bpow radix2 e = IZR (n / 2) * bpow radix2 (e + 1)).
    { assert (n = 2 * (n / 2))%Z by (destruct (Z.abs_spec n) as [(_ & A)|(_ & A)]; assert (n = 2 ^ 24 \/ n = - 2 ^ 24)%Z as [->| ->] by lia; reflexivity).
      rewrite bpow_plus. rewrite H at 1. rewrite mult_IZR. change (bpow radix2 1) with 2. ring. }
    rewrite D. apply generic_format_FLT. exists (Float radix2 (n / 2) (e + 1)); cbn [Fnum Fexp]; try lia; [reflexivity|].
    change (radix_val radix2 ^ 24)%Z with (2 ^ 24)%Z.
    assert (n = 2 ^ 24 \/ n = - 2 ^ 24)%Z as [->| ->] by lia; reflexivity.
  - apply generic_format_FLT. exists (Float radix2 n e); cbn [Fnum Fexp]; [reflexivity| |lia].
    change (radix_val radix2 ^ 24)%Z with (2 ^ 24)%Z. lia.
Qed.
Lemma rnd_fmt x : fmt x -> rnd x = x.
Proof. apply round_generic. apply valid_rnd_N. Qed.

Lemma ZnearestE_int_half a : (* a/2 *)
  exists q, ZnearestE (IZR a * bpow radix2 (- (1))) = q /\ (Z.abs (2 * q - a) <= 1)%Z.
Proof.
  eexists. split; [reflexivity|]. change (bpow radix2 (- (1))) with (/ 2).
  pose proof (Znearest_half (fun t => negb (Z.even t)) (IZR a * / 2)) as H. fold ZnearestE in H.
  set (q := ZnearestE (IZR a * / 2)) in *.
  apply le_IZR. rewrite abs_IZR, minus_IZR, mult_IZR.
  replace (2 * IZR q - IZR a) with (- (2 * (IZR a * / 2 - IZR q))) by lra.
  rewrite Rabs_Ropp, Rabs_mult, (Rabs_pos_eq 2) by lra. lra.
Qed.
Lemma ZnearestE_int_quarter a : (* a/4 *)
  exists q, ZnearestE (IZR a * bpow radix2 (- (2))) = q /\ (Z.abs (4 * q - a) <= 2)%Z.
Proof.
  eexists. split; [reflexivity|]. change (bpow radix2 (- (2))) with (/ 4).
  pose proof (Znearest_half (fun t => negb (Z.even t)) (IZR a * / 4)) as H. fold ZnearestE in H.
  set (q := ZnearestE (IZR a * / 4)) in *.
  apply le_IZR. rewrite abs_IZR, minus_IZR, mult_IZR.
  replace (4 * IZR q - IZR a) with (- (4 * (IZR a * / 4 - IZR q))) by lra.
  rewrite Rabs_Ropp, Rabs_mult, (Rabs_pos_eq 4) by lra. lra.
Qed.

Lemma rnd_3_4 m e : (-149 <= e)%Z -> (Z.abs m < 2 ^ 24)%Z ->
  rnd (rnd (IZR (3 * m) * bpow radix2 e) + IZR m * bpow radix2 e) = IZR (4 * m) * bpow radix2 e.
Proof.
  intros He Hm.
  assert (F4 : fmt (IZR (4 * m) * bpow radix2 e)).
  { replace (IZR (4 * m) * bpow radix2 e) with (IZR m * bpow radix2 (e + 2)).
    apply fmt_int; lia. rewrite bpow_plus, mult_IZR. change (bpow radix2 2) with 4. ring. }
  destruct (Z.le_gt_cases (Z.abs (3 * m)) (2 ^ 24)) as [L|G].
  { rewrite (rnd_fmt (IZR (3 * m) * bpow radix2 e)) by (apply fmt_int; lia).
    replace (IZR (3 * m) * bpow radix2 e + IZR m * bpow radix2 e) with (IZR (4 * m) * bpow radix2 e).
    now apply rnd_fmt. rewrite !mult_IZR. ring. }
  assert (Sum : forall q c, IZR q * bpow radix2 (e + c) * 1 + IZR m * bpow radix2 e =
    (IZR q * bpow radix2 c + IZR m) * bpow radix2 e) by (intros; rewrite bpow_plus; ring).
  assert (P24 : (2 ^ 24 = 16777216)%Z) by reflexivity.
  destruct (Z.lt_ge_cases (Z.abs (3 * m)) (2 ^ 25)) as [L2|G2].
  - rewrite (rnd_int (3 * m) e 1); [|lia|lia|change (2 ^ (23 + 1))%Z with (2 ^ 24)%Z; change (2 ^ (24 + 1))%Z with (2 ^ 25)%Z; lia].
    destruct (ZnearestE_int_half (3 * m)) as (q & -> & Hq).
    specialize (Sum q 1%Z). rewrite Rmult_1_r in Sum. rewrite Sum.
    replace (IZR q * bpow radix2 1 + IZR m) with (IZR (2 * q + m)) by (rewrite plus_IZR, mult_IZR; change (bpow radix2 1) with 2; ring).
    set (n := (2 * q + m)%Z). assert (Dn : (n - 4 * m = 2 * q - 3 * m)%Z) by (unfold n; ring).
    set (d := (2 * q - 3 * m)%Z) in *. assert (Hd : (Z.abs d <= 1)%Z) by exact Hq. assert (Hn : n = (4 * m + d)%Z) by lia.
    assert (P25 : (2 ^ 25 = 33554432)%Z) by reflexivity. assert (P26 : (2 ^ 26 = 67108864)%Z) by reflexivity.
    destruct (Z.eq_dec d 0) as [Z0|NZ].
    { rewrite Hn, Z0, Z.add_0_r. now apply rnd_fmt. }
    destruct (Z.lt_ge_cases (Z.abs n) (2 ^ 25)) as [A|A].
    + rewrite (rnd_int n e 1); [|lia|lia|change (2 ^ (23 + 1))%Z with (2 ^ 24)%Z; change (2 ^ (24 + 1))%Z with (2 ^ 25)%Z; lia].
      assert (Q : ZnearestE (IZR n * bpow radix2 (-(1))) = (2 * m)%Z).
      { change (bpow radix2 (-(1))) with (/ 2).
        assert (Ev : Z.even (2 * m) = true) by (rewrite Z.even_mul; reflexivity).
        destruct (ZnE_tie (2 * m)) as (T1 & T2).
        assert (d = 1 \/ d = -1)%Z as [D|D] by lia; rewrite Hn, D.
        - replace (IZR (4 * m + 1) * / 2) with (IZR (2 * m) + / 2) by (rewrite plus_IZR, !mult_IZR; lra). auto.
        - replace (IZR (4 * m + -1) * / 2) with (IZR (2 * m) - / 2) by (rewrite plus_IZR, !mult_IZR; lra). auto. }
      rewrite Q, bpow_plus, !mult_IZR. change (bpow radix2 1) with 2. ring.
    + rewrite (rnd_int n e 2); [|lia|lia|change (2 ^ (23 + 2))%Z with (2 ^ 25)%Z; change (2 ^ (24 + 2))%Z with (2 ^ 26)%Z; lia].
      assert (Q : ZnearestE (IZR n * bpow radix2 (-(2))) = m).
      { change (bpow radix2 (-(2))) with (/ 4). apply ZnE_unique. rewrite Hn, plus_IZR, mult_IZR.
        replace ((4 * IZR m + IZR d) * / 4 - IZR m) with (IZR d * / 4) by lra.
        rewrite Rabs_mult, <- abs_IZR, (Rabs_pos_eq (/ 4)) by lra. apply IZR_le in Hd. lra. }
      rewrite Q, bpow_plus, !mult_IZR. change (bpow radix2 2) with 4. ring.
  - rewrite (rnd_int (3 * m) e 2); [|lia|lia|change (2 ^ (23 + 2))%Z with (2 ^ 25)%Z; change (2 ^ (24 + 2))%Z with (2 ^ 26)%Z; lia].
    destruct (ZnearestE_int_quarter (3 * m)) as (q & -> & Hq).
    specialize (Sum q 2%Z). rewrite Rmult_1_r in Sum. rewrite Sum.
    replace (IZR q * bpow radix2 2 + IZR m) with (IZR (4 * q + m)) by (rewrite plus_IZR, mult_IZR; change (bpow radix2 2) with 4; ring).
    set (n := (4 * q + m)%Z). assert (Dn : (n - 4 * m = 4 * q - 3 * m)%Z) by (unfold n; ring).
    set (d := (4 * q - 3 * m)%Z) in *. assert (Hd : (Z.abs d <= 2)%Z) by exact Hq. assert (Hn : n = (4 * m + d)%Z) by lia.
    assert (P25 : (2 ^ 25 = 33554432)%Z) by reflexivity. assert (P26 : (2 ^ 26 = 67108864)%Z) by reflexivity.
    rewrite (rnd_int n e 2); [|lia|lia|change (2 ^ (23 + 2))%Z with (2 ^ 25)%Z; change (2 ^ (24 + 2))%Z with (2 ^ 26)%Z; lia].
    assert (Q : ZnearestE (IZR n * bpow radix2 (-(2))) = m).
    { change (bpow radix2 (-(2))) with (/ 4).
      destruct (Z.eq_dec (Z.abs d) 2) as [E2|E2].
      - assert (Ev : Z.even m = true).
        { assert (m = 2 * (if Z.eq_dec d 2 then (2 * q - 1 - m) else (2 * q + 1 - m)))%Z.
          { destruct (Z.eq_dec d 2); unfold d in *; lia. }
          rewrite H, Z.even_mul. reflexivity. }
        destruct (ZnE_tie m) as (T1 & T2).
        assert (d = 2 \/ d = -2)%Z as [D|D] by lia; rewrite Hn, D.
        + replace (IZR (4 * m + 2) * / 4) with (IZR m + / 2) by (rewrite plus_IZR, !mult_IZR; lra). auto.
        + replace (IZR (4 * m + -2) * / 4) with (IZR m - / 2) by (rewrite plus_IZR, !mult_IZR; lra). auto.
      - assert (Hd' : (Z.abs d <= 1)%Z) by lia. apply ZnE_unique. rewrite Hn, plus_IZR, mult_IZR.
        replace ((4 * IZR m + IZR d) * / 4 - IZR m) with (IZR d * / 4) by lra.
        rewrite Rabs_mult, <- abs_IZR, (Rabs_pos_eq (/ 4)) by lra. apply IZR_le in Hd'. lra. }
    rewrite Q, bpow_plus, !mult_IZR. change (bpow radix2 2) with 4. ring.
Qed.

Lemma mean4_F32 (v : F32) : (is_finite (v : f32) = true -> Rabs (B2R (v : f32)) <= bpow radix2 90) ->
  div F32 (add F32 (add F32 (add F32 v v) v) v) (ofZ F32 4) = v.
Proof.
  intros Hb. destruct (is_finite (v : f32)) eqn:Fv.
  - specialize (Hb eq_refl). destruct (is_finite_strict (v : f32)) eqn:Fs.
    2:{ destruct (v : f32) as [s| | |]; try discriminate. destruct s; vm_compute; reflexivity. }
    assert (X : exists m e, B2R (v : f32) = IZR m * bpow radix2 e /\ (-149 <= e)%Z /\ (Z.abs m < 2 ^ 24)%Z /\ (m <> 0)%Z).
    { pose proof (generic_format_B2R 24 128 v) as G. change (SpecFloat.fexp 24 128) with (FLT_exp (-149) 24) in G.
      apply FLT_format_generic in G; [|reflexivity]. destruct G as [[m e] E1 E2 E3]. cbn [Fnum Fexp] in *.
      exists m, e. unfold F2R in E1. cbn [Fnum Fexp] in E1. repeat split; try assumption.
      intros ->. rewrite Rmult_0_l in E1. destruct (v : f32); try discriminate.
      cbn [B2R] in E1. apply eq_0_F2R in E1. cbn in E1. destruct s; discriminate. }
    destruct X as (m & e & E & He & Hm & Hm0).
    assert (F2 : fmt (IZR (2 * m) * bpow radix2 e)).
    { replace (IZR (2 * m) * bpow radix2 e) with (IZR m * bpow radix2 (e + 1)).
      apply fmt_int; lia. rewrite bpow_plus, mult_IZR. change (bpow radix2 1) with 2. ring. }
    assert (B2 : 2 * bpow radix2 90 = bpow radix2 91) by (replace 2 with (bpow radix2 1) by (simpl; lra); rewrite <- bpow_plus; reflexivity).
    assert (B4 : 4 * bpow radix2 90 = bpow radix2 92) by (replace 4 with (bpow radix2 2) by (simpl; lra); rewrite <- bpow_plus; reflexivity).
    assert (B8 : 8 * bpow radix2 90 = bpow radix2 93) by (replace 8 with (bpow radix2 3) by (simpl; lra); rewrite <- bpow_plus; reflexivity).
    assert (B100 : bpow radix2 93 <= bpow radix2 100) by (apply bpow_le; lia).
    pose proof (bpow_ge_0 radix2 90) as B0.
    apply Rabs_le_inv in Hb.
    assert (S1 : Rabs (B2R (v : f32) + B2R (v : f32)) <= bpow radix2 100) by (apply Rabs_le; lra).
    destruct (f32_add_R v v Fv Fv S1) as (Fin1 & V1).
    assert (V1' : B2R (add F32 v v : f32) = IZR (2 * m) * bpow radix2 e).
    { rewrite V1, E. replace (IZR m * bpow radix2 e + IZR m * bpow radix2 e) with (IZR (2 * m) * bpow radix2 e) by (rewrite mult_IZR; ring). now apply rnd_fmt. }
    assert (T : B2R (add F32 v v : f32) = 2 * B2R (v : f32)) by (rewrite V1', E, mult_IZR; ring).
    assert (S2 : Rabs (B2R (add F32 v v : f32) + B2R (v : f32)) <= bpow radix2 100) by (apply Rabs_le; lra).
    destruct (f32_add_R (add F32 v v) v Fin1 Fv S2) as (Fin2 & V2).
    assert (V2' : B2R (add F32 (add F32 v v) v : f32) = rnd (IZR (3 * m) * bpow radix2 e)).
    { rewrite V2, V1', E. f_equal. rewrite !mult_IZR. ring. }
    assert (Er : Rabs (rnd (IZR (3 * m) * bpow radix2 e) - IZR (3 * m) * bpow radix2 e) <= bpow radix2 90 * 3 + 1).
    { apply Rle_trans with (1 := rnd_err _). destruct bpow_small as (P1 & P2 & P3 & P4).
      assert (Rabs (IZR (3 * m) * bpow radix2 e) <= 3 * bpow radix2 90).
      { replace (IZR (3 * m) * bpow radix2 e) with (3 * B2R (v : f32)) by (rewrite E, mult_IZR; ring). apply Rabs_le; lra. }
      pose proof (Rabs_pos (IZR (3 * m) * bpow radix2 e)). nra. }
    assert (1 <= bpow radix2 90) by (change 1 with (bpow radix2 0); apply bpow_le; lia).
    apply Rabs_le_inv in Er.
    assert (E3 : IZR (3 * m) * bpow radix2 e = 3 * B2R (v : f32)) by (rewrite E, mult_IZR; ring).
    assert (S3 : Rabs (B2R (add F32 (add F32 v v) v : f32) + B2R (v : f32)) <= bpow radix2 100) by (apply Rabs_le; lra).
    destruct (f32_add_R (add F32 (add F32 v v) v) v Fin2 Fv S3) as (Fin3 & V3).
    assert (V3' : B2R (add F32 (add F32 (add F32 v v) v) v : f32) = 4 * B2R (v : f32)).
    { rewrite V3, V2', E, rnd_3_4 by assumption. rewrite mult_IZR. ring. }
    assert (F4 : is_finite (ofZ F32 4 : f32) = true) by reflexivity.
    assert (V4 : B2R (ofZ F32 4 : f32) = 4).
    { unfold B2R. vm_compute. lra. }
    destruct (f32_div_R (add F32 (add F32 (add F32 v v) v) v) (ofZ F32 4) Fin3) as (Fin & V).
    { rewrite V4. lra. }
    { rewrite V3', V4. apply Rabs_le; lra. }
    rewrite V3', V4 in V. replace (4 * B2R (v : f32) / 4) with (B2R (v : f32)) in V by field.
    rewrite (rnd_fmt (B2R (v : f32))) in V.
    2:{ pose proof (generic_format_B2R 24 128 v) as G. exact G. }
    assert (NZ : B2R (v : f32) <> 0).
    { rewrite E. intros Z0. apply Rmult_integral in Z0. destruct Z0 as [Z0|Z0]; [apply eq_IZR in Z0; contradiction|].
      pose proof (bpow_gt_0 radix2 e). lra. }
    apply B2R_inj; [| exact Fs | exact V].
    assert (I : forall w : f32, is_finite w = true -> B2R w <> 0 -> is_finite_strict w = true).
    { intros [s| | |]; cbn; intros; try discriminate; try reflexivity. congruence. }
    apply I; [exact Fin|]. rewrite V. exact NZ.
  - destruct (v : f32) as [s|s| |s mm ee]; try discriminate; [destruct s|]; vm_compute; reflexivity.
Qed.

Lemma up_down_F32 (h : hist F32) : reachable F32 h -> h_res h = 12%Z ->
  (forall i j (v : f32), h_get F32 h i j = Some (v : F32) -> is_finite v = true -> Rabs (B2R v) <= bpow radix2 90) ->
  exists h1 h2, h_upsample F32 h = Some (Ok h1) /\ h_downsample F32 h1 = Some (Ok h2) /\ h_res h2 = 12%Z /\
    forall i j, h_get F32 h2 i j = h_get F32 h i j.
Proof. intros HR Hr Hb. apply up_down_gen; try assumption. intros i j v G. apply mean4_F32. intros Fi. eapply Hb; eauto. Qed.
