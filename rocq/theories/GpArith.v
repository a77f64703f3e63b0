(** What the cost arithmetic of the global planner needs from its number type, and that the reals and the doubles provide it. *)
From Coq Require Import ZArith Reals List Bool Lia Lra.
From Flocq Require Import Core BinarySingleNaN.
From Verif Require Import Num Num64 F64Err CommonModel GpModel GpSearch GpPlan GpSpec.
Import ListNotations.
Local Open Scope R_scope.

Record arith (N : num) (ltinf : N -> bool) := Arith {
  ok : N -> Prop; val : N -> R;
  ar_ltb : forall a b : N, ltb N a b = true <-> ok a /\ ok b /\ val a < val b;
  ar_ltinf : forall a, ltinf a = true -> ok a;
  ar_zero : ok (ofZ N 0) /\ val (ofZ N 0) = 0;
  ar_step : forall d c : N, ok d -> 0 <= val d -> nneg c -> ok (add N d c) -> val d <= val (add N d c);
  ar_ok_l : forall a b : N, ok (add N a b) -> ok a;
  nn_add : forall a b : N, nneg a -> nneg b -> nneg (add N a b);
  nn_mul : forall a b : N, nneg a -> nneg b -> nneg (mul N a b);
  nn_sq : forall a : N, nneg (mul N a a);
  nn_sqrt : forall a : N, nneg (sqrtv N a);
  nn_div : forall (a : N) z, nneg a -> (0 < z)%Z -> nneg (div N a (ofZ N z));
  nn_nan : nneg (nanv N);
  nn_ofZ : nneg (ofZ N 0) /\ nneg (ofZ N 1) /\ nneg (ofZ N 2) /\ nneg (cst N 141 100);
  un_table : forall k, In k alt_prior_table -> unitv (cst N k 10000);
  un_last : unitv (cst N 0 10000);
  nn_post : forall p q : N, unitv p -> unitv q -> nneg (posterior N p q) }.
Arguments ok {N ltinf} _ _.
Arguments val {N ltinf} _ _.

(* ------------------------------------------------------------------------------------------------ the reals *)
Lemma nneg_R (x : Rn) : nneg x <-> 0 <= x.
Proof. unfold nneg. rn. rewrite R_ltb_false. tauto. Qed.
Lemma unitv_R (x : Rn) : unitv x <-> 0 <= x <= 1.
Proof. unfold unitv. rewrite nneg_R. rn. rewrite R_ltb_false. tauto. Qed.
Definition okR (x : Rn) : Prop := True.
Definition valR (x : Rn) : R := x.
Definition anyinf (x : Rn) : bool := true.
Lemma table_range k : In k alt_prior_table -> (0 <= k <= 10000)%Z.
Proof. unfold alt_prior_table. cbn [In]. intros H. repeat destruct H as [<-|H]; try contradiction; lia. Qed.
Lemma ltb_valR (a b : Rn) : ltb Rn a b = true <-> okR a /\ okR b /\ valR a < valR b.
Proof. unfold okR, valR. rn. rewrite R_ltb_true. tauto. Qed.
Definition arithR : arith Rn anyinf.
Proof.
  refine (Arith Rn anyinf okR valR ltb_valR _ _ _ _ _ _ _ _ _ _ _ _ _ _).
  - intros; exact I.
  - split; [exact I|reflexivity].
  - intros d c _ Hd Hc _. apply nneg_R in Hc. unfold valR in *. rn. tR. lra.
  - intros; exact I.
  - intros a b. rewrite !nneg_R. rn. tR. lra.
  - intros a b. rewrite !nneg_R. rn. apply Rmult_le_pos.
  - intros a. rewrite nneg_R. rn. apply Rle_0_sqr.
  - intros a. rewrite nneg_R. rn. apply sqrt_pos.
  - intros a z. rewrite !nneg_R. intros A B. rn. apply Rmult_le_pos; [exact A|]. left. apply Rinv_0_lt_compat. apply IZR_lt. exact B.
  - apply nneg_R. rn. lra.
  - rewrite !nneg_R. rewrite cst_Rn. rn. repeat split; lra.
  - intros k H. apply table_range in H. destruct H as (A & B). apply unitv_R. rewrite cst_Rn. apply IZR_le in A, B. lra.
  - apply unitv_R. rewrite cst_Rn. lra.
  - intros p q. rewrite !unitv_R, nneg_R. intros Hp Hq. unfold posterior. rewrite cst_Rn. rn. tR.
    assert (0 <= p * q) by (apply Rmult_le_pos; lra). assert (0 <= (1 - p) * (1 - q)) by (apply Rmult_le_pos; lra).
    apply Rmult_le_pos; [lra|]. left. apply Rinv_0_lt_compat. lra.
Defined.

(* ------------------------------------------------------------------------------------------------ the doubles *)
Definition ok64 (x : F64) : Prop := is_nan (x : f64) = false.
Definition val64 (x : F64) : R := f64_ext x.
(** x < INFINITY *)
Definition ltinf64 (x : F64) : bool := f64_ltb x f64_inf.
Definition nan_or (Q : R -> Prop) (x : f64) : Prop := is_nan x = true \/ Q (f64_ext x).
Lemma ext_zero : f64_ext (f64_ofZ 0) = 0. Proof. reflexivity. Qed.
Lemma f64_ofZ_1 : f64_ext (f64_ofZ 1) = 1.
Proof. unfold f64_ext. destruct (f64_ofZ_R 1) as (F & E); [lia|]. destruct (f64_ofZ 1); try discriminate; exact E. Qed.
Lemma nneg_64 (x : F64) : nneg x <-> nan_or (fun r => 0 <= r) x.
Proof.
  unfold nneg, nan_or. change (ltb F64 x (ofZ F64 0)) with (f64_ltb x (f64_ofZ 0)).
  split.
  - intros H. destruct (is_nan (x : f64)) eqn:E; [left; reflexivity|right]. destruct (Rle_or_lt 0 (f64_ext x)) as [L|L]; [exact L|].
    assert (f64_ltb x (f64_ofZ 0) = true); [|congruence]. apply f64_ltb_true. split; [exact E|]. split; [reflexivity|]. rewrite ext_zero. exact L.
  - intros H. destruct (f64_ltb x (f64_ofZ 0)) eqn:E; [|reflexivity]. apply f64_ltb_true in E. destruct E as (A & _ & B). rewrite ext_zero in B.
    destruct H as [H|H]; [congruence|lra].
Qed.
Lemma unitv_64 (x : F64) : unitv x <-> nan_or (fun r => 0 <= r <= 1) x.
Proof.
  unfold unitv. rewrite nneg_64. change (ltb F64 (ofZ F64 1) x) with (f64_ltb (f64_ofZ 1) x).
  assert (E : f64_ltb (f64_ofZ 1) x = false <-> nan_or (fun r => r <= 1) x).
  { unfold nan_or. split.
    - intros H. destruct (is_nan (x : f64)) eqn:E; [left; reflexivity|right]. destruct (Rle_or_lt (f64_ext x) 1) as [L|L]; [exact L|].
      assert (f64_ltb (f64_ofZ 1) x = true); [|congruence]. apply f64_ltb_true. split; [reflexivity|]. split; [exact E|]. rewrite f64_ofZ_1. exact L.
    - intros H. destruct (f64_ltb (f64_ofZ 1) x) eqn:E; [|reflexivity]. apply f64_ltb_true in E. destruct E as (_ & A & B). rewrite f64_ofZ_1 in B.
      destruct H as [H|H]; [congruence|lra]. }
  rewrite E. unfold nan_or. split; [intros ([A|A] & [B|B]); auto|intros [A|A]; split; auto; right; lra].
Qed.
Lemma ext_finite (x : f64) : is_finite x = true -> f64_ext x = B2R x.
Proof. destruct x; try discriminate; reflexivity. Qed.
Lemma ext_sign (x : f64) : is_nan x = false -> 0 <= f64_ext x -> Bsign x = false \/ (is_finite x = true /\ B2R x = 0).
Proof.
  intros Hn H. destruct x as [s|s| |s m e p]; try discriminate; [right; split; reflexivity| |].
  - destruct s; [|left; reflexivity]. exfalso. cbn -[bpow] in H. pose proof (bpow_gt_0 radix2 1024). lra.
  - destruct s; [|left; reflexivity]. exfalso.
    assert (B2R (B754_finite true m e p) < 0); [unfold B2R; apply F2R_lt_0; reflexivity|]. change (f64_ext (B754_finite true m e p)) with (B2R (B754_finite true m e p)) in H. lra.
Qed.
Lemma overflow_pos (r : f64) s : B2SF r = binary_overflow 53 1024 mode_NE s -> s = false -> 0 <= f64_ext r.
Proof.
  intros H ->. destruct r as [s'|s'| |s' m e p]; cbn in H; try discriminate. injection H as ->. cbn -[bpow]. pose proof (bpow_gt_0 radix2 1024). lra.
Qed.
Lemma round_pos x : 0 <= x -> 0 <= rnd64 x.
Proof. intros H. rewrite <- (round_0 radix2 (FLT_exp (-1074) 53) ZnearestE). apply round_le; try typeclasses eauto. exact H. Qed.
Lemma fin_nz s m e p : @B2R 53 1024 (B754_finite s m e p) <> 0.
Proof. unfold B2R. intros H. apply eq_0_F2R in H. destruct s; discriminate. Qed.

Lemma Rmult_le_0_aux (a b : R) : a <= 0 -> b <= 0 -> 0 <= a * b.
Proof. intros. replace (a * b) with ((- a) * (- b)) by ring. apply Rmult_le_pos; lra. Qed.

Lemma mul_sign (x y : f64) : (is_nan x = false -> is_nan y = false -> xorb (Bsign x) (Bsign y) = false \/ (is_finite x = true /\ B2R x = 0) \/ (is_finite y = true /\ B2R y = 0)) ->
  nan_or (fun r => 0 <= r) (Bmult mode_NE x y).
Proof.
  intros H. pose proof (bpow_gt_0 radix2 1024) as Hb.
  destruct (is_nan x) eqn:Nx; [destruct x; try discriminate; left; reflexivity|].
  destruct (is_nan y) eqn:Ny; [destruct y; try discriminate; destruct x; left; reflexivity|].
  specialize (H eq_refl eq_refl).
  destruct (is_finite x) eqn:Fx; destruct (is_finite y) eqn:Fy.
  - right. pose proof (Bmult_correct 53 1024 _ _ mode_NE x y) as C.
    assert (Hxy : 0 <= B2R x * B2R y).
    { destruct H as [H|[(_ & H)|(_ & H)]]; [|rewrite H; lra|rewrite H; lra].
      destruct x as [sx|sx| |sx mx ex px]; try discriminate; destruct y as [sy|sy| |sy my ey py]; try discriminate; try (cbn; lra).
      destruct sx, sy; try discriminate H; unfold B2R.
      - apply Rmult_le_0_aux; apply F2R_le_0; cbn; lia.
      - apply Rmult_le_pos; apply F2R_ge_0; cbn; lia. }
    match type of C with if Rlt_bool ?a ?b then _ else _ => destruct (Rlt_bool_spec a b) as [L|L] end.
    + destruct C as (C1 & C2 & _). rewrite Fx, Fy in C2. rewrite (ext_finite _ C2), C1. apply round_pos. exact Hxy.
    + apply (overflow_pos _ _ C). destruct H as [H|[(_ & H)|(_ & H)]]; [exact H| |].
      * exfalso. rewrite H, Rmult_0_l, round_0, Rabs_R0 in L by typeclasses eauto. lra.
      * exfalso. rewrite H, Rmult_0_r, round_0, Rabs_R0 in L by typeclasses eauto. lra.
  - destruct y as [|sy| |]; try discriminate. destruct x as [sx|sx| |sx mx ex px]; try discriminate; [left; reflexivity|].
    right. cbn [Bmult]. assert (E : xorb sx sy = false).
    { destruct H as [H|[(_ & H)|(H & _)]]; [exact H| |discriminate]. exfalso. exact (fin_nz _ _ _ _ H). }
    cbn -[bpow]. rewrite E. lra.
  - destruct x as [|sx| |]; try discriminate. destruct y as [sy|sy| |sy my ey py]; try discriminate; [left; reflexivity|].
    right. cbn [Bmult]. assert (E : xorb sx sy = false).
    { destruct H as [H|[(H & _)|(_ & H)]]; [exact H|discriminate|]. exfalso. exact (fin_nz _ _ _ _ H). }
    cbn -[bpow]. rewrite E. lra.
  - destruct x as [|sx| |]; try discriminate. destruct y as [|sy| |]; try discriminate. right. cbn [Bmult].
    assert (E : xorb sx sy = false) by (destruct H as [H|[(H & _)|(H & _)]]; [exact H|discriminate|discriminate]). cbn -[bpow]. rewrite E. lra.
Qed.

Lemma mul_pos64 (x y : f64) : nan_or (fun r => 0 <= r) x -> nan_or (fun r => 0 <= r) y -> nan_or (fun r => 0 <= r) (Bmult mode_NE x y).
Proof.
  intros [A|A] B; [destruct x; try discriminate; left; reflexivity|].
  destruct B as [B|B]; [destruct y; try discriminate; destruct x; left; reflexivity|].
  apply mul_sign. intros Nx Ny. destruct (ext_sign x Nx A) as [X|X]; [|auto]. destruct (ext_sign y Ny B) as [Y|Y]; [|auto]. left. rewrite X, Y. reflexivity.
Qed.
Lemma sq_pos64 (x : f64) : nan_or (fun r => 0 <= r) (Bmult mode_NE x x).
Proof. apply mul_sign. intros _ _. left. destruct (Bsign x); reflexivity. Qed.
Lemma add_pos64 (x y : f64) : nan_or (fun r => 0 <= r) x -> nan_or (fun r => 0 <= r) y -> nan_or (fun r => 0 <= r) (Bplus mode_NE x y).
Proof.
  intros A B. destruct (is_nan x) eqn:Nx; [destruct x; try discriminate; left; reflexivity|].
  destruct (is_nan y) eqn:Ny; [destruct y; try discriminate; destruct x; left; reflexivity|].
  destruct A as [A|A]; [congruence|]. destruct B as [B|B]; [congruence|].
  destruct (f64_add_mono x y Nx Ny B) as [H|H]; [left; exact H|right]. change (add F64 x y) with (Bplus mode_NE x y) in H. lra.
Qed.
(** adding a positive number to a non-negative one *)
Lemma add_gt64 (x y : f64) : nan_or (fun r => 0 <= r) x -> is_finite y = true -> 0 < B2R y -> nan_or (fun r => 0 < r) (Bplus mode_NE x y).
Proof.
  intros A Fy Hy. pose proof (bpow_gt_0 radix2 1024) as Hb. destruct (is_nan x) eqn:Nx; [destruct x; try discriminate; left; reflexivity|].
  destruct A as [A|A]; [congruence|]. destruct (is_finite x) eqn:Fx.
  - right. rewrite (ext_finite _ Fx) in A. pose proof (Bplus_correct 53 1024 _ _ mode_NE x y Fx Fy) as C.
    match type of C with if Rlt_bool ?a ?b then _ else _ => destruct (Rlt_bool_spec a b) as [L|L] end.
    + destruct C as (C1 & C2 & _). rewrite (ext_finite _ C2), C1. eapply Rlt_le_trans; [exact Hy|].
      rewrite <- (round_generic radix2 (SpecFloat.fexp 53 1024) (round_mode mode_NE) (B2R y)) at 1 by (try typeclasses eauto; apply generic_format_B2R).
      apply round_le; try typeclasses eauto. lra.
    + destruct C as (C1 & C2). assert (Bsign y = false). { destruct y as [s|s| |[|] m e p]; try discriminate; try reflexivity; [cbn in Hy; lra|].
        exfalso. assert (B2R (B754_finite true m e p) < 0); [unfold B2R; apply F2R_lt_0; reflexivity|lra]. }
      rewrite C2, H in C1. destruct (Bplus mode_NE x y) as [s|s| |s m e p]; cbn in C1; try discriminate. injection C1 as ->. exact Hb.
  - destruct x as [|[|]| |]; try discriminate; [exfalso; cbn -[bpow] in A; lra|]. destruct y; try discriminate; right; exact Hb.
Qed.
Lemma div_pos64 (x y : f64) : nan_or (fun r => 0 <= r) x -> nan_or (fun r => 0 < r) y -> nan_or (fun r => 0 <= r) (Bdiv mode_NE x y).
Proof.
  intros A B. pose proof (bpow_gt_0 radix2 1024) as Hb.
  destruct (is_nan x) eqn:Nx; [destruct x; try discriminate; left; reflexivity|].
  destruct (is_nan y) eqn:Ny; [destruct y; try discriminate; destruct x; left; reflexivity|].
  destruct A as [A|A]; [congruence|]. destruct B as [B|B]; [congruence|].
  assert (Sy : Bsign y = false).
  { destruct (ext_sign y Ny ltac:(lra)) as [S|(F & Z)]; [exact S|]. exfalso. rewrite (ext_finite _ F) in B. lra. }
  pose proof (ext_sign x Nx A) as Sx.
  destruct (is_finite x) eqn:Fx; destruct (is_finite y) eqn:Fy.
  - right. rewrite (ext_finite _ Fx) in A. rewrite (ext_finite _ Fy) in B.
    pose proof (Bdiv_correct 53 1024 _ _ mode_NE x y ltac:(lra)) as C.
    match type of C with if Rlt_bool ?a ?b then _ else _ => destruct (Rlt_bool_spec a b) as [L|L] end.
    + destruct C as (C1 & C2 & _). rewrite Fx in C2. rewrite (ext_finite _ C2), C1. apply round_pos.
      apply Rmult_le_pos; [exact A|]. left. apply Rinv_0_lt_compat. exact B.
    + apply (overflow_pos _ _ C). destruct Sx as [S|(_ & Z)]; [rewrite S, Sy; reflexivity|].
      exfalso. rewrite Z in L. unfold Rdiv in L. rewrite Rmult_0_l, round_0, Rabs_R0 in L by typeclasses eauto. lra.
  - destruct y as [|sy| |]; try discriminate. right. destruct x as [sx|sx| |sx mx ex px]; try discriminate; cbn; lra.
  - destruct x as [|sx| |]; try discriminate. destruct Sx as [S|(S & _)]; [|discriminate]. cbn [Bsign] in S.
    destruct y as [sy|sy| |sy my ey py]; try discriminate.
    + exfalso. cbn in B. lra.
    + right. cbn [Bdiv]. cbn [Bsign] in Sy. rewrite S, Sy. cbn -[bpow]. lra.
  - destruct x as [|sx| |]; try discriminate. destruct y as [|sy| |]; try discriminate. left. reflexivity.
Qed.
Lemma sqrt_pos64 (x : f64) : nan_or (fun r => 0 <= r) (Bsqrt mode_NE x).
Proof.
  pose proof (bpow_gt_0 radix2 1024) as Hb. destruct x as [s|[|]| |[|] m e p]; try (left; reflexivity); try (right; cbn -[bpow]; lra).
  right. destruct (Bsqrt_correct 53 1024 _ _ mode_NE (B754_finite false m e p)) as (C1 & C2 & _).
  assert (F : is_finite (Bsqrt mode_NE (B754_finite false m e p)) = true) by exact C2. rewrite (ext_finite _ F), C1. apply round_pos. apply sqrt_pos.
Qed.
Lemma ofZ_pos64 z : (0 < z)%Z -> nan_or (fun r => 0 < r) (f64_ofZ z).
Proof.
  intros Hz. right. unfold f64_ofZ. pose proof (binary_normalize_correct 53 1024 _ _ mode_NE z 0 false) as C.
  assert (E : F2R (Float radix2 z 0) = IZR z) by (unfold F2R; simpl; ring). cbv zeta in C. rewrite E in C.
  assert (H1 : 1 <= IZR z) by (apply IZR_le; lia). pose proof (bpow_gt_0 radix2 1024) as Hb.
  match type of C with if Rlt_bool ?a ?b then _ else _ => destruct (Rlt_bool_spec a b) as [L|L] end.
  - destruct C as (C1 & C2 & _). rewrite (ext_finite _ C2), C1. apply Rlt_le_trans with 1; [lra|].
    apply round_ge_generic; try typeclasses eauto; [|exact H1]. change 1 with (bpow radix2 0). apply generic_format_bpow. unfold FLT_exp. cbn. lia.
  - assert (S : Rlt_bool (IZR z) 0 = false) by (apply Rlt_bool_false; lra). rewrite S in C.
    destruct (binary_normalize 53 1024 _ _ mode_NE z 0 false) as [s|s| |s m e p]; cbn in C; try discriminate. injection C as ->. exact Hb.
Qed.
Lemma one_minus64 (p : f64) : nan_or (fun r => 0 <= r <= 1) p -> nan_or (fun r => 0 <= r) (Bminus mode_NE (f64_ofZ 1) p).
Proof.
  intros [A|A]; [destruct p; try discriminate; left; reflexivity|]. pose proof (bpow_gt_0 radix2 1024) as Hb.
  assert (B1 : 1 < bpow radix2 1024) by (change 1 with (bpow radix2 0); apply bpow_lt; lia).
  assert (Fp : is_finite p = true \/ is_nan p = true).
  { destruct p as [|[|]| |]; auto; exfalso; cbn -[bpow] in A; lra. }
  destruct Fp as [Fp|Np]; [|destruct p; try discriminate; left; reflexivity]. right. rewrite (ext_finite _ Fp) in A.
  destruct (f64_ofZ_R 1) as (F1 & E1); [lia|].
  destruct (f64_sub_R (f64_ofZ 1) p F1 Fp) as (C1 & C2).
  { rewrite E1. rewrite Rabs_pos_eq by lra. apply Rle_trans with 1; [lra|]. change 1 with (bpow radix2 0). apply bpow_le. lia. }
  change (sub F64 (f64_ofZ 1) p) with (Bminus mode_NE (f64_ofZ 1) p) in *. rewrite (ext_finite _ C1), C2, E1. apply round_pos. lra.
Qed.
Lemma post64 (p q : F64) : unitv p -> unitv q -> nneg (posterior F64 p q).
Proof.
  rewrite !unitv_64, nneg_64. intros Hp Hq. unfold posterior. cbv zeta.
  assert (W : forall x : f64, nan_or (fun r => 0 <= r <= 1) x -> nan_or (fun r => 0 <= r) x) by (intros x [H|H]; [left; exact H|right; lra]).
  assert (A : nan_or (fun r => 0 <= r) (mul F64 p q : f64)) by (apply mul_pos64; apply W; assumption).
  apply div_pos64; [exact A|]. apply add_gt64.
  - apply add_pos64; [exact A|]. apply mul_pos64; apply one_minus64; assumption.
  - vm_compute. reflexivity.
  - rewrite <- SF2R_B2SF. replace (B2SF (cst F64 1 10000 : f64)) with (SpecFloat.S754_finite false 7378697629483821 (-66)) by (vm_compute; reflexivity).
    unfold SF2R. apply F2R_gt_0. reflexivity.
Qed.
Definition arith64 : arith F64 ltinf64.
Proof.
  refine (Arith F64 ltinf64 ok64 val64 _ _ _ _ _ _ _ _ _ _ _ _ _ _ _).
  - intros a b. apply f64_ltb_true.
  - intros a H. apply f64_ltb_true in H. apply H.
  - split; reflexivity.
  - intros d c Hd H0 Hc Ho. apply nneg_64 in Hc. unfold ok64, val64 in *. destruct (is_nan (c : f64)) eqn:Nc.
    + exfalso. destruct (c : f64); try discriminate. destruct (d : f64); discriminate.
    + destruct Hc as [Hc|Hc]; [congruence|]. destruct (f64_add_mono d c Hd Nc Hc) as [H|H]; [congruence|exact H].
  - intros a b H. unfold ok64 in *. destruct (a : f64); try reflexivity. discriminate.
  - intros a b. rewrite !nneg_64. apply add_pos64.
  - intros a b. rewrite !nneg_64. apply mul_pos64.
  - intros a. rewrite nneg_64. apply sq_pos64.
  - intros a. rewrite nneg_64. apply sqrt_pos64.
  - intros a z. rewrite !nneg_64. intros A B. apply div_pos64; [exact A|apply ofZ_pos64; exact B].
  - reflexivity.
  - repeat split; vm_compute; reflexivity.
  - intros k H. unfold alt_prior_table in H. cbn [In] in H. repeat destruct H as [<-|H]; try contradiction; split; vm_compute; reflexivity.
  - split; vm_compute; reflexivity.
  - exact post64.
Defined.
