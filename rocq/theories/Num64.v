(** IEEE-754 binary64 instance of the number interface (C++ [double]), executable (Flocq). *)
From Coq Require Import ZArith Reals Bool Lia.
From Flocq Require Import Core BinarySingleNaN.
From Verif Require Import Num.

Definition f64 := binary_float 53 1024.
Lemma prec53 : Prec_gt_0 53. Proof. reflexivity. Qed.
Lemma emax1024 : Prec_lt_emax 53 1024. Proof. reflexivity. Qed.
#[global] Existing Instance prec53.
#[global] Existing Instance emax1024.

Definition f64_ofZ (z : Z) : f64 := binary_normalize 53 1024 _ _ mode_NE z 0 false.
Definition f64_me (m e : Z) : f64 := binary_normalize 53 1024 _ _ mode_NE m e false.
Definition f64_ltb (x y : f64) : bool := match Bcompare x y with Some Lt => true | _ => false end.
Definition f64_leb (x y : f64) : bool := match Bcompare x y with Some Lt | Some Eq => true | _ => false end.
Definition f64_eqb (x y : f64) : bool := match Bcompare x y with Some Eq => true | _ => false end.
Definition f64_inf : f64 := B754_infinity false.
(** static_cast<int>(std::floor(x)), static_cast<int>(std::ceil(x)), static_cast<int>(std::round(x)) when representable *)
Definition f64_fl (x : f64) : Z := Btrunc (Bnearbyint mode_DN x).
Definition f64_cl (x : f64) : Z := Btrunc (Bnearbyint mode_UP x).
Definition f64_rnd (x : f64) : Z := Btrunc (Bnearbyint mode_NA x).

Definition F64 : num := {|
  T := f64;
  ofZ := f64_ofZ;
  add := @Bplus 53 1024 _ _ mode_NE;
  sub := @Bminus 53 1024 _ _ mode_NE;
  mul := @Bmult 53 1024 _ _ mode_NE;
  div := @Bdiv 53 1024 _ _ mode_NE;
  opp := @Bopp 53 1024;
  absv := @Babs 53 1024;
  floorv := @Bnearbyint 53 1024 _ mode_DN;
  sqrtv := @Bsqrt 53 1024 _ _ mode_NE;
  fmodv := fun x _ => x;               (* not used by any double code modelled here *)
  ltb := f64_ltb;
  leb := f64_leb;
  eqb := f64_eqb;
  finiteb := @is_finite 53 1024;
  nanv := B754_nan;
  pif := f64_me 7074237752028440 (-51);   (* M_PI *)
  flt_min := f64_me 1 (-1022);
  flt_eps := f64_me 1 (-52);
|}.

(** Order of binary64 values (infinities included) embedded in the reals. *)
Definition f64_ext (x : f64) : R :=
  match x with
  | B754_infinity true => (- bpow radix2 1024)%R
  | B754_infinity false => bpow radix2 1024
  | _ => B2R x
  end.
Lemma f64_bound (z : f64) : (- bpow radix2 1024 < B2R z < bpow radix2 1024)%R.
Proof. apply Rabs_lt_inv. apply abs_B2R_lt_emax. Qed.
Lemma f64_compare_ext (x y : f64) :
  is_nan x = false -> is_nan y = false -> Bcompare x y = Some (Rcompare (f64_ext x) (f64_ext y)).
Proof.
  intros Hx Hy.
  assert (Hp : (0 < bpow radix2 1024)%R) by apply bpow_gt_0.
  destruct (is_finite x) eqn:Fx; destruct (is_finite y) eqn:Fy.
  - rewrite (Bcompare_correct 53 1024 _ _ Fx Fy).
    destruct x; try discriminate; destruct y; try discriminate; reflexivity.
  - pose proof (f64_bound x) as Bx.
    destruct y as [| sy | |]; try discriminate.
    destruct x as [sx| | |sx mx ex px]; try discriminate; destruct sy; cbn -[bpow B2R] in *.
    + rewrite Rcompare_Gt; [reflexivity| lra].
    + rewrite Rcompare_Lt; [reflexivity| lra].
    + rewrite Rcompare_Gt; [destruct sx; reflexivity| lra].
    + rewrite Rcompare_Lt; [destruct sx; reflexivity| lra].
  - pose proof (f64_bound y) as By.
    destruct x as [| sx | |]; try discriminate.
    destruct y as [sy| | |sy my ey py]; try discriminate; destruct sx; cbn -[bpow B2R] in *.
    + rewrite Rcompare_Lt; [reflexivity| lra].
    + rewrite Rcompare_Gt; [reflexivity| lra].
    + rewrite Rcompare_Lt; [destruct sy; reflexivity| lra].
    + rewrite Rcompare_Gt; [destruct sy; reflexivity| lra].
  - destruct x as [| sx | |]; try discriminate. destruct y as [| sy | |]; try discriminate.
    destruct sx, sy; cbn -[bpow].
    + rewrite Rcompare_Eq; reflexivity.
    + rewrite Rcompare_Lt; [reflexivity| lra].
    + rewrite Rcompare_Gt; [reflexivity| lra].
    + rewrite Rcompare_Eq; reflexivity.
Qed.
Lemma f64_ltb_true (x y : f64) :
  f64_ltb x y = true <-> is_nan x = false /\ is_nan y = false /\ (f64_ext x < f64_ext y)%R.
Proof.
  unfold f64_ltb. destruct (is_nan x) eqn:Nx.
  - destruct x; try discriminate. cbn. split; [discriminate| intros (A & _); discriminate].
  - destruct (is_nan y) eqn:Ny.
    + destruct y; try discriminate. destruct x; cbn; (split; [discriminate| intros (_ & A & _); discriminate]).
    + rewrite f64_compare_ext by assumption.
      destruct (Rcompare_spec (f64_ext x) (f64_ext y)); split; intros; try discriminate; try reflexivity;
        try (destruct H0 as (_ & _ & ?); lra); auto.
Qed.

(** x + c >= x when c >= 0 (and the sum is not NaN) *)
Lemma f64_add_mono (x c : f64) :
  is_nan x = false -> is_nan c = false -> (0 <= f64_ext c)%R ->
  is_nan (add F64 x c) = true \/ (f64_ext x <= f64_ext (add F64 x c))%R.
Proof.
  intros Nx Nc Hc. change (add F64 x c) with (Bplus mode_NE x c).
  assert (Hp : (0 < bpow radix2 1024)%R) by apply bpow_gt_0.
  destruct (is_finite x) eqn:Fx; destruct (is_finite c) eqn:Fc.
  - right. pose proof (Bplus_correct 53 1024 _ _ mode_NE x c Fx Fc) as H.
    assert (Ex : f64_ext x = B2R x) by (destruct x; try discriminate; reflexivity).
    assert (Ec : f64_ext c = B2R c) by (destruct c; try discriminate; reflexivity).
    rewrite Ec in Hc.
    match type of H with if Rlt_bool ?a ?b then _ else _ => destruct (Rlt_bool_spec a b) as [L|L] end.
    + destruct H as (Hr & Hf & _).
      assert (Es : f64_ext (Bplus mode_NE x c) = B2R (Bplus mode_NE x c))
        by (destruct (Bplus mode_NE x c); try discriminate; reflexivity).
      rewrite Es, Hr, Ex.
      rewrite <- (round_generic radix2 (SpecFloat.fexp 53 1024) (round_mode mode_NE) (B2R x)) at 1
        by apply generic_format_B2R.
      apply round_le; try typeclasses eauto. lra.
    + destruct H as (Hs & Hsgn).
      assert (Hpos : Bsign c = false \/ B2R c = 0%R).
      { destruct c as [s|s| |s m e p]; try discriminate; [right; reflexivity|].
        destruct s; [|left; reflexivity]. exfalso.
        assert (B2R (B754_finite true m e p) < 0)%R; [|lra].
        unfold B2R. apply F2R_lt_0. reflexivity. }
      destruct Hpos as [Hpos|Hz].
      * rewrite <- Hsgn in Hpos. rewrite Hpos in Hs. 
        destruct (Bplus mode_NE x c) as [s|s| |s m e p] eqn:E; cbn in Hs; try discriminate.
        injection Hs as ->. rewrite Ex. change (f64_ext (B754_infinity false)) with (bpow radix2 1024).
        pose proof (f64_bound x). lra.
      * exfalso. rewrite Hz, Rplus_0_r in L.
        rewrite round_generic in L by (try typeclasses eauto; apply generic_format_B2R).
        pose proof (abs_B2R_lt_emax 53 1024 x). lra.
  - destruct c as [| s | |]; try discriminate. destruct s; [exfalso; cbn -[bpow] in Hc; lra|].
    right. destruct x as [sx|sx| |sx m e p]; try discriminate;
      cbn -[bpow B2R]; pose proof (f64_bound (B754_zero false)).
    + destruct sx; cbn -[bpow]; lra.
    + pose proof (f64_bound (B754_finite sx m e p)); lra.
  - destruct x as [| s | |]; try discriminate. right.
    destruct c as [sc|sc| |sc m e p]; try discriminate; destruct s; cbn -[bpow]; lra.
  - destruct c as [| s | |]; try discriminate. destruct s; [exfalso; cbn -[bpow] in Hc; lra|].
    destruct x as [| sx | |]; try discriminate. destruct sx; cbn -[bpow].
    + left; reflexivity.
    + right; lra.
Qed.
