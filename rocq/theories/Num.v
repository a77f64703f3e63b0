(** Number interface used by the numeric parts of the model.

    The numeric C++ code is written once over the record [num] and instantiated with
    - [F32]: IEEE-754 binary32 with round-to-nearest-even (Flocq), executable;
    - [Rn] : the real numbers (ideal arithmetic).
    C++ [float] arithmetic is assumed to be evaluated in binary32 (FLT_EVAL_METHOD = 0). *)
From Coq Require Import ZArith Reals Bool Lia.
From Flocq Require Import Core BinarySingleNaN.

Record num := {
  T :> Type;
  ofZ : Z -> T;                  (* integer literal / static_cast<float>(int) *)
  add : T -> T -> T;
  sub : T -> T -> T;
  mul : T -> T -> T;
  div : T -> T -> T;
  opp : T -> T;
  absv : T -> T;                 (* std::abs(float) *)
  floorv : T -> T;               (* std::floor *)
  sqrtv : T -> T;                (* std::sqrt *)
  fmodv : T -> T -> T;           (* fmod *)
  ltb : T -> T -> bool;          (* <  ; false on NaN *)
  leb : T -> T -> bool;          (* <= ; false on NaN *)
  eqb : T -> T -> bool;          (* == ; false on NaN *)
  finiteb : T -> bool;           (* std::isfinite *)
  nanv : T;                      (* NAN *)
  pif : T;                       (* M_PI_F  (common.h:104) *)
  flt_min : T;                   (* FLT_MIN *)
  flt_eps : T;                   (* FLT_EPSILON *)
}.

(** decimal literal n/d; in F32 this is the correctly rounded literal whenever |n|,d < 2^24 *)
Definition cst (N : num) (n d : Z) : N := div N (ofZ N n) (ofZ N d).

(** std::min(a,b) = (b < a) ? b : a ;  std::max(a,b) = (a < b) ? b : a *)
Definition minv (N : num) (a b : N) : N := if ltb N b a then b else a.
Definition maxv (N : num) (a b : N) : N := if ltb N a b then b else a.

(** Three dimensional vectors (Eigen::Vector3f, geometry_msgs::Point, pcl::PointXYZ). *)
Record vec3 (A : Type) := V3 { vx : A; vy : A; vz : A }.
Arguments V3 {A} _ _ _.
Arguments vx {A} _.
Arguments vy {A} _.
Arguments vz {A} _.

Definition v3add (N : num) (a b : vec3 N) : vec3 N :=
  V3 (add N (vx a) (vx b)) (add N (vy a) (vy b)) (add N (vz a) (vz b)).
Definition v3sub (N : num) (a b : vec3 N) : vec3 N :=
  V3 (sub N (vx a) (vx b)) (sub N (vy a) (vy b)) (sub N (vz a) (vz b)).
Definition v3scale (N : num) (k : N) (a : vec3 N) : vec3 N :=
  V3 (mul N k (vx a)) (mul N k (vy a)) (mul N k (vz a)).
(** Eigen squaredNorm / norm of a 3-vector *)
Definition v3sqnorm (N : num) (a : vec3 N) : N :=
  add N (add N (mul N (vx a) (vx a)) (mul N (vy a) (vy a))) (mul N (vz a) (vz a)).
Definition v3norm (N : num) (a : vec3 N) : N := sqrtv N (v3sqnorm N a).
(** Eigen topRows<2>().norm() *)
Definition v2norm (N : num) (x y : N) : N := sqrtv N (add N (mul N x x) (mul N y y)).

(* ------------------------------------------------------------------------- binary32 *)
Definition f32 := binary_float 24 128.
Lemma prec24 : Prec_gt_0 24. Proof. reflexivity. Qed.
Lemma emax128 : Prec_lt_emax 24 128. Proof. reflexivity. Qed.
#[global] Existing Instance prec24.
#[global] Existing Instance emax128.

Definition f32_ofZ (z : Z) : f32 := binary_normalize 24 128 _ _ mode_NE z 0 false.
Definition f32_me (m e : Z) : f32 := binary_normalize 24 128 _ _ mode_NE m e false.
Definition f32_ltb (x y : f32) : bool := match Bcompare x y with Some Lt => true | _ => false end.
Definition f32_leb (x y : f32) : bool := match Bcompare x y with Some Lt | Some Eq => true | _ => false end.
Definition f32_eqb (x y : f32) : bool := match Bcompare x y with Some Eq => true | _ => false end.
(** C fmod: exact remainder of the truncated division, sign of the dividend *)
Definition f32_fmod (x y : f32) : f32 :=
  match x, y with
  | B754_nan, _ | _, B754_nan | B754_infinity _, _ | _, B754_zero _ => B754_nan
  | B754_zero s, _ => B754_zero s
  | B754_finite _ _ _ _, B754_infinity _ => x
  | B754_finite sx mx ex _, B754_finite sy my ey _ =>
      let e := Z.min ex ey in
      let a := (Zpos mx * 2 ^ (ex - e))%Z in
      let b := (Zpos my * 2 ^ (ey - e))%Z in
      let r := Z.rem a b in
      if Z.eqb r 0 then B754_zero sx
      else binary_normalize 24 128 _ _ mode_NE (if sx then (- r)%Z else r) e false
  end.

Definition F32 : num := {|
  T := f32;
  ofZ := f32_ofZ;
  add := @Bplus 24 128 _ _ mode_NE;
  sub := @Bminus 24 128 _ _ mode_NE;
  mul := @Bmult 24 128 _ _ mode_NE;
  div := @Bdiv 24 128 _ _ mode_NE;
  opp := @Bopp 24 128;
  absv := @Babs 24 128;
  floorv := @Bnearbyint 24 128 _ mode_DN;
  sqrtv := @Bsqrt 24 128 _ _ mode_NE;
  fmodv := f32_fmod;
  ltb := f32_ltb;
  leb := f32_leb;
  eqb := f32_eqb;
  finiteb := @is_finite 24 128;
  nanv := B754_nan;
  pif := f32_me 13176795 (-22);
  flt_min := f32_me 1 (-126);
  flt_eps := f32_me 1 (-23);
|}.

(* ------------------------------------------------------------------------- reals *)
Definition R_ltb (x y : R) : bool := if Rlt_dec x y then true else false.
Definition R_leb (x y : R) : bool := if Rle_dec x y then true else false.
Definition R_eqb (x y : R) : bool := if Req_EM_T x y then true else false.
Definition Rfloor (x : R) : R := IZR (Zfloor x).
Definition Rfmod (x y : R) : R := (x - y * IZR (Ztrunc (x / y)))%R.

Definition Rn : num := {|
  T := R;
  ofZ := IZR;
  add := Rplus;
  sub := Rminus;
  mul := Rmult;
  div := Rdiv;
  opp := Ropp;
  absv := Rabs;
  floorv := Rfloor;
  sqrtv := sqrt;
  fmodv := Rfmod;
  ltb := R_ltb;
  leb := R_leb;
  eqb := R_eqb;
  finiteb := fun _ => true;
  nanv := 0%R;                    (* no NaN in R: never used in theorems about [Rn] *)
  pif := PI;
  flt_min := (/ IZR (2 ^ 126))%R;
  flt_eps := (/ IZR (2 ^ 23))%R;
|}.

Lemma R_ltb_spec x y : reflect (x < y)%R (R_ltb x y).
Proof. unfold R_ltb; destruct (Rlt_dec x y); constructor; assumption. Qed.
Lemma R_leb_spec x y : reflect (x <= y)%R (R_leb x y).
Proof. unfold R_leb; destruct (Rle_dec x y); constructor; assumption. Qed.
Lemma R_eqb_spec x y : reflect (x = y)%R (R_eqb x y).
Proof. unfold R_eqb; destruct (Req_EM_T x y); constructor; assumption. Qed.
Lemma R_ltb_true x y : R_ltb x y = true <-> (x < y)%R.
Proof. destruct (R_ltb_spec x y); split; intros; try discriminate; auto; contradiction. Qed.
Lemma R_leb_true x y : R_leb x y = true <-> (x <= y)%R.
Proof. destruct (R_leb_spec x y); split; intros; try discriminate; auto; contradiction. Qed.
Lemma R_eqb_true x y : R_eqb x y = true <-> x = y.
Proof. destruct (R_eqb_spec x y); split; intros; try discriminate; auto; contradiction. Qed.
From Coq Require Import Lra.
Lemma R_ltb_false x y : R_ltb x y = false <-> (y <= x)%R.
Proof. destruct (R_ltb_spec x y); split; intros; try discriminate; auto; lra. Qed.
Lemma R_leb_false x y : R_leb x y = false <-> (y < x)%R.
Proof. destruct (R_leb_spec x y); split; intros; try discriminate; auto; lra. Qed.

(** Unfold the real instance. *)
Ltac rn := cbn [ofZ add sub mul div opp absv floorv sqrtv fmodv ltb leb eqb finiteb nanv pif
                 flt_min flt_eps Rn] in *.
Ltac rcases := repeat match goal with
  | |- context [R_ltb ?a ?b] => destruct (R_ltb_spec a b)
  | |- context [R_leb ?a ?b] => destruct (R_leb_spec a b)
  | |- context [R_eqb ?a ?b] => destruct (R_eqb_spec a b)
  | H : context [R_ltb ?a ?b] |- _ => destruct (R_ltb_spec a b)
  | H : context [R_leb ?a ?b] |- _ => destruct (R_leb_spec a b)
  | H : context [R_eqb ?a ?b] |- _ => destruct (R_eqb_spec a b)
  end.

Lemma minv_Rn (a b : R) : minv Rn a b = Rmin a b.
Proof. unfold minv, Rmin; rn. rcases; destruct (Rle_dec a b); lra. Qed.
Lemma maxv_Rn (a b : R) : maxv Rn a b = Rmax a b.
Proof. unfold maxv, Rmax; rn. rcases; destruct (Rle_dec a b); lra. Qed.
Lemma cst_Rn n d : cst Rn n d = (IZR n / IZR d)%R.
Proof. reflexivity. Qed.

Lemma Rfloor_bounds x : (Rfloor x <= x < Rfloor x + 1)%R.
Proof. unfold Rfloor. split; [apply Zfloor_lb | apply Zfloor_ub]. Qed.

(** Comparison facts about binary32 that need no real arithmetic reasoning. *)
Lemma f32_ltb_irrefl (x : f32) : f32_ltb x x = false.
Proof.
  unfold f32_ltb. destruct x as [s|s| |s m e H]; simpl; try reflexivity; try destruct s; try reflexivity.
  - cbn. rewrite Z.compare_refl. rewrite Pos.compare_cont_refl. reflexivity.
  - cbn. rewrite Z.compare_refl. rewrite Pos.compare_cont_refl. reflexivity.
Qed.

(** Order of binary32 values (infinities included) embedded in the reals. *)
Definition f32_ext (x : f32) : R :=
  match x with
  | B754_infinity true => (- bpow radix2 128)%R
  | B754_infinity false => bpow radix2 128
  | _ => B2R x
  end.
Lemma f32_compare_ext (x y : f32) :
  is_nan x = false -> is_nan y = false -> Bcompare x y = Some (Rcompare (f32_ext x) (f32_ext y)).
Proof.
  intros Hx Hy.
  assert (Hb : forall z : f32, is_finite z = true -> (- bpow radix2 128 < B2R z < bpow radix2 128)%R).
  { intros z Hz. apply Rabs_lt_inv. apply abs_B2R_lt_emax. }
  assert (Hp : (0 < bpow radix2 128)%R) by apply bpow_gt_0.
  destruct (is_finite x) eqn:Fx; destruct (is_finite y) eqn:Fy.
  - rewrite (Bcompare_correct 24 128 _ _ Fx Fy).
    destruct x; try discriminate; destruct y; try discriminate; reflexivity.
  - pose proof (Hb x Fx) as Bx.
    destruct y as [| sy | |]; try discriminate.
    destruct x as [sx| | |sx mx ex px]; try discriminate; destruct sy; cbn -[bpow B2R] in *.
    + rewrite Rcompare_Gt; [reflexivity| lra].
    + rewrite Rcompare_Lt; [reflexivity| lra].
    + rewrite Rcompare_Gt; [destruct sx; reflexivity| lra].
    + rewrite Rcompare_Lt; [destruct sx; reflexivity| lra].
  - pose proof (Hb y Fy) as By.
    destruct x as [| sx | |]; try discriminate.
    destruct y as [sy| | |sy my ey py]; try discriminate; destruct sx; cbn -[bpow B2R] in *.
    + rewrite Rcompare_Lt; [reflexivity| lra].
    + rewrite Rcompare_Gt; [reflexivity| lra].
    + rewrite Rcompare_Lt; [destruct sy; reflexivity| lra].
    + rewrite Rcompare_Gt; [destruct sy; reflexivity| lra].
  - destruct x as [| sx | |]; try discriminate. destruct y as [| sy | |]; try discriminate.
    destruct sx, sy; cbn -[bpow].
    + rewrite Rcompare_Eq; reflexivity.
    + rewrite Rcompare_Lt; [reflexivity| lra].
    + rewrite Rcompare_Gt; [reflexivity| lra].
    + rewrite Rcompare_Eq; reflexivity.
Qed.
Lemma f32_ltb_true (x y : f32) :
  f32_ltb x y = true <-> is_nan x = false /\ is_nan y = false /\ (f32_ext x < f32_ext y)%R.
Proof.
  unfold f32_ltb. destruct (is_nan x) eqn:Nx.
  - destruct x; try discriminate. cbn. split; [discriminate| intros (A & _); discriminate].
  - destruct (is_nan y) eqn:Ny.
    + destruct y; try discriminate. destruct x; cbn; (split; [discriminate| intros (_ & A & _); discriminate]).
    + rewrite f32_compare_ext by assumption.
      destruct (Rcompare_spec (f32_ext x) (f32_ext y)); split; intros; try discriminate; try reflexivity;
        try (destruct H0 as (_ & _ & ?); lra); auto.
Qed.
Lemma f32_leb_true (x y : f32) :
  f32_leb x y = true <-> is_nan x = false /\ is_nan y = false /\ (f32_ext x <= f32_ext y)%R.
Proof.
  unfold f32_leb. destruct (is_nan x) eqn:Nx.
  - destruct x; try discriminate. cbn. split; [discriminate| intros (A & _); discriminate].
  - destruct (is_nan y) eqn:Ny.
    + destruct y; try discriminate. destruct x; cbn; (split; [discriminate| intros (_ & A & _); discriminate]).
    + rewrite f32_compare_ext by assumption.
      destruct (Rcompare_spec (f32_ext x) (f32_ext y)); split; intros; try discriminate; try reflexivity;
        try (destruct H0 as (_ & _ & ?); lra); repeat split; auto; lra.
Qed.
Lemma f32_eqb_true (x y : f32) :
  f32_eqb x y = true <-> is_nan x = false /\ is_nan y = false /\ (f32_ext x = f32_ext y)%R.
Proof.
  unfold f32_eqb. destruct (is_nan x) eqn:Nx.
  - destruct x; try discriminate. cbn. split; [discriminate| intros (A & _); discriminate].
  - destruct (is_nan y) eqn:Ny.
    + destruct y; try discriminate. destruct x; cbn; (split; [discriminate| intros (_ & A & _); discriminate]).
    + rewrite f32_compare_ext by assumption.
      destruct (Rcompare_spec (f32_ext x) (f32_ext y)); split; intros; try discriminate; try reflexivity;
        try (destruct H0 as (_ & _ & ?); lra); auto.
Qed.
Ltac slra := try (progress change (T Rn) with R in *); repeat match goal with |- _ /\ _ => split end; lra.
Ltac tR := change (T Rn) with R in *.
(** [lra] that first normalises the carrier of [Rn] to [R]. *)
Ltac lra := try (progress change (T Rn) with R in *); Lra.lra.
Ltac nra := try (progress change (T Rn) with R in *); Lra.nra.
