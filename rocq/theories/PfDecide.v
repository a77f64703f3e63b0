(** Lemmas about the ranking of directions (C111-C113): the cost matrix of the look-ahead planner for an empty, a partly blocked and a changed histogram. *)
From Coq Require Import ZArith Reals List Bool Lia Lra.
From Flocq Require Import Core BinarySingleNaN.
From Verif Require Import Num Mat CommonModel CommonSpec CommonProofs HistModel HistProofs PfModel PfSpec PfProofs PfProofs2 PfProofs3 PfPad PfSmooth PfCost PfMisc PfExtra.
Import ListNotations.
Local Open Scope R_scope.

(** columns per evaluated column in row e (planner_functions.cpp:164-165) *)
Definition step_of (e : Z) : Z := ZnearestA (1 / cos (IZR (6 * e + 3 - 90) * (PI / 180))).

Lemma sqrt2_small : sqrt 2 < 3 / 2.
Proof. apply Rsqr_incrst_0; [|apply sqrt_pos|lra]. rewrite Rsqr_sqrt by lra. unfold Rsqr. lra. Qed.
Lemma step_level e : (7 <= e <= 22)%Z -> step_of e = 1%Z.
Proof.
  intros He. unfold step_of. set (x := IZR (6 * e + 3 - 90) * (PI / 180)).
  assert (Hx : -45 <= IZR (6 * e + 3 - 90) <= 45) by (split; apply IZR_le; lia).
  pose proof PI_RGT_0 as HP. assert (Hx' : - (PI / 4) <= x <= PI / 4) by (unfold x; split; nra).
  assert (Hc : / sqrt 2 <= cos x).
  { rewrite <- Rdiv_1_l at 1 || idtac. replace (/ sqrt 2) with (cos (PI / 4)) by (rewrite cos_PI4; field; pose proof (sqrt_lt_R0 2); lra).
    destruct (Rle_dec 0 x) as [H|H]; [apply cos_decr_1; lra|]. rewrite <- (cos_neg x). apply cos_decr_1; lra. }
  pose proof (sqrt_lt_R0 2 ltac:(lra)) as S0. pose proof sqrt2_small as S1.
  assert (Hc2 : 2 / 3 < cos x). { apply Rlt_le_trans with (2 := Hc). apply Rmult_lt_reg_r with (sqrt 2); [exact S0|]. rewrite Rinv_l by lra. lra. }
  pose proof (COS_bound x) as [_ Hc3].
  apply Znearest_imp. apply Rabs_def1.
  - apply Rmult_lt_reg_r with (cos x); [lra|]. unfold Rdiv. rewrite Rmult_minus_distr_r, Rmult_1_l, Rinv_l by lra. lra.
  - apply Rmult_lt_reg_r with (cos x); [lra|]. unfold Rdiv. rewrite Rmult_minus_distr_r, Rmult_1_l, Rinv_l by lra. lra.
Qed.

(** values on the line between evaluated columns *)
Lemma row_window (Q : R -> Prop) (v : Z -> R) s z : (1 <= s)%Z -> (0 <= z < 60)%Z ->
  (forall x y t, 0 <= t <= 1 -> Q x -> Q y -> Q (x + t * (y - x))) ->
  (forall k, (Z.abs k <= s - 1)%Z -> Q (v ((z + k) mod 60)%Z)) ->
  let a := (z - z mod s)%Z in let w := Z.min s (60 - a) in let b := ((a + w) mod 60)%Z in
  Q (v a + IZR (z - a) / IZR w * (v b - v a)).
Proof.
  intros Hs Hz HQ H a w b. destruct (interp_lin s z Hs Hz) as (Ha & Hw & _ & Hb & _). fold a in Ha, Hw, Hb. fold w in Hw, Hb. fold b in Hb.
  assert (Ws : (w <= s)%Z) by (unfold w; lia).
  assert (Ma : (z - a < s)%Z). { unfold a. pose proof (Z.mod_pos_bound z s ltac:(lia)). lia. }
  assert (Va : Q (v a)). { pose proof (H (a - z)%Z ltac:(lia)) as K. replace (z + (a - z))%Z with a in K by lia. rewrite Z.mod_small in K by lia. exact K. }
  destruct (Z.eq_dec z a) as [E|E].
  { rewrite E, Z.sub_diag. unfold Rdiv. rewrite !Rmult_0_l, Rplus_0_r. exact Va. }
  assert (Vb : Q (v b)). { pose proof (H (a + w - z)%Z ltac:(lia)) as K. replace (z + (a + w - z))%Z with (a + w)%Z in K by lia. exact K. }
  assert (W1 : 1 <= IZR w) by (apply IZR_le; lia). assert (W2 : IZR (z - a) <= IZR w) by (apply IZR_le; lia). assert (W3 : 0 <= IZR (z - a)) by (apply IZR_le; lia).
  apply HQ; [|exact Va|exact Vb]. split.
  - apply Rmult_le_pos; [exact W3|]. left. apply Rinv_0_lt_compat. lra.
  - apply Rmult_le_reg_r with (IZR w); [lra|]. unfold Rdiv. rewrite Rmult_assoc, Rinv_l by lra. lra.
Qed.
Lemma conv_ge L x y t : 0 <= t <= 1 -> L <= x -> L <= y -> L <= x + t * (y - x). Proof. intros. nra. Qed.
Lemma conv_le L x y t : 0 <= t <= 1 -> x <= L -> y <= L -> x + t * (y - x) <= L. Proof. intros. nra. Qed.
Lemma conv_eq (L x y t : R) : 0 <= t <= 1 -> x = L -> y = L -> x + t * (y - x) = L. Proof. intros _ -> ->. ring. Qed.

(** the sum of the smoothing weights *)
Lemma cone_abs r k : cone r k = (1 + IZR r - IZR (Z.abs (k - r))) / (1 + IZR r).
Proof. unfold cone. rewrite IZR_Zabs, minus_IZR. reflexivity. Qed.
Lemma cone_sum r : (0 <= r)%Z -> zsum Rn (2 * r + 1) (fun k => cone r k : Rn) = 1 + IZR r.
Proof.
  intros Hr. assert (R0 : 0 <= IZR r) by (apply IZR_le; lia).
  assert (A : forall n, (0 <= n)%Z -> (n <= r + 1)%Z -> zsum Rn n (fun k => cone r k : Rn) = IZR n * (IZR n + 1) / 2 / (1 + IZR r)).
  { refine (zsum_ind _ _ _).
    - intros _. rewrite zsum_0. rn. tR. field. lra.
    - intros n Hn IH Hle. rewrite zsum_S, IH by lia. rn. tR. rewrite cone_abs. rewrite Z.abs_neq by lia. rewrite opp_IZR, minus_IZR, plus_IZR. field. lra. }
  assert (B : forall m, (0 <= m)%Z -> (m <= r)%Z ->
    zsum Rn (r + 1 + m) (fun k => cone r k : Rn) = ((IZR r + 1) * (IZR r + 2) / 2 + IZR m * IZR r - IZR m * (IZR m - 1) / 2) / (1 + IZR r)).
  { refine (zsum_ind _ _ _).
    - intros _. rewrite Z.add_0_r, A by lia. rewrite plus_IZR. tR. field. lra.
    - intros n Hn IH Hle. replace (r + 1 + (n + 1))%Z with (r + 1 + n + 1)%Z by lia. rewrite zsum_S, IH by lia. rn. tR. rewrite cone_abs. rewrite Z.abs_eq by lia. rewrite minus_IZR, !plus_IZR. field. lra. }
  replace (2 * r + 1)%Z with (r + 1 + r)%Z by lia. rewrite B by lia. tR. field. lra.
Qed.
Lemma cone_sum2 (L : R) r : (0 <= r)%Z ->
  zsum Rn (2 * r + 1) (fun k => (zsum Rn (2 * r + 1) (fun l => (L * cone r l)%R : Rn) * cone r k)%R : Rn) = L * (1 + IZR r) ^ 2.
Proof.
  intros Hr. rewrite (zsum_ext Rn _ (fun k => (zsum Rn (2 * r + 1) (fun l => (L * cone r l)%R : Rn) * cone r k)%R : Rn)
    (fun k => (cone r k * (L * (1 + IZR r)))%R : Rn)).
  - rewrite zsum_scale by lia. rewrite cone_sum by exact Hr. tR. ring.
  - intros k _. rewrite (zsum_ext Rn _ (fun l => (L * cone r l)%R : Rn) (fun l => (cone r l * L)%R : Rn)) by (intros; tR; ring).
    rewrite zsum_scale by lia. rewrite cone_sum by exact Hr. tR. ring.
Qed.
Lemma smooth_window (P : R -> Prop) (m o : mat Rn) r e z : (0 <= r <= rows m)%Z -> (r <= cols m)%Z -> (cols m mod 2 = 0)%Z -> (0 < cols m)%Z ->
  smoothPolarMatrix Rn m r = Some o -> (r <= e)%Z -> (e < rows m - r)%Z -> (0 <= z < cols m)%Z ->
  (forall e' k, (Z.abs (e' - e) <= r)%Z -> (Z.abs k <= r)%Z -> P (cell m e' ((z + k) mod cols m)%Z)) ->
  (forall L, (forall x, P x -> L <= x) -> L * (1 + IZR r) ^ 2 <= cell o e z) /\
  (forall L, (forall x, P x -> x <= L) -> cell o e z <= L * (1 + IZR r) ^ 2).
Proof.
  intros Hr Hc Hev HC Es He He' Hz HP. destruct (smooth_spec m r Hr Hc Hev HC) as (o' & E' & _ & _ & S). rewrite Es in E'. injection E' as <-.
  assert (Sp : forall k l, (0 <= k < 2 * r + 1)%Z -> (0 <= l < 2 * r + 1)%Z -> P (sphere_at m (e - r + l) (z - r + k))).
  { intros k l Hk Hl. unfold sphere_at, sphere_cell. rewrite (proj2 (Z.ltb_ge (e - r + l) 0)) by lia. rewrite (proj2 (Z.ltb_lt (e - r + l) (rows m))) by lia.
    replace (z - r + k)%Z with (z + (k - r))%Z by lia. apply HP; lia. }
  split; intros L HL; rewrite S by lia; rewrite <- (cone_sum2 L r) by lia; apply zsum_le; try lia; intros k Hk; destruct (cone_pos r k Hk) as (K & _);
    (apply Rmult_le_compat_r; [lra|]); apply zsum_le; try lia; intros l Hl; destruct (cone_pos r l Hl) as (K' & _);
    (apply Rmult_le_compat_r; [lra|]); apply HL, Sp; assumption.
Qed.
Lemma smooth_le_all (L : R) (m o : mat Rn) r e z : (0 <= r <= rows m)%Z -> (r <= cols m)%Z -> (cols m mod 2 = 0)%Z -> (0 < cols m)%Z ->
  smoothPolarMatrix Rn m r = Some o -> (0 <= e < rows m)%Z -> (0 <= z < cols m)%Z ->
  (forall i j, (0 <= i < rows m)%Z -> (0 <= j < cols m)%Z -> cell m i j <= L) -> cell o e z <= L * (1 + IZR r) ^ 2.
Proof.
  intros Hr Hc Hev HC Es He Hz HL. destruct (smooth_spec m r Hr Hc Hev HC) as (o' & E' & _ & _ & S). rewrite Es in E'. injection E' as <-.
  rewrite S by lia; rewrite <- (cone_sum2 L r) by lia; apply zsum_le; try lia; intros k Hk; destruct (cone_pos r k Hk) as (K & _);
    (apply Rmult_le_compat_r; [lra|]); apply zsum_le; try lia; intros l Hl; destruct (cone_pos r l Hl) as (K' & _);
    (apply Rmult_le_compat_r; [lra|]).
  pose proof (sphere_cell_range (rows m) (cols m) (e - r + l) (z - r + k) HC ltac:(lia)) as (H1 & H2). unfold sphere_at.
  destruct (sphere_cell (rows m) (cols m) (e - r + l) (z - r + k)) as [a b]. cbn [fst snd] in *. now apply HL.
Qed.
(** smoothing is monotone, strictly around a raised cell *)
Lemma zsum_le_lt (f g : Z -> R) n : (0 <= n)%Z -> (forall k, (0 <= k < n)%Z -> f k <= g k) -> forall k0, (0 <= k0 < n)%Z -> f k0 < g k0 ->
  zsum Rn n f < zsum Rn n g.
Proof.
  intros Hn Hle k0 Hk Hlt. revert n Hn Hle Hk. refine (zsum_ind _ _ _); [intros _ H; lia|]. intros n Hn IH Hle Hk.
  rewrite !zsum_S by exact Hn. rn. tR. pose proof (Hle n ltac:(lia)) as H1. destruct (Z.eq_dec k0 n) as [->|E].
  - assert (zsum Rn n f <= zsum Rn n g) by (apply zsum_le; [exact Hn|intros; apply Hle; lia]). tR. lra.
  - assert (zsum Rn n f < zsum Rn n g) by (apply IH; [intros; apply Hle; lia|lia]). tR. lra.
Qed.
Lemma smooth_mono (m1 m2 o1 o2 : mat Rn) r : rows m1 = rows m2 -> cols m1 = cols m2 ->
  (0 <= r <= rows m1)%Z -> (r <= cols m1)%Z -> (cols m1 mod 2 = 0)%Z -> (0 < cols m1)%Z ->
  smoothPolarMatrix Rn m1 r = Some o1 -> smoothPolarMatrix Rn m2 r = Some o2 ->
  (forall i j, (0 <= i < rows m1)%Z -> (0 <= j < cols m1)%Z -> cell m1 i j <= cell m2 i j) ->
  forall e z, (0 <= e < rows m1)%Z -> (0 <= z < cols m1)%Z ->
  cell o1 e z <= cell o2 e z /\
  forall k l, (- r <= l <= r)%Z -> (- r <= k <= r)%Z -> sphere_at m1 (e + l) (z + k) < sphere_at m2 (e + l) (z + k) -> cell o1 e z < cell o2 e z.
Proof.
  intros E1 E2 Hr Hc Hev HC S1 S2 Hle e z He Hz.
  destruct (smooth_spec m1 r Hr Hc Hev HC) as (o' & E' & _ & _ & T1). rewrite S1 in E'. injection E' as <-.
  destruct (smooth_spec m2 r) as (o' & E' & _ & _ & T2); try (rewrite <- ?E1, <- ?E2; assumption). rewrite S2 in E'. injection E' as <-.
  assert (Sp : forall i j, (- rows m1 <= i < 2 * rows m1)%Z -> sphere_at m1 i j <= sphere_at m2 i j).
  { intros i j Hij. pose proof (sphere_cell_range (rows m1) (cols m1) i j HC Hij) as (H1 & H2). unfold sphere_at. rewrite <- E1, <- E2.
    destruct (sphere_cell (rows m1) (cols m1) i j) as [a b]. cbn [fst snd] in *. now apply Hle. }
  rewrite T1 by assumption. rewrite T2 by (rewrite <- ?E1, <- ?E2; assumption).
  assert (I : forall k', (0 <= k' < 2 * r + 1)%Z -> forall l', (0 <= l' < 2 * r + 1)%Z ->
    sphere_at m1 (e - r + l') (z - r + k') * cone r l' <= sphere_at m2 (e - r + l') (z - r + k') * cone r l').
  { intros k' Hk' l' Hl'. destruct (cone_pos r l' Hl'). apply Rmult_le_compat_r; [lra|]. apply Sp. lia. }
  assert (O : forall k', (0 <= k' < 2 * r + 1)%Z ->
    (zsum Rn (2 * r + 1) (fun l => (sphere_at m1 (e - r + l) (z - r + k') * cone r l)%R : Rn) * cone r k')%R <=
    (zsum Rn (2 * r + 1) (fun l => (sphere_at m2 (e - r + l) (z - r + k') * cone r l)%R : Rn) * cone r k')%R).
  { intros k' Hk'. destruct (cone_pos r k' Hk'). apply Rmult_le_compat_r; [lra|]. apply zsum_le; [lia|]. now apply I. }
  split; [apply zsum_le; [lia|exact O]|]. intros k l Hl Hk Hs.
  apply zsum_le_lt with (k0 := (k + r)%Z); [lia|exact O|lia|]. destruct (cone_pos r (k + r)%Z ltac:(lia)). apply Rmult_lt_compat_r; [lra|].
  apply zsum_le_lt with (k0 := (l + r)%Z); [lia|apply I; lia|lia|]. destruct (cone_pos r (l + r)%Z ltac:(lia)). apply Rmult_lt_compat_r; [lra|].
  replace (e - r + (l + r))%Z with (e + l)%Z by lia. replace (z - r + (k + r))%Z with (z + k)%Z by lia. exact Hs.
Qed.

(** the parts of the cost of a direction *)
Definition obst (o d : R) : R := if R_ltb 0 d then 5000 * (1 + (o - d) / sqrt (1 + (o - d) * (o - d))) else 0.
Definition near_factor (gd : R) : R := if R_ltb gd 5 then / (1 / 5 * gd * (1 / 5 * gd)) else 1.
Lemma near_factor_ge1 gd : 0 < gd -> 1 <= near_factor gd.
Proof.
  intros H. unfold near_factor. destruct (R_ltb_spec gd 5) as [L|L]; [|lra]. rewrite <- Rinv_1 at 1. apply Rinv_le_contravar; nra.
Qed.
Lemma other_cost_R (cand : polar Rn) d goal position velocity cp closest facing :
  exists w nv : R, (w = 0 \/ w = 1 / 2) /\ Rabs nv <= v3norm Rn velocity /\
  nv = v3dot Rn (v3normalized Rn (polarHistogramToCartesian Rn Rtrig cand (V3 0 0 0))) velocity /\
  snd (costFunction Rn Rtrig cand d goal position velocity cp closest facing) =
    velocity_cost_param cp * (v3norm Rn velocity - nv) +
    (1 - w) * yaw_cost_param cp * (angleDifference Rn (pz cand) (pz (cartesianToPolarHistogram Rn Rtrig goal position)) ^ 2) +
    w * yaw_cost_param cp * (angleDifference Rn (pz cand) (pz (cartesianToPolarHistogram Rn Rtrig closest position)) ^ 2) +
    near_factor (v3norm Rn (v3sub Rn goal position)) * (pitch_cost_param cp * (pe cand - pe (cartesianToPolarHistogram Rn Rtrig goal position)) ^ 2).
Proof.
  exists (if facing then 0 else 1 / 2), (v3dot Rn (v3normalized Rn (polarHistogramToCartesian Rn Rtrig cand (V3 0 0 0))) velocity).
  split; [destruct facing; tauto|]. split.
  { set (c := polarHistogramToCartesian Rn Rtrig cand (V3 0 0 0)). pose proof (velocity_term c velocity) as V1.
    pose proof (velocity_term c (V3 (- vx velocity) (- vy velocity) (- vz velocity))) as V2.
    assert (E1 : v3norm Rn (V3 (- vx velocity) (- vy velocity) (- vz velocity)) = v3norm Rn velocity).
    { unfold v3norm, v3sqnorm, v3dot. cbn [vx vy vz]. rn. tR. f_equal. ring. }
    assert (E2 : v3dot Rn (v3normalized Rn c) (V3 (- vx velocity) (- vy velocity) (- vz velocity)) = - v3dot Rn (v3normalized Rn c) velocity).
    { unfold v3dot. cbn [vx vy vz]. rn. tR. ring. }
    rewrite E1, E2 in V2. apply Rabs_le. tR. lra. }
  split; [reflexivity|].
  unfold costFunction. cbn [snd].
  change (V3 (ofZ Rn 0) (ofZ Rn 0) (ofZ Rn 0)) with (V3 (0 : Rn) (0 : Rn) (0 : Rn)).
  set (nv := v3dot Rn _ velocity). set (vn := v3norm Rn velocity). set (gp := cartesianToPolarHistogram Rn Rtrig goal position).
  set (A := angleDifference Rn (pz cand) (pz gp)). set (B := angleDifference Rn (pz cand) _). set (gd := v3norm Rn (v3sub Rn goal position)).
  unfold near_factor. rn. rewrite !cst_Rn. tR. clearbody nv vn A B gd. tR.
  assert (P : (if R_ltb gd 5 then pitch_cost_param cp * (pe cand - pe gp) * (pe cand - pe gp) / (1 / 5 * gd * (1 / 5 * gd))
               else pitch_cost_param cp * (pe cand - pe gp) * (pe cand - pe gp)) =
              (if R_ltb gd 5 then / (1 / 5 * gd * (1 / 5 * gd)) else 1) * (pitch_cost_param cp * (pe cand - pe gp) ^ 2)).
  { destruct (R_ltb gd 5); [unfold Rdiv at 1; ring|ring]. }
  destruct facing; tR; rewrite P; ring.
Qed.

(** the elevation and azimuth of the middle of a cell *)
Definition ce (e : Z) : R := IZR (6 * e - 87).
Definition cz (z : Z) : R := IZR (6 * z - 177).
Definition hval (h : hist Rn) (e z : Z) : R := match h_get Rn h e z with Some d => d | None => 0 end.
Lemma centre_eq e z : histogramIndexToPolar Rn e z ALPHA_RES 1 = Pol (ce e : Rn) (cz z : Rn) (1 : Rn).
Proof.
  unfold histogramIndexToPolar, ce, cz, ALPHA_RES. change (6 / 2)%Z with 3%Z. rn. tR.
  replace (e * 6 + 3 - 90)%Z with (6 * e - 87)%Z by lia. replace (z * 6 + 3 - 180)%Z with (6 * z - 177)%Z by lia. reflexivity.
Qed.
Definition line_of (v : Z -> R) (s z : Z) : R :=
  let a := (z - z mod s)%Z in let w := Z.min s (60 - a) in let b := ((a + w) mod 60)%Z in v a + IZR (z - a) / IZR w * (v b - v a).
Lemma line_of_1 v z : line_of v 1 z = v z.
Proof. unfold line_of. rewrite Z.mod_1_r. cbv zeta. rewrite Z.sub_0_r, Z.sub_diag. unfold Rdiv. rewrite !Rmult_0_l, Rplus_0_r. reflexivity. Qed.

Definition smooth_radius (margin : R) : Z := Zceil (margin / 6).
Lemma radius_range margin : 0 <= margin <= 180 -> (0 <= smooth_radius margin <= 30)%Z.
Proof. intros H. split; [rewrite <- (Zceil_IZR 0)|rewrite <- (Zceil_IZR 30)]; apply Zceil_le; lra. Qed.

Lemma matrices (cast : R -> Z) (h : hist Rn) goal position velocity cp (margin : R) closest mx mn out img :
  reachable Rn h -> h_res h = ALPHA_RES -> 0 <= margin <= 180 ->
  getCostMatrix Rn Rtrig cast (ZnearestA : Rn -> Z) (Zceil : Rn -> Z) h goal position velocity cp margin closest mx mn = Some (out, img) ->
  exists facing (cm dm sm : mat Rn),
    obstacleFacingGoal Rn Rtrig cast h goal position mx mn = Some facing /\
    rows out = 30%Z /\ cols out = 60%Z /\ rows dm = 30%Z /\ cols dm = 60%Z /\ smoothPolarMatrix Rn dm (smooth_radius margin) = Some sm /\
    forall e z, (0 <= e < 30)%Z -> (0 <= z < 60)%Z ->
      (1 <= step_of e)%Z /\ cell out e z = cell cm e z + cell sm e z /\
      cell dm e z = line_of (fun x => obst (obstacle_cost_param cp) (hval h e x)) (step_of e) z /\
      cell cm e z = line_of (fun x => snd (costFunction Rn Rtrig (Pol (ce e) (cz x) 1) (hval h e x) goal position velocity cp closest facing)) (step_of e) z.
Proof.
  intros Hr H6 Hm E. destruct (every_cell_filled cast h goal position velocity cp margin closest mx mn Hr H6 Hm)
    as (facing & cm & dm & sm & img' & out' & E1 & E2 & R1 & C1 & R2 & C2 & Es & _ & S).
  rewrite E in E2. injection E2 as <- <-. exists facing, cm, dm, sm. do 6 (split; [assumption|]).
  intros e z He Hz. destruct (S e z He Hz) as (S1 & S2 & S3 & S4). split; [exact S1|]. split; [exact S2|].
  split; [rewrite S3|rewrite S4]; unfold line_of, step_of; cbv zeta; rewrite !centre_eq; [rewrite !distance_cost_eq|]; reflexivity.
Qed.

(** the first candidate is a cheapest cell *)
Lemma best_min (top : list (candidate Rn) -> option (candidate Rn * list (candidate Rn))) (m : mat Rn) n best more :
  is_priority_queue Rn top -> (1 <= n)%Z -> getBestCandidatesFromCostMatrix Rn top m n = Some (best :: more) ->
  exists e z, (0 <= e < rows m)%Z /\ (0 <= z < cols m)%Z /\ c_e best = ce e /\ c_z best = cz z /\
  forall e' z', (0 <= e' < rows m)%Z -> (0 <= z' < cols m)%Z -> cell m e z <= cell m e' z'.
Proof.
  intros PQ Hn E. assert (NN : forall x : Rn, isnanb Rn x = false).
  { intros x. unfold isnanb. rn. destruct (R_eqb_spec x x) as [_|X]; [reflexivity|]. exfalso. apply X. reflexivity. }
  destruct (getBest_spec Rn ordered_Rn top PQ m n Hn) as (out & rest & E' & P & _ & S & M). { intros c _. apply NN. }
  rewrite E in E'. injection E' as <-.
  assert (I : In best (candidates Rn m)) by (apply (Permutation.Permutation_in _ (Permutation.Permutation_sym P)); left; reflexivity).
  destruct (proj1 (candidates_cells Rn m best) I) as (e & z & He & Hz & Ec & Ee & Ez). exists e, z. do 2 (split; [assumption|]).
  rewrite Ee, Ez. change (ofZ Rn 1) with (1 : Rn). rewrite centre_eq. do 2 (split; [reflexivity|]). intros e' z' He' Hz'.
  rewrite <- Ec. assert (I' : In (Cand (cell m e' z') (ce e' : Rn) (cz z' : Rn)) (candidates Rn m)).
  { apply (proj2 (candidates_cells Rn m _)). exists e', z'. do 2 (split; [assumption|]). cbn [c_cost c_e c_z]. change (ofZ Rn 1) with (1 : Rn). rewrite centre_eq. repeat split; reflexivity. }
  apply (Permutation.Permutation_in _ P) in I'. cbn [app] in I'. destruct I' as [E0|I']; [rewrite E0; cbn [c_cost]; apply Rle_refl|].
  assert (K : ltb Rn (cell m e' z') (c_cost best) = false).
  { apply in_app_iff in I' as [I'|I'].
    - apply Sorted.StronglySorted_inv in S as [_ S]. rewrite Forall_forall in S. exact (S _ I').
    - exact (M _ best I' ltac:(left; reflexivity)). }
  revert K. rn. tR. intros K. destruct (R_ltb_spec (cell m e' z') (c_cost best)) as [|L]; [discriminate|]. tR. lra.
Qed.
Lemma line_window (Q : R -> Prop) (v : Z -> R) s z : (1 <= s)%Z -> (0 <= z < 60)%Z ->
  (forall x y t, 0 <= t <= 1 -> Q x -> Q y -> Q (x + t * (y - x))) ->
  (forall k, (Z.abs k <= s - 1)%Z -> Q (v ((z + k) mod 60)%Z)) -> Q (line_of v s z).
Proof. exact (row_window Q v s z). Qed.
Lemma line_ge L (v : Z -> R) s z : (1 <= s)%Z -> (0 <= z < 60)%Z -> (forall x, (0 <= x < 60)%Z -> L <= v x) -> L <= line_of v s z.
Proof. intros Hs Hz H. apply (line_window (fun x => L <= x)); [exact Hs|exact Hz|intros; apply conv_ge; assumption|]. intros k _. apply H, Z.mod_pos_bound. lia. Qed.
Lemma line_le L (v : Z -> R) s z : (1 <= s)%Z -> (0 <= z < 60)%Z -> (forall x, (0 <= x < 60)%Z -> v x <= L) -> line_of v s z <= L.
Proof. intros Hs Hz H. apply (line_window (fun x => x <= L)); [exact Hs|exact Hz|intros; apply conv_le; assumption|]. intros k _. apply H, Z.mod_pos_bound. lia. Qed.
(** ** Histograms with given contents *)
Lemma empty_hist : exists h : hist Rn, reachable Rn h /\ h_res h = ALPHA_RES /\ forall e z, (0 <= e < 30)%Z -> (0 <= z < 60)%Z -> h_get Rn h e z = Some (0 : Rn).
Proof.
  destruct (h_new_some Rn ALPHA_RES ltac:(unfold ALPHA_RES; lia)) as (h & E). exists h.
  destruct (h_new_wf Rn ALPHA_RES h ltac:(unfold ALPHA_RES; lia) E) as (W & R6 & C). split; [exists ALPHA_RES, h, []; split; [unfold ALPHA_RES; lia|split; [exact E|reflexivity]]|].
  split; [exact R6|]. intros e z He Hz. rewrite get_in by (rewrite ?R6; unfold ALPHA_RES; try assumption; lia). rewrite C. reflexivity.
Qed.
Lemma set_cell (h : hist Rn) e z (d : Rn) : reachable Rn h -> h_res h = ALPHA_RES -> (0 <= e < 30)%Z -> (0 <= z < 60)%Z ->
  exists h', h_set Rn h e z d = Some h' /\ reachable Rn h' /\ h_res h' = ALPHA_RES /\
    forall e' z', (0 <= e' < 30)%Z -> (0 <= z' < 60)%Z -> h_get Rn h' e' z' = if (e' =? e)%Z && (z' =? z)%Z then Some d else h_get Rn h e' z'.
Proof.
  intros Hr R6 He Hz. destruct (proj2 (write_defined Rn h e z d Hr)) as (h' & E). { rewrite R6. unfold ALPHA_RES. change (180 / 6)%Z with 30%Z. change (360 / 6)%Z with 60%Z. lia. }
  exists h'. split; [exact E|]. split.
  - apply (step_reachable Rn h (HSet e z d) h' Hr). cbn [h_step]. rewrite E. reflexivity.
  - split; [destruct (set_wf Rn h e z d h' (reachable_wf Rn h Hr) E) as (_ & K); rewrite K; exact R6|].
    intros e' z' He' Hz'. destruct (read_after_write Rn h e z d h' Hr ltac:(rewrite R6; unfold ALPHA_RES; lia) E) as (A & B).
    destruct (Z.eqb_spec e' e) as [->|N1]; cbn [andb]; [destruct (Z.eqb_spec z' z) as [->|N2]; [exact A|]|];
      apply B; rewrite R6; unfold ALPHA_RES; change (180 / 6)%Z with 30%Z; change (360 / 6)%Z with 60%Z; rewrite !Z.mod_small by lia; congruence.
Qed.
Lemma paint (f : Z -> Z -> R) : exists h : hist Rn, reachable Rn h /\ h_res h = ALPHA_RES /\
  forall e z, (0 <= e < 30)%Z -> (0 <= z < 60)%Z -> h_get Rn h e z = Some (f e z : Rn).
Proof.
  assert (A : forall n, (0 <= n)%Z -> (n <= 1800)%Z -> exists h : hist Rn, reachable Rn h /\ h_res h = ALPHA_RES /\
    forall e z, (0 <= e < 30)%Z -> (0 <= z < 60)%Z -> h_get Rn h e z = Some (if (60 * e + z <? n)%Z then f e z : Rn else (0 : Rn))).
  { refine (natlike_ind _ _ _).
    - intros _. destruct empty_hist as (h & H1 & H2 & H3). exists h. do 2 (split; [assumption|]). intros e z He Hz. rewrite H3 by assumption.
      destruct (Z.ltb_spec (60 * e + z) 0); [lia|reflexivity].
    - intros n Hn IH Hle. destruct (IH ltac:(lia)) as (h & H1 & H2 & H3).
      pose proof (Z.div_mod n 60 ltac:(lia)) as D. pose proof (Z.mod_pos_bound n 60 ltac:(lia)) as M.
      destruct (set_cell h (n / 60) (n mod 60) (f (n / 60)%Z (n mod 60)%Z) H1 H2 ltac:(lia) M) as (h' & _ & H1' & H2' & H3').
      exists h'. do 2 (split; [assumption|]). intros e z He Hz. rewrite H3' by assumption. rewrite H3 by assumption.
      destruct (Z.eqb_spec e (n / 60)) as [E1|N1]; cbn [andb].
      + destruct (Z.eqb_spec z (n mod 60)) as [E2|N2].
        * rewrite <- E1, <- E2. destruct (Z.ltb_spec (60 * e + z) (Z.succ n)); [reflexivity|lia].
        * destruct (Z.ltb_spec (60 * e + z) n); destruct (Z.ltb_spec (60 * e + z) (Z.succ n)); try reflexivity; lia.
      + destruct (Z.ltb_spec (60 * e + z) n); destruct (Z.ltb_spec (60 * e + z) (Z.succ n)); try reflexivity; lia. }
  destruct (A 1800%Z ltac:(lia) ltac:(lia)) as (h & H1 & H2 & H3). exists h. do 2 (split; [assumption|]). intros e z He Hz. rewrite H3 by assumption.
  destruct (Z.ltb_spec (60 * e + z) 1800); [reflexivity|lia].
Qed.
(** the two calls always return *)
Lemma ranking_returns (cast : R -> Z) top (h : hist Rn) goal position velocity cp (margin : R) closest mx mn :
  reachable Rn h -> h_res h = ALPHA_RES -> 0 <= margin <= 180 -> is_priority_queue Rn top ->
  exists out img best, getCostMatrix Rn Rtrig cast (ZnearestA : Rn -> Z) (Zceil : Rn -> Z) h goal position velocity cp margin closest mx mn = Some (out, img) /\
    getBestCandidatesFromCostMatrix Rn top out 1 = Some [best].
Proof.
  intros Hr H6 Hm PQ. destruct (every_cell_filled cast h goal position velocity cp margin closest mx mn Hr H6 Hm)
    as (facing & cm & dm & sm & img & out & _ & E2 & R1 & C1 & _). exists out, img.
  assert (NN : forall x : Rn, isnanb Rn x = false).
  { intros x. unfold isnanb. rn. destruct (R_eqb_spec x x) as [_|X]; [reflexivity|]. exfalso. apply X. reflexivity. }
  destruct (getBest_spec Rn ordered_Rn top PQ out 1 ltac:(lia)) as (l & rest & E' & P & L & _). { intros c _. apply NN. }
  assert (I : In (Cand (cell out 0 0) (ce 0 : Rn) (cz 0 : Rn)) (candidates Rn out)).
  { apply (proj2 (candidates_cells Rn out _)). exists 0%Z, 0%Z. rewrite R1, C1. do 2 (split; [lia|]). cbn [c_cost c_e c_z]. change (ofZ Rn 1) with (1 : Rn). rewrite centre_eq. repeat split; reflexivity. }
  destruct (candidates Rn out) as [|c0 cs] eqn:EC; [destruct I|]. rewrite Z.min_l in L by (cbn [length]; lia).
  destruct l as [|b [|? ?]]; cbn [length] in L; try lia. exists b. split; [exact E2|exact E'].
Qed.
Lemma line_mono (v1 v2 : Z -> R) s z : (1 <= s)%Z -> (0 <= z < 60)%Z -> (forall x, (0 <= x < 60)%Z -> v1 x <= v2 x) -> line_of v1 s z <= line_of v2 s z.
Proof.
  intros Hs Hz H. pose proof (line_ge 0 (fun x => v2 x - v1 x) s z Hs Hz) as K. cut (0 <= line_of v2 s z - line_of v1 s z); [lra|].
  replace (line_of v2 s z - line_of v1 s z) with (line_of (fun x => v2 x - v1 x) s z) by (unfold line_of; cbv zeta; ring).
  apply K. intros x Hx. specialize (H x Hx). lra.
Qed.
Lemma line_at (v : Z -> R) s z : (z mod s = 0)%Z -> line_of v s z = v z.
Proof. intros H. unfold line_of. rewrite H. cbv zeta. rewrite Z.sub_0_r, Z.sub_diag. unfold Rdiv. rewrite !Rmult_0_l, Rplus_0_r. reflexivity. Qed.
(** the flag "an obstacle faces the goal" looks at 5 x 11 cells around that of the goal *)
Lemma foldM_ext {A B} (f g : A -> B -> option A) l : (forall a x, In x l -> f a x = g a x) -> forall a, foldM f a l = foldM g a l.
Proof. induction l as [|x l IH]; intros H a; cbn; [reflexivity|]. rewrite H by (left; reflexivity). destruct (g a x); [|reflexivity]. apply IH. intros; apply H; right; assumption. Qed.
Lemma facing_window (h1 h2 : hist Rn) (goal position : vec3 Rn) (e0 z0 : Z) (d mx mn : R) : (2 <= e0 < 28)%Z -> (5 <= z0 < 55)%Z ->
  cartesianToPolarHistogram Rn Rtrig goal position = Pol (ce e0 : Rn) (cz z0 : Rn) (d : Rn) ->
  (forall e z, (e0 - 2 <= e <= e0 + 2)%Z -> (z0 - 5 <= z <= z0 + 5)%Z -> h_get Rn h2 e z = h_get Rn h1 e z) ->
  obstacleFacingGoal Rn Rtrig (Ztrunc : R -> Z) h2 goal position mx mn = obstacleFacingGoal Rn Rtrig (Ztrunc : R -> Z) h1 goal position mx mn.
Proof.
  intros He Hz Eg H. unfold obstacleFacingGoal. rewrite Eg. cbv zeta. apply foldM_ext. intros b (j, i) I.
  apply in_flat_map in I as (j' & J1 & J2). apply in_map_iff in J2 as (i' & J2 & J3). injection J2 as E1 E2. apply in_zrange in J1, J3. cbn [fst snd pe pz].
  replace (Pol (add Rn (ce e0) (mul Rn (ofZ Rn j) (ofZ Rn ALPHA_RES))) (add Rn (cz z0) (mul Rn (ofZ Rn i) (ofZ Rn ALPHA_RES))) (ofZ Rn 0))
    with (histogramIndexToPolar Rn (e0 + j) (z0 + i) ALPHA_RES (0 : R)).
  2:{ unfold histogramIndexToPolar, ALPHA_RES, ce, cz. change (6 / 2)%Z with 3%Z. rn. tR. f_equal.
      - rewrite <- mult_IZR, <- plus_IZR. f_equal. lia.
      - rewrite <- mult_IZR, <- plus_IZR. f_equal. lia. }
  rewrite histogramIndex_roundtrip_R; unfold ALPHA_RES; change (180 / 6)%Z with 30%Z; change (360 / 6)%Z with 60%Z; try lia.
  rewrite H by lia. reflexivity.
Qed.

(** row 24 (57 degrees): every other column is evaluated *)
Lemma step_24 : step_of 24 = 2%Z.
Proof.
  unfold step_of. change (6 * 24 + 3 - 90)%Z with 57%Z. pose proof PI_RGT_0 as HP. pose proof PI_4 as H4.
  set (x := 57 * (PI / 180)).
  assert (C1 : 1 / 2 <= cos x). { rewrite <- cos_PI3. unfold x. apply cos_decr_1; lra. }
  assert (C2 : cos x < 2 / 3).
  { assert (E : cos x = sin (33 * (PI / 180))). { rewrite <- cos_shift. f_equal. unfold x. field. }
    rewrite E. assert (PI3 : PI < 18 / 5). { pose proof (PI_ineq 1) as (_ & K). unfold tg_alt, PI_tg in K. cbn [sum_f_R0] in K. cbn in K. lra. }
    apply Rlt_trans with (33 * (PI / 180)); [apply sin_lt_x; lra|lra]. }
  apply Znearest_imp. apply Rabs_def1.
  - apply Rmult_lt_reg_r with (cos x); [lra|]. unfold Rdiv. rewrite Rmult_minus_distr_r, Rmult_1_l, Rinv_l by lra. lra.
  - apply Rmult_lt_reg_r with (cos x); [lra|]. unfold Rdiv. rewrite Rmult_minus_distr_r, Rmult_1_l, Rinv_l by lra. lra.
Qed.
Lemma line_odd (v1 v2 : Z -> R) z : (0 <= z < 60)%Z -> (forall x, (0 <= x < 60)%Z -> (x mod 2 = 0)%Z -> v1 x = v2 x) -> line_of v1 2 z = line_of v2 2 z.
Proof.
  intros Hz H. unfold line_of. cbv zeta. pose proof (Z.mod_pos_bound z 2 ltac:(lia)) as M. pose proof (Z.div_mod z 2 ltac:(lia)) as D.
  assert (A : ((z - z mod 2) mod 2 = 0)%Z). { apply Z.mod_divide; [lia|]. exists (z / 2)%Z. lia. }
  assert (Ra : (0 <= z - z mod 2 <= 58)%Z) by lia. rewrite Z.min_l by lia. set (a := (z - z mod 2)%Z) in *.
  assert (B : (((a + 2) mod 60) mod 2 = 0)%Z). { apply Z.mod_divide; [lia|]. pose proof (Z.div_mod (a + 2) 60 ltac:(lia)). exists (z / 2 + 1 - 30 * ((a + 2) / 60))%Z. lia. }
  rewrite (H a) by (try assumption; lia). rewrite (H ((a + 2) mod 60)%Z) by (try assumption; apply Z.mod_pos_bound; lia). reflexivity.
Qed.
Lemma line_zero s z : line_of (fun _ => 0) s z = 0. Proof. unfold line_of. cbv zeta. ring. Qed.
