(** Proofs: smoothing over the reals (C63). *)
From Coq Require Import ZArith Reals List Bool Lia.
From Verif Require Import Num Mat CommonModel CommonSpec CommonProofs HistModel PfModel PfSpec PfPad.
Import ListNotations.
Local Open Scope Z_scope.

(* ------------------------------------------------------------------------- smoothing over the reals *)
Section Zsum.
Local Open Scope R_scope.
Lemma zsum_S (N : num) n f : (0 <= n)%Z -> zsum N (n + 1) f = add N (zsum N n f) (f n).
Proof. intros H. unfold zsum. rewrite zrange_S by exact H. rewrite fold_left_app. reflexivity. Qed.
Lemma zsum_0 (N : num) f : zsum N 0 f = ofZ N 0.
Proof. reflexivity. Qed.
Lemma zsum_ext (N : num) n f g : (forall k, (0 <= k < n)%Z -> f k = g k) -> zsum N n f = zsum N n g.
Proof.
  intros H. unfold zsum. assert (Hin : forall k, In k (zrange n) -> f k = g k) by (intros k Hk; apply H, in_zrange, Hk).
  revert Hin. generalize (ofZ N 0). induction (zrange n) as [|a l IH]; intros s Hin; cbn; [reflexivity|].
  rewrite (Hin a (or_introl eq_refl)). apply IH. intros; apply Hin; now right.
Qed.
Lemma zsum_ind (P : Z -> Prop) : P 0%Z -> (forall n, (0 <= n)%Z -> P n -> P (n + 1)%Z) -> forall n, (0 <= n)%Z -> P n.
Proof. intros H0 HS n Hn. apply (natlike_ind P); [exact H0| |exact Hn]. intros x Hx Px. replace (Z.succ x) with (x + 1)%Z by lia. auto. Qed.
Lemma zsum_le (f g : Z -> R) n : (0 <= n)%Z -> (forall k, (0 <= k < n)%Z -> f k <= g k) -> zsum Rn n f <= zsum Rn n g.
Proof.
  intros Hn. revert n Hn. refine (zsum_ind _ _ _).
  - intros _. rewrite !zsum_0. rn. lra.
  - intros n Hn IH H. rewrite !zsum_S by exact Hn. rn.
    assert (zsum Rn n f <= zsum Rn n g) by (apply IH; intros; apply H; lia). specialize (H n ltac:(lia)). lra.
Qed.
Lemma zsum_const0 n : (0 <= n)%Z -> zsum Rn n (fun _ => 0 : Rn) = 0.
Proof. revert n. refine (zsum_ind _ _ _); [reflexivity|]. intros n Hn IH. rewrite zsum_S, IH by exact Hn. rn. lra. Qed.
Lemma zsum_nonneg (f : Z -> R) n : (0 <= n)%Z -> (forall k, (0 <= k < n)%Z -> 0 <= f k) -> 0 <= zsum Rn n f.
Proof. intros Hn H. rewrite <- (zsum_const0 n Hn). now apply zsum_le. Qed.
Lemma zsum_term (f : Z -> R) n k0 : (0 <= k0 < n)%Z -> (forall k, (0 <= k < n)%Z -> 0 <= f k) -> f k0 <= zsum Rn n f.
Proof.
  intros Hk. assert (Hn : (0 <= n)%Z) by lia. revert n Hn Hk. refine (zsum_ind _ _ _).
  - intros; lia.
  - intros n Hn IH Hk H. rewrite zsum_S by exact Hn. rn. destruct (Z.eq_dec k0 n) as [->|Hne].
    + assert (0 <= zsum Rn n f) by (apply zsum_nonneg; [exact Hn|intros; apply H; lia]). lra.
    + assert (f k0 <= zsum Rn n f) by (apply IH; [lia|intros; apply H; lia]). specialize (H n ltac:(lia)). lra.
Qed.
Lemma zsum_scale (f : Z -> R) c n : (0 <= n)%Z -> zsum Rn n (fun k => (f k * c)%R : Rn) = zsum Rn n f * c.
Proof. revert n. refine (zsum_ind _ _ _); [rewrite !zsum_0; rn; lra|]. intros n Hn IH. rewrite !zsum_S, IH by exact Hn. rn. lra. Qed.

(** the conic weight *)
Lemma IZR_Zabs z : IZR (Z.abs z) = Rabs (IZR z).
Proof. apply abs_IZR. Qed.
Lemma conicRaw_R radius row : (0 <= row <= 2 * radius)%Z ->
  conicRaw Rn radius row = 1 + IZR radius - Rabs (IZR row - IZR radius) /\ 1 <= conicRaw Rn radius row <= 1 + IZR radius.
Proof.
  intros H. unfold conicRaw. rewrite maxv_Rn. rn. rewrite IZR_Zabs, minus_IZR.
  assert (Rabs (IZR row - IZR radius) <= IZR radius).
  { rewrite <- minus_IZR, <- IZR_Zabs. apply IZR_le. lia. }
  pose proof (Rabs_pos (IZR row - IZR radius)).
  rewrite Rmax_right by lra. lra.
Qed.
Lemma kernel_max radius : (0 <= radius)%Z ->
  fold_left (fun m k => maxv Rn m (conicRaw Rn radius k)) (zrange (radius * 2 + 1)) (conicRaw Rn radius 0) = 1 + IZR radius.
Proof.
  intros Hr.
  assert (G : forall n, (0 <= n)%Z -> (n <= radius * 2 + 1)%Z ->
     let v := fold_left (fun m k => maxv Rn m (conicRaw Rn radius k)) (zrange n) (conicRaw Rn radius 0) in
     v <= 1 + IZR radius /\ ((radius < n)%Z -> 1 + IZR radius <= v)).
  { refine (zsum_ind _ _ _).
    - intros _. cbn. destruct (conicRaw_R radius 0) as (_ & ?); [lia|]. split; [lra|lia].
    - intros n Hn IH Hle. cbv zeta in *. rewrite zrange_S, fold_left_app by exact Hn. cbn [fold_left].
      destruct IH as (I1 & I2); [lia|]. destruct (conicRaw_R radius n) as (E & ? & ?); [lia|]. rewrite maxv_Rn. tR. split.
      + apply Rmax_lub; assumption.
      + intros Hlt. destruct (Z.eq_dec n radius) as [->|Hne].
        * eapply Rle_trans; [|apply Rmax_r]. rewrite E. replace (IZR radius - IZR radius) with 0 by lra. rewrite Rabs_R0. lra.
        * eapply Rle_trans; [|apply Rmax_l]. apply I2. lia. }
  destruct (G (radius * 2 + 1)%Z) as (G1 & G2); [lia|lia|]. cbv zeta in *. apply Rle_antisym; [exact G1|apply G2; lia].
Qed.
Lemma kernel_R radius k : (0 <= radius)%Z -> (0 <= k < 2 * radius + 1)%Z -> getConicKernel Rn radius k = cone radius k.
Proof.
  intros Hr Hk. unfold getConicKernel. rewrite kernel_max by exact Hr. destruct (conicRaw_R radius k) as (E & _); [lia|]. rewrite E.
  unfold cone. rn. assert (0 <= IZR radius) by (apply IZR_le; lia). tR; field; lra.
Qed.
Lemma cone_pos radius k : (0 <= k < 2 * radius + 1)%Z -> 0 < cone radius k <= 1.
Proof.
  intros Hk. destruct (conicRaw_R radius k) as (E & L & U); [lia|]. unfold cone. rewrite <- E.
  assert (0 <= IZR radius) by (apply IZR_le; lia). tR. split.
  - apply Rdiv_lt_0_compat; lra.
  - apply Rmult_le_reg_r with (1 + IZR radius); [lra|]. unfold Rdiv. rewrite Rmult_assoc, Rinv_l by lra. lra.
Qed.
Lemma cone_centre radius : (0 <= radius)%Z -> cone radius radius = 1.
Proof.
  intros Hr. unfold cone. replace (IZR radius - IZR radius) with 0 by lra. rewrite Rabs_R0.
  assert (0 <= IZR radius) by (apply IZR_le; lia). field. lra.
Qed.

Lemma smooth_spec (m : mat Rn) radius : (0 <= radius <= rows m)%Z -> (radius <= cols m)%Z -> (cols m mod 2 = 0)%Z -> (0 < cols m)%Z ->
  exists o, smoothPolarMatrix Rn m radius = Some o /\ rows o = rows m /\ cols o = cols m /\
  forall r c, (0 <= r < rows m)%Z -> (0 <= c < cols m)%Z ->
    cell o r c = zsum Rn (2 * radius + 1) (fun k =>
       (zsum Rn (2 * radius + 1) (fun l => (sphere_at m (r - radius + l) (c - radius + k) * cone radius l)%R : Rn) * cone radius k)%R : Rn).
Proof.
  intros Hr Hc Hev HC. unfold smoothPolarMatrix.
  destruct (pad_spec Rn m radius Hr Hc Hev HC) as (p & E & Rp & Cp & P). rewrite E.
  eexists. split; [reflexivity|]. cbn [rows cols cell]. split; [reflexivity|]. split; [reflexivity|].
  intros r c Hr' Hc'. apply zsum_ext. intros k Hk. rn. rewrite kernel_R by lia. f_equal.
  rewrite (proj2 (Z.leb_le radius (r + radius))) by lia. rewrite (proj2 (Z.ltb_lt (r + radius) (radius + rows m))) by lia. cbn [andb].
  apply zsum_ext. intros l Hl. rn. rewrite kernel_R by lia. f_equal. rewrite P by lia. unfold sphere_at.
  replace (r + radius - radius + l - radius)%Z with (r - radius + l)%Z by lia.
  replace (c + k - radius)%Z with (c - radius + k)%Z by lia. reflexivity.
Qed.
Lemma sphere_cell_range R C r c : (0 < C)%Z -> (- R <= r < 2 * R)%Z ->
  (0 <= fst (sphere_cell R C r c) < R)%Z /\ (0 <= snd (sphere_cell R C r c) < C)%Z.
Proof.
  intros HC Hr. unfold sphere_cell. pose proof (Z.mod_pos_bound c C HC). pose proof (Z.mod_pos_bound (c + C / 2) C HC).
  destruct (Z.ltb_spec r 0); [cbn [fst snd]; lia|]. destruct (Z.ltb_spec r R); cbn [fst snd]; lia.
Qed.
Lemma smooth_bounds (m o : mat Rn) radius : (0 <= radius <= rows m)%Z -> (radius <= cols m)%Z -> (cols m mod 2 = 0)%Z -> (0 < cols m)%Z ->
  (forall i j, (0 <= i < rows m)%Z -> (0 <= j < cols m)%Z -> 0 <= cell m i j) ->
  smoothPolarMatrix Rn m radius = Some o ->
  forall r c, (0 <= r < rows m)%Z -> (0 <= c < cols m)%Z -> cell m r c <= cell o r c.
Proof.
  intros Hr Hc Hev HC Hpos E r c Hr' Hc'. destruct (smooth_spec m radius Hr Hc Hev HC) as (o' & E' & _ & _ & S).
  rewrite E in E'. injection E' as <-. rewrite S by assumption.
  assert (Hsp : forall i j, (- rows m <= i < 2 * rows m)%Z -> 0 <= sphere_at m i j).
  { intros i j Hij. pose proof (sphere_cell_range (rows m) (cols m) i j HC Hij) as (H1 & H2). unfold sphere_at.
    destruct (sphere_cell (rows m) (cols m) i j) as [a b]. cbn [fst snd] in *. now apply Hpos. }
  assert (Hin : forall k, (0 <= k < 2 * radius + 1)%Z -> 0 <= zsum Rn (2 * radius + 1) (fun l => (sphere_at m (r - radius + l) (c - radius + k) * cone radius l)%R : Rn)).
  { intros k Hk. apply zsum_nonneg; [lia|]. intros l Hl. apply Rmult_le_pos; [apply Hsp; lia|]. destruct (cone_pos radius l Hl). lra. }
  eapply Rle_trans; [|apply zsum_term with (k0 := radius); [lia|]].
  - cbv beta. rewrite cone_centre by lia. rewrite Rmult_1_r.
    eapply Rle_trans; [|apply zsum_term with (k0 := radius); [lia|]].
    + cbv beta. rewrite cone_centre by lia. rewrite Rmult_1_r. replace (r - radius + radius)%Z with r by lia.
      replace (c - radius + radius)%Z with c by lia. unfold sphere_at, sphere_cell.
      rewrite (proj2 (Z.ltb_ge r 0)) by lia. rewrite (proj2 (Z.ltb_lt r (rows m))) by lia. rewrite Z.mod_small by lia. apply Rle_refl.
    + intros l Hl. apply Rmult_le_pos; [apply Hsp; lia|]. destruct (cone_pos radius l Hl). lra.
  - intros k Hk. apply Rmult_le_pos; [now apply Hin|]. destruct (cone_pos radius k Hk). lra.
Qed.
End Zsum.
