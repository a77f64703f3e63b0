(** Proofs: cost function (C30), setpoint on the path (C33), cost image addressing (C62). *)
From Coq Require Import ZArith Reals List Bool Lia Psatz.
From Flocq Require Import Core BinarySingleNaN.
From Verif Require Import Num Mat F32Err CommonModel CommonSpec CommonProofs HistModel HistProofs PfModel PfSpec PfProofs PfProofs2 PfSmooth.
Import ListNotations.

(* ------------------------------------------------------------------------------ cost function *)
Section Cost.
Local Open Scope R_scope.
Lemma sat_bounds d : -1 < d / sqrt (1 + d * d) < 1.
Proof.
  assert (H : 0 < 1 + d * d) by nra. assert (Hs : 0 < sqrt (1 + d * d)) by (now apply sqrt_lt_R0).
  assert (Hsq : sqrt (1 + d * d) * sqrt (1 + d * d) = 1 + d * d) by (apply sqrt_sqrt; lra).
  set (s := sqrt (1 + d * d)) in *. split.
  - apply Rmult_lt_reg_r with s; [exact Hs|]. unfold Rdiv. rewrite Rmult_assoc, Rinv_l by lra. nra.
  - apply Rmult_lt_reg_r with s; [exact Hs|]. unfold Rdiv. rewrite Rmult_assoc, Rinv_l by lra. nra.
Qed.
Lemma sat_mono a b : a <= b -> a / sqrt (1 + a * a) <= b / sqrt (1 + b * b).
Proof.
  intros H.
  assert (Ha : 0 < sqrt (1 + a * a)) by (apply sqrt_lt_R0; nra). assert (Hb : 0 < sqrt (1 + b * b)) by (apply sqrt_lt_R0; nra).
  assert (Ea : sqrt (1 + a * a) * sqrt (1 + a * a) = 1 + a * a) by (apply sqrt_sqrt; nra).
  assert (Eb : sqrt (1 + b * b) * sqrt (1 + b * b) = 1 + b * b) by (apply sqrt_sqrt; nra).
  set (s := sqrt (1 + a * a)) in *. set (t := sqrt (1 + b * b)) in *.
  assert (K : a * t <= b * s).
  { destruct (Rle_dec a 0) as [A|A].
    - destruct (Rle_dec 0 b) as [B|B]; [nra|].
      (* both negative: (a t)^2 >= (b s)^2 *)
      assert (Hsq : (b * s) * (b * s) <= (a * t) * (a * t)).
      { replace ((b * s) * (b * s)) with (b * b * (s * s)) by ring. replace ((a * t) * (a * t)) with (a * a * (t * t)) by ring.
        rewrite Ea, Eb. nra. }
      assert (b * s < 0) by nra. assert (a * t < 0) by nra. nra.
    - assert (Hsq : (a * t) * (a * t) <= (b * s) * (b * s)).
      { replace ((b * s) * (b * s)) with (b * b * (s * s)) by ring. replace ((a * t) * (a * t)) with (a * a * (t * t)) by ring.
        rewrite Ea, Eb. nra. }
      assert (0 < b * s) by nra. assert (0 < a * t) by nra. nra. }
  apply Rmult_le_reg_r with s; [exact Ha|]. apply Rmult_le_reg_r with t; [exact Hb|].
  replace (a / s * s * t) with (a * t) by (field; lra). replace (b / t * s * t) with (b * s) by (field; lra). exact K.
Qed.
Lemma cauchy3 a b c x y z : a * x + b * y + c * z <= sqrt (a * a + b * b + c * c) * sqrt (x * x + y * y + z * z).
Proof.
  rewrite <- sqrt_mult by nra.
  apply Rle_trans with (Rabs (a * x + b * y + c * z)); [apply Rle_abs|].
  rewrite <- sqrt_Rsqr_abs. apply sqrt_le_1_alt. unfold Rsqr.
  pose proof (Rle_0_sqr (a * y - b * x)). pose proof (Rle_0_sqr (a * z - c * x)). pose proof (Rle_0_sqr (b * z - c * y)).
  unfold Rsqr in *. nra.
Qed.
Lemma velocity_term (c v : vec3 Rn) : v3dot Rn (v3normalized Rn c) v <= v3norm Rn v.
Proof.
  unfold v3normalized, v3norm, v3sqnorm, v3dot. rn. destruct c as [c1 c2 c3], v as [v1 v2 v3]. cbn [vx vy vz]. tR.
  set (q := c1 * c1 + c2 * c2 + c3 * c3). destruct (R_ltb_spec 0 q) as [H|H]; cbn [vx vy vz].
  - assert (Hs : 0 < sqrt q) by (now apply sqrt_lt_R0).
    pose proof (cauchy3 c1 c2 c3 v1 v2 v3) as C. fold q in C.
    apply Rmult_le_reg_l with (sqrt q); [exact Hs|].
    replace (sqrt q * (c1 / sqrt q * v1 + c2 / sqrt q * v2 + c3 / sqrt q * v3)) with (c1 * v1 + c2 * v2 + c3 * v3) by (field; lra).
    exact C.
  - assert (c1 = 0 /\ c2 = 0 /\ c3 = 0) as (-> & -> & ->) by (unfold q in H; repeat split; nra).
    pose proof (sqrt_pos (v1 * v1 + v2 * v2 + v3 * v3)). lra.
Qed.

Definition nonneg_params (cp : costParameters Rn) : Prop :=
  0 <= yaw_cost_param cp /\ 0 <= pitch_cost_param cp /\ 0 <= velocity_cost_param cp.
Lemma other_cost_nonneg cand d goal position velocity cp closest facing :
  nonneg_params cp -> goal <> position ->
  0 <= snd (costFunction Rn Rtrig cand d goal position velocity cp closest facing).
Proof.
  intros (Hy & Hp & Hv) _. unfold costFunction. cbn [snd].
  set (ad := angleDifference Rn _ _). set (al := angleDifference Rn _ _).
  set (gd := v3norm Rn (v3sub Rn goal position)).
  set (pe' := sub Rn (pe cand) (pe _)).
  pose proof (velocity_term (polarHistogramToCartesian Rn Rtrig cand (V3 (ofZ Rn 0) (ofZ Rn 0) (ofZ Rn 0))) velocity) as V.
  set (nv := v3dot Rn _ velocity) in *. set (vn := v3norm Rn velocity) in *.
  rn. rewrite !cst_Rn. tR. clearbody ad al gd pe' nv vn. tR.
  assert (V1 : 0 <= velocity_cost_param cp * (vn - nv)) by (apply Rmult_le_pos; lra).
  assert (P0 : 0 <= pitch_cost_param cp * pe' * pe') by (rewrite Rmult_assoc; apply Rmult_le_pos; [lra|nra]).
  assert (P1 : 0 <= (if R_ltb gd 5 then pitch_cost_param cp * pe' * pe' / (1 / 5 * gd * (1 / 5 * gd)) else pitch_cost_param cp * pe' * pe')).
  { destruct (R_ltb gd 5); [|exact P0]. destruct (Req_dec gd 0) as [->|Hg].
    - unfold Rdiv at 1. replace (1 / 5 * 0 * (1 / 5 * 0)) with 0 by lra. rewrite Rinv_0. lra.
    - unfold Rdiv at 1. apply Rmult_le_pos; [exact P0|]. left. apply Rinv_0_lt_compat. nra. }
  assert (Y : forall w k x : R, 0 <= w -> 0 <= k -> 0 <= w * k * x * x).
  { intros w k x Hw Hk. replace (w * k * x * x) with (w * k * (x * x)) by ring. apply Rmult_le_pos; [now apply Rmult_le_pos|nra]. }
  destruct facing.
  - pose proof (Y (1 - 0) (yaw_cost_param cp) ad ltac:(lra) Hy). pose proof (Y 0 (yaw_cost_param cp) al ltac:(lra) Hy). tR. lra.
  - pose proof (Y (1 - 1 / 2) (yaw_cost_param cp) ad ltac:(lra) Hy). pose proof (Y (1 / 2) (yaw_cost_param cp) al ltac:(lra) Hy). tR. lra.
Qed.
Lemma distance_cost_eq cand d goal position velocity cp closest facing :
  fst (costFunction Rn Rtrig cand d goal position velocity cp closest facing) =
  (if R_ltb 0 d then 5000 * (1 + (obstacle_cost_param cp - d) / sqrt (1 + (obstacle_cost_param cp - d) * (obstacle_cost_param cp - d))) else 0).
Proof. reflexivity. Qed.
Lemma distance_cost_range cand (d : R) goal position velocity cp closest facing :
  let c := fst (costFunction Rn Rtrig cand d goal position velocity cp closest facing) in
  0 <= c < 10000 /\ (d <= 0 -> c = 0) /\ (0 < d -> 0 < c).
Proof.
  cbv zeta. rewrite distance_cost_eq. pose proof (sat_bounds (obstacle_cost_param cp - d)) as B. tR.
  destruct (R_ltb_spec 0 d); repeat split; try lra.
Qed.
Lemma distance_cost_mono cand (d1 d2 : R) goal position velocity cp closest facing : 0 < d1 <= d2 ->
  fst (costFunction Rn Rtrig cand d2 goal position velocity cp closest facing) <=
  fst (costFunction Rn Rtrig cand d1 goal position velocity cp closest facing).
Proof.
  intros H. rewrite !distance_cost_eq. destruct (R_ltb_spec 0 d1); [|lra]. destruct (R_ltb_spec 0 d2); [|lra].
  pose proof (sat_mono (obstacle_cost_param cp - d2) (obstacle_cost_param cp - d1) ltac:(lra)). tR. lra.
Qed.
End Cost.

(** at the goal the cost is not a number (binary32) *)
Lemma add_nonfinite_r (a b : f32) : is_finite b = false -> is_finite (Bplus mode_NE a b : f32) = false.
Proof. destruct b as [|sb| |]; try discriminate; destruct a as [|sa| |]; cbn; try reflexivity. intros _. destruct sa, sb; reflexivity. Qed.
Lemma div0_nonfinite (a : f32) : is_finite (Bdiv mode_NE a (B754_zero false) : f32) = false.
Proof. destruct a as [|sa| |]; reflexivity. Qed.
Lemma sub_self (x : f32) : is_finite x = true -> (Bminus mode_NE x x : f32) = B754_zero false.
Proof.
  intros F. destruct x as [s|s| |s m e H]; try discriminate; [destruct s; reflexivity|].
  set (x := B754_finite s m e H : f32) in *.
  pose proof (Bminus_correct 24 128 _ _ mode_NE x x F F) as HB. rewrite Rminus_diag_eq in HB by reflexivity.
  rewrite round_0 in HB by apply (valid_rnd_round_mode mode_NE). rewrite Rabs_R0 in HB. rewrite Rlt_bool_true in HB by apply bpow_gt_0.
  destruct HB as (HV & HF & HS). rewrite Rcompare_Eq in HS by reflexivity.
  destruct (Bminus mode_NE x x : f32) as [sz|sz| |sz mz ez Hz]; try discriminate.
  - cbn in HS. rewrite HS. destruct s; reflexivity.
  - exfalso. cbn in HV. apply (F2R_neq_0 radix2 (Float radix2 (cond_Zopp sz (Z.pos mz)) ez)); [destruct sz; discriminate|exact HV].
Qed.
Lemma mul_zero_r (x : f32) : is_finite x = true -> Bsign x = false -> (Bmult mode_NE x (B754_zero false) : f32) = B754_zero false.
Proof. destruct x as [s|s| |s m e H]; try discriminate; cbn; intros _ ->; reflexivity. Qed.
Lemma cost_at_goal_nonfinite (G : trig F32) cand d (p : vec3 F32) velocity cp closest facing :
  is_finite (vx p : f32) = true -> is_finite (vy p : f32) = true -> is_finite (vz p : f32) = true ->
  is_finite (snd (costFunction F32 G cand d p p velocity cp closest facing) : f32) = false.
Proof.
  intros Fx Fy Fz. unfold costFunction. cbn [snd].
  assert (Hgd : v3norm F32 (v3sub F32 p p) = (B754_zero false : F32)).
  { unfold v3norm, v3sqnorm, v3sub. cbn [vx vy vz add sub mul sqrtv F32]. rewrite (sub_self _ Fx), (sub_self _ Fy), (sub_self _ Fz). reflexivity. }
  rewrite Hgd. replace (ltb F32 (B754_zero false : F32) (ofZ F32 5)) with true by reflexivity.
  assert (Hz : mul F32 (mul F32 (cst F32 1 5) (B754_zero false : F32)) (mul F32 (cst F32 1 5) (B754_zero false : F32)) = (B754_zero false : F32)).
  { assert (K : mul F32 (cst F32 1 5) (B754_zero false : F32) = (B754_zero false : F32)).
    { apply mul_zero_r; vm_compute; reflexivity. }
    rewrite K. reflexivity. }
  rewrite Hz. cbn [add div F32]. apply add_nonfinite_r, div0_nonfinite.
Qed.

(* ------------------------------------------------------------------------------- path setpoint *)
Section Path.
Local Open Scope R_scope.
Lemma seg_len_pos a b : a <> b -> 0 < seg_len a b.
Proof.
  intros H. unfold seg_len, v3norm, v3sqnorm, v3sub. rn. cbn [vx vy vz]. destruct a as [a1 a2 a3], b as [b1 b2 b3]. cbn [vx vy vz] in *. tR.
  apply sqrt_lt_R0.
  destruct (Req_dec a1 b1) as [->|H1]; [destruct (Req_dec a2 b2) as [->|H2]; [destruct (Req_dec a3 b3) as [->|H3]; [congruence|]|]|].
  - assert (0 < (b3 - a3) * (b3 - a3)) by (destruct (Rtotal_order b3 a3) as [|[|]]; [nra|congruence|nra]). nra.
  - assert (0 < (b2 - a2) * (b2 - a2)) by (destruct (Rtotal_order b2 a2) as [|[|]]; [nra|congruence|nra]).
    pose proof (Rle_0_sqr (b3 - a3)). unfold Rsqr in *. nra.
  - assert (0 < (b1 - a1) * (b1 - a1)) by (destruct (Rtotal_order b1 a1) as [|[|]]; [nra|congruence|nra]).
    pose proof (Rle_0_sqr (b3 - a3)). pose proof (Rle_0_sqr (b2 - a2)). unfold Rsqr in *. nra.
Qed.
Lemma path_length_nonneg l : forall a, 0 <= path_length a l.
Proof. induction l as [|b l IH]; intros a; cbn [path_length]; [lra|]. specialize (IH b). unfold seg_len, v3norm. rn. pose proof (sqrt_pos (v3sqnorm Rn (v3sub Rn b a))). tR. lra. Qed.
Lemma sp_walk_spec rest : forall a b d, 0 <= d -> no_zero_segment a (b :: rest) ->
  let (ok, sp) := sp_walk Rn rest b (v3sub Rn b a) d (onSegment Rn a (v3sub Rn b a) d) in
  (ok = true -> at_distance a (b :: rest) d sp) /\
  (ok = true <-> d < path_length a (b :: rest) /\ ~ In d (node_distances a (b :: rest))).
Proof.
  assert (Hhere : forall a b l d, 0 <= d -> a <> b -> d < seg_len a b -> at_distance a (b :: l) d (onSegment Rn a (v3sub Rn b a) d)).
  { intros a b l d Hd Hne Hlt. pose proof (seg_len_pos a b Hne) as Hp.
    assert (Ht : 0 <= d / seg_len a b < 1).
    { split; [apply Rmult_le_pos; [exact Hd|left; now apply Rinv_0_lt_compat]|].
      apply Rmult_lt_reg_r with (seg_len a b); [exact Hp|]. unfold Rdiv. rewrite Rmult_assoc, Rinv_l by lra. lra. }
    pose proof (at_here a b l (d / seg_len a b) Ht) as A. replace (d / seg_len a b * seg_len a b) with d in A by (field; lra).
    exact A. }
  induction rest as [|c rest IH]; intros a b d Hd (Hne & Hrest).
  - cbn [sp_walk]. fold (seg_len a b). cbn [ltb Rn]. split.
    + intros H. apply R_ltb_true in H. now apply Hhere.
    + rewrite R_ltb_true. cbn [path_length node_distances In]. intuition lra.
  - cbn [sp_walk]. fold (seg_len a b). cbn [ltb Rn]. pose proof (seg_len_pos a b Hne) as Hp.
    assert (Hnd : node_distances a (b :: c :: rest) = seg_len a b :: map (fun d => seg_len a b + d) (node_distances b (c :: rest))) by reflexivity.
    rewrite Hnd. destruct (R_ltb_spec (seg_len a b) d) as [Hlt|Hge].
    + assert (Hd' : 0 <= d - seg_len a b) by lra. specialize (IH b c (d - seg_len a b) Hd' Hrest).
      cbn [sub Rn] in *. change (d - seg_len a b) with (Rminus d (seg_len a b)) in *.
      destruct (sp_walk Rn rest c (v3sub Rn c b) (d - seg_len a b) (onSegment Rn b (v3sub Rn c b) (d - seg_len a b))) as [ok sp].
      destruct IH as (I1 & I2). split.
      * intros Hok. replace d with (seg_len a b + (d - seg_len a b)) by lra. apply at_later, I1, Hok.
      * rewrite I2. change (path_length a (b :: c :: rest)) with (seg_len a b + path_length b (c :: rest)).
        cbn [In]. rewrite in_map_iff. split.
        -- intros (H1 & H2). split; [lra|]. intros [H3|(x & H3 & H4)]; [lra|]. apply H2. replace (d - seg_len a b) with x by lra. exact H4.
        -- intros (H1 & H2). split; [lra|]. intros H3. apply H2. right. exists (d - seg_len a b). split; [lra|exact H3].
    + split.
      * intros H. apply R_ltb_true in H. now apply Hhere.
      * rewrite R_ltb_true. change (path_length a (b :: c :: rest)) with (seg_len a b + path_length b (c :: rest)).
        pose proof (path_length_nonneg rest c) as Hl0. destruct Hrest as (Hne' & _).
        pose proof (seg_len_pos b c Hne') as Hl1. assert (Hl : 0 < path_length b (c :: rest)) by (cbn [path_length]; lra).
        cbn [In]. rewrite in_map_iff. split.
        -- intros H. split; [lra|]. intros [H3|(x & H3 & H4)]; [lra|].
           assert (Hx : forall l a0 y, In y (node_distances a0 l) -> 0 <= y).
           { clear. induction l as [|b l IH]; intros a0 y Hy; [destruct Hy|]. destruct l as [|c l]; [destruct Hy|].
             assert (S0 : 0 <= seg_len a0 b) by apply sqrt_pos.
             change (node_distances a0 (b :: c :: l)) with (seg_len a0 b :: map (fun d => seg_len a0 b + d) (node_distances b (c :: l))) in Hy.
             destruct Hy as [<-|Hy]; [exact S0|]. apply in_map_iff in Hy. destruct Hy as (z & <- & Hz). specialize (IH b z Hz). lra. }
           specialize (Hx _ _ _ H4). lra.
        -- intros (H1 & H2). destruct (Req_dec d (seg_len a b)) as [->|Hn]; [exfalso; apply H2; left; reflexivity|lra].
Qed.
Lemma setpoint_spec first a b rest (dist : R) : 0 <= dist -> no_zero_segment a (b :: rest) ->
  exists ok sp, getSetpointFromPath Rn (rev (first :: a :: b :: rest)) dist = (ok, Some sp) /\
  (ok = true -> at_distance a (b :: rest) dist sp) /\
  (ok = true <-> dist < path_length a (b :: rest) /\ ~ In dist (node_distances a (b :: rest))).
Proof.
  intros Hd Hz. unfold getSetpointFromPath. rewrite rev_involutive.
  pose proof (sp_walk_spec rest a b dist Hd Hz) as S. cbv zeta.
  destruct (sp_walk Rn rest b (v3sub Rn b a) dist (onSegment Rn a (v3sub Rn b a) dist)) as [ok sp] eqn:E.
  exists ok, sp. split; [reflexivity|exact S].
Qed.
End Path.

(* ------------------------------------------------------------------------------- cost image *)
Section Image.
Context (N : num) (cast : N -> Z).
Definition pixel (c d : mat N) (ez : Z * Z) : list Z :=
  let mv := maxv N (maxCoeff N c) (maxCoeff N d) in
  let e := (GRID_LENGTH_E - 1 - fst ez)%Z in
  [byte N cast (div N (mul N (ofZ N 255) (cell d e (snd ez))) mv); byte N cast (div N (mul N (ofZ N 255) (cell c e (snd ez))) mv); 0%Z].
Lemma image_flat (c d : mat N) img : generateCostImage N cast c d = Some img ->
  img = flat_map (pixel c d) (grid_idx GRID_LENGTH_E GRID_LENGTH_Z).
Proof.
  unfold generateCostImage. generalize (grid_idx GRID_LENGTH_E GRID_LENGTH_Z). intros l. change img with (img) at 1.
  match goal with |- foldM ?f _ _ = _ -> _ => assert (K : forall acc, foldM f acc l = Some img -> img = acc ++ flat_map (pixel c d) l); [|apply (K [])] end.
  induction l as [|ez l IH]; intros acc E; cbn [foldM] in E.
  - injection E as <-. cbn. now rewrite app_nil_r.
  - destruct (mget d _ _) as [vd|] eqn:Ed; [|discriminate]. destruct (mget c _ _) as [vc|] eqn:Ec; [|discriminate].
    apply IH in E. rewrite E. cbn [flat_map]. rewrite <- app_assoc. do 2 f_equal.
    apply mget_inv in Ed, Ec. destruct Ed as (_ & _ & <-), Ec as (_ & _ & <-). reflexivity.
Qed.
Lemma nth_flat_map3 {A} (f : A -> list Z) (l : list A) (k : nat) (col : nat) (a : A) : (forall x, length (f x) = 3%nat) -> (col < 3)%nat ->
  nth_error l k = Some a -> nth_error (flat_map f l) (k * 3 + col) = nth_error (f a) col.
Proof.
  intros Hf Hc. revert k. induction l as [|b l IH]; intros [|k] E; cbn in E; try discriminate.
  - injection E as ->. cbn [flat_map]. apply nth_error_app1. rewrite Hf. lia.
  - cbn [flat_map]. rewrite nth_error_app2 by (rewrite Hf; lia). rewrite Hf. replace (S k * 3 + col - 3)%nat with (k * 3 + col)%nat by lia. auto.
Qed.
Lemma nth_zrange n k : (0 <= k < n)%Z -> nth_error (zrange n) (Z.to_nat k) = Some k.
Proof.
  intros H. unfold zrange. rewrite nth_error_map, nth_error_nth' with (d := 0%nat) by (rewrite seq_length; lia).
  rewrite seq_nth by lia. cbn. f_equal. lia.
Qed.
Lemma nth_grid r c e z : (0 <= e < r)%Z -> (0 <= z < c)%Z -> nth_error (grid_idx r c) (Z.to_nat (e * c + z)) = Some (e, z).
Proof.
  intros He Hz. unfold grid_idx.
  assert (K : forall (l : list Z) (k : nat) (a : Z), nth_error l k = Some a ->
    nth_error (flat_map (fun e => map (fun z : Z => (e, z)) (zrange c)) l) (k * Z.to_nat c + Z.to_nat z) = Some (a, z)).
  { induction l as [|b l IH]; intros [|k] a E; cbn in E; try discriminate.
    - injection E as ->. cbn [flat_map Nat.mul Nat.add]. rewrite nth_error_app1 by (rewrite map_length, length_zrange; lia).
      rewrite nth_error_map, nth_zrange by lia. reflexivity.
    - cbn [flat_map]. rewrite nth_error_app2 by (rewrite map_length, length_zrange; lia). rewrite map_length, length_zrange.
      replace (S k * Z.to_nat c + Z.to_nat z - Z.to_nat c)%nat with (k * Z.to_nat c + Z.to_nat z)%nat by lia. auto. }
  specialize (K (zrange r) (Z.to_nat e) e (nth_zrange r e He)).
  replace (Z.to_nat (e * c + z)) with (Z.to_nat e * Z.to_nat c + Z.to_nat z)%nat by nia. exact K.
Qed.
Lemma image_spec (c d : mat N) img : generateCostImage N cast c d = Some img ->
  Z.of_nat (length img) = (3 * 30 * 60)%Z /\
  forall e z col, (0 <= e < 30)%Z -> (0 <= z < 60)%Z -> (0 <= col < 3)%Z ->
    (0 <= colorImageIndex e z col < 3 * 30 * 60)%Z /\
    nth_error img (Z.to_nat (colorImageIndex e z col)) =
      nth_error [byte N cast (div N (mul N (ofZ N 255) (cell d e z)) (maxv N (maxCoeff N c) (maxCoeff N d)));
                 byte N cast (div N (mul N (ofZ N 255) (cell c e z)) (maxv N (maxCoeff N c) (maxCoeff N d))); 0%Z] (Z.to_nat col).
Proof.
  intros E. apply image_flat in E. subst img. split.
  - assert (L : forall l, length (flat_map (pixel c d) l) = (3 * length l)%nat) by (induction l as [|a l IH]; [reflexivity|cbn [flat_map]; rewrite app_length, IH; cbn [pixel length]; lia]).
    rewrite L. unfold grid_idx. reflexivity.
  - intros e z col He Hz Hc. unfold colorImageIndex, GRID_LENGTH_E, GRID_LENGTH_Z. split; [lia|].
    replace (Z.to_nat (((30 - e - 1) * 60 + z) * 3 + col)) with (Z.to_nat ((29 - e) * 60 + z) * 3 + Z.to_nat col)%nat by lia.
    rewrite (nth_flat_map3 (pixel c d) _ _ _ (29 - e, z)%Z); [|reflexivity|lia|apply nth_grid; lia].
    unfold pixel. cbn [fst snd]. replace (GRID_LENGTH_E - 1 - (29 - e))%Z with e by (unfold GRID_LENGTH_E; lia). reflexivity.
Qed.
Lemma colorIndex_inj e z k e' z' k' : (0 <= z < 60)%Z -> (0 <= k < 3)%Z -> (0 <= z' < 60)%Z -> (0 <= k' < 3)%Z ->
  colorImageIndex e z k = colorImageIndex e' z' k' -> e = e' /\ z = z' /\ k = k'.
Proof. unfold colorImageIndex, GRID_LENGTH_E, GRID_LENGTH_Z. lia. Qed.
End Image.

(** The byte written for any float, NaN and infinities included, is in range. *)
Lemma byte_F32 (x : f32) : (0 <= byte F32 (f32_cast : F32 -> Z) x <= 255)%Z.
Proof.
  unfold byte. set (y := maxv F32 _ _).
  assert (H : (y : f32) = f32_ofZ 0 \/ (y : f32) = f32_ofZ 255 \/
     (f32_ltb (f32_ofZ 0) y = true /\ f32_ltb y (f32_ofZ 255) = true)).
  { unfold y, maxv, minv. cbn [ltb F32 ofZ T]. destruct (f32_ltb x (f32_ofZ 255)) eqn:E1.
    - destruct (f32_ltb (f32_ofZ 0) x) eqn:E2; [right; right; auto|left; reflexivity].
    - right; left. reflexivity. }
  clearbody y. destruct H as [->|[->|(H1 & H2)]]; [vm_compute; split; discriminate|vm_compute; split; discriminate|].
  assert (F : is_finite (y : f32) = true).
  { destruct (y : f32) as [s|[]| |s m e B] eqn:Ey; try reflexivity; vm_compute in H1, H2; discriminate. }
  destruct (f32_ofZ_R 0) as (F0 & V0); [cbn; lia|]. destruct (f32_ofZ_R 255) as (F255 & V255); [cbn; lia|].
  unfold f32_ltb in H1, H2. rewrite Bcompare_correct in H1, H2 by assumption.
  unfold f32_cast. assert (Et : Btrunc (y : f32) = Ztrunc (B2R (y : f32))).
  { apply eq_IZR. rewrite Btrunc_correct by reflexivity. now rewrite round_FIX_IZR. }
  rewrite Et. revert H1 H2. rewrite V0, V255. intros H1 H2.
  destruct (Rcompare_spec (IZR 0) (B2R (y : f32))) as [A| |]; try discriminate.
  destruct (Rcompare_spec (B2R (y : f32)) (IZR 255)) as [B| |]; try discriminate.
  split; [rewrite <- (Ztrunc_IZR 0); apply Ztrunc_le; lra|rewrite <- (Ztrunc_IZR 255); apply Ztrunc_le; lra].
Qed.
