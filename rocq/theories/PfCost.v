(** Proofs: filling of the cost matrix (C29). *)
From Coq Require Import ZArith Reals List Bool Lia.
From Flocq Require Import Core.
From Verif Require Import Num Mat CommonModel CommonSpec CommonProofs HistModel HistProofs PfModel PfSpec PfProofs PfProofs2 PfPad PfSmooth.
Import ListNotations.
Local Open Scope Z_scope.

Section Fill.
Context (N : num).
Notation line := (line N).
Notation interp := (interp N).
Definition dims2 (m : two_mats N) : Prop :=
  rows (fst m) = 30 /\ cols (fst m) = 60 /\ rows (snd m) = 30 /\ cols (snd m) = 60.
Definition pc (m : two_mats N) (e z : Z) : N * N := (cell (fst m) e z, cell (snd m) e z).
Definition line2 (p q : N * N) (w i : Z) : N * N := (line (fst p) (fst q) w i, line (snd p) (snd q) w i).

Lemma get2_in m e z : dims2 m -> 0 <= e < 30 -> 0 <= z < 60 -> get2 N m e z = Some (pc m e z).
Proof. intros (D1 & D2 & D3 & D4) He Hz. unfold get2. rewrite !mget_some by lia. reflexivity. Qed.
Lemma set2_in m e z c d : dims2 m -> 0 <= e < 30 -> 0 <= z < 60 ->
  exists m', set2 N m e z c d = Some m' /\ dims2 m' /\ pc m' e z = (c, d) /\
   forall e' z', (e', z') <> (e, z) -> pc m' e' z' = pc m e' z'.
Proof.
  intros (D1 & D2 & D3 & D4) He Hz. unfold set2.
  destruct (mset_some (fst m) e z c) as (a & Ea); try lia. destruct (mset_some (snd m) e z d) as (b & Eb); try lia.
  rewrite Ea, Eb. eexists. split; [reflexivity|]. apply mset_inv in Ea, Eb.
  destruct Ea as (_ & _ & A1 & A2 & A3 & A4), Eb as (_ & _ & B1 & B2 & B3 & B4).
  split; [repeat split; cbn; congruence|]. unfold pc; cbn. split; [congruence|].
  intros e' z' Hn. assert (e' <> e \/ z' <> z) by (destruct (Z.eq_dec e' e); [right; congruence|auto]).
  rewrite A4, B4 by assumption. reflexivity.
Qed.

Lemma interpolate_spec e last next width m : dims2 m -> 0 <= e < 30 -> 0 <= last -> last + width <= 60 -> 1 <= width -> 0 <= next < 60 ->
  exists m', interpolate N e last next width m = Some m' /\ dims2 m' /\
   (forall i, 1 <= i < width -> pc m' e (last + i) = line2 (pc m e last) (pc m e next) width i) /\
   (forall e' z', (e' <> e \/ z' <= last \/ last + width <= z') -> pc m' e' z' = pc m e' z').
Proof.
  intros D He Hl Hw Hw1 Hn. unfold interpolate. rewrite !get2_in by (auto; lia).
  set (p := pc m e last). set (q := pc m e next). unfold p at 1, q at 1. unfold pc at 1 2.
  set (gc := div N (sub N (cell (fst m) e next) (cell (fst m) e last)) (ofZ N width)).
  set (gd := div N (sub N (cell (snd m) e next) (cell (snd m) e last)) (ofZ N width)).
  assert (K : forall n, 0 <= n -> n <= width - 1 -> exists m',
     foldM (fun m0 k => match get2 N m0 e last with
               | Some (c, d) => set2 N m0 e (last + (k + 1)) (add N c (mul N gc (ofZ N (k + 1)))) (add N d (mul N gd (ofZ N (k + 1))))
               | None => None end) m (zrange n) = Some m' /\ dims2 m' /\
     (forall i, 1 <= i <= n -> pc m' e (last + i) = line2 p q width i) /\
     (forall e' z', (e' <> e \/ z' <= last \/ last + n < z') -> pc m' e' z' = pc m e' z')).
  { refine (zsum_ind _ _ _).
    - intros _. exists m. split; [reflexivity|]. split; [exact D|]. split; [intros; lia|auto].
    - intros n Hn0 IH Hle. destruct IH as (m1 & E & D1 & I1 & O1); [lia|].
      rewrite zrange_S by exact Hn0. rewrite foldM_app, E. cbn [foldM].
      rewrite get2_in by (auto; lia). rewrite (O1 e last) by lia. unfold pc at 1.
      destruct (set2_in m1 e (last + (n + 1)) (add N (cell (fst m) e last) (mul N gc (ofZ N (n + 1)))) (add N (cell (snd m) e last) (mul N gd (ofZ N (n + 1)))) D1 He ltac:(lia)) as (m2 & E2 & D2 & A2 & O2).
      rewrite E2. exists m2. split; [reflexivity|]. split; [exact D2|]. split.
      + intros i Hi. destruct (Z.eq_dec i (n + 1)) as [->|Hne].
        * rewrite A2. reflexivity.
        * rewrite O2 by (intros [= ?]; lia). apply I1. lia.
      + intros e' z' Hz'. rewrite O2 by (intros [= -> ->]; lia). apply O1. lia. }
  destruct (K (width - 1)) as (m' & E & D' & I & O); [lia|lia|]. exists m'. split; [exact E|]. split; [exact D'|]. split.
  - intros i Hi. apply I. lia.
  - intros e' z' Hz'. apply O. lia.
Qed.

(** one row *)
Lemma fillRow_spec (cell_cost : Z -> Z -> option (N * N)) (v : Z -> N * N) s m e :
  1 <= s -> 0 <= e < 30 -> dims2 m -> (forall z, 0 <= z < 60 -> cell_cost e z = Some (snd (v z), fst (v z))) ->
  exists m', fillRow N cell_cost s m e = Some m' /\ dims2 m' /\
   (forall z, 0 <= z < 60 -> pc m' e z = (interp s (fun z => fst (v z)) z, interp s (fun z => snd (v z)) z)) /\
   (forall e' z', e' <> e -> pc m' e' z' = pc m e' z').
Proof.
  intros Hs He D Hv. unfold fillRow. destruct (Z.leb_spec s 0); [lia|].
  set (ev := fun m z => match cell_cost e z with Some (d, c) => set2 N m e z c d | None => None end).
  (* stage 1 *)
  assert (S1 : forall n, 0 <= n -> (n - 1) * s < 60 -> exists m',
    foldM ev m (map (fun k => 0 + k * s) (zrange n)) = Some m' /\ dims2 m' /\
    (forall k, 0 <= k < n -> pc m' e (k * s) = v (k * s)) /\ (forall e' z', e' <> e -> pc m' e' z' = pc m e' z')).
  { refine (zsum_ind _ _ _).
    - intros _. exists m. split; [reflexivity|]. split; [exact D|]. split; [intros; lia|auto].
    - intros n Hn IH Hle. destruct IH as (m1 & E & D1 & I1 & O1); [nia|].
      rewrite zrange_S by exact Hn. rewrite map_app, foldM_app, E. cbn [map foldM]. unfold ev at 1.
      replace (0 + n * s) with (n * s) by lia. rewrite Hv by nia.
      destruct (set2_in m1 e (n * s) (fst (v (n * s))) (snd (v (n * s))) D1 He ltac:(nia)) as (m2 & E2 & D2 & A2 & O2).
      rewrite E2. exists m2. split; [reflexivity|]. split; [exact D2|]. split.
      + intros k Hk. destruct (Z.eq_dec k n) as [->|Hne].
        * rewrite A2. now rewrite <- surjective_pairing.
        * rewrite O2; [apply I1; lia|]. intros [= H1]. apply Hne. nia.
      + intros e' z' He'. rewrite O2 by congruence. auto. }
  assert (HK : (60 - 1) / s * s <= 59 < ((60 - 1) / s + 1) * s).
  { pose proof (Z.div_mod 59 s). pose proof (Z.mod_pos_bound 59 s). change (60 - 1) with 59. nia. }
  set (K := (60 - 1) / s) in *. assert (HK0 : 0 <= K) by (apply Z.div_pos; lia).
  assert (Hcnt : (GRID_LENGTH_Z - 0 + s - 1) / s = K + 1).
  { unfold GRID_LENGTH_Z, K. replace (60 - 0 + s - 1) with (60 - 1 + 1 * s) by lia. apply Z.div_add. lia. }
  unfold strided. rewrite Hcnt. fold ev.
  destruct (S1 (K + 1)) as (m1 & E1 & D1 & I1 & O1); [lia|nia|]. rewrite E1. cbn [obind].
  destruct (Z.ltb_spec 1 s) as [Hs1|Hs1].
  2:{ assert (s = 1) as -> by lia. exists m1. split; [reflexivity|]. split; [exact D1|]. split; [|exact O1].
      intros z Hz. unfold interp. rewrite Z.mod_1_r. cbn [Z.eqb].
      replace z with (z * 1) at 1 by lia. rewrite I1 by (unfold K; rewrite Z.div_1_r; lia).
      rewrite Z.mul_1_r. now rewrite <- surjective_pairing. }
  (* stage 2 *)
  assert (Hcnt2 : (GRID_LENGTH_Z - s + s - 1) / s = K).
  { unfold GRID_LENGTH_Z, K. f_equal. lia. }
  rewrite Hcnt2.
  set (st := fun ml z => obind (interpolate N e (snd ml) z s (fst ml)) (fun m' => Some (m', z))).
  assert (S2 : forall n, 0 <= n -> n <= K -> exists m',
    foldM st (m1, 0) (map (fun k => s + k * s) (zrange n)) = Some (m', n * s) /\ dims2 m' /\
    (forall k, 0 <= k <= K -> pc m' e (k * s) = v (k * s)) /\
    (forall k i, 0 <= k < n -> 1 <= i < s -> pc m' e (k * s + i) = line2 (v (k * s)) (v (k * s + s)) s i) /\
    (forall e' z', e' <> e -> pc m' e' z' = pc m e' z')).
  { refine (zsum_ind _ _ _).
    - intros _. exists m1. split; [reflexivity|]. split; [exact D1|]. split; [|split; [intros; lia|exact O1]].
      intros k Hk. apply I1. lia.
    - intros n Hn IH Hle. destruct IH as (m2 & E2 & D2 & V2 & L2 & O2); [lia|].
      rewrite zrange_S by exact Hn. rewrite map_app, foldM_app, E2. cbn [map foldM]. unfold st at 1. cbn [fst snd].
      destruct (interpolate_spec e (n * s) (s + n * s) s m2 D2 He) as (m3 & E3 & D3 & L3 & O3); try nia.
      rewrite E3. cbn [obind]. exists m3. split; [f_equal; f_equal; lia|]. split; [exact D3|]. split; [|split].
      + intros k Hk. rewrite O3; [apply V2; exact Hk|]. right. destruct (Z_le_gt_dec k n); [left|right]; nia.
      + intros k i Hk Hi. destruct (Z.eq_dec k n) as [->|Hne].
        * rewrite L3 by exact Hi. rewrite V2 by lia. replace (s + n * s) with ((n + 1) * s) by lia. rewrite V2 by lia.
          f_equal. f_equal. lia.
        * rewrite O3 by nia. apply L2; lia.
      + intros e' z' He'. rewrite O3 by auto. auto. }
  destruct (S2 K HK0 ltac:(lia)) as (m2 & E2 & D2 & V2 & L2 & O2). rewrite E2. cbn [obind fst snd].
  destruct (interpolate_spec e (K * s) 0 (GRID_LENGTH_Z - K * s) m2 D2 He) as (m3 & E3 & D3 & L3 & O3);
    try (unfold GRID_LENGTH_Z; nia).
  rewrite E3. exists m3. split; [reflexivity|]. split; [exact D3|]. split.
  - intros z Hz. unfold interp. pose proof (Z.div_mod z s ltac:(lia)) as Ez. pose proof (Z.mod_pos_bound z s ltac:(lia)) as Mz.
    set (k := z / s) in *. set (i := z mod s) in *. assert (Hk : 0 <= k <= K) by (split; [apply Z.div_pos; lia|nia]).
    replace (z - i) with (k * s) by lia. destruct (Z.eqb_spec i 0) as [Ei|Ei].
    + replace z with (k * s) by lia. rewrite O3 by (right; left; nia). rewrite V2 by exact Hk. now rewrite <- surjective_pairing.
    + replace z with (k * s + i) at 1 by lia. replace (z - k * s) with i by lia.
      destruct (Z.ltb_spec (k * s + s) 60) as [Hb|Hb].
      * assert (k < K) by nia. rewrite O3 by nia. rewrite L2 by lia. reflexivity.
      * assert (k = K) as -> by nia. rewrite L3 by (unfold GRID_LENGTH_Z; lia).
        rewrite V2 by lia. change 0 with (0 * s) at 1. rewrite V2 by lia. reflexivity.
  - intros e' z' He'. rewrite O3 by auto. auto.
Qed.
End Fill.

Section Matrix.
Context (N : num) (G : trig N) (rnd : N -> Z).

Lemma fillMatrices_spec (cell_cost : Z -> Z -> option (N * N)) (v : Z -> Z -> N * N) :
  (forall e, 0 <= e < 30 -> 1 <= stepSize N G rnd e) ->
  (forall e z, 0 <= e < 30 -> 0 <= z < 60 -> cell_cost e z = Some (snd (v e z), fst (v e z))) ->
  exists m, fillMatrices N G rnd cell_cost = Some m /\ dims2 N m /\
   forall e z, 0 <= e < 30 -> 0 <= z < 60 ->
     pc N m e z = (interp N (stepSize N G rnd e) (fun z => fst (v e z)) z, interp N (stepSize N G rnd e) (fun z => snd (v e z)) z).
Proof.
  intros Hs Hv. unfold fillMatrices. change GRID_LENGTH_E with 30.
  set (m0 := (Mat 30 GRID_LENGTH_Z (fun _ _ => nanv N), Mat 30 GRID_LENGTH_Z (fun _ _ => nanv N))).
  assert (K : forall n, 0 <= n -> n <= 30 -> exists m,
    foldM (fun m e => fillRow N cell_cost (stepSize N G rnd e) m e) m0 (zrange n) = Some m /\ dims2 N m /\
    forall e z, 0 <= e < n -> 0 <= z < 60 ->
     pc N m e z = (interp N (stepSize N G rnd e) (fun z => fst (v e z)) z, interp N (stepSize N G rnd e) (fun z => snd (v e z)) z)).
  { refine (zsum_ind _ _ _).
    - intros _. exists m0. split; [reflexivity|]. split; [repeat split|]. intros; lia.
    - intros n Hn IH Hle. destruct IH as (m1 & E1 & D1 & I1); [lia|]. rewrite zrange_S by exact Hn. rewrite foldM_app, E1. cbn [foldM].
      destruct (fillRow_spec N cell_cost (v n) (stepSize N G rnd n) m1 n) as (m2 & E2 & D2 & I2 & O2);
        [apply Hs; lia|lia|exact D1|intros z Hz; apply Hv; lia|].
      rewrite E2. exists m2. split; [reflexivity|]. split; [exact D2|]. intros e z He Hz.
      destruct (Z.eq_dec e n) as [->|Hne]; [now apply I2|]. rewrite O2 by exact Hne. apply I1; lia. }
  apply K; lia.
Qed.
End Matrix.
Section Total.
Context (N : num) (G : trig N) (cast : N -> Z).
Lemma facing_total h goal position mx mn : ghist N h -> exists b, obstacleFacingGoal N G cast h goal position mx mn = Some b.
Proof.
  intros Hg. unfold obstacleFacingGoal. match goal with |- exists b, foldM ?f _ _ = _ =>
    destruct (foldM_total (fun _ => True) f (flat_map (fun j => map (fun i => (j - 2, i - 5)) (zrange 11)) (zrange 5))) with (s := false) as (b & E & _) end; [|exact I|eauto].
  intros b [j i] _ _.
  destruct (polarToHistogramIndex N cast _ ALPHA_RES) as [ix iy] eqn:E.
  apply polarToHistogramIndex_range in E; [|cbv; intuition congruence].
  change (360 / ALPHA_RES) with 60 in E. change (180 / ALPHA_RES) with 30 in E.
  rewrite (ghist_get N h iy ix Hg) by lia. eauto.
Qed.
Lemma image_total (c d : mat N) : rows c = 30 -> cols c = 60 -> rows d = 30 -> cols d = 60 ->
  exists img, generateCostImage N cast c d = Some img.
Proof.
  intros C1 C2 D1 D2. unfold generateCostImage. match goal with |- exists b, foldM ?f _ ?l = _ =>
    destruct (foldM_total (fun _ => True) f l) with (s := @nil Z) as (b & E & _) end; [|exact I|eauto].
  intros img [e z] Hin _. apply in_grid_idx in Hin. cbn [fst snd]. unfold GRID_LENGTH_E, GRID_LENGTH_Z in *.
  rewrite !mget_some by lia. eauto.
Qed.
End Total.

(** The step sizes over the reals are at least one (they run from 1 at the horizon to 19 at the poles). *)
Lemma stepSize_R (rnd : R -> Z) : (forall x, (1 <= x)%R -> (1 <= rnd x)%Z) -> forall e, 0 <= e < 30 -> 1 <= stepSize Rn Rtrig rnd e.
Proof.
  intros Hr e He. unfold stepSize. apply Hr. cbn [histogramIndexToPolar pe Rtrig t_cos]. unfold histogramIndexToPolar, DEG_TO_RAD. cbn [pe]. rn.
  change (ALPHA_RES / 2) with 3. unfold ALPHA_RES.
  set (x := (IZR (e * 6 + 3 - 90) * (PI / 180))%R).
  assert (Hx : (- (PI / 2) < x < PI / 2)%R).
  { pose proof PI_RGT_0. assert (-90 < IZR (e * 6 + 3 - 90) < 90)%R by (split; [change (-90)%R with (IZR (-90))|change 90%R with (IZR 90)]; apply IZR_lt; lia).
    unfold x. split; nra. }
  pose proof (cos_gt_0 x (proj1 Hx) (proj2 Hx)) as Hc. pose proof (COS_bound x) as Hb. tR.
  apply Rmult_le_reg_r with (cos x); [exact Hc|]. unfold Rdiv. rewrite Rmult_assoc, Rinv_l by lra. lra.
Qed.

(** C29 over the reals *)
Lemma costMatrix_R (cast rnd ceilc : R -> Z) (h : hist Rn) goal position velocity cp margin closest mx mn :
  ghist Rn h -> (forall x, (1 <= x)%R -> (1 <= rnd x)%Z) -> 0 <= ceilc (margin / 6)%R <= 30 ->
  exists facing cm dm sm img out,
    obstacleFacingGoal Rn Rtrig cast h goal position mx mn = Some facing /\
    getCostMatrix Rn Rtrig cast rnd ceilc h goal position velocity cp margin closest mx mn = Some (out, img) /\
    rows out = 30 /\ cols out = 60 /\ rows dm = 30 /\ cols dm = 60 /\
    smoothPolarMatrix Rn dm (ceilc (margin / 6)%R) = Some sm /\
    generateCostImage Rn cast cm sm = Some img /\
    (forall e z, 0 <= e < 30 -> 0 <= z < 60 ->
       let evaluated := fun z => costFunction Rn Rtrig (histogramIndexToPolar Rn e z ALPHA_RES 1%R) (cell (h_dist h) e z)
                                   goal position velocity cp closest facing in
       cell cm e z = interp Rn (stepSize Rn Rtrig rnd e) (fun z => snd (evaluated z)) z /\
       cell dm e z = interp Rn (stepSize Rn Rtrig rnd e) (fun z => fst (evaluated z)) z /\
       cell out e z = (cell cm e z + cell sm e z)%R).
Proof.
  intros Hg Hr Hm. destruct (facing_total Rn Rtrig cast h goal position mx mn Hg) as (facing & Ef).
  unfold getCostMatrix. rewrite Ef. cbn [obind].
  set (v := fun e z => let r := costFunction Rn Rtrig (histogramIndexToPolar Rn e z ALPHA_RES 1%R) (cell (h_dist h) e z)
                                   goal position velocity cp closest facing in (snd r, fst r)).
  destruct (fillMatrices_spec Rn Rtrig rnd (cellCost Rn Rtrig h goal position velocity cp closest facing) v) as ((cm & dm) & Em & (D1 & D2 & D3 & D4) & Hcells).
  { now apply stepSize_R. }
  { intros e z He Hz. unfold cellCost. rewrite (ghist_get Rn h e z Hg He Hz). unfold v. cbn [fst snd]. now rewrite <- surjective_pairing. }
  rewrite Em. cbn [obind fst snd]. cbn [fst snd] in D1, D2, D3, D4.
  change (ceilc (div Rn margin (ofZ Rn ALPHA_RES))) with (ceilc (margin / 6)%R).
  destruct (smooth_spec dm (ceilc (margin / 6)%R)) as (sm & Es & S1 & S2 & _);
    [rewrite D3; lia|rewrite D4; lia|rewrite D4; reflexivity|rewrite D4; lia|].
  rewrite Es. cbn [obind].
  destruct (image_total Rn cast cm sm) as (img & Ei); try congruence. rewrite Ei. cbn [obind].
  exists facing, cm, dm, sm, img. eexists. split; [reflexivity|]. split; [reflexivity|]. cbn [rows cols cell].
  repeat (split; [first [reflexivity|assumption]|]).
  intros e z He Hz. pose proof (Hcells e z He Hz) as Hc. unfold pc in Hc. cbn [fst snd] in Hc. injection Hc as Hc1 Hc2.
  cbv zeta. split; [exact Hc1|]. split; [exact Hc2|]. reflexivity.
Qed.

(** interpolated values lie between the neighbouring evaluated values *)
Lemma interp_between (s : Z) (v : Z -> R) (z : Z) : 1 <= s -> 0 <= z < 60 -> exists a b, 0 <= a <= z /\ z - a < s /\ a mod s = 0 /\
  (b = a + s \/ b = 0) /\ 0 <= b < 60 /\ (Rmin (v a) (v b) <= interp Rn s v z <= Rmax (v a) (v b))%R.
Proof.
  intros Hs Hz. unfold interp. pose proof (Z.mod_pos_bound z s ltac:(lia)) as M. pose proof (Z.div_mod z s ltac:(lia)) as E.
  assert (Hd : 0 <= z / s) by (apply Z.div_pos; lia).
  assert (Ha : (z - z mod s) mod s = 0). { replace (z - z mod s) with (z / s * s) by lia. apply Z.mod_mul. lia. }
  assert (Hlin : forall p q w i, 1 <= w -> 0 <= i <= w -> (Rmin p q <= line Rn p q w i <= Rmax p q)%R).
  { intros p q w i Hw Hi. unfold line. rn. assert (Hw' : (1 <= IZR w)%R) by (apply IZR_le; lia).
    assert (Hi' : (0 <= IZR i <= IZR w)%R) by (split; apply IZR_le; lia). tR.
    replace (p + (q - p) / IZR w * IZR i)%R with (p + (q - p) * (IZR i / IZR w))%R by (field; lra).
    assert (Ht : (0 <= IZR i / IZR w <= 1)%R).
    { split; [apply Rmult_le_pos; [lra|left; apply Rinv_0_lt_compat; lra]|].
      apply Rmult_le_reg_r with (IZR w); [lra|]. unfold Rdiv. rewrite Rmult_assoc, Rinv_l by lra. lra. }
    set (t := (IZR i / IZR w)%R) in *. unfold Rmin, Rmax. destruct (Rle_dec p q); split; nra. }
  destruct (Z.eqb_spec (z mod s) 0) as [E0|E0].
  - destruct (Z_lt_le_dec (z + s) 60).
    + exists z, (z + s). repeat split; try lia; try (left; reflexivity).
      * apply Rmin_l. * apply Rmax_l.
    + exists z, 0. repeat split; try lia; try (right; reflexivity).
      * apply Rmin_l. * apply Rmax_l.
  - destruct (Z.ltb_spec (z - z mod s + s) 60).
    + exists (z - z mod s), (z - z mod s + s). repeat split; try nia; try (left; reflexivity); apply Hlin; lia.
    + exists (z - z mod s), 0. repeat split; try nia; try (right; reflexivity); apply Hlin; lia.
Qed.
