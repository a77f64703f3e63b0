(** Properties C99 (the landing planner's display) and C100 (its reconfiguration). *)
From Coq Require Import ZArith Reals List Bool Lia Lra.
From Flocq Require Import Core BinarySingleNaN.
From Verif Require Import Num Mat CommonModel CommonSpec PfModel PfSpec StarModel LpModel SlModel SlSpec SlProofs SlProofs2 SlProofs3 SlProofs4 SlvModel SlvProofs SlProps.
Import ListNotations.

(* ---------------------------------------------------------------------------------------------- C99 *)
(** The markers [ms] show the grid of [s]: n * n markers with their indices as ids, the one for cell (i,j) at the centre of that cell, with the given height above
    ground, colour and thickness. *)
Definition shows (s : slp Rn) (ms : list (marker Rn)) (what : Z -> Z -> R * colour Rn * R) : Prop :=
  let n := g_rc (s_grid s) in
  (length ms = Z.to_nat n * Z.to_nat n)%nat /\
  forall i j, (0 <= i < n)%Z -> (0 <= j < n)%Z -> exists m, vget ms (n * i + j) = Some m /\ m_id m = (n * i + j)%Z /\
    (vx (m_pos m) - fst (g_min (s_grid s)) = (IZR i + 1 / 2) * g_cell (s_grid s))%R /\ (vy (m_pos m) - snd (g_min (s_grid s)) = (IZR j + 1 / 2) * g_cell (s_grid s))%R /\
    what i j = ((vz (m_pos m) : R), m_col m, (m_height m : R)).
Definition rgb (r g b : R) : colour Rn := Col (N := Rn) r g b.
(** n/2 - w <= k < n/2 + w *)
Definition near_middle (n w k : Z) : Prop := (n / 2 - w <= k < n / 2 + w)%Z.

(** C99. After every history the display shows the current grid: green cells are the landable ones, the cells around the middle are drawn thicker. *)
Theorem C99_landable_cells_green :
  forall j1 j2 os s, live os -> planner j1 j2 os = Some s ->
  exists ms (col : Z -> Z -> colour Rn) (thick : Z -> Z -> R), publishGrid Rn (s_grid s) (k_smooth (s_cfg s)) = Some ms /\
  shows s ms (fun i j => (0%R, col i j, thick i j)) /\
  (forall i j, (cell (g_land (s_grid s)) i j <> 0%Z -> col i j = rgb 0 1 0) /\ (cell (g_land (s_grid s)) i j = 0%Z -> col i j = rgb 1 0 0)) /\
  (forall i j, let n := g_rc (s_grid s) in let w := k_smooth (s_cfg s) in
     (near_middle n w i /\ near_middle n w j -> thick i j = (8 / 10)%R) /\ (~ (near_middle n w i /\ near_middle n w j) -> thick i j = (1 / 10)%R)).
Proof.
  intros j1 j2 os s L E. destruct (hist_ok j1 j2 os L) as (s0 & E0 & Ok & Cp). unfold planner in E. rewrite E0 in E. injection E as ->.
  destruct Ok as ((W & _) & _). destruct W as (W1 & W2 & W3 & W4 & W5 & W6 & W7 & W8). set (g := s_grid s) in *. set (w := k_smooth (s_cfg s)).
  set (col := fun i j => if (cell (g_land g) i j =? 0)%Z then red Rn else green Rn).
  set (thick := fun i j => if in_window Rn g w i && in_window Rn g w j then cst Rn 8 10 else cst Rn 1 10).
  destruct (draw_spec Rn g (fun i j => obind (mget (g_land g) i j) (fun l => Some (ofZ Rn 0, if (l =? 0)%Z then red Rn else green Rn,
     if in_window Rn g w i && in_window Rn g w j then cst Rn 8 10 else cst Rn 1 10))) (fun ij => (ofZ Rn 0, col (fst ij) (snd ij), thick (fst ij) (snd ij)))) as (ms & D & Len & V).
  { intros i j Hi Hj. rewrite mget_some by lia. reflexivity. }
  exists ms, col, thick. split; [exact D|]. split.
  { split; [exact Len|]. intros i j Hi Hj. eexists. split; [apply V; assumption|]. cbn [m_id m_pos m_col m_height vx vy vz fst snd marker_xy]. fold g.
    split; [reflexivity|]. split; [rn; lra|]. split; [rn; lra|]. reflexivity. }
  split.
  { intros i j. unfold col. split; intros H; [destruct (Z.eqb_spec (cell (g_land g) i j) 0); [contradiction|reflexivity]|rewrite H; reflexivity]. }
  intros i j. cbv zeta. unfold thick.
  assert (I : forall k, in_window Rn g w k = true <-> near_middle (g_rc g) w k).
  { intros k. unfold in_window, near_middle. rewrite W7. rn. rewrite andb_true_iff, R_leb_true, R_ltb_true. rewrite <- minus_IZR, <- plus_IZR.
    split; [intros [A B]; apply le_IZR in A; apply lt_IZR in B; lia|intros [A B]; split; [apply IZR_le|apply IZR_lt]; lia]. }
  split; intros H.
  - destruct H as [Hi Hj]. rewrite (proj2 (I i) Hi), (proj2 (I j) Hj). cbn [andb]. rewrite cst_Rn. reflexivity.
  - destruct (in_window Rn g w i) eqn:A; [|cbn [andb]; rewrite cst_Rn; reflexivity]. destruct (in_window Rn g w j) eqn:B; [|cbn [andb]; rewrite cst_Rn; reflexivity].
    exfalso. apply H. split; apply I; assumption.
Qed.
Print Assumptions C99_landable_cells_green.
Example C99_example j1 j2 : exists s, planner j1 j2 [] = Some s /\ live [] /\ g_rc (s_grid s) = 10%Z.
Proof.
  exists (slp_init Rn Rceil j1 j2). split; [reflexivity|]. split; [constructor|]. cbn [slp_init s_grid g_new g_rc]. unfold Rceil. rn.
  replace (10 / 1)%R with (IZR 10) by (cbn; lra). apply Zceil_IZR.
Qed.

Lemma std_colour (thr v : R) : (0 < thr)%R -> let std := sqrt v in
  (stdColour Rn thr v = rgb 0 0 0 <-> (thr < std)%R) /\ ((std < thr)%R -> stdColour Rn thr v = rainbow (360 * (std / thr))).
Proof.
  intros Ht. cbv zeta. unfold stdColour. rn. tR. pose proof (sqrt_pos v) as Sp. set (d := sqrt v) in *. clearbody d.
  replace ((360 - 0) * (d - 0) / (thr - 0) + 0)%R with (360 * (d / thr))%R by (field; lra).
  assert (Q : (d / thr * thr = d)%R) by (field; lra). assert (Q0 : (0 <= d / thr)%R) by (apply Rmult_le_pos; [exact Sp|apply Rlt_le, Rinv_0_lt_compat; exact Ht]).
  destruct (R_ltb_spec thr d) as [A|A].
  - split; [|intros X; exfalso; lra]. split; [intros _; exact A|reflexivity].
  - split.
    + split; [|intros X; exfalso; lra]. intros B. exfalso. destruct (Req_dec d thr) as [->|Ne].
      * replace (360 * (thr / thr))%R with (IZR 1 * 360)%R in B by (cbn; field; lra). rewrite (proj1 (hsv_red 1 ltac:(lia))) in B. assert (B2 : c_r (red Rn) = c_r (rgb 0 0 0)) by (rewrite B; reflexivity). unfold red, rgb in B2. cbn [c_r] in B2. revert B2. rn. lra.
      * assert (Q1 : (d / thr < 1)%R) by (apply Rmult_lt_reg_r with thr; [exact Ht|]; lra). rewrite hsv_rainbow in B by lra. pose proof (rainbow_max (360 * (d / thr)) ltac:(lra)) as M. rewrite B in M. unfold rgb in M. cbn [c_r c_g c_b] in M.
        rewrite (Rmax_left 0 0) in M by lra. rewrite (Rmax_left 0 0) in M by lra. lra.
    + intros B. apply hsv_rainbow. assert (Q1 : (d / thr < 1)%R) by (apply Rmult_lt_reg_r with thr; [exact Ht|]; lra). lra.
Qed.
(** The map of the height spread: at the mean height; black exactly if the spread is too large for landing, otherwise a colour of the rainbow according to the
    ratio of spread and threshold. *)
Theorem C99_spread_colours :
  forall j1 j2 os s thr, live os -> planner j1 j2 os = Some s -> (0 < thr)%R ->
  exists ms (col : Z -> Z -> colour Rn), publishMeanStdDev Rn (s_grid s) thr = Some ms /\
  shows s ms (fun i j => ((cell (g_mean (s_grid s)) i j : R), col i j, (1 / 10)%R)) /\
  forall i j, (0 <= i < g_rc (s_grid s))%Z -> (0 <= j < g_rc (s_grid s))%Z -> let std := sqrt (cell (g_var (s_grid s)) i j) in
  (col i j = rgb 0 0 0 <-> (thr < std)%R) /\ ((std < thr)%R -> col i j = rainbow (360 * (std / thr))).
Proof.
  intros j1 j2 os s thr L E Ht. destruct (hist_ok j1 j2 os L) as (s0 & E0 & Ok & Cp). unfold planner in E. rewrite E0 in E. injection E as ->.
  destruct Ok as ((W & _) & _). destruct W as (W1 & W2 & W3 & W4 & W5 & W6 & W7 & W8). set (g := s_grid s) in *.
  set (col := fun i j => stdColour Rn thr (cell (g_var g) i j)).
  destruct (draw_spec Rn g (fun i j => obind (mget (g_mean g) i j) (fun m => obind (mget (g_var g) i j) (fun v => Some (m, stdColour Rn thr v, cst Rn 1 10))))
     (fun ij => (cell (g_mean g) (fst ij) (snd ij), col (fst ij) (snd ij), cst Rn 1 10))) as (ms & D & Len & V).
  { intros i j Hi Hj. rewrite !mget_some by lia. reflexivity. }
  exists ms, col. split; [exact D|]. split.
  { split; [exact Len|]. intros i j Hi Hj. eexists. split; [apply V; assumption|]. cbn [m_id m_pos m_col m_height vx vy vz fst snd marker_xy]. fold g.
    split; [reflexivity|]. split; [rn; lra|]. split; [rn; lra|]. rewrite cst_Rn. reflexivity. }
  intros i j Hi Hj. cbv zeta. unfold col. exact (std_colour thr (cell (g_var g) i j) Ht).
Qed.
Print Assumptions C99_spread_colours.
(** Different spreads below the threshold look different ... *)
Theorem C99_spread_distinguished :
  forall thr a b, (0 < thr)%R -> (0 <= a < thr * thr)%R -> (0 <= b < thr * thr)%R -> stdColour Rn thr a = stdColour Rn thr b -> a = b.
Proof.
  intros thr a b Ht Ha Hb E.
  assert (B : forall v, (0 <= v < thr * thr)%R -> (0 <= sqrt v / thr < 1)%R /\ stdColour Rn thr v = rainbow (360 * (sqrt v / thr))).
  { intros v Hv. assert (Sv : (sqrt v < thr)%R) by (rewrite <- (sqrt_square thr) by lra; apply sqrt_lt_1; lra). pose proof (sqrt_pos v) as Sp.
    assert (Q : (0 <= sqrt v / thr < 1)%R).
    { split; [apply Rmult_le_pos; [exact Sp|apply Rlt_le, Rinv_0_lt_compat; exact Ht]|]. apply Rmult_lt_reg_r with thr; [exact Ht|]. replace (sqrt v / thr * thr)%R with (sqrt v) by (field; lra). lra. }
    split; [exact Q|]. unfold stdColour. rn. tR. replace ((360 - 0) * (sqrt v - 0) / (thr - 0) + 0)%R with (360 * (sqrt v / thr))%R by (field; lra).
    destruct (R_ltb_spec thr (sqrt v)); [lra|]. apply hsv_rainbow. lra. }
  destruct (B a Ha) as [A1 A2]. destruct (B b Hb) as [B1 B2]. rewrite A2, B2 in E. apply rainbow_inj in E; [|lra|lra].
  assert (F : (sqrt a = sqrt b)%R). { assert (sqrt a / thr * thr = sqrt b / thr * thr)%R by nra. replace (sqrt a / thr * thr)%R with (sqrt a) in H by (field; lra). replace (sqrt b / thr * thr)%R with (sqrt b) in H by (field; lra). exact H. }
  apply sqrt_inj; [lra|lra|exact F].
Qed.
Print Assumptions C99_spread_distinguished.
Example C99_spread_example : (0 < 1 / 5)%R /\ (0 <= 1 / 100 < 1 / 5 * (1 / 5))%R.
Proof. lra. Qed.
(** ... refuted at the threshold: the worst acceptable spread has the colour of a perfectly flat cell. *)
Theorem C99_spread_refuted :
  forall thr : R, (0 < thr)%R -> stdColour Rn thr (thr * thr)%R = stdColour Rn thr 0%R.
Proof.
  intros thr Ht. unfold stdColour. rn. tR. rewrite sqrt_0, sqrt_square by lra. destruct (R_ltb_spec thr thr); [lra|]. destruct (R_ltb_spec thr 0); [lra|].
  replace ((360 - 0) * (thr - 0) / (thr - 0) + 0)%R with (IZR 1 * 360)%R by (cbn; field; lra).
  replace ((360 - 0) * (0 - 0) / (thr - 0) + 0)%R with (IZR 0 * 360)%R by (cbn; field; lra).
  rewrite (proj1 (hsv_red 1 ltac:(lia))), (proj1 (hsv_red 0 ltac:(lia))). reflexivity.
Qed.
Print Assumptions C99_spread_refuted.

(** The map of the number of points: for thresholds below 200 points the cells with too few points are exactly the black ones. *)
Theorem C99_count_colours :
  forall j1 j2 os s thr, live os -> planner j1 j2 os = Some s -> (0 <= thr < 200)%R ->
  exists ms (col : Z -> Z -> colour Rn), publishCounter Rn (s_grid s) thr = Some ms /\
  shows s ms (fun i j => (0%R, col i j, (1 / 10)%R)) /\
  forall i j, (0 <= i < g_rc (s_grid s))%Z -> (0 <= j < g_rc (s_grid s))%Z -> let cnt := cell (g_cnt (s_grid s)) i j in (0 <= cnt)%Z ->
  (col i j = rgb 0 0 0 <-> (IZR cnt < thr)%R) /\
  ((thr <= IZR cnt < 400)%R -> col i j = rainbow (360 * ((IZR cnt - thr) / (400 - thr)))).
Proof.
  intros j1 j2 os s thr L E Ht. destruct (hist_ok j1 j2 os L) as (s0 & E0 & Ok & Cp). unfold planner in E. rewrite E0 in E. injection E as ->.
  destruct Ok as ((W & _) & _). destruct W as (W1 & W2 & W3 & W4 & W5 & W6 & W7 & W8). set (g := s_grid s) in *.
  set (col := fun i j => countColour Rn thr (cell (g_cnt g) i j)).
  destruct (draw_spec Rn g (fun i j => obind (mget (g_cnt g) i j) (fun c => Some (ofZ Rn 0, countColour Rn thr c, cst Rn 1 10)))
     (fun ij => (ofZ Rn 0, col (fst ij) (snd ij), cst Rn 1 10))) as (ms & D & Len & V).
  { intros i j Hi Hj. rewrite !mget_some by lia. reflexivity. }
  exists ms, col. split; [exact D|]. split.
  { split; [exact Len|]. intros i j Hi Hj. eexists. split; [apply V; assumption|]. cbn [m_id m_pos m_col m_height vx vy vz fst snd marker_xy]. fold g.
    split; [reflexivity|]. split; [rn; lra|]. split; [rn; lra|]. rewrite cst_Rn. reflexivity. }
  intros i j Hi Hj cnt Hc. unfold col, countColour. fold cnt. rn. tR. clearbody cnt. apply IZR_le in Hc.
  set (h := ((360 - 0) * (IZR cnt - thr) / (400 - thr) + 0)%R).
  assert (Eh : (h = 360 * ((IZR cnt - thr) / (400 - thr)))%R) by (unfold h; field; lra).
  assert (Q : ((IZR cnt - thr) / (400 - thr) * (400 - thr) = IZR cnt - thr)%R) by (field; lra). set (q := ((IZR cnt - thr) / (400 - thr))%R) in *. clearbody h q. subst h.
  split.
  - split; intros B.
    + destruct (Rlt_or_le (IZR cnt) thr) as [|A]; [assumption|]. exfalso. assert (Q0 : (0 <= q)%R) by nra.
      (* every non-negative hue has a full component *)
      set (k := Zfloor q). assert (K : (IZR k <= q < IZR k + 1)%R) by (unfold k; split; [apply Zfloor_lb|apply Zfloor_ub]).
      assert (K0 : (0 <= k)%Z) by (unfold k; apply Zfloor_lub; exact Q0).
      assert (P : hsvToRgb Rn (360 * q)%R 1%R 1%R = hsvToRgb Rn (360 * (q - IZR k))%R 1%R 1%R).
      { unfold hsvToRgb. rn. tR. rewrite (fmod_range (360 * q / 60) 6 k) by (rewrite ?plus_IZR; lra || assumption).
        rewrite (fmod_range (360 * (q - IZR k) / 60) 6 0) by (cbn; lra || lia). replace (360 * (q - IZR k) / 60 - 6 * 0)%R with (360 * q / 60 - 6 * IZR k)%R by field. reflexivity. }
      rewrite P, hsv_rainbow in B by lra. pose proof (rainbow_max (360 * (q - IZR k)) ltac:(lra)) as M. rewrite B in M. unfold rgb in M. cbn [c_r c_g c_b] in M.
      rewrite (Rmax_left 0 0) in M by lra. rewrite (Rmax_left 0 0) in M by lra. lra.
    + apply hsv_black_neg; [nra|]. intros k Ek. assert (Kq : q = IZR k) by lra. assert (q < 0)%R by nra. assert (-1 < q)%R by nra.
      rewrite Kq in *. assert (k < 0)%Z by (apply lt_IZR; lra). assert (-1 < k)%Z by (apply lt_IZR; lra). lia.
  - intros B. apply hsv_rainbow. nra.
Qed.
Print Assumptions C99_count_colours.
Example C99_count_example : (0 <= 100 < 200)%R.
Proof. lra. Qed.
(** One display cycle publishes all three grids: the first judged by the landing decision, the second by the given spread threshold, the third by the given number
    of points. *)
Theorem C99_three_grids :
  forall j1 j2 os s std_thr points_thr, live os -> planner j1 j2 os = Some s -> (0 < std_thr)%R -> (0 <= points_thr < 200)%R ->
  exists (a b c : list (marker Rn)) (ca cb cc : Z -> Z -> colour Rn) (thick : Z -> Z -> R),
  visualize Rn (s_grid s) (k_smooth (s_cfg s)) std_thr points_thr = Some (a, b, c) /\ shows s a (fun i j => (0%R, ca i j, thick i j)) /\ shows s b (fun i j => ((cell (g_mean (s_grid s)) i j : R), cb i j, (1 / 10)%R)) /\ shows s c (fun i j => (0%R, cc i j, (1 / 10)%R)) /\ forall i j, (0 <= i < g_rc (s_grid s))%Z -> (0 <= j < g_rc (s_grid s))%Z ->
  (cell (g_land (s_grid s)) i j <> 0%Z -> ca i j = rgb 0 1 0) /\ (cell (g_land (s_grid s)) i j = 0%Z -> ca i j = rgb 1 0 0) /\ (cb i j = rgb 0 0 0 <-> (std_thr < sqrt (cell (g_var (s_grid s)) i j))%R) /\ ((0 <= cell (g_cnt (s_grid s)) i j)%Z -> (cc i j = rgb 0 0 0 <-> (IZR (cell (g_cnt (s_grid s)) i j) < points_thr)%R)).
Proof.
  intros j1 j2 os s t1 t2 L E H1 H2.
  destruct (C99_landable_cells_green j1 j2 os s L E) as (a & ca & thick & A1 & A2 & A3 & _).
  destruct (C99_spread_colours j1 j2 os s t1 L E H1) as (b & cb & B1 & B2 & B3).
  destruct (C99_count_colours j1 j2 os s t2 L E H2) as (c & cc & K1 & K2 & K3).
  exists a, b, c, ca, cb, cc, thick. unfold visualize. rewrite A1. cbn [obind]. rewrite B1. cbn [obind]. rewrite K1. cbn [obind].
  split; [reflexivity|]. split; [exact A2|]. split; [exact B2|]. split; [exact K2|]. intros i j Hi Hj.
  destruct (A3 i j) as (A4 & A5). destruct (B3 i j Hi Hj) as (B4 & _). split; [exact A4|]. split; [exact A5|]. split; [exact B4|].
  intros Hc. destruct (K3 i j Hi Hj Hc) as (K4 & _). exact K4.
Qed.
Print Assumptions C99_three_grids.

(** Refuted for larger thresholds the configuration allows: with threshold 300 a cell with 200 points has the colour of a cell that just passes; above 400 cells
    that pass are black. And from 400 points on colours repeat. *)
Theorem C99_count_refuted :
  countColour Rn 300%R 200 = countColour Rn 300%R 300 /\
  (forall cnt : Z, (1000 < cnt < 1600)%Z -> countColour Rn 1000%R cnt = rgb 0 0 0) /\
  (forall thr : Z, (0 <= thr < 400)%Z -> countColour Rn (IZR thr) 400 = countColour Rn (IZR thr) thr).
Proof.
  split; [|split].
  - unfold countColour. rn. tR. replace ((360 - 0) * (200 - 300) / (400 - 300) + 0)%R with (- (IZR 1 * 360))%R by (cbn; field).
    replace ((360 - 0) * (300 - 300) / (400 - 300) + 0)%R with (IZR 0 * 360)%R by (cbn; field).
    rewrite (proj2 (hsv_red 1 ltac:(lia))), (proj1 (hsv_red 0 ltac:(lia))). reflexivity.
  - intros cnt [A B]. apply IZR_lt in A, B. unfold countColour. rn. tR. apply hsv_black_neg; [lra|]. intros k E.
    assert (K : (IZR k = (IZR cnt - 1000) / -600)%R) by lra. assert (k < 0)%Z by (apply lt_IZR; lra). assert (-1 < k)%Z by (apply lt_IZR; lra). lia.
  - intros thr [A B]. apply IZR_le in A. apply IZR_lt in B. unfold countColour. rn. tR.
    replace ((360 - 0) * (400 - IZR thr) / (400 - IZR thr) + 0)%R with (IZR 1 * 360)%R by (cbn; field; lra).
    replace ((360 - 0) * (IZR thr - IZR thr) / (400 - IZR thr) + 0)%R with (IZR 0 * 360)%R by (cbn; field; lra).
    rewrite (proj1 (hsv_red 1 ltac:(lia))), (proj1 (hsv_red 0 ltac:(lia))). reflexivity.
Qed.
Print Assumptions C99_count_refuted.
(** Refuted: the thick cells are not the window the smoothing looks at around the middle cell (2 * smoothing + 1 cells wide): its last row and column are missing. *)
Theorem C99_window_refuted :
  forall n w, (1 <= w)%Z -> let m := (n / 2)%Z in
  In (m + w, m + w)%Z (around w m m) /\ ~ near_middle n w (m + w) /\ (forall i j, near_middle n w i -> near_middle n w j -> In (i, j) (around w m m)).
Proof.
  intros n w H m. assert (I : forall i j, (m - w <= i <= m + w)%Z -> (m - w <= j <= m + w)%Z -> In (i, j) (around w m m)).
  { intros i j Hi Hj. unfold around. apply in_map_iff. exists (i - m, j - m)%Z. cbn [fst snd]. split; [f_equal; lia|]. unfold window. apply in_prod.
    - unfold zfromto. apply in_map_iff. exists (i - m + w)%Z. split; [lia|]. apply in_zrange. lia.
    - unfold zfromto. apply in_map_iff. exists (j - m + w)%Z. split; [lia|]. apply in_zrange. lia. }
  split; [apply I; lia|]. unfold near_middle. fold m. split; [lia|]. intros i j Hi Hj. apply I; lia.
Qed.
Print Assumptions C99_window_refuted.
(** Refuted: the display and the message to the waypoint generator do not show the same grid (the message has the previous one). *)
Theorem C99_same_grid_refuted :
  let r := slp_run F32 f32_cast f32_ceil f_init [OpCloud [fp (1, -1) (1, -1) (5, 0)]]%Z in
  obind r (fun s => mget (g_cnt (s_grid s)) 5 5) = Some 1%Z /\ obind r (fun s => obind (publishSerialGrid F32 0 s) (fun m => vget (gm_cnt m) (10 * 5 + 5))) = Some 0%Z.
Proof. exact C78_newest_refuted. Qed.
Print Assumptions C99_same_grid_refuted.

(** The cloud drawn for a grid of the configured size: only points inside the grid, and two of its points have the same intensity exactly if they fall into the
    same cell. *)
Theorem C99_cloud_intensity_is_cell :
  forall (c : slp_cfg Rn) (g0 : grid Rn) pos cloud, (0 < k_cell c)%R -> g_size g0 = k_size c -> g_cell g0 = k_cell c ->
  let drawn := binCloud Rn Rcast c (setFilterLimits Rn g0 pos) cloud in
  (forall p, (exists v, In (p, v) drawn) <-> In p cloud /\ in_square pos (k_size c) p) /\
  (forall p q v w, In (p, v) drawn -> In (q, w) drawn ->
     (v = w <-> exists i j, in_cell pos (k_size c) (k_cell c) i j p /\ in_cell pos (k_size c) (k_cell c) i j q)).
Proof.
  intros c g0 pos cloud Hc Hs Hcell drawn. set (r := (k_size c / k_cell c)%R).
  assert (B : forall p v, In (p, v) drawn <-> In p cloud /\ in_square pos (k_size c) p /\
            v = (IZR (Zfloor ((vx p - (vx pos - k_size c / 2)) / k_cell c)) * r + IZR (Zfloor ((vy p - (vy pos - k_size c / 2)) / k_cell c)))%R).
  { intros p v. unfold drawn, binCloud. rewrite in_flat_map. unfold binPoint, isnanb. rn.
    assert (I : forall q, isInsideGrid Rn (setFilterLimits Rn g0 pos) (vx q) (vy q) = true <-> in_square pos (k_size c) q).
    { intros q. rewrite <- Hs. apply inside_iff. }
    split.
    - intros (q & Q1 & Q2). rewrite !(proj2 (R_eqb_true _ _) eq_refl) in Q2. cbn [negb orb] in Q2.
      destruct (isInsideGrid Rn (setFilterLimits Rn g0 pos) (vx q) (vy q)) eqn:E; cbn [negb] in Q2; [|destruct Q2].
      unfold computeGridIndexes in Q2. cbn [setFilterLimits g_min g_cell fst snd] in Q2. rewrite Hs, Hcell in Q2. revert Q2; rn; intros Q2.
      destruct Q2 as [Q2|[]]. apply pair_equal_spec in Q2. destruct Q2 as [<- <-]. split; [exact Q1|]. split; [apply I; exact E|].
      rewrite !floor_cast. reflexivity.
    - intros (P1 & P2 & ->). exists p. split; [exact P1|]. rewrite !(proj2 (R_eqb_true _ _) eq_refl). cbn [negb orb].
      rewrite (proj2 (I p) P2). cbn [negb]. unfold computeGridIndexes. cbn [setFilterLimits g_min g_cell fst snd]. rewrite Hs, Hcell. rn. left. f_equal.
      rewrite !floor_cast. reflexivity. }
  split.
  - intros p. split; [intros (v & H); apply B in H; tauto|]. intros (H1 & H2). eexists. apply B. split; [exact H1|]. split; [exact H2|reflexivity].
  - intros p q v w Hp Hq. apply B in Hp, Hq. destruct Hp as (_ & Ip & ->). destruct Hq as (_ & Iq & ->).
    assert (C : forall p, in_square pos (k_size c) p -> let i := Zfloor ((vx p - (vx pos - k_size c / 2)) / k_cell c) in let j := Zfloor ((vy p - (vy pos - k_size c / 2)) / k_cell c) in
       in_cell pos (k_size c) (k_cell c) i j p /\ (0 <= IZR i)%R /\ (0 <= IZR j < r)%R /\ forall i' j', in_cell pos (k_size c) (k_cell c) i' j' p -> i' = i /\ j' = j).
    { clear - Hc. intros p I i j.
      pose proof (proj1 (index_floor (k_cell c) (vx p - (vx pos - k_size c / 2)) i Hc) eq_refl) as Fi.
      pose proof (proj1 (index_floor (k_cell c) (vy p - (vy pos - k_size c / 2)) j Hc) eq_refl) as Fj.
      split; [split; [exact I|split; assumption]|]. destruct I as [Ix Iy]. apply Rabs_def2 in Ix, Iy.
      assert (Pos : forall x, (0 < x)%R -> (0 <= Zfloor (x / k_cell c))%Z).
      { intros x Hx. apply Zfloor_lub. cbn. apply Rlt_le, Rdiv_lt_0_compat; assumption. }
      split; [apply IZR_le, Pos; tR; lra|]. split.
      { split; [apply IZR_le, Pos; tR; lra|]. unfold r. apply Rmult_lt_reg_r with (k_cell c); [exact Hc|]. assert (X : forall a b : R, (0 < b)%R -> (a / b * b = a)%R) by (intros a b Hb; field; lra).
        rewrite (X (k_size c) (k_cell c) Hc). tR. lra. }
      intros i' j' (_ & A & B). split; [symmetry; apply (index_floor _ _ _ Hc); exact A|symmetry; apply (index_floor _ _ _ Hc); exact B]. }
    destruct (C p Ip) as (P1 & P2 & P3 & P4). destruct (C q Iq) as (Q1 & Q2 & Q3 & Q4). clear C.
    set (i := Zfloor ((vx p - (vx pos - k_size c / 2)) / k_cell c)) in *. set (j := Zfloor ((vy p - (vy pos - k_size c / 2)) / k_cell c)) in *.
    set (i' := Zfloor ((vx q - (vx pos - k_size c / 2)) / k_cell c)) in *. set (j' := Zfloor ((vy q - (vy pos - k_size c / 2)) / k_cell c)) in *.
    split.
    + intros E. assert (Ei : i = i').
      { destruct (Z.lt_trichotomy i i') as [L|[L|L]]; [exfalso|exact L|exfalso].
        - assert (IZR i + 1 <= IZR i')%R by (rewrite <- plus_IZR; apply IZR_le; lia). clear - E P3 Q3 H. tR. nra.
        - assert (IZR i' + 1 <= IZR i)%R by (rewrite <- plus_IZR; apply IZR_le; lia). clear - E P3 Q3 H. tR. nra. }
      assert (Ej : j = j') by (rewrite Ei in E; apply eq_IZR; tR; lra).
      exists i, j. split; [exact P1|]. rewrite Ei, Ej. exact Q1.
    + intros (a & b & A1 & A2). destruct (P4 a b A1) as [-> ->]. destruct (Q4 _ _ A2) as [-> ->]. reflexivity.
Qed.
Print Assumptions C99_cloud_intensity_is_cell.
Example C99_cloud_example : exists c : slp_cfg Rn, (0 < k_cell c)%R /\ k_size c = 10%R.
Proof. exists (s_cfg (slp_init Rn Rceil ((0, 0), (0, 0))%R ((0, 0), (0, 0))%R)). cbn. split; [lra|reflexivity]. Qed.

(* ---------------------------------------------------------------------------------------------- C100 *)
Section Reconf.
Context (N : num) (cast ceilc : N -> Z).
Local Open Scope Z_scope.
(** the configuration sent last *)
Fixpoint last_cfg (c : slp_cfg N) (os : list (slp_op N)) : slp_cfg N :=
  match os with [] => c | OpCfg c' :: os' => last_cfg c' os' | _ :: os' => last_cfg c os' end.
(** equal as numbers *)
Definition same (a b : N) : Prop := a = b \/ eqb N a b = true.
Definition not_raw (o : slp_op N) : Prop := match o with OpRaw _ => False | _ => True end.
Definition in_force (s : slp N) : Prop :=
  same (g_size (s_grid s)) (k_size (s_cfg s)) /\ same (g_cell (s_grid s)) (k_cell (s_cfg s)) /\ s_pad s = k_smooth (s_cfg s).
Definition pending (s : slp N) : Prop :=
  (s_upd s = true \/ in_force s) /\ g_size (s_prev s) = g_size (s_grid s) /\ g_cell (s_prev s) = g_cell (s_grid s).
Lemma addPoint_size g p g' : addPoint N cast g p = Some g' -> g_size g' = g_size g /\ g_cell g' = g_cell g.
Proof.
  unfold addPoint. destruct (isnanb N (vx p) || isnanb N (vy p) || isnanb N (vz p)); [intros [= <-]; auto|].
  destruct (negb _); [intros [= <-]; auto|]. destruct (computeGridIndexes N cast g (vx p) (vy p)) as [i j].
  destruct (mget (g_mean g) i j) as [pm|]; [|discriminate]. cbn [obind]. destruct (mget (g_var g) i j) as [pv|]; [|discriminate]. cbn [obind].
  destruct (mget (g_cnt g) i j) as [c|]; [|discriminate]. cbn [obind]. destruct (mset (g_cnt g) i j (c + 1)) as [cnt|]; [|discriminate]. cbn [obind].
  destruct (computeOnlineMeanVariance N pm pv (vz p) (ofZ N (c + 1))) as [m v].
  destruct (mset (g_mean g) i j m) as [mean|]; [|discriminate]. cbn [obind]. destruct (mset (g_var g) i j v) as [var|]; [|discriminate]. cbn [obind].
  intros H. apply (f_equal (fun o => match o with Some x => x | None => g end)) in H. subst g'. split; reflexivity.
Qed.
Lemma cloud_size cloud g g' : foldM (addPoint N cast) g cloud = Some g' -> g_size g' = g_size g /\ g_cell g' = g_cell g.
Proof.
  revert g. induction cloud as [|p l IH]; intros g E; cbn [foldM] in E; [injection E as <-; auto|].
  destruct (addPoint N cast g p) as [g1|] eqn:E1; [|discriminate]. destruct (addPoint_size _ _ _ E1). destruct (IH _ E). split; congruence.
Qed.
Lemma applyResize_force s : pending s -> in_force (applyResize N ceilc s) /\ g_size (s_prev (applyResize N ceilc s)) = g_size (s_grid (applyResize N ceilc s)) /\
  g_cell (s_prev (applyResize N ceilc s)) = g_cell (s_grid (applyResize N ceilc s)) /\ s_cfg (applyResize N ceilc s) = s_cfg s /\ s_upd (applyResize N ceilc s) = false.
Proof.
  intros (H & P1 & P2). unfold applyResize. destruct (s_upd s) eqn:U.
  - unfold in_force, same. cbn. auto 10.
  - destruct H as [H|H]; [discriminate|]. auto.
Qed.
Lemma runCloud_force s cloud s' : pending s -> runCloud N cast ceilc s cloud = Some s' -> pending s' /\ in_force s' /\ s_cfg s' = s_cfg s /\ s_upd s' = false.
Proof.
  intros P E. destruct (applyResize_force s P) as (F & P1 & P2 & Cf & Up). unfold runCloud in E. set (s0 := applyResize N ceilc s) in *. clearbody s0.
  destruct (processPointcloud N cast (s_prev s0) (s_pos s0) cloud) as [g|] eqn:E1; [|discriminate]. cbn [obind] in E.
  destruct (cloud_size _ _ _ E1) as [G1 G2]. cbn [g_reset setFilterLimits g_size g_cell] in G1, G2.
  unfold finishRun in E. unfold SlModel.combine in E.
  destruct (mblend N (k_alpha (s_cfg s0)) (g_mean (s_grid s0)) (g_mean g)) as [m|]; [|discriminate]. cbn [obind] in E.
  destruct (mblend N (k_alpha (s_cfg s0)) (g_var (s_grid s0)) (g_var g)) as [v|]; [|discriminate]. cbn [obind] in E.
  set (g1 := g_set N g m v (g_cnt g)) in E. destruct (isLandingPossible N (s_cfg s0) (s_pad s0) g1) as [land|]; [|discriminate]. cbn [obind] in E.
  apply (f_equal (fun o => match o with Some x => x | None => s0 end)) in E. subst s'.
  assert (F' : in_force (Slp (s_cfg s0) (s_pad s0) (s_upd s0) (g_set_land N g1 land) (s_grid s0) (s_pos s0) (computeGridIndexes N cast g1 (vx (s_pos s0)) (vy (s_pos s0))) (s_seq s0 + 1))).
  { unfold in_force in *. cbn [s_grid s_cfg s_pad g_set_land g1 g_set g_size g_cell]. rewrite G1, G2, P1, P2. exact F. }
  split; [|split; [exact F'|split; [exact Cf|exact Up]]]. split; [right; exact F'|]. cbn [s_prev s_grid g_set_land g1 g_set g_size g_cell]. split; congruence.
Qed.
Lemma step_pending s o s' : pending s -> not_raw o -> slp_step N cast ceilc s o = Some s' -> pending s' /\ s_cfg s' = last_cfg (s_cfg s) [o].
Proof.
  intros P L E. destruct o as [c|p|cloud|m]; cbn [slp_step last_cfg] in *; [| | |destruct L].
  - apply (f_equal (fun o => match o with Some x => x | None => s end)) in E. subst s'. split; [|reflexivity]. destruct P as (H & P1 & P2).
    split; [|split; assumption]. unfold in_force, reconfigure. cbn [s_upd s_grid s_cfg s_pad].
    unfold same.
    destruct (eqb N (g_size (s_grid s)) (k_size c)); [|left; reflexivity]. destruct (eqb N (g_cell (s_grid s)) (k_cell c)); [|left; reflexivity].
    cbn [negb orb]. destruct (Z.eqb_spec (s_pad s) (k_smooth c)); [right; auto|left; reflexivity].
  - apply (f_equal (fun o => match o with Some x => x | None => s end)) in E. subst s'. split; [exact P|reflexivity].
  - destruct (runCloud_force _ _ _ P E) as (A & _ & B & _). auto.
Qed.
Lemma run_pending os s s' : pending s -> Forall not_raw os -> slp_run N cast ceilc s os = Some s' -> pending s' /\ s_cfg s' = last_cfg (s_cfg s) os.
Proof.
  unfold slp_run. revert s. induction os as [|o os IH]; intros s P F E; cbn [foldM] in E.
  - apply (f_equal (fun o => match o with Some x => x | None => s end)) in E. subst s'. auto.
  - destruct (slp_step N cast ceilc s o) as [s1|] eqn:E1; [|discriminate]. inversion F; subst. destruct (step_pending _ _ _ P H1 E1) as [P1 C1].
    destruct (IH _ P1 H2 E) as [P2 C2]. split; [exact P2|]. rewrite C2, C1. destruct o; reflexivity.
Qed.
End Reconf.

(** C100. In every history of configurations, poses and clouds, in float arithmetic as executed: after each cloud the grid has the configured size and cell
    size and the smoothing uses the configured window, however the configurations followed each other before. *)
Theorem C100_configured_sizes_in_force :
  forall j1 j2 os cloud s, Forall (not_raw F32) os ->
  slp_run F32 f32_cast f32_ceil (slp_init F32 f32_ceil j1 j2) (os ++ [OpCloud cloud]) = Some s ->
  let c := last_cfg F32 (s_cfg (slp_init F32 f32_ceil j1 j2)) os in
  s_cfg s = c /\ s_pad s = k_smooth c /\ same F32 (g_size (s_grid s)) (k_size c) /\ same F32 (g_cell (s_grid s)) (k_cell c) /\ s_upd s = false.
Proof.
  intros j1 j2 os cloud s F E. cbv zeta. unfold slp_run in E. rewrite foldM_app in E.
  destruct (foldM (slp_step F32 f32_cast f32_ceil) (slp_init F32 f32_ceil j1 j2) os) as [s1|] eqn:E1; [|discriminate].
  assert (P0 : pending F32 (slp_init F32 f32_ceil j1 j2)).
  { unfold pending, in_force, same, slp_init, g_new. cbn [s_upd s_grid s_prev s_cfg s_pad g_size g_cell k_size k_cell k_smooth]. auto 10. }
  destruct (run_pending F32 f32_cast f32_ceil os _ s1 P0 F E1) as [P1 C1].
  cbn [foldM slp_step] in E. destruct (runCloud F32 f32_cast f32_ceil s1 cloud) as [s2|] eqn:E2; [|discriminate].
  apply (f_equal (fun o => match o with Some x => x | None => s end)) in E. subst s2.
  destruct (runCloud_force F32 f32_cast f32_ceil s1 cloud s P1 E2) as (_ & (A & B & C) & D & U). rewrite <- C1, <- D. auto.
Qed.
Print Assumptions C100_configured_sizes_in_force.
Definition cfg100 : slp_cfg F32 := SlpCfg (ofZ F32 1) (ofZ F32 1) (ofZ F32 4) (ofZ F32 1) (ofZ F32 1) (ofZ F32 0) 2 2 9.
Example C100_example :
  option_map (fun s => (g_rc (s_grid s), s_pad s)) (slp_run F32 f32_cast f32_ceil f_init [OpCfg cfg100; OpCloud []]) = Some (4%Z, 2%Z) /\ Forall (not_raw F32) [OpCfg cfg100].
Proof. split; [vm_compute; reflexivity|]. repeat constructor. Qed.
(** The landing decision of the same cycle already uses all the configured limits (ideal arithmetic; the number of neighbours that may differ at least 1). *)
Theorem C100_configured_limits_in_force :
  forall j1 j2 os cloud s, live os -> planner j1 j2 (os ++ [OpCloud cloud]) = Some s ->
  let c := last_cfg Rn (s_cfg (slp_init Rn Rceil j1 j2)) os in (0 <= k_min_land c)%Z -> (1 <= k_max_diff c)%Z ->
  g_size (s_grid s) = k_size c /\ g_cell (s_grid s) = k_cell c /\
  forall i j, (0 <= i < g_rc (s_grid s))%Z -> (0 <= j < g_rc (s_grid s))%Z ->
    cell (g_land (s_grid s)) i j = if landable Rn c (s_grid s) (k_smooth c) i j then 1%Z else 0%Z.
Proof.
  intros j1 j2 os cloud s L E c Hm Hd. unfold planner, slp_run in E. rewrite foldM_app in E.
  destruct (hist_ok j1 j2 os L) as (s1 & E1 & Ok & Cp). unfold slp_run in E1. rewrite E1 in E.
  assert (P0 : pending Rn (slp_init Rn Rceil j1 j2)).
  { unfold pending, in_force, same, slp_init, g_new. cbn [s_upd s_grid s_prev s_cfg s_pad g_size g_cell k_size k_cell k_smooth]. auto 10. }
  assert (NR : Forall (not_raw Rn) os). { revert L. apply Forall_impl. intros []; cbn; tauto. }
  destruct (run_pending Rn Rcast Rceil os _ s1 P0 NR E1) as [P1 C1].
  cbn [foldM slp_step] in E. destruct (runCloud Rn Rcast Rceil s1 cloud) as [s2|] eqn:E2; [|discriminate].
  apply (f_equal (fun o => match o with Some x => x | None => s end)) in E. subst s2.
  destruct (runCloud_force Rn Rcast Rceil s1 cloud s P1 E2) as (_ & (A & B & C) & D & U).
  destruct (runCloud_spec s1 cloud Ok Cp) as (s' & E3 & _ & _ & _ & _ & _ & _ & _ & _ & _ & _ & _ & _ & LL). rewrite E2 in E3.
  apply (f_equal (fun o => match o with Some x => x | None => s end)) in E3. subst s'.
  assert (Sm : forall a b : Rn, same Rn a b -> a = b). { intros a b [X|X]; [exact X|]. apply R_eqb_true in X. exact X. }
  fold c in C1. rewrite D in A, B, C. rewrite C1 in A, B, C, LL. split; [apply Sm; exact A|]. split; [apply Sm; exact B|].
  intros i j Hi Hj. rewrite <- C. apply LL; assumption.
Qed.
Print Assumptions C100_configured_limits_in_force.
(** Refuted for the display: it takes the smoothing size from the newest request although the grid shown was still smoothed with the old one. *)
Theorem C100_display_refuted :
  let c := SlpCfg (ofZ F32 1) (ofZ F32 1) (ofZ F32 10) (ofZ F32 1) (ofZ F32 1) (ofZ F32 0) 2 3 9 in
  option_map (fun s => (s_pad s, k_smooth (s_cfg s))) (slp_run F32 f32_cast f32_ceil f_init [OpCloud []; OpCfg c]) = Some (1%Z, 3%Z).
Proof. vm_compute. reflexivity. Qed.
Print Assumptions C100_display_refuted.
(** C100. A request for another grid size, cell size or smoothing window than the one in use makes the next cloud start from an empty grid (means and variances of
    earlier clouds are forgotten); a request for the values in use keeps the old grid, whatever was requested since the last cloud. *)
Lemma R_eqb_false (a b : Rn) : eqb Rn a b = false -> a <> b.
Proof. intros H X. apply (proj2 (R_eqb_true a b)) in X. change (R_eqb a b = false) in H. congruence. Qed.
Definition pose_only (o : slp_op Rn) : Prop := match o with OpPose _ => True | _ => False end.
Definition in_use (s : slp Rn) (c : slp_cfg Rn) : Prop := k_size c = g_size (s_grid s) /\ k_cell c = g_cell (s_grid s) /\ k_smooth c = s_pad s.
Theorem C100_size_change_restarts :
  forall j1 j2 os (c : slp_cfg Rn) os' cloud s s', live os -> (0 < k_cell c)%R -> planner j1 j2 os = Some s ->
  Forall pose_only os' -> planner j1 j2 (os ++ OpCfg c :: os' ++ [OpCloud cloud]) = Some s' ->
  forall i j, (0 <= i < g_rc (s_grid s'))%Z -> (0 <= j < g_rc (s_grid s'))%Z -> exists hs,
    heights_in (s_pos s') (g_size (s_grid s')) (g_cell (s_grid s')) i j cloud hs /\
    (~ in_use s c -> cell (g_mean (s_grid s')) i j = ((1 - k_alpha c) * average hs)%R /\ cell (g_var (s_grid s')) i j = ((1 - k_alpha c) * variance hs)%R) /\
    (in_use s c -> cell (g_mean (s_grid s')) i j = (k_alpha c * cell (g_mean (s_grid s)) i j + (1 - k_alpha c) * average hs)%R /\
                   cell (g_var (s_grid s')) i j = (k_alpha c * cell (g_var (s_grid s)) i j + (1 - k_alpha c) * variance hs)%R).
Proof.
  intros j1 j2 os c os' cloud s s' L Hc E F E' i j Hi Hj.
  destruct (hist_ok j1 j2 os L) as (s1 & E1 & Ok1 & Cp1). unfold planner in E. rewrite E1 in E. apply (f_equal (fun o => match o with Some x => x | None => s end)) in E. subst s1.
  assert (Lm : live (os ++ OpCfg c :: os')).
  { apply Forall_app. split; [exact L|]. constructor; [exact Hc|]. revert F. apply Forall_impl. intros []; cbn; tauto. }
  destruct (hist_ok j1 j2 _ Lm) as (s2 & E2 & Ok2 & Cp2).
  unfold planner, slp_run in E', E1, E2. rewrite app_comm_cons, app_assoc, foldM_app in E'. rewrite E2 in E'. cbn [foldM slp_step] in E'.
  destruct (runCloud Rn Rcast Rceil s2 cloud) as [s3|] eqn:E3; [|discriminate]. apply (f_equal (fun o => match o with Some x => x | None => s3 end)) in E'. subst s3.
  assert (U : s_upd s2 = s_upd (reconfigure Rn s c) /\ s_grid s2 = s_grid s /\ s_cfg s2 = c).
  { rewrite foldM_app, E1 in E2. cbn [foldM slp_step] in E2.
    assert (U0 : s_upd (reconfigure Rn s c) = s_upd (reconfigure Rn s c) /\ s_grid (reconfigure Rn s c) = s_grid s /\ s_cfg (reconfigure Rn s c) = c) by (split; [reflexivity|split; reflexivity]).
    revert E2 U0. generalize (reconfigure Rn s c) at 1 2 4 5. clear - F. induction F as [|o l Ho F IH]; intros t E U; cbn [foldM] in E.
    - apply (f_equal (fun o => match o with Some x => x | None => t end)) in E. subst t. exact U.
    - destruct o as [c'|p|cl|m]; cbn [pose_only] in Ho; try contradiction; cbn [slp_step] in E. exact (IH _ E U). }
  destruct U as (U & Gr & Cc).
  destruct (runCloud_spec s2 cloud Ok2 Cp2) as (s4 & E4 & _ & _ & _ & Cf & _ & Po & _ & _ & _ & _ & _ & H & _). rewrite E3 in E4.
  apply (f_equal (fun o => match o with Some x => x | None => s' end)) in E4. subst s4.
  destruct (H i j Hi Hj) as (hs & H1 & _ & H2). cbv zeta in H2. exists hs. rewrite Po. split; [exact H1|]. destruct H2 as [H2 H3]. rewrite Cc in H2, H3.
  assert (Us : (in_use s c /\ s_upd s2 = false) \/ (~ in_use s c /\ s_upd s2 = true)).
  { rewrite U. unfold reconfigure, in_use. cbn [s_upd].
    destruct (eqb Rn (g_size (s_grid s)) (k_size c)) eqn:A.
    2:{ right. split; [|reflexivity]. intros (X & _). apply R_eqb_false in A. apply A. symmetry. exact X. }
    destruct (eqb Rn (g_cell (s_grid s)) (k_cell c)) eqn:B.
    2:{ right. split; [|reflexivity]. intros (_ & X & _). apply R_eqb_false in B. apply B. symmetry. exact X. }
    destruct (Z.eqb_spec (s_pad s) (k_smooth c)) as [Q|Q].
    - left. apply R_eqb_true in A, B. split; [|reflexivity]. split; [symmetry; exact A|split; symmetry; assumption].
    - right. split; [|reflexivity]. intros (_ & _ & X). apply Q. symmetry. exact X. }
  destruct Us as [[I V]|[I V]]; unfold applyResize in H2, H3; rewrite V in H2, H3; split; intros X; try contradiction.
  - rewrite <- Gr. split; assumption.
  - cbn [s_grid g_resize g_mean g_var const_mat cell] in H2, H3. revert H2 H3. rn. intros -> ->. split; tR; lra.
Qed.
Print Assumptions C100_size_change_restarts.
Example C100_restart_example j1 j2 : exists (c c' : slp_cfg Rn) s, planner j1 j2 [] = Some s /\ (0 < k_cell c)%R /\ ~ in_use s c /\ in_use s c'.
Proof.
  exists (SlpCfg (N := Rn) 1%R 1%R 10%R 1%R 1%R 0%R 2%Z 3%Z 9%Z), (SlpCfg (N := Rn) 1%R 1%R 10%R 1%R 1%R 0%R 2%Z 1%Z 9%Z), (slp_init Rn Rceil j1 j2).
  unfold in_use. cbn. split; [reflexivity|]. split; [lra|]. split; [intros (_ & _ & X); discriminate|]. split; [reflexivity|split; reflexivity].
Qed.
