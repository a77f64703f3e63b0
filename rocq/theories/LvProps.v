(** Property theorems for the display of the local planner (C101) and for the age of the obstacle distances sent (C102). *)
From Coq Require Import ZArith Reals List Bool Lia Lra.
From Flocq Require Import Core BinarySingleNaN.
From Verif Require Import NlModel.
From Verif Require Import Num Mat CommonModel CommonSpec CommonProofs CommonProofs2 HistModel HistProofs PfModel PfSpec PfProofs PfProofs3 PfMisc StarModel StarProofs
  LpModel LpProofs LpProps OrientProps LvModel LvProofs.
Import ListNotations.

(** A raw image: the bytes fill [height] rows of [step] bytes, a row holds [width] pixels of [channels] bytes. *)
Definition well_formed (channels : Z) (i : image) : Prop :=
  im_step i = (channels * im_width i)%Z /\ Z.of_nat (length (im_data i)) = (im_step i * im_height i)%Z.

(** Every state a planner can be in: fresh (no search tree yet), then any sequence of new fields of view, vehicle states, goals and runs. *)
Section Histories.
Context (N : num) (G : trig N) (secs : Z -> N) (cast rnd ceilc : N -> Z) (top : list (candidate N) -> option (candidate N * list (candidate N))) (huge : N).
Inductive planner_history : lp_state N -> Prop :=
| ph_start s : l_tree s = [] -> l_closed s = [] -> l_path s = [] -> planner_history s
| ph_fov s i f : planner_history s -> planner_history (lp_setFOV N s i f)
| ph_state s pos vel yaw pitch : planner_history s -> planner_history (lp_setState N s pos vel yaw pitch)
| ph_goal s goal prev : planner_history s -> planner_history (lp_setGoal N s goal prev)
| ph_run s g clouds now s' : planner_history s -> (0 <= g_children g)%Z -> runPlanner N G secs cast rnd ceilc top huge g s clouds now = Some s' -> planner_history s'.

Lemma run_tree g s clouds now s' : (0 <= g_children g)%Z -> runPlanner N G secs cast rnd ceilc top huge g s clouds now = Some s' ->
  (l_tree s' = l_tree s /\ l_closed s' = l_closed s) \/ tree_ok N (l_tree s') (l_closed s').
Proof.
  intros Hc E. unfold runPlanner in E.
  destruct (processPointcloud _ _ _ _ _ _ _ _ _ _ _ _ _) as [cloud|]; [|discriminate]. cbn [obind] in E.
  destruct (h_new N ALPHA_RES) as [h0|]; [|discriminate]. cbn [obind] in E.
  destruct (generateNewHistogram _ _ _ _ _ _) as [h|]; [|discriminate]. cbn [obind] in E.
  match type of E with obind ?x _ = _ => destruct x as [scan|]; [|discriminate] end. cbn [obind] in E.
  destruct (generateHistogramImage _ _ _ _); [|discriminate]. cbn [obind] in E.
  destruct (h_isEmpty N h) as [[|]|]; cbn [obind] in E; [| |discriminate].
  - left. injection E as <-. split; reflexivity.
  - destruct (getCostMatrix _ _ _ _ _ _ _ _ _ _ _ _ _ _); [|discriminate]. cbn [obind] in E.
    destruct (buildLookAheadTree _ _ _ _ _) as [r|] eqn:Eb; [|discriminate]. cbn [obind] in E. right. injection E as <-. cbn [l_tree l_closed].
    refine (build_tree_ok _ _ cast _ _ _ _ _ Eb). exact Hc.
Qed.
Lemma history_tree s : planner_history s -> tree_ok N (l_tree s) (l_closed s).
Proof.
  induction 1 as [s H1 H2 H3|s i f H IH|s p v y pt H IH|s g p H IH|s g clouds now s' H IH Hc E]; auto.
  - rewrite H2. intros i [].
  - destruct (run_tree g s clouds now s' Hc E) as [[-> ->]|X]; auto.
Qed.
End Histories.

(** C101. The cost image, with any floats and any behaviour of the float-to-int conversion: never a write outside of the image; the
    heading's cell turns blue, the waypoint's white, the adapted waypoint's light blue, and no other byte changes. *)
Theorem C101_cost_image :
  forall (N : num) (G : trig N) (cast : N -> Z) (img : list Z) (wp adapted pos : vec3 N) (q : quat N), Z.of_nat (length img) = 5400%Z ->
  let '(hz, he) := headingIndex N G cast q in
  let '(wz, we) := waypointIndex N G cast wp pos in
  let '(az, ae) := waypointIndex N G cast adapted pos in
  (0 <= hz < 60)%Z /\ (0 <= he < 30)%Z /\ (0 <= wz < 60)%Z /\ (0 <= we < 30)%Z /\ (0 <= az < 60)%Z /\ (0 <= ae < 30)%Z /\
  exists out, costDisplay N G cast img wp adapted pos q = Some out /\ well_formed 3 out /\ im_height out = 30%Z /\ im_width out = 60%Z /\
  forall e z c, (0 <= e < 30)%Z -> (0 <= z < 60)%Z -> (0 <= c < 3)%Z ->
  let here := fun x y => e = y /\ z = x in
  let shown := nth_error (im_data out) (Z.to_nat (colorImageIndex e z c)) in
  (here wz we -> shown = Some 255%Z) /\
  (here az ae -> (0 < c)%Z -> shown = Some 255%Z) /\
  (here hz he -> c = 2%Z -> shown = Some 255%Z) /\
  (~ here wz we -> ~ (here az ae /\ (0 < c)%Z) -> ~ (here hz he /\ c = 2%Z) -> shown = nth_error img (Z.to_nat (colorImageIndex e z c))).
Proof.
  intros N G cast img wp adapted pos q L. pose proof (cost_display N G cast img wp adapted pos q L) as X.
  destruct (headingIndex N G cast q) as [hz he]. destruct (waypointIndex N G cast wp pos) as [wz we]. destruct (waypointIndex N G cast adapted pos) as [az ae].
  destruct X as (H1 & H2 & H3 & H4 & H5 & H6 & out & E & Lo & P). do 6 (split; [assumption|]).
  exists (Img 30 60 180 out). split; [exact E|]. split; [split; [reflexivity|exact Lo]|]. split; [reflexivity|]. split; [reflexivity|].
  intros e z c He Hz Hc here shown. unfold shown. cbn [im_data]. rewrite (P e z c He Hz Hc). unfold here.
  split; [intros (-> & ->); rewrite !Z.eqb_refl; cbn [andb]; rewrite orb_true_r; reflexivity|].
  split; [intros (-> & ->) Q; rewrite !Z.eqb_refl; cbn [andb]; apply Z.ltb_lt in Q; rewrite Q; reflexivity|].
  split; [intros (-> & ->) ->; rewrite !Z.eqb_refl; cbn [andb]; rewrite orb_true_r; reflexivity|].
  intros N1 N2 N3. match goal with |- (if ?b then _ else _) = _ => destruct b eqn:B; [exfalso|reflexivity] end.
  apply orb_true_iff in B. destruct B as [B|B]; [apply orb_true_iff in B; destruct B as [B|B]|];
    repeat (apply andb_true_iff in B; destruct B as [B ?]); rewrite ?Z.eqb_eq, ?Z.ltb_lt in *; tauto.
Qed.
Print Assumptions C101_cost_image.
(** an image of any other size (none was computed yet) is published as it is *)
Theorem C101_cost_image_other_size :
  forall (N : num) (G : trig N) (cast : N -> Z) (img : list Z) (wp adapted pos : vec3 N) (q : quat N), Z.of_nat (length img) <> 5400%Z ->
  costDisplay N G cast img wp adapted pos q = Some (Img 30 60 180 img).
Proof. exact cost_display_other. Qed.
Print Assumptions C101_cost_image_other_size.

Local Open Scope R_scope.
(** the cell painted for a waypoint is the one its direction from the vehicle lies in (over the reals) *)
Theorem C101_waypoint_cell :
  forall (pos : vec3 Rn) (azimuth elevation d : R) (z e : Z), 0 < d -> (0 <= z < 60)%Z -> (0 <= e < 30)%Z ->
  -180 < azimuth -> -90 < elevation -> IZR (6 * z - 180) <= azimuth < IZR (6 * z - 174) -> IZR (6 * e - 90) <= elevation < IZR (6 * e - 84) ->
  let wp := V3 (vx pos + d * (cos (elevation * PI / 180) * sin (azimuth * PI / 180)))
               (vy pos + d * (cos (elevation * PI / 180) * cos (azimuth * PI / 180)))
               (vz pos + d * sin (elevation * PI / 180)) : vec3 Rn in
  waypointIndex Rn Rtrig (Ztrunc : Rn -> Z) wp pos = (z, e).
Proof.
  intros pos a b d z e Hd Hz He Ha0 Hb0 Ha Hb wp. unfold waypointIndex.
  assert (A2 : (6 * z - 174 <= 180)%Z) by lia. assert (B2 : (6 * e - 84 <= 90)%Z) by lia. apply IZR_le in A2, B2.
  assert (W : wp = polarHistogramToCartesian Rn Rtrig (Pol (b : Rn) (a : Rn) (d : Rn)) pos).
  { rewrite polarHistogramToCartesian_dir. unfold hist_direction. reflexivity. }
  rewrite W, polar_cart_polar; cbn [pr pe pz]; [|tR; lra|tR; lra|tR; lra]. now apply index_of_direction.
Qed.
Print Assumptions C101_waypoint_cell.
Example C101_waypoint_example : IZR (6 * 45 - 180) <= 92 < IZR (6 * 45 - 174) /\ IZR (6 * 12 - 90) <= -17 < IZR (6 * 12 - 84).
Proof. cbn. lra. Qed.

(** The heading's cell: a vehicle that looks 4 degrees off the x axis has the azimuth 86 (column 44). The display converts the yaw, which is
    already in degrees, from radians, and paints a cell between the columns 5 and 15, behind the vehicle's left. *)
Theorem C101_heading_refuted :
  exists q : quat Rn, getYawFromQuaternion Rn Rtrig q = 4 /\
  polarToHistogramIndex Rn (Ztrunc : Rn -> Z) (Pol (0 : Rn) (90 - 4 : Rn) (1 : Rn)) ALPHA_RES = (44%Z, 15%Z) /\
  exists z, headingIndex Rn Rtrig (Ztrunc : Rn -> Z) q = (z, 15%Z) /\ (5 <= z <= 15)%Z.
Proof.
  pose proof PI2_3_2 as P3. pose proof PI_4 as P4. pose proof PI_RGT_0 as P0. exists (quaternionFromRPY Rn Rtrig (V3 (0 : Rn) (0 : Rn) (4 * PI / 180 : Rn))).
  assert (Y : getYawFromQuaternion Rn Rtrig (quaternionFromRPY Rn Rtrig (V3 (0 : Rn) (0 : Rn) (4 * PI / 180 : Rn))) = 4).
  { destruct (C12_quaternion_angles 0 0 (4 * PI / 180)) as (E & _); [lra|lra|]. etransitivity; [exact E|]. tR. field. lra. }
  split; [exact Y|]. split; [apply index_of_direction; cbn; try lia; lra|].
  unfold headingIndex. rewrite Y. rn.
  assert (B : 180 <= 720 / PI < 240).
  { split; [apply Rmult_le_reg_r with PI; [lra|]; unfold Rdiv; rewrite Rmult_assoc, Rinv_l by lra; lra|].
    apply Rmult_lt_reg_r with PI; [lra|]. unfold Rdiv. rewrite Rmult_assoc, Rinv_l by lra. lra. }
  assert (EA : - (4) * 180 / PI + 90 = 90 - 720 / PI) by (field; lra). tR. rewrite EA. clear EA. set (t := 720 / PI) in *. clearbody t.
  set (z := Zfloor ((90 - t + 180) / 6)). exists z. pose proof (Zfloor_lb ((90 - t + 180) / 6)) as L. pose proof (Zfloor_ub ((90 - t + 180) / 6)) as U. fold z in L, U.
  assert (Hz : (5 <= z <= 15)%Z).
  { split; [apply Zfloor_lub; lra|]. apply le_IZR. lra. }
  split; [|exact Hz]. apply index_of_direction; [lia|lia| |].
  - rewrite !minus_IZR, mult_IZR. lra.
  - cbn. lra.
Qed.
Print Assumptions C101_heading_refuted.

(** The histogram image claims rows of 255 bytes, but holds 30 rows of 60: no such message is a well-formed image. *)
Theorem C101_histogram_image_refuted :
  forall (N : num) (cast : N -> Z) (max_range : N) (h : hist N), reachable N h -> h_res h = ALPHA_RES ->
  exists img, generateHistogramImage N cast max_range h = Some img /\ well_formed 1 (Img 30 60 60 img) /\ ~ well_formed 1 (histDisplay img).
Proof.
  intros N cast mx h Hr H6. destruct (C66_histogram_image N cast mx h Hr H6) as (img & E & L & _). exists img. split; [exact E|].
  split; [split; [reflexivity|]|intros (X & _); discriminate]. cbn [im_data im_step im_height]. rewrite L. reflexivity.
Qed.
Print Assumptions C101_histogram_image_refuted.

(** The search tree, after any history of the planner: one line per expanded node, from the node to the node it was reached from; the
    root's line is a point. Nothing outside of the tree is read. *)
Theorem C101_tree_display :
  forall (N : num) (G : trig N) secs cast rnd ceilc top huge (s : lp_state N), planner_history N G secs cast rnd ceilc top huge s ->
  exists lines, treeLines N (l_tree s) (l_closed s) = Some lines /\ length lines = (2 * length (l_closed s))%nat /\
  forall k i, nth_error (l_closed s) k = Some i -> exists n o, nth_error (l_tree s) i = Some n /\ nth_error (l_tree s) (n_origin n) = Some o /\
    nth_error lines (2 * k) = Some (n_pos n) /\ nth_error lines (2 * k + 1) = Some (n_pos o) /\
    (i = 0%nat -> n_pos n = n_pos o) /\ ((0 < i)%nat -> (n_origin n < i)%nat /\ In (n_origin n) (l_closed s)).
Proof.
  intros N G secs cast rnd ceilc top huge s H. pose proof (history_tree N G secs cast rnd ceilc top huge s H) as T.
  destruct (tree_lines_acc N (l_tree s) (l_closed s) []) as (pts & E & L & P).
  { intros i Hi. destruct (T i Hi) as (n & o & H1 & H2 & _). eauto. }
  exists pts. split; [exact E|]. split; [exact L|]. intros k i Ei. destruct (P k i Ei) as (n & o & H1 & H2 & H3 & H4).
  destruct (T i (nth_error_In _ _ Ei)) as (n' & o' & Q1 & Q2 & Q3 & Q4). assert (n' = n) by congruence. subst n'. assert (o' = o) by congruence. subst o'.
  exists n, o. do 4 (split; [assumption|]). split; [|exact Q4]. intros ->. rewrite (Q3 eq_refl) in H2. congruence.
Qed.
Print Assumptions C101_tree_display.
Theorem C101_path_display :
  forall (N : num) (path : list (vec3 N)), length (pathLines N path) = (2 * (length path - 1))%nat /\
  forall k p q, nth_error path k = Some p -> nth_error path (S k) = Some q ->
    nth_error (pathLines N path) (2 * k) = Some p /\ nth_error (pathLines N path) (2 * k + 1) = Some q.
Proof. exact path_lines. Qed.
Print Assumptions C101_path_display.
Example C101_tree_example : let t := fun o z => TN (V3 1 2 z)%R (V3 0 0 0)%R 0%R 0%R o true 0%nat in
  treeLines Rn [t 0%nat 5; t 0%nat 6; t 1%nat 7] [0; 1]%nat = Some [V3 1 2 5; V3 1 2 5; V3 1 2 6; V3 1 2 5] /\
  treeLines Rn [t 0%nat 5; t 9%nat 6] [1]%nat = None.
Proof. split; reflexivity. Qed.

(** The range scan over the reals: entry i is a triangle from the vehicle to the azimuths 6 i + 3 and 6 i - 3, as long as the smaller of
    the entry and the maximum range; green if nothing is in range, otherwise the redder the nearer. *)
Definition in_direction (pos : vec3 Rn) (azimuth d : R) : vec3 Rn := V3 (vx pos + d * sin (azimuth * PI / 180)) (vy pos + d * cos (azimuth * PI / 180)) (vz pos).
Lemma level_point (pos : vec3 Rn) (a d : R) : polarHistogramToCartesian Rn Rtrig (Pol (0 : Rn) (a : Rn) (d : Rn)) pos = in_direction pos a d.
Proof.
  rewrite polarHistogramToCartesian_dir. unfold hist_direction, in_direction. cbn [pe pz pr]. replace (0 * PI / 180) with 0 by field. rewrite cos_0, sin_0.
  f_equal; tR; ring.
Qed.
Lemma sector_at range_max pos i r : scanSector Rn Rtrig (6 * PI / 180)%R range_max pos i r =
  let p1 := in_direction pos (6 * IZR i + 3) (Rmin range_max r) in
  let p2 := in_direction pos (6 * IZR i - 3) (Rmin range_max r) in
  if R_ltb range_max r then Sec pos p1 p2 0 1 else Sec pos p1 p2 (1 - r / range_max)%R (r / range_max)%R.
Proof.
  pose proof PI_RGT_0. unfold scanSector. cbv zeta. rewrite <- !level_point. rewrite minv_Rn.
  assert (NN : isnanb Rn r = false). { unfold isnanb. rn. destruct (R_eqb_spec r r); [reflexivity|congruence]. } rewrite NN.
  assert (A1 : mul Rn (mul Rn (RAD_TO_DEG Rn) (add Rn (ofZ Rn i) (cst Rn 1 2))) (6 * PI / 180)%R = (6 * IZR i + 3 : Rn)).
  { unfold RAD_TO_DEG. rewrite cst_Rn. rn. tR. field. lra. }
  assert (A2 : mul Rn (mul Rn (RAD_TO_DEG Rn) (add Rn (ofZ Rn i) (opp Rn (cst Rn 1 2)))) (6 * PI / 180)%R = (6 * IZR i - 3 : Rn)).
  { unfold RAD_TO_DEG. rewrite cst_Rn. rn. tR. field. lra. }
  rewrite A1, A2. reflexivity.
Qed.
Lemma sectors_nth inc range_max pos : forall ranges i0 k r, nth_error ranges k = Some r ->
  nth_error (scanSectors Rn Rtrig inc range_max pos i0 ranges) k = Some (scanSector Rn Rtrig inc range_max pos (i0 + Z.of_nat k) r).
Proof.
  induction ranges as [|x ranges IH]; intros i0 [|k] r E; try discriminate; cbn [scanSectors nth_error] in *.
  - injection E as <-. rewrite Z.add_0_r. reflexivity.
  - rewrite (IH (i0 + 1)%Z k r E). do 2 f_equal. lia.
Qed.
Theorem C101_scan_display :
  forall (ranges : list R) (range_max : R) (pos : vec3 Rn), 0 < range_max ->
  let shown := scanSectors Rn Rtrig (6 * PI / 180)%R range_max pos 0 ranges in
  forall k r, nth_error ranges k = Some r -> exists s, nth_error shown k = Some s /\ se_apex s = pos /\
    let d := Rmin range_max r in
    se_left s = in_direction pos (6 * INR k + 3) d /\ se_right s = in_direction pos (6 * INR k - 3) d /\
    (range_max < r -> se_red s = 0 /\ se_green s = 1) /\
    (r <= range_max -> se_red s = 1 - r / range_max /\ se_green s = r / range_max) /\
    (0 <= r -> 0 <= se_red s <= 1 /\ 0 <= se_green s <= 1).
Proof.
  intros ranges mx pos Hm shown k r E. unfold shown. rewrite (sectors_nth _ _ _ ranges 0%Z k r E). eexists. split; [reflexivity|].
  rewrite sector_at. cbv zeta. rewrite Z.add_0_l, <- INR_IZR_INZ.
  assert (Q : 0 <= r -> r <= mx -> 0 <= r / mx <= 1).
  { intros H1 H2. assert (0 < / mx) by now apply Rinv_0_lt_compat. assert (r / mx <= mx / mx) by (apply Rmult_le_compat_r; lra).
    replace (mx / mx) with 1 in * by (field; lra). split; [apply Rmult_le_pos; lra|lra]. }
  destruct (R_ltb_spec mx r); cbn [se_apex se_left se_right se_red se_green].
  - do 3 (split; [reflexivity|]). split; [intros; split; reflexivity|]. split; [intros; lra|]. intros _. tR. lra.
  - do 3 (split; [reflexivity|]). split; [intros; lra|]. split; [intros _; split; reflexivity|]. intros H0. specialize (Q H0 ltac:(lra)). tR. lra.
Qed.
Print Assumptions C101_scan_display.
Example C101_scan_example : exists s, nth_error (scanSectors Rn Rtrig (6 * PI / 180)%R (15 : R) (V3 0 0 0 : vec3 Rn)%R 0 [20 : R; 3 : R]) 1 = Some s /\ se_red s = 1 - 3 / 15.
Proof.
  destruct (C101_scan_display [20; 3] 15 (V3 0 0 0 : vec3 Rn)%R ltac:(lra) 1%nat 3 eq_refl) as (s & E & _ & _ & _ & _ & C & _).
  exists s. split; [exact E|]. apply C. lra.
Qed.
(** as executed: an entry without data (NaN) is drawn red, and as far as the maximum range *)
Theorem C101_scan_no_data :
  forall (G : trig F32) (increment range_max r : F32) (pos : vec3 F32) (i : Z), is_nan (r : f32) = true ->
  exists a1 a2, let s := scanSector F32 G increment range_max pos i r in
    se_left s = polarHistogramToCartesian F32 G (Pol (ofZ F32 0) a1 range_max) pos /\
    se_right s = polarHistogramToCartesian F32 G (Pol (ofZ F32 0) a2 range_max) pos /\ se_red s = ofZ F32 1 /\ se_green s = ofZ F32 0.
Proof.
  intros G inc mx r pos i H. unfold scanSector. cbv zeta. rewrite isnan_F32, H.
  assert (M : minv F32 mx r = mx). { unfold minv. destruct (ltb F32 r mx) eqn:L; [|reflexivity]. exfalso. cbn [ltb F32] in L. apply f32_ltb_true in L. destruct L as (L & _). congruence. }
  rewrite M. cbn [se_left se_right se_red se_green]. do 2 eexists. split; [reflexivity|]. split; [reflexivity|]. split; reflexivity.
Qed.
Print Assumptions C101_scan_no_data.

(** Entry 0 describes the histogram column 30 (azimuths 0 to 6, see C26_scan_direction), but one corner of its triangle lies in column 29
    and no corner beyond the centre of column 30: the display is turned by half a column. *)
Theorem C101_scan_sector_refuted :
  exists s, nth_error (scanSectors Rn Rtrig (6 * PI / 180)%R (15 : R) (V3 0 0 0 : vec3 Rn)%R 0 [10 : R]) 0 = Some s /\
  ((30 - 0) mod 60 = 30)%Z /\ pz (histogramIndexToPolar Rn 15 30 ALPHA_RES (ofZ Rn 10)) = 3 /\
  waypointIndex Rn Rtrig (Ztrunc : Rn -> Z) (se_right s) (V3 0 0 0 : vec3 Rn)%R = (29%Z, 15%Z) /\
  se_left s = in_direction (V3 0 0 0 : vec3 Rn)%R 3 10.
Proof.
  eexists. split; [reflexivity|]. split; [reflexivity|]. split; [reflexivity|]. rewrite sector_at. cbv zeta.
  destruct (R_ltb_spec 15 10); [lra|]. cbn [se_right se_left]. rewrite !Rmin_right by lra. split.
  - rewrite <- level_point. unfold waypointIndex. rewrite polar_cart_polar; cbn [pr pe pz]; [|tR; lra|tR; lra|tR; lra]. apply index_of_direction; cbn; try lia; lra.
  - f_equal; lra.
Qed.
Print Assumptions C101_scan_sector_refuted.

(** The field of view: four triangles with their tip in the camera, whose corners are the four extreme directions of the field of view at
    the maximum range ... *)
Definition body_direction (pitch yaw : R) : R * R * R :=      (* x forward, y left, z up; pitch positive downwards as in pointInsideFOV *)
  (cos (pitch * PI / 180) * cos (yaw * PI / 180), cos (pitch * PI / 180) * sin (yaw * PI / 180), - sin (pitch * PI / 180)).
Definition at_distance (d : R) (u : R * R * R) : vec3 Rn := let '(x, y, z) := u in V3 (d * x) (d * y) (d * z).
Lemma fcu_point (e z d : R) : polarFCUToCartesian Rn Rtrig (Pol (e : Rn) (z : Rn) (d : Rn)) (V3 (ofZ Rn 0) (ofZ Rn 0) (ofZ Rn 0)) = at_distance d (body_direction (- e) z).
Proof.
  unfold polarFCUToCartesian, DEG_TO_RAD, at_distance, body_direction. cbn [pe pz pr vx vy vz]. rn. cbn [Rtrig t_sin t_cos].
  replace ((90 - e) * (PI / 180)) with (PI / 2 - e * PI / 180) by field. replace (z * (PI / 180)) with (z * PI / 180) by field.
  replace (- e * PI / 180) with (- (e * PI / 180)) by field. rewrite sin_shift, cos_shift, cos_neg, sin_neg. tR. f_equal; ring.
Qed.
(** the pitch of a body direction is the one used to decide what the camera sees *)
Theorem C101_body_direction :
  forall p : vec3 Rn, let q := cartesianToPolarFCU Rn Rtrig p (V3 0 0 0 : vec3 Rn)%R in p = at_distance (pr q) (body_direction (pe q) (pz q)).
Proof.
  intros p q. pose proof (fcu_roundtrip_mirror p (V3 0 0 0 : vec3 Rn)%R) as X. fold q in X. destruct q as [e z d].
  pose proof (fcu_point e z d) as Y. change (V3 (ofZ Rn 0) (ofZ Rn 0) (ofZ Rn 0)) with (V3 0 0 0 : vec3 Rn)%R in Y. rewrite Y in X. clear Y.
  destruct p as [x y w]. unfold at_distance, body_direction in *. cbn [pe pz pr vx vy vz] in *.
  replace (- e * PI / 180) with (- (e * PI / 180)) in X by field. rewrite cos_neg, sin_neg in X. injection X as X1 X2 X3. tR. f_equal; lra.
Qed.
Print Assumptions C101_body_direction.
(** ... which holds for cameras that look straight ahead ... *)
Theorem C101_fov_level_partial :
  forall (f : fov Rn) (max_range : R), pitch_deg f = 0 ->
  forall p, In p (fovCorners Rn Rtrig f max_range) <->
  exists e z, (e = v_fov_deg f / 2 \/ e = - (v_fov_deg f / 2)) /\ (z = yaw_deg f + h_fov_deg f / 2 \/ z = yaw_deg f - h_fov_deg f / 2) /\
    p = at_distance max_range (body_direction (pitch_deg f + e) z).
Proof.
  intros f d Hp p. unfold fovCorners. cbv zeta. rn. rewrite !fcu_point, Hp. tR. cbn [In].
  set (v := v_fov_deg f / 2). set (l := yaw_deg f + h_fov_deg f / 2). set (r := yaw_deg f - h_fov_deg f / 2).
  replace (- (0 - v)) with (0 + v) by ring. replace (- (0 + v)) with (0 + - v) by ring. split.
  - intros [E|[E|[E|[E|[]]]]]; subst p; [exists v, l|exists (- v), l|exists (- v), r|exists v, r]; auto.
  - intros (e & z & [-> | ->] & [-> | ->] & ->); auto.
Qed.
Print Assumptions C101_fov_level_partial.
(** ... but not for a camera that looks up or down: the pyramid is mirrored. A camera looking 30 degrees down sees only what is below
    it, and its field of view is drawn above it. *)
Theorem C101_fov_refuted :
  exists (f : fov Rn), pitch_deg f = 30 /\ v_fov_deg f = 40 /\
  (forall p : vec3 Rn, p <> (V3 0 0 0 : vec3 Rn)%R -> pointInsideFOV Rn f (cartesianToPolarFCU Rn Rtrig p (V3 0 0 0 : vec3 Rn)%R) = true -> vz p < 0) /\
  (forall c max_range, 0 < max_range -> In c (fovCorners Rn Rtrig f max_range) -> 0 < vz c) /\
  (exists p : vec3 Rn, p <> (V3 0 0 0 : vec3 Rn)%R /\ pointInsideFOV Rn f (cartesianToPolarFCU Rn Rtrig p (V3 0 0 0 : vec3 Rn)%R) = true).
Proof.
  pose proof PI_RGT_0 as HP. assert (SP : forall a : R, 0 < a < 90 -> 0 < sin (a * PI / 180)) by (intros a Ha; apply sin_gt_0; nra).
  exists (Fov (0 : Rn) (30 : Rn) (60 : Rn) (40 : Rn)). split; [reflexivity|]. split; [reflexivity|]. split; [|split].
  - intros p Hp H. pose proof (C101_body_direction p) as X. cbv zeta in X. set (q := cartesianToPolarFCU Rn Rtrig p _) in *.
    unfold pointInsideFOV in H. cbn [pitch_deg v_fov_deg] in H. rewrite !andb_true_iff in H. destruct H as ((_ & H1) & H2).
    revert H1 H2. rn. intros H1 H2. destruct (R_leb_spec (pe q) (30 + 40 / 2)); [|discriminate]. destruct (R_leb_spec (30 - 40 / 2) (pe q)); [|discriminate].
    assert (Hr : 0 <= pr q). { unfold q, cartesianToPolarFCU. destruct (wrapPolar_direction (Pol (opp Rn (pe (cartesianToPolarHistogram Rn Rtrig p (V3 0 0 0 : vec3 Rn)%R))) (add Rn (opp Rn (pz (cartesianToPolarHistogram Rn Rtrig p (V3 0 0 0 : vec3 Rn)%R))) (ofZ Rn 90)) (pr (cartesianToPolarHistogram Rn Rtrig p (V3 0 0 0 : vec3 Rn)%R)))) as [_ W]. rewrite W. cbn [pr]. apply sqrt_pos. }
    assert (pr q <> 0). { intros Z0. apply Hp. rewrite X, Z0. unfold at_distance, body_direction. f_equal; tR; ring. }
    pose proof (SP (pe q) ltac:(tR; lra)) as Sq. rewrite X. unfold at_distance, body_direction. cbn [vz]. tR.
    assert (0 < pr q) by (tR; lra). pose proof (Rmult_lt_0_compat _ _ H0 Sq). lra.
  - intros c d Hd H. unfold fovCorners in H. cbv zeta in H. revert H. cbn [pitch_deg v_fov_deg yaw_deg h_fov_deg]. rn. rewrite !fcu_point. intros H.
    assert (V : forall e z, 0 < e < 90 -> 0 < vz (at_distance d (body_direction (- e) z))).
    { intros e z He. unfold at_distance, body_direction. cbn [vz]. replace (- e * PI / 180) with (- (e * PI / 180)) by field. rewrite sin_neg, Ropp_involutive. apply Rmult_lt_0_compat; auto. }
    cbn [In] in H. destruct H as [H|[H|[H|[H|[]]]]]; rewrite <- H; apply V; tR; lra.
  - exists (at_distance 1 (body_direction 30 0)). assert (C : 0 < cos (30 * PI / 180)) by (apply cos_gt_0; lra). split.
    + intros X. unfold at_distance, body_direction in X. injection X as X1 X2 X3. replace (0 * PI / 180) with 0 in X1 by field. rewrite cos_0 in X1. lra.
    + assert (E : cartesianToPolarFCU Rn Rtrig (at_distance 1 (body_direction 30 0)) (V3 0 0 0 : vec3 Rn)%R = Pol (30 : Rn) (0 : Rn) (1 : Rn)).
      { unfold cartesianToPolarFCU.
        assert (H1 : cartesianToPolarHistogram Rn Rtrig (at_distance 1 (body_direction 30 0)) (V3 0 0 0 : vec3 Rn)%R = Pol (-30 : Rn) (90 : Rn) (1 : Rn)).
        { rewrite <- (polar_cart_polar (Pol (-30 : Rn) (90 : Rn) (1 : Rn)) (V3 0 0 0 : vec3 Rn)%R); cbn [pr pe pz]; [|tR; lra|tR; lra|tR; lra]. f_equal.
          rewrite polarHistogramToCartesian_dir. unfold hist_direction, at_distance, body_direction. cbn [pe pz pr vx vy vz].
          replace (-30 * PI / 180) with (- (30 * PI / 180)) by field. replace (90 * PI / 180) with (PI / 2) by field. replace (0 * PI / 180) with 0 by field.
          rewrite cos_neg, sin_neg, sin_PI2, cos_PI2, cos_0, sin_0. tR. f_equal; ring. }
        rewrite H1. cbn [pe pz pr]. rn. unfold wrapPolar. cbn [pe pz pr]. rewrite !wrap180_id by (tR; lra). rn.
        destruct (R_ltb_spec 90 (- -30)); [lra|]. destruct (R_ltb_spec (- -30) (-90)); [lra|]. tR. f_equal; lra. }
      rewrite E. unfold pointInsideFOV. cbn [pe pz pitch_deg v_fov_deg yaw_deg h_fov_deg]. rn. rewrite !wrap180_id by (tR; lra).
      rewrite !andb_true_iff. repeat split; match goal with |- R_leb ?a ?b = true => destruct (R_leb_spec a b); [reflexivity|lra] end.
Qed.
Print Assumptions C101_fov_refuted.

(** C102. The distances sent to the autopilot. With collision prevention on (CP_DIST > 0) every run recomputes them from the cloud it
    just processed: the scan is that of the compressed histogram of the new cloud. *)
Theorem C102_scan_is_current :
  forall (N : num) (G : trig N) secs cast rnd ceilc top huge (g : lp_config N) (s s' : lp_state N) clouds now,
  ltb N (ofZ N 0) (g_cp_dist g) = true -> runPlanner N G secs cast rnd ceilc top huge g s clouds now = Some s' ->
  exists h0 h ch, h_new N ALPHA_RES = Some h0 /\ generateNewHistogram N G cast h0 (l_cloud s') (l_pos s') = Some h /\
    compressHistogramElevation N G cast h0 h (l_pos s') = Some ch /\
    updateObstacleDistanceMsg N G ch (l_fovs s') (l_pos s') (l_yaw s') (g_min_range g) (g_max_range g) = Some (l_scan s').
Proof.
  intros N G secs cast rnd ceilc top huge g s s' clouds now Hc E. unfold runPlanner in E.
  destruct (processPointcloud _ _ _ _ _ _ _ _ _ _ _ _ _) as [cloud|]; [|discriminate]. cbn [obind] in E.
  destruct (h_new N ALPHA_RES) as [h0|]; [|discriminate]. cbn [obind] in E.
  destruct (generateNewHistogram _ _ _ _ _ _) as [h|] eqn:Eh; [|discriminate]. cbn [obind] in E. rewrite Hc in E.
  destruct (compressHistogramElevation _ _ _ _ _ _) as [ch|] eqn:Ec; [|discriminate]. cbn [obind] in E.
  destruct (updateObstacleDistanceMsg _ _ _ _ _ _ _ _) as [scan|] eqn:Es; [|discriminate]. cbn [obind] in E.
  exists h0, h, ch. split; [reflexivity|].
  destruct (generateHistogramImage _ _ _ _); [|discriminate]. cbn [obind] in E.
  destruct (h_isEmpty N h) as [[|]|]; cbn [obind] in E; [| |discriminate].
  - injection E as <-. cbn. auto.
  - destruct (getCostMatrix _ _ _ _ _ _ _ _ _ _ _ _ _ _); [|discriminate]. cbn [obind] in E.
    destruct (buildLookAheadTree _ _ _ _ _) as [r|]; [|discriminate]. cbn [obind] in E. injection E as <-. cbn. auto.
Qed.
Print Assumptions C102_scan_is_current.
Example C102_example : forall (s : lp_state Rn), exists s', ltb Rn (ofZ Rn 0) (g_cp_dist ex_g) = true /\
  runPlanner Rn Rtrig (fun _ => 0)%R (Ztrunc : R -> Z) (ZnearestA : Rn -> Z) (Zceil : Rn -> Z) (scan_top Rn) 1000000%R ex_g s [[V3 1 2 0 : vec3 Rn]]%R 0 = Some s'.
Proof.
  intros s. destruct (C65_cycle_completes (fun _ => 0)%R (Ztrunc : R -> Z) (scan_top Rn) 1000000%R ex_g s [[V3 1 2 0 : vec3 Rn]]%R 0%Z) as (s' & E).
  - exact (scan_top_pq Rn ordered_Rn). - cbn. lra. - cbn. lia. - discriminate.
  - exists s'. split; [|exact E]. change (R_ltb (IZR 0) 1 = true). destruct (R_ltb_spec 0 1) as [H|H]; [reflexivity|exfalso; lra].
Qed.
(** With CP_DIST = 0 or NaN the message is still sent after every run, but never recomputed: whatever the clouds, the autopilot keeps
    receiving the distances of the last run before the parameter changed. *)
Theorem C102_scan_is_current_refuted :
  forall (G : trig F32) secs cast rnd ceilc top huge (cp : F32), (cp = ofZ F32 0 \/ is_nan (cp : f32) = true) ->
  ltb F32 cp (ofZ F32 0) = false /\
  (forall increment scan, ltb F32 (ofZ F32 0) increment = true -> laserScan F32 cp (increment, scan) = [OScan (increment, scan)]) /\
  forall (g : lp_config F32) (s s' : lp_state F32) clouds now, g_cp_dist g = cp ->
    runPlanner F32 G secs cast rnd ceilc top huge g s clouds now = Some s' -> l_scan s' = l_scan s.
Proof.
  intros G secs cast rnd ceilc top huge cp H.
  assert (N1 : ltb F32 cp (ofZ F32 0) = false).
  { destruct H as [->|H]; [vm_compute; reflexivity|]. destruct (ltb F32 cp (ofZ F32 0)) eqn:L; [|reflexivity]. cbn [ltb F32] in L. apply f32_ltb_true in L. destruct L as (L & _). congruence. }
  assert (N2 : ltb F32 (ofZ F32 0) cp = false).
  { destruct H as [->|H]; [vm_compute; reflexivity|]. destruct (ltb F32 (ofZ F32 0) cp) eqn:L; [|reflexivity]. cbn [ltb F32] in L. apply f32_ltb_true in L. destruct L as (_ & L & _). congruence. }
  split; [exact N1|]. split.
  - intros inc scan Hi. unfold laserScan. cbn [fst]. rewrite N1, Hi. reflexivity.
  - intros g s s' clouds now Hg E. unfold runPlanner in E. rewrite Hg, N2 in E.
    destruct (processPointcloud _ _ _ _ _ _ _ _ _ _ _ _ _) as [cloud|]; [|discriminate]. cbn [obind] in E.
    destruct (h_new F32 ALPHA_RES) as [h0|]; [|discriminate]. cbn [obind] in E.
    destruct (generateNewHistogram _ _ _ _ _ _) as [h|] eqn:Eh; [|discriminate]. cbn [obind] in E.
    destruct (generateHistogramImage _ _ _ _); [|discriminate]. cbn [obind] in E.
    destruct (h_isEmpty F32 h) as [[|]|]; cbn [obind] in E; [| |discriminate].
    + apply (f_equal (fun o => match o with Some x => l_scan x | None => [] end)) in E. cbn in E. auto.
    + destruct (getCostMatrix _ _ _ _ _ _ _ _ _ _ _ _ _ _); [|discriminate]. cbn [obind] in E.
      destruct (buildLookAheadTree _ _ _ _ _) as [r|]; [|discriminate]. cbn [obind] in E.
      apply (f_equal (fun o => match o with Some x => l_scan x | None => [] end)) in E. cbn in E. auto.
Qed.
Print Assumptions C102_scan_is_current_refuted.
