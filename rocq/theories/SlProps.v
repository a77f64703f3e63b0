(** Property theorems for the landing site detection (C43-C45, C77-C79, C83). *)
From Coq Require Import ZArith Reals List Bool Lia Lra.
From Flocq Require Import Core BinarySingleNaN.
From Verif Require Import Num Mat CommonModel CommonSpec PfModel PfSpec SlModel SlSpec SlProofs SlProofs2 SlProofs3 SlProofs4.
Import ListNotations.
Local Open Scope Z_scope.

(** A history of the planner: reconfigurations, poses and live clouds, in any order, from construction. [junk] are the uninitialised
    corners of the two grids. *)
Definition planner (j1 j2 : (R * R) * (R * R)) (os : list (slp_op Rn)) : option (slp Rn) := slp_run Rn Rcast Rceil (slp_init Rn Rceil j1 j2) os.
Definition live (os : list (slp_op Rn)) : Prop := Forall live_op os.

(** an undefined result, decided by computation *)
Definition undef {A} (o : option A) : bool := match o with None => true | Some _ => false end.
Lemma undef_none {A} (o : option A) : undef o = true -> o = None.
Proof. destruct o; [discriminate|reflexivity]. Qed.

(** C43, ideal arithmetic: a point the filter accepts has a cell of the grid. *)
Theorem C43_index_valid :
  forall (g : grid Rn) (pos : vec3 Rn) (p : vec3 Rn) i j, (0 < g_cell g)%R -> g_rc g = Rceil (g_size g / g_cell g)%R ->
  let g' := setFilterLimits Rn g pos in
  isInsideGrid Rn g' (vx p) (vy p) = true -> computeGridIndexes Rn Rcast g' (vx p) (vy p) = (i, j) ->
  0 <= i < g_rc g /\ 0 <= j < g_rc g /\ in_cell pos (g_size g) (g_cell g) i j p.
Proof.
  intros g pos p i j Hc Hr g' I E. apply inside_iff in I. assert (I' := I). destruct I' as [I1 I2].
  apply Rabs_def2 in I1 as [I1 I1']. apply Rabs_def2 in I2 as [I2 I2'].
  unfold computeGridIndexes, g' in E. cbn [setFilterLimits g_min fst snd g_cell] in E. injection E as <- <-. rn. rewrite !floor_cast.
  assert (D : forall a b : R, (a - b / 2 = a - b / IZR 2)%R) by reflexivity.
  assert (Bx : (0 < vx p - (vx pos - g_size g / 2) < g_size g)%R) by lra.
  assert (By : (0 < vy p - (vy pos - g_size g / 2) < g_size g)%R) by lra.
  pose proof (inside_index (g_size g) (g_cell g) _ Hc Bx) as Ix. pose proof (inside_index (g_size g) (g_cell g) _ Hc By) as Iy.
  split; [rewrite Hr; exact Ix|]. split; [rewrite Hr; exact Iy|]. split; [exact I|].
  split; apply index_floor; auto.
Qed.
Print Assumptions C43_index_valid.
(** No history of live operations makes the planner leave a matrix. *)
Theorem C43_no_overrun : forall j1 j2 os, live os -> planner j1 j2 os <> None.
Proof. intros j1 j2 os H. destruct (hist_ok j1 j2 os H) as (s & E & _). unfold planner. rewrite E. discriminate. Qed.
Print Assumptions C43_no_overrun.
(** In binary32 the claim is false: with the default 10 m grid of 1 m cells around the origin a point 2^-21 m inside the border rounds to index 10
    of a matrix with 10 columns. *)
Definition f_init : slp F32 := slp_init F32 f32_ceil ((f32_me 0 0, f32_me 0 0), (f32_me 0 0, f32_me 0 0)) ((f32_me 0 0, f32_me 0 0), (f32_me 0 0, f32_me 0 0)).
Definition fp (x y z : Z * Z) : vec3 F32 := V3 (f32_me (fst x) (snd x)) (f32_me (fst y) (snd y)) (f32_me (fst z) (snd z)).
Definition f_edge : vec3 F32 := V3 (f32_me (5 * 2 ^ 21 - 1) (-21)) (f32_me 0 0) (f32_me 1 0).
Theorem C43_index_refuted :
  let g := setFilterLimits F32 (s_prev f_init) (s_pos f_init) in
  isInsideGrid F32 g (vx f_edge) (vy f_edge) = true /\ fst (computeGridIndexes F32 f32_cast g (vx f_edge) (vy f_edge)) = g_rc g /\
  slp_run F32 f32_cast f32_ceil f_init [OpCloud [f_edge]] = None.
Proof. cbv zeta. split; [vm_compute; reflexivity|]. split; [vm_compute; reflexivity|]. apply undef_none. vm_compute. reflexivity. Qed.
Print Assumptions C43_index_refuted.
Example C43_example :
  let r := slp_run F32 f32_cast f32_ceil f_init [OpCloud [fp (9, -1) (-9, -1) (1, 0)]] in
  obind r (fun s => mget (g_cnt (s_grid s)) 9 0) = Some 1 /\ obind r (fun s => mget (g_cnt (s_grid s)) 8 0) = Some 0.
Proof. cbv zeta. split; vm_compute; reflexivity. Qed.

(** C44. The online update over a sequence of heights. *)
Fixpoint online (m v : R) (k : Z) (hs : list R) : R * R :=
  match hs with
  | [] => (m, v)
  | h :: hs' => let r := computeOnlineMeanVariance Rn m v h (ofZ Rn (k + 1)) in online (fst r) (snd r) (k + 1) hs'
  end.
Theorem C44_online_is_batch : forall hs : list R, hs <> [] -> online 0 0 0 hs = (average hs, variance hs).
Proof.
  assert (G : forall hs pre, online (average pre) (variance pre) (Z.of_nat (length pre)) hs = (average (pre ++ hs), variance (pre ++ hs))).
  { induction hs as [|h hs IH]; intros pre; cbn [online]; [rewrite app_nil_r; reflexivity|]. rewrite online_batch. cbn [fst snd].
    replace (Z.of_nat (length pre) + 1) with (Z.of_nat (length (pre ++ [h]))) by (rewrite app_length; cbn; lia). rewrite IH, <- app_assoc. reflexivity. }
  intros hs _. specialize (G hs []). cbn [length app] in G. rewrite <- G. f_equal; unfold average, variance, average; cbn; unfold Rdiv; rewrite Rmult_0_l; reflexivity.
Qed.
Print Assumptions C44_online_is_batch.
(** In every history, each new cloud gives every cell the batch statistics of exactly the points that lie in it, blended with the cell's previous values
    (zeros after a change of the grid's size); the count is the number of these points. *)
Theorem C44_cell_statistics :
  forall j1 j2 os s cloud s', live os -> planner j1 j2 os = Some s -> planner j1 j2 (os ++ [OpCloud cloud]) = Some s' ->
  forall i j, 0 <= i < g_rc (s_grid s') -> 0 <= j < g_rc (s_grid s') ->
  exists hs, heights_in (s_pos s) (g_size (s_grid s')) (g_cell (s_grid s')) i j cloud hs /\
    cell (g_cnt (s_grid s')) i j = Z.of_nat (length hs) /\
    (cell (g_mean (s_grid s')) i j = k_alpha (s_cfg s) * cell (g_mean (base s)) i j + (1 - k_alpha (s_cfg s)) * average hs)%R /\
    (cell (g_var (s_grid s')) i j = k_alpha (s_cfg s) * cell (g_var (base s)) i j + (1 - k_alpha (s_cfg s)) * variance hs)%R /\
    (s_upd s = false -> base s = s_grid s) /\
    (s_upd s = true -> cell (g_mean (base s)) i j = 0%R /\ cell (g_var (base s)) i j = 0%R).
Proof.
  intros j1 j2 os s cloud s' L E E' i j Hi Hj. destruct (hist_ok j1 j2 os L) as (s0 & E0 & Ok & Cp). unfold planner in *. rewrite E0 in E. injection E as ->.
  unfold slp_run in *. rewrite foldM_app, E0 in E'. cbn [foldM slp_step] in E'.
  destruct (runCloud_spec s cloud Ok Cp) as (s1 & E1 & _ & _ & _ & _ & _ & _ & _ & Gs & Gc & Gr & _ & Cell & _).
  rewrite E1 in E'. injection E' as <-. destruct (Cell i j Hi Hj) as (hs & H1 & H2 & H3 & H4).
  exists hs. split; [exact H1|]. split; [exact H2|]. split; [exact H3|]. split; [exact H4|].
  split; intros U; unfold base, applyResize; rewrite U; [reflexivity|]. split; reflexivity.
Qed.
Print Assumptions C44_cell_statistics.
(** the variance of every cell is non-negative in every history with smoothing weights in [0,1] *)
Theorem C44_variance_nonneg :
  forall j1 j2 os s, live os -> Forall alpha_op os -> planner j1 j2 os = Some s ->
  forall i j, 0 <= i < g_rc (s_grid s) -> 0 <= j < g_rc (s_grid s) -> (0 <= cell (g_var (s_grid s)) i j)%R.
Proof. intros j1 j2 os s L A E i j Hi Hj. exact (var_hist j1 j2 os s L A E i j Hi Hj). Qed.
Print Assumptions C44_variance_nonneg.
Example C44_example : average [1; 3]%R = 2%R /\ variance [1; 3]%R = 1%R /\ live [OpPose (V3 1 2 3 : vec3 Rn)%R; OpCloud []].
Proof. split; [unfold average; cbn; lra|]. split; [unfold variance, average; cbn; lra|]. repeat constructor. Qed.

(** C45. For every number system, every grid: a cell is landable iff (with smoothing) more than min_n_land_cells cells of the window are flat and
    at most max_n_mean_diff_cells of them differ in height by more than the threshold; (without smoothing) iff it is flat itself. *)
Theorem C45_landable_iff :
  forall (N : num) (c : slp_cfg N) (p : Z) (g : grid N), well_sized N g -> 0 <= k_min_land c -> 1 <= k_max_diff c ->
  exists land, isLandingPossible N c p g = Some land /\ rows land = g_rc g /\ cols land = g_rc g /\
    forall i j, 0 <= i < g_rc g -> 0 <= j < g_rc g ->
      (cell land i j = 0 \/ cell land i j = 1) /\
      (cell land i j = 1 <->
        if 0 <? p then k_min_land c < flat_around N c g p i j /\ steps_around N c g p i j <= k_max_diff c else flat_cell N c g i j = true).
Proof.
  intros N c p g W H1 H2. destruct (landing_spec N c p g W H1 H2) as (land & E & R & C & S). exists land. split; [exact E|]. split; [exact R|]. split; [exact C|].
  intros i j Hi Hj. rewrite (S i j Hi Hj). unfold landable. destruct (0 <? p).
  - destruct (Z.ltb_spec (k_min_land c) (flat_around N c g p i j)), (Z.leb_spec (steps_around N c g p i j) (k_max_diff c)); cbn [andb];
    (split; [auto|]); split; intros; try lia; split; lia.
  - destruct (flat_cell N c g i j); (split; [auto|]); split; intros; try lia; try reflexivity; discriminate.
Qed.
Print Assumptions C45_landable_iff.
(** and this is the state of the published land matrix after every cloud of every history *)
Theorem C45_history :
  forall j1 j2 os s cloud s', live os -> planner j1 j2 os = Some s -> planner j1 j2 (os ++ [OpCloud cloud]) = Some s' ->
  0 <= k_min_land (s_cfg s) -> 1 <= k_max_diff (s_cfg s) ->
  forall i j, 0 <= i < g_rc (s_grid s') -> 0 <= j < g_rc (s_grid s') ->
    let c := s_cfg s in let p := s_pad s' in let g := s_grid s' in
    (s_upd s = true -> p = k_smooth c) /\
    (cell (g_land g) i j = 1 <->
      if 0 <? p then k_min_land c < flat_around Rn c g p i j /\ steps_around Rn c g p i j <= k_max_diff c else flat_cell Rn c g i j = true).
Proof.
  intros j1 j2 os s cloud s' L E E' H1 H2 i j Hi Hj. destruct (hist_ok j1 j2 os L) as (s0 & E0 & Ok & Cp). unfold planner in *. rewrite E0 in E. injection E as ->.
  unfold slp_run in *. rewrite foldM_app, E0 in E'. cbn [foldM slp_step] in E'.
  destruct (runCloud_spec s cloud Ok Cp) as (s1 & E1 & _ & _ & _ & _ & Pd & _ & _ & _ & _ & _ & _ & _ & La).
  rewrite E1 in E'. injection E' as <-. cbv zeta. split.
  { intros U. rewrite Pd. unfold applyResize. rewrite U. reflexivity. }
  rewrite (La H1 H2 i j Hi Hj). unfold landable. destruct (0 <? s_pad s1).
  - destruct (Z.ltb_spec (k_min_land (s_cfg s)) (flat_around Rn (s_cfg s) (s_grid s1) (s_pad s1) i j)), (Z.leb_spec (steps_around Rn (s_cfg s) (s_grid s1) (s_pad s1) i j) (k_max_diff (s_cfg s))); cbn [andb];
    split; intros; try lia; split; lia.
  - destruct (flat_cell Rn (s_cfg s) (s_grid s1) i j); split; intros; try lia; try reflexivity; discriminate.
Qed.
Print Assumptions C45_history.
(** The configuration allows max_n_mean_diff_cells = 0 ("no neighbour may differ"). Then no cell of any grid is ever landable. *)
Theorem C45_strictest_setting_refuted :
  forall (N : num) (c : slp_cfg N) (p : Z) (g : grid N), well_sized N g -> k_max_diff c = 0 -> 0 < p ->
  exists land, isLandingPossible N c p g = Some land /\ forall i j, 0 <= i < g_rc g -> 0 <= j < g_rc g -> cell land i j = 0.
Proof. exact landing_max0. Qed.
Print Assumptions C45_strictest_setting_refuted.
(** the case it wrongly rejects: nine flat cells of equal height *)
Definition f_flat : grid F32 := @Grid F32 (const_mat 3 (f32_me 1 0)) (const_mat 3 (f32_me 0 0)) (const_mat 3 50) (const_mat 3 0) (f32_me 0 0, f32_me 0 0) (f32_me 0 0, f32_me 0 0) (f32_me 3 0) (f32_me 1 0) 3.
Definition f_cfg (mx : Z) : slp_cfg F32 := @SlpCfg F32 (f32_me 10 0) (f32_me 1 (-3)) (f32_me 3 0) (f32_me 1 0) (f32_me 1 (-3)) (f32_me 1 (-1)) mx 1 8.
Example C45_example :
  well_sized F32 f_flat /\
  flat_around F32 (f_cfg 0) f_flat 1 1 1 = 9 /\ steps_around F32 (f_cfg 0) f_flat 1 1 1 = 0 /\
  obind (isLandingPossible F32 (f_cfg 0) 1 f_flat) (fun m => mget m 1 1) = Some 0 /\
  obind (isLandingPossible F32 (f_cfg 1) 1 f_flat) (fun m => mget m 1 1) = Some 1 /\
  obind (isLandingPossible F32 (f_cfg 1) 1 f_flat) (fun m => mget m 0 0) = Some 0.
Proof. split; [repeat split; reflexivity|]. split; [|split; [|split; [|split]]]; vm_compute; reflexivity. Qed.

(** C77. The grid message is decoded without loss, also over a size change; for every number system whose size arithmetic respects equality,
    in particular for binary32. *)
Theorem C77_transport :
  forall seq (g : grid F32) idx m (g0 : grid F32) pos, sized F32 f32_ceil g -> sized F32 f32_ceil g0 -> serialise F32 seq g idx = Some m ->
  exists g', receiveGrid F32 f32_ceil g0 pos m = Some g' /\ sized F32 f32_ceil g' /\ g_rc g' = g_rc g /\
    forall i j, 0 <= i < g_rc g -> 0 <= j < g_rc g ->
      cell (g_mean g') i j = cell (g_mean g) i j /\ cell (g_land g') i j = cell (g_land g) i j.
Proof.
  intros seq g idx m g0 pos S S0 E. destruct (receive_spec F32 f32_ceil seq g idx m g0 pos size_compat_F32 S S0 E) as (g' & R & S' & Rc & _ & _ & _ & _ & C).
  exists g'. auto.
Qed.
Print Assumptions C77_transport.
Theorem C77_serialise_total : forall seq (g : grid F32) idx, sized F32 f32_ceil g -> serialise F32 seq g idx <> None.
Proof. intros seq g idx [W _]. destruct (serialise_spec F32 seq g idx W) as (m & E & _). rewrite E. discriminate. Qed.
Print Assumptions C77_serialise_total.
Example C77_example : sized F32 f32_ceil f_flat /\ sized F32 f32_ceil (s_grid f_init) /\
  obind (serialise F32 1 f_flat (0, 0)) (fun m => obind (receiveGrid F32 f32_ceil (s_grid f_init) (s_pos f_init) m) (fun g => Some (g_rc g))) = Some 3.
Proof. split; [|split]; [split; [repeat split; reflexivity|vm_compute; reflexivity]..|vm_compute; reflexivity]. Qed.

(** C78. What the node publishes after a cloud is the grid before that cloud (all zero after a size change). *)
Theorem C78_published_is_previous_partial :
  forall j1 j2 os s cloud s' seq m, live os -> planner j1 j2 os = Some s -> planner j1 j2 (os ++ [OpCloud cloud]) = Some s' ->
  publishSerialGrid Rn seq s' = Some m ->
  forall i j, 0 <= i < g_rc (base s) -> 0 <= j < g_rc (base s) ->
    vget (gm_mean m) (g_rc (base s) * i + j) = Some (cell (g_mean (base s)) i j) /\
    vget (gm_land m) (g_rc (base s) * i + j) = Some (cell (g_land (base s)) i j) /\
    vget (gm_cnt m) (g_rc (base s) * i + j) = Some (cell (g_cnt (base s)) i j).
Proof.
  intros j1 j2 os s cloud s' seq m L E E' P i j Hi Hj. destruct (hist_ok j1 j2 os L) as (s0 & E0 & Ok & Cp). unfold planner in *. rewrite E0 in E. injection E as ->.
  unfold slp_run in *. rewrite foldM_app, E0 in E'. cbn [foldM slp_step] in E'.
  destruct (runCloud_spec s cloud Ok Cp) as (s1 & E1 & _ & _ & Pr & _). rewrite E1 in E'. injection E' as <-.
  unfold publishSerialGrid in P. rewrite Pr in P. change (s_grid (applyResize Rn Rceil s)) with (base s) in P.
  assert (W : well_sized Rn (base s)) by (apply ok_resize in Ok; destruct Ok as [[W _] _]; exact W).
  destruct (serialise_spec Rn seq (base s) (s_idx s1) W) as (m' & Em & _ & _ & _ & _ & _ & C). rewrite P in Em. injection Em as <-.
  destruct (C i j Hi Hj) as (C1 & C2 & _ & C4). auto.
Qed.
Print Assumptions C78_published_is_previous_partial.
(** hence it is not the newest: one cloud, one point in cell (5,5); the message says zero points *)
Theorem C78_newest_refuted :
  let r := slp_run F32 f32_cast f32_ceil f_init [OpCloud [fp (1, -1) (1, -1) (5, 0)]] in
  obind r (fun s => mget (g_cnt (s_grid s)) 5 5) = Some 1 /\ obind r (fun s => obind (publishSerialGrid F32 0 s) (fun m => vget (gm_cnt m) (10 * 5 + 5))) = Some 0.
Proof. cbv zeta. split; vm_compute; reflexivity. Qed.
Print Assumptions C78_newest_refuted.
(** two clouds with one point each, at height 5 in cell (5,5) *)
Definition ex_p5 : vec3 Rn := V3 (1 / 2)%R (1 / 2)%R 5%R.
Example C78_example : forall j1 j2, exists s s' m, live [OpCloud [ex_p5]] /\ planner j1 j2 [OpCloud [ex_p5]] = Some s /\
  planner j1 j2 ([OpCloud [ex_p5]] ++ [OpCloud [ex_p5]]) = Some s' /\ publishSerialGrid Rn 0 s' = Some m.
Proof.
  intros j1 j2. assert (L : live [OpCloud [ex_p5]]) by (repeat constructor). assert (L2 : live ([OpCloud [ex_p5]] ++ [OpCloud [ex_p5]])) by (repeat constructor).
  destruct (hist_ok j1 j2 _ L) as (s & E & _). destruct (hist_ok j1 j2 _ L2) as (s' & E' & Ok & _).
  destruct (serialise_spec Rn 0 (s_prev s') (s_idx s')) as (m & Em & _); [exact (proj1 (proj1 (proj2 Ok)))|].
  exists s, s', m. split; [exact L|]. split; [exact E|]. split; [exact E'|exact Em].
Qed.

(** C79. Replaying a recorded grid of the planner's own size reproduces its means and counts, and variances as the square of the recorded deviation. *)
Theorem C79_replay_partial :
  forall seq (g : grid F32) idx m (g0 : grid F32) pos, sized F32 f32_ceil g -> sized F32 f32_ceil g0 -> serialise F32 seq g idx = Some m ->
  exists g', processRawGrid F32 f32_ceil g0 pos m = Some g' /\ g_rc g' = g_rc g /\
    forall i j, 0 <= i < g_rc g -> 0 <= j < g_rc g ->
      cell (g_mean g') i j = cell (g_mean g) i j /\ cell (g_cnt g') i j = cell (g_cnt g) i j /\
      cell (g_var g') i j = mul F32 (sqrtv F32 (cell (g_var g) i j)) (sqrtv F32 (cell (g_var g) i j)).
Proof.
  intros seq g idx m g0 pos S S0 E. destruct (raw_spec F32 f32_ceil seq g idx m g0 pos size_compat_F32 S S0 E) as (g' & R & _ & Rc & _ & C).
  exists g'. auto.
Qed.
Print Assumptions C79_replay_partial.
(** over the reals that is the recorded variance *)
Theorem C79_variance_partial : forall v : R, (0 <= v)%R -> mul Rn (sqrtv Rn v) (sqrtv Rn v) = v.
Proof. intros v H. exact (sqrt_sqrt v H). Qed.
Print Assumptions C79_variance_partial.
(** A recording made with another number of cells makes the planner blend matrices of different sizes: undefined behaviour. *)
Theorem C79_size_change_refuted :
  obind (serialise F32 1 f_flat (0, 0)) (fun m => slp_run F32 f32_cast f32_ceil f_init [OpRaw m]) = None /\
  serialise F32 1 f_flat (0, 0) <> None.
Proof. split; [apply undef_none; vm_compute; reflexivity|]. apply C77_serialise_total. exact (proj1 C77_example). Qed.
Print Assumptions C79_size_change_refuted.
Example C79_example : match serialise F32 1 f_flat (0, 0) with
  | Some m => match processRawGrid F32 f32_ceil f_flat (s_pos f_init) m with Some g => g_rc g = 3 | None => False end
  | None => False end.
Proof. vm_compute. reflexivity. Qed.

(** C83. Clouds with average height h in a cell: the published mean approaches h geometrically from its previous value. *)
Theorem C83_smoothing_partial :
  forall j1 j2 os s h i j clouds s', live os -> planner j1 j2 os = Some s ->
  0 <= i < g_rc (base s) -> 0 <= j < g_rc (base s) ->
  (forall cloud, In cloud clouds -> forall hs, heights_in (s_pos s) (g_size (base s)) (g_cell (base s)) i j cloud hs -> average hs = h) ->
  planner j1 j2 (os ++ map OpCloud clouds) = Some s' ->
  (cell (g_mean (base s')) i j = h + k_alpha (s_cfg s) ^ (length clouds) * (cell (g_mean (base s)) i j - h))%R.
Proof.
  intros j1 j2 os s h i j clouds s' L E Hi Hj Hh E'. destruct (hist_ok j1 j2 os L) as (s0 & E0 & Ok & Cp). unfold planner in *. rewrite E0 in E. injection E as ->.
  unfold slp_run in *. rewrite foldM_app, E0 in E'. exact (proj1 (smoothing_run h i j clouds s s' Ok Cp Hi Hj Hh E')).
Qed.
Print Assumptions C83_smoothing_partial.
(** But the first estimate is blended with zero, not with a measurement: two points at height 5 and nothing else give the cell a mean below 2. *)
Theorem C83_between_measurements_refuted :
  obind (slp_run F32 f32_cast f32_ceil f_init [OpCloud [fp (1, -1) (1, -1) (5, 0); fp (1, -1) (1, -1) (5, 0)]])
    (fun s => obind (mget (g_mean (s_grid s)) 5 5) (fun m => obind (mget (g_cnt (s_grid s)) 5 5) (fun c => Some (ltb F32 m (f32_me 2 0), c)))) = Some (true, 2).
Proof. vm_compute. reflexivity. Qed.
Print Assumptions C83_between_measurements_refuted.
Example C83_example : forall j1 j2, let clouds := [[ex_p5]; [ex_p5]] in exists s s', live [] /\ planner j1 j2 [] = Some s /\
  0 <= 5 < g_rc (base s) /\
  (forall cloud, In cloud clouds -> forall hs, heights_in (s_pos s) (g_size (base s)) (g_cell (base s)) 5 5 cloud hs -> average hs = 5%R) /\
  planner j1 j2 ([] ++ map OpCloud clouds) = Some s'.
Proof.
  intros j1 j2 clouds. assert (L : live []) by constructor. assert (L2 : live ([] ++ map OpCloud clouds)) by (repeat constructor).
  destruct (hist_ok j1 j2 _ L2) as (s' & E' & _).
  exists (slp_init Rn Rceil j1 j2), s'. split; [exact L|]. split; [reflexivity|]. split.
  { unfold base, applyResize, slp_init. cbn [s_upd s_grid g_rc g_new]. unfold Rceil. rn. replace (10 / 1)%R with 10%R by field. change 10%R with (IZR 10). rewrite Zceil_IZR. lia. }
  split; [|exact E']. intros cloud I hs H.
  assert (Eh : hs = [5%R]).
  { assert (Ip : cloud = [ex_p5]) by (unfold clouds in I; destruct I as [E|[E|[]]]; symmetry; exact E). subst cloud.
    assert (Q : in_cell (V3 (ofZ Rn 0) (ofZ Rn 0) (ofZ Rn 0)) (ofZ Rn 10) (ofZ Rn 1) 5 5 ex_p5).
    { unfold in_cell, in_square, ex_p5. cbn [vx vy vz]. change (ofZ Rn 0) with 0%R. change (ofZ Rn 10) with 10%R. change (ofZ Rn 1) with 1%R.
      change (5 + 1) with 6. split; [split; apply Rabs_def1; lra|split; lra]. }
    inversion H as [|? ? ? A B|? ? ? A B]; subst; [inversion B; subst; reflexivity|]. exfalso. apply A. exact Q. }
  rewrite Eh. unfold average, Rsum. cbn. field.
Qed.
