(** Property theorems for the landing waypoint generator (C46-C50, C75, C76, C80, C81, C84). *)
From Coq Require Import ZArith Reals List Bool Lia Lra Permutation.
From Flocq Require Import Core BinarySingleNaN.
From Verif Require Import Num Mat CommonModel CommonSpec PfModel PfSpec PfProps StarModel LpModel UsmModel SlModel SlSpec SlProofs SlProofs2 SlProofs3 SlProps
  SwModel SwSpec SwProofs SwProofs2 SwProofs3 SwProofs4 SwProofs5 SwProofs6 SwProofs7.
Import ListNotations.
Local Open Scope Z_scope.

(** A history of the landing node from construction: callbacks and command cycles in any order; the state and the setpoints published.
    [junk] are the uninitialised corners of the grid. *)
Definition lander (G : trig Rn) junk (os : list (sop Rn)) : option (node Rn * list (setp Rn)) := nrun Rn G Rceil Rround Rcast (node_init Rn Rceil junk) os.
Definition flander (os : list (sop F32)) : option (node F32 * list (setp F32)) :=
  nrun F32 f32tr f32_ceil f32_round f32_cast (node_init F32 f32_ceil ((f32_me 0 0, f32_me 0 0), (f32_me 0 0, f32_me 0 0))) os.

(* ---------------------------------------------------------------- a concrete run: 22 x 22 cells, all landable, patch of radius 1 *)
Definition f_msg (seq land : Z) : gmsg F32 :=
  @GMsg F32 seq (f32_me 22 0) (f32_me 1 0) 22 22 22 22 (repeat (f32_me 0 0) 484) (repeat land 484) [] [] (f32_me 0 0, f32_me 0 0).
Definition f_swcfg : sw_cfg F32 := @SwCfg F32 (cst F32 9 10) (cst F32 2 5) (f32_me 4 0) 1 (f32_me 1 0) (f32_me 2 0).
Definition f_traj (x z : Z) (p2 : Z) : traj F32 := @Traj F32 (fp (x, 0) (0, 0) (z, 0)) (nan3 F32) (fp (p2, 0) (0, 0) (0, 0)) (f32_me 0 0) (nanv F32) true true true.
Definition f_start : list (sop F32) := [@OReconf F32 f_swcfg; OPose (fp (0, 0) (0, 0) (4, 0)) (f32_me 0 0); OTraj (f_traj 0 4 1)].
Definition f_cyc (seq : Z) : list (sop F32) := [OGrid (f_msg seq 1); OCycle].
Definition f_to_loiter : list (sop F32) := f_start ++ f_cyc 1 ++ f_cyc 2.
(** five grids, then a message with a later number *)
Definition f_to_eval : list (sop F32) := f_to_loiter ++ f_cyc 3 ++ f_cyc 4 ++ f_cyc 5 ++ f_cyc 6 ++ f_cyc 7 ++ f_cyc 23.
Definition f_to_goto : list (sop F32) := f_to_eval ++ f_cyc 24.
Definition f_to_land : list (sop F32) := f_to_goto ++ f_cyc 25.
Definition in_state (st : slstate) (r : option (node F32 * list (setp F32))) : bool := match r with Some (n, _) => slstate_eqb (x_state (n_x n)) st | None => false end.


(* ---------------------------------------------------------------- C46 *)
(** C46. In the descent: some earlier cycle evaluated the grid and accepted a patch that is landable in every cell of the disc; after it a later cycle was
    within the landing radius of the goal. *)
Theorem C46_descent_needs_acceptance :
  forall G junk os n out, Forall input_ok os -> lander G junk os = Some (n, out) -> x_state (n_x n) = LAND ->
  exists os1 os2 os3 n1 out1 n2 out2 d, os = os1 ++ OCycle :: os2 ++ OCycle :: os3 /\
    lander G junk os1 = Some (n1, out1) /\ x_state (n_x n1) = EVALUATE_GRID /\ x_reset (n_x n1) = false /\ n_received n1 = true /\
    (let u := updateSLPState Rn (n_x n1) in let r := rows (g_land (x_grid u)) in let s := q_smooth (x_cfg u) in
     (d = (0, 0) \/ tried_offset r s d) /\ patch_landable (x_res u) s (r / 2 + fst d) (r / 2 + snd d) /\
     s <= r / 2 + fst d /\ r / 2 + fst d + s < r /\ s <= r / 2 + snd d /\ r / 2 + snd d + s < r) /\
    nrun Rn G Rceil Rround Rcast n1 (OCycle :: os2) = Some (n2, out2) /\ x_state (n_x n2) = GOTO_LAND /\
    (hdist (x_goal (n_x n2)) (x_pos (n_x n2)) < x_radius (updateSLPState Rn (n_x n2)))%R.
Proof.
  intros G junk os n out F E S. unfold lander in *.
  destruct (landing_path Rn G Rceil Rround Rcast (node_init Rn Rceil junk) os n out) as [_ L]; [discriminate|discriminate|exact E|].
  destruct (L S) as (os1 & os2 & os3 & n1 & o1 & n2 & o2 & d & -> & E1 & Rc & Rs & St & A & E2 & S2 & Wr).
  apply Forall_app in F as [F1 _]. pose proof (hist_winv G junk os1 n1 o1 F1 E1) as W.
  destruct (update_inv (n_x n1) W) as (Wu & Mu & Eq).
  exists os1, os2, os3, n1, o1, n2, o2, d. split; [reflexivity|]. split; [exact E1|]. split; [exact St|]. split; [exact Rs|]. split; [exact Rc|].
  split; [apply accepts_landable; assumption|]. split; [exact E2|]. split; [exact S2|].
  unfold withinLandingRadius in Wr. apply R_ltb_true in Wr.
  destruct (update_frame Rn (n_x n2)) as (_ & _ & _ & _ & _ & _ & _ & U8 & U9 & _). rewrite U8, U9 in Wr. exact Wr.
Qed.
Print Assumptions C46_descent_needs_acceptance.
(** The same order of states for binary32: no descent without an evaluation cycle whose patch test succeeded, and then a cycle within the radius. *)
Theorem C46_path_binary32 :
  forall G os n out, nrun F32 G f32_ceil f32_round f32_cast (node_init F32 f32_ceil ((f32_me 0 0, f32_me 0 0), (f32_me 0 0, f32_me 0 0))) os = Some (n, out) -> x_state (n_x n) = LAND ->
  exists os1 os2 os3 n1 o1 n2 o2 d, os = os1 ++ OCycle :: os2 ++ OCycle :: os3 /\
    nrun F32 G f32_ceil f32_round f32_cast (node_init F32 f32_ceil ((f32_me 0 0, f32_me 0 0), (f32_me 0 0, f32_me 0 0))) os1 = Some (n1, o1) /\ x_state (n_x n1) = EVALUATE_GRID /\
    (let u := updateSLPState F32 (n_x n1) in
     (d = (0, 0) \/ In d (candidates (rows (g_land (x_grid u))) (q_smooth (x_cfg u)))) /\
     evaluatePatch (x_res u) (x_mask u) (rows (g_land (x_grid u)) / 2 + fst d - q_smooth (x_cfg u)) (cols (g_land (x_grid u)) / 2 + snd d - q_smooth (x_cfg u)) = Some true) /\
    nrun F32 G f32_ceil f32_round f32_cast n1 (OCycle :: os2) = Some (n2, o2) /\ x_state (n_x n2) = GOTO_LAND /\ withinLandingRadius F32 (updateSLPState F32 (n_x n2)) = true.
Proof.
  intros G os n out E S. set (n0 := node_init F32 f32_ceil _) in E |- *. assert (S0 : x_state (n_x n0) = GOTO) by reflexivity.
  destruct (landing_path F32 G f32_ceil f32_round f32_cast n0 os n out) as [_ L]; [rewrite S0; discriminate|rewrite S0; discriminate|exact E|].
  destruct (L S) as (os1 & os2 & os3 & n1 & o1 & n2 & o2 & d & -> & E1 & Rc & Rs & St & A & E2 & S2 & Wr).
  exists os1, os2, os3, n1, o1, n2, o2, d. auto 10.
Qed.
Print Assumptions C46_path_binary32.
(** The only way out of the descent is a cycle that handles a reset; that cycle publishes nothing and goes back to the goal. *)
Theorem C46_exit_only_by_reset :
  forall (N : num) G ceilc rnd cast (n : node N) o n' out, nstep N G ceilc rnd cast n o = Some (n', out) -> x_state (n_x n) = LAND ->
  x_state (n_x n') = LAND \/ (o = OCycle /\ x_reset (n_x n) = true /\ x_state (n_x n') = GOTO /\ out = []).
Proof. intros. eapply land_stays; eauto. Qed.
Print Assumptions C46_exit_only_by_reset.
Example C46_example : in_state EVALUATE_GRID (flander f_to_eval) = true /\ in_state GOTO_LAND (flander f_to_goto) = true /\ in_state LAND (flander f_to_land) = true /\
  in_state GOTO (flander (f_to_land ++ OMode M_OTHER true :: f_cyc 26)) = true.
Proof. split; [|split; [|split]]; vm_compute; reflexivity. Qed.

(* ---------------------------------------------------------------- C47 *)
Theorem C47_patch_test :
  forall (res : mat Z) s ci cj, 0 <= s -> bit_matrix res -> s <= ci -> s <= cj -> ci + s < rows res -> cj + s < cols res ->
  exists b, evaluatePatch res (initMask s) (ci - s) (cj - s) = Some b /\ (b = true <-> patch_landable res s ci cj).
Proof.
  intros res s ci cj Hs B H1 H2 H3 H4. destruct (evaluatePatch_spec res s (ci - s) (cj - s)) as (b & E & P); try assumption; try lia.
  rewrite !Z.sub_add in P. eauto.
Qed.
Print Assumptions C47_patch_test.
Theorem C47_filter_range :
  forall G junk os n out, Forall input_ok os -> lander G junk os = Some (n, out) -> forall i j, (0 <= cell (x_hyst (n_x n)) i j <= 1)%R.
Proof. intros G junk os n out F E. exact (wi_hyst _ (hist_winv G junk os n out F E)). Qed.
Print Assumptions C47_filter_range.
(** An accepted patch: in each of its cells the smoothed landable flags of the grids seen in the loiter phase [suf] of this visit exceed the threshold.
    [suf] is the whole loiter phase unless landing was not requested meanwhile or the grid changed its size. *)
Theorem C47_accepted_on_evidence :
  forall G junk os n out d, Forall input_ok os -> lander G junk os = Some (n, out) -> x_state (n_x n) = EVALUATE_GRID ->
  let u := updateSLPState Rn (n_x n) in let r := rows (g_land (x_grid u)) in let s := q_smooth (x_cfg u) in
  s <= r / 2 + fst d -> r / 2 + fst d + s < r -> s <= r / 2 + snd d -> r / 2 + snd d + s < r ->
  patch_landable (x_res u) s (r / 2 + fst d) (r / 2 + snd d) ->
  exists pre v l1 suf w, nview Rn G Rceil Rround Rcast (node_init Rn Rceil junk) os = pre ++ [v] ++ l1 ++ suf ++ [w] /\
    x_state v = SALTITUDE_CHANGE /\ Forall (loitering (x_seq v)) (l1 ++ suf) /\ restart l1 (suf ++ [w]) /\ x_state w = SLOITER /\ 20 < Z.abs (x_seq w - x_seq v) /\
    suf <> [] /\ Forall (fun y => rows (g_land (x_grid y)) = r) suf /\
    forall di dj, - s <= di <= s -> - s <= dj <= s -> disc s di dj ->
      (q_thr (x_cfg w) < smoothed (map (evidence (r / 2 + fst d + di) (r / 2 + snd d + dj)) suf))%R.
Proof.
  intros G junk os n out d F E S u r s B1 B2 B3 B4 P. pose proof (hist_J G junk os n out F E) as H. unfold J in H. rewrite S in H.
  pose proof (hist_winv G junk os n out F E) as W. destruct (update_inv (n_x n) W) as (Wu & Mu & Eq). fold u in Wu, Mu, Eq. fold r in Eq.
  destruct H as (pre & v & l1 & suf & w & V & H1 & H2 & H3 & H4 & H5 & H6 & H7 & H8).
  assert (Hs : 0 <= s) by (exact (wi_smooth _ Wu)).
  assert (D0 : disc s 0 0). { unfold disc. change (IZR (0 * 0 + 0 * 0)) with 0%R. rewrite sqrt_0. apply IZR_le in Hs. lra. }
  assert (P0 := P 0 0 ltac:(lia) ltac:(lia) D0).
  assert (Rr : rows (x_res u) = r) by (rewrite (wi_rr _ Wu); exact Eq).
  assert (Same : x_res u = x_res (n_x n)).
  { destruct (update_hyst (n_x n)) as [(_ & _ & _ & Q)|(_ & _ & [Q|Q])]; [exact Q|exact Q|]. fold u in Q. rewrite Q in P0. discriminate. }
  assert (Rx : rows (x_res (n_x n)) = r) by (rewrite <- Same; exact Rr). rewrite Rx in H7, H8.
  exists pre, v, l1, suf, w. repeat (split; [assumption|]).
  assert (Ev : forall di dj, - s <= di <= s -> - s <= dj <= s -> disc s di dj ->
      (q_thr (x_cfg w) < smoothed (map (evidence (r / 2 + fst d + di) (r / 2 + snd d + dj)) suf))%R).
  { intros di dj Hi Hj D. apply H8; [lia|lia|]. rewrite <- Same. apply P; assumption. }
  split; [|split; [exact H7|exact Ev]].
  intros ->. specialize (Ev 0 0 ltac:(lia) ltac:(lia) D0). cbn in Ev.
  assert (T : (0 <= q_thr (x_cfg w))%R).
  { assert (I : In w (nview Rn G Rceil Rround Rcast (node_init Rn Rceil junk) os)) by (rewrite V; apply in_or_app; right; cbn; right; apply in_or_app; right; left; reflexivity).
    exact (wi_thr _ (view_winv G junk os n out F E w I)). }
  change (q_thr (x_cfg w) < 0)%R in Ev. lra.
Qed.
Print Assumptions C47_accepted_on_evidence.
(** one cell of the concrete run: after five landable grids the filter has passed 0.4, after four it has not *)
Example C47_example :
  obind (flander (f_to_loiter ++ f_cyc 3 ++ f_cyc 4 ++ f_cyc 5 ++ f_cyc 6)) (fun r => Some (ltb F32 (cst F32 2 5) (cell (x_hyst (n_x (fst r))) 11 11))) = Some false /\
  obind (flander (f_to_loiter ++ f_cyc 3 ++ f_cyc 4 ++ f_cyc 5 ++ f_cyc 6 ++ f_cyc 7)) (fun r => Some (ltb F32 (cst F32 2 5) (cell (x_hyst (n_x (fst r))) 11 11))) = Some true /\
  evaluatePatch (Mat 3 3 (fun _ _ => 1)) (initMask 1) 0 0 = Some true /\
  evaluatePatch (Mat 3 3 (fun i j => if (i =? 0) && (j =? 1) then 0 else 1)) (initMask 1) 0 0 = Some false.
Proof. split; [|split; [|split]]; vm_compute; reflexivity. Qed.

(* ---------------------------------------------------------------- C48 *)
(** C48. As long as landing stays requested, the j-th rejected site of the visit is left for the j-th position of the spiral around the place where the vehicle
    loitered when the first site was rejected. [n] is a state in which no search has begun: initially, and after every cycle without landing request. *)
Theorem C48_spiral :
  forall G (n : node Rn) os, x_n (n_x n) = -1 -> x_factor (n_x n) = 1%R -> x_explore (n_x n) = false ->
  Forall (fun u => x_island u = true) (nview Rn G Rceil Rround Rcast n os) ->
  exists a, (forall u x, nth_error (moves Rn G Rceil Rround Rcast n os) 0 = Some (u, x) -> a = x_loiter u) /\
    forall j u x, nth_error (moves Rn G Rceil Rround Rcast n os) j = Some (u, x) -> x_goal x = spiral_goal a u j.
Proof.
  intros G n os H1 H2 H3 F. destruct (search_moves G os n 0%nat (x_anchor (n_x n))) as (a & _ & A2 & A3); [repeat split; assumption|exact F|].
  exists a. split; [apply A2; reflexivity|exact A3].
Qed.
Print Assumptions C48_spiral.
Theorem C48_starts :
  forall G junk, (let x := n_x (node_init Rn Rceil junk) in x_n x = -1 /\ x_factor x = 1%R /\ x_explore x = false) /\
  forall (n : node Rn) n' out, nstep Rn G Rceil Rround Rcast n OCycle = Some (n', out) -> n_received n = true -> x_island (n_x n) = false -> x_reset (n_x n) = true ->
    x_n (n_x n') = -1 /\ x_factor (n_x n') = 1%R /\ x_explore (n_x n') = false.
Proof.
  intros G junk. split; [repeat split|]. intros n n' out E Rc I Rs. destruct (cycle_inv _ _ _ _ _ _ _ _ E Rc) as (C & _).
  destruct (calc_cases _ _ _ _ _ _ _ C) as [(_ & X & _)|(Q & _)]; [|congruence]. rewrite X.
  destruct (update_frame Rn (n_x n)) as (_ & _ & _ & _ & _ & _ & _ & _ & _ & _ & _ & _ & _ & _ & _ & _ & _ & _ & U). destruct (U I) as (_ & _ & U1 & U2 & U3 & _).
  cbn. auto.
Qed.
Print Assumptions C48_starts.
(** No offset of the spiral occurs twice, and each is at least as far out as all offsets of earlier rounds. *)
Theorem C48_no_repetition :
  forall k k', (spiral_round k * fst (spiral_dir k), spiral_round k * snd (spiral_dir k)) = (spiral_round k' * fst (spiral_dir k'), spiral_round k' * snd (spiral_dir k')) -> k = k'.
Proof. intros k k' H. apply spiral_distinct; congruence. Qed.
Print Assumptions C48_no_repetition.
(** in the concrete world without a landable cell the search leaves the first site *)
Definition f_cyc0 (seq : Z) : list (sop F32) := [OGrid (f_msg seq 0); OCycle].
Example C48_example :
  let r := flander (f_start ++ f_cyc0 1 ++ f_cyc0 2 ++ f_cyc0 3 ++ f_cyc0 30 ++ f_cyc0 31 ++ f_cyc0 32) in
  obind r (fun r => Some (map f32_cast [vx (x_goal (n_x (fst r))); vy (x_goal (n_x (fst r)))])) = Some [4; 0] /\ in_state GOTO r = true /\
  map (fun k => (spiral_round k * fst (spiral_dir k), spiral_round k * snd (spiral_dir k))) [0; 1; 7; 8; 9]%nat = [(1, 0); (1, 1); (1, -1); (2, 0); (2, 2)].
Proof. split; [|split]; vm_compute; reflexivity. Qed.

(* ---------------------------------------------------------------- C49 *)
(** C49, ideal arithmetic: the height is one of the samples and has the rank the name says. *)
Theorem C49_percentile :
  forall (g : grid Rn) s, well_sized Rn g -> 1 <= s -> 2 * s + 1 <= g_rc g ->
  exists v, landingAreaHeightPercentile Rn Rround g s (ofZ Rn 80) = Some v /\ In v (area_heights g s) /\
    (80 / 100 * IZR ((2 * s + 1) * (2 * s + 1)) + 1 / 2 <= IZR (below v (area_heights g s)))%R /\
    (20 / 100 * IZR ((2 * s + 1) * (2 * s + 1)) - 1 / 2 <= IZR (above v (area_heights g s)))%R.
Proof. exact percentile_spec. Qed.
Print Assumptions C49_percentile.
(** binary32, for every configurable window but the smallest *)
Theorem C49_position_binary32 :
  forall (g : grid F32) s, well_sized F32 g -> 1 <= s <= 100 -> 2 * s + 1 <= g_rc g ->
  exists v, landingAreaHeightPercentile F32 f32_round g s (ofZ F32 80) = Some v /\ In v (area_heights g s).
Proof.
  intros g s W Hs Hr. unfold landingAreaHeightPercentile. rewrite (samples_spec F32 g s W) by lia. cbn [obind].
  set (k := f32_round _).
  assert (K : 0 <= k < (s * 2 + 1) * (s * 2 + 1)).
  { assert (A : forallb (fun s => let k := f32_round (mul F32 (div F32 (ofZ F32 80) (ofZ F32 100)) (ofZ F32 ((s * 2 + 1) * (s * 2 + 1)))) in
      (0 <=? k) && (k <? (s * 2 + 1) * (s * 2 + 1))) (zfromto 1 100) = true) by (vm_compute; reflexivity).
    rewrite forallb_forall in A. specialize (A s ltac:(apply in_zfromto; lia)). cbv zeta in A. apply andb_true_iff in A as [A1 A2].
    apply Z.leb_le in A1. apply Z.ltb_lt in A2. split; assumption. }
  clearbody k. pose proof (heights_length F32 g s ltac:(lia)) as L. pose proof (isort_perm F32 (area_heights g s)) as P. pose proof (Permutation_length P) as PL.
  unfold vget. destruct (Z.ltb_spec k 0); [lia|]. destruct (nth_error (isort F32 (area_heights g s)) (Z.to_nat k)) as [v|] eqn:E.
  2: { apply nth_error_None in E. lia. }
  exists v. split; [reflexivity|]. apply (Permutation_in _ P). apply nth_error_In in E. exact E.
Qed.
Print Assumptions C49_position_binary32.
(** The configuration allows a window of one cell (smoothing 0). Then position 1 of a list of one sample is read, for every grid. *)
Theorem C49_smallest_window_refuted :
  forall (g : grid F32), well_sized F32 g -> 1 <= g_rc g -> landingAreaHeightPercentile F32 f32_round g 0 (ofZ F32 80) = None.
Proof.
  intros g W H. unfold landingAreaHeightPercentile. rewrite (samples_spec F32 g 0 W) by lia. cbn [obind].
  assert (K : f32_round (mul F32 (div F32 (ofZ F32 80) (ofZ F32 100)) (ofZ F32 ((0 * 2 + 1) * (0 * 2 + 1)))) = 1) by (vm_compute; reflexivity). rewrite K.
  pose proof (heights_length F32 g 0 ltac:(lia)) as L. pose proof (Permutation_length (isort_perm F32 (area_heights g 0))) as PL.
  unfold vget. change (1 <? 0) with false. cbn iota. apply nth_error_None. change (Z.to_nat 1) with 1%nat. lia.
Qed.
Print Assumptions C49_smallest_window_refuted.
Example C49_example : well_sized F32 f_flat /\ g_rc f_flat = 3 /\
  obind (landingAreaHeightPercentile F32 f32_round f_flat 1 (ofZ F32 80)) (fun v => Some (f32_cast v)) = Some 1.
Proof. split; [repeat split; reflexivity|]. split; [reflexivity|]. vm_compute. reflexivity. Qed.

(* ---------------------------------------------------------------- C50 *)
Definition has_target {N : num} (p v : N) : bool := finiteb N p || finiteb N v.
Theorem C50_valid_partial :
  forall s : setp F32, pointValid F32 s = true <->
  (finiteb F32 (vx (sp_pos s)) = true /\ finiteb F32 (vy (sp_pos s)) = true) \/ (finiteb F32 (vx (sp_vel s)) = true /\ finiteb F32 (vy (sp_vel s)) = true).
Proof.
  intros s. unfold pointValid. destruct (finiteb F32 (vx (sp_pos s))), (finiteb F32 (vy (sp_pos s))), (finiteb F32 (vx (sp_vel s))), (finiteb F32 (vy (sp_vel s)));
  destruct (negb (eqb F32 (vz (sp_pos s)) (ofZ F32 0)) || finiteb F32 (vz (sp_vel s))); cbn [andb orb];
  (split; [intros H; try (vm_compute in H; discriminate H); auto|intros H; try (vm_compute; reflexivity); destruct H as [[? ?]|[? ?]]; discriminate]).
Qed.
Print Assumptions C50_valid_partial.
(** The vertical axis does not count, because of a misplaced parenthesis: a published setpoint without any vertical target is marked valid. *)
Theorem C50_vertical_refuted :
  let t := @Traj F32 (V3 (f32_me 9 0) (f32_me 0 0) (nanv F32)) (nan3 F32) (fp (1, 0) (0, 0) (0, 0)) (f32_me 0 0) (nanv F32) true true false in
  obind (flander ([@OReconf F32 f_swcfg; OPose (fp (0, 0) (0, 0) (4, 0)) (f32_me 0 0); OTraj t] ++ f_cyc 1))
    (fun r => Some (map (fun s => (pointValid F32 s, has_target (vz (sp_pos s)) (vz (sp_vel s)))) (snd r))) = Some [(true, false)].
Proof. vm_compute. reflexivity. Qed.
Print Assumptions C50_vertical_refuted.

(* ---------------------------------------------------------------- C75 *)
(** C75. If neither a trajectory nor a mode message interferes between the acceptance and the start of the descent, the vehicle is, when the descent is decided,
    less than half a metre from the accepted site. *)
Theorem C75_descends_at_site_partial :
  forall G (n1 n1' n2 n3 : node Rn) o1 o2 o3 os, n_received n1 = true -> x_state (n_x n1) = EVALUATE_GRID -> x_island (n_x n1) = true ->
  nstep Rn G Rceil Rround Rcast n1 OCycle = Some (n1', o1) -> x_state (n_x n1') = GOTO_LAND ->
  Forall (quiet Rn) os -> nrun Rn G Rceil Rround Rcast n1' os = Some (n2, o2) -> x_state (n_x n2) = GOTO_LAND ->
  n_received n2 = true -> nstep Rn G Rceil Rround Rcast n2 OCycle = Some (n3, o3) -> x_state (n_x n3) = LAND ->
  exists d, let u := updateSLPState Rn (n_x n1) in accepts Rn u d /\
    (sqrt ((fst (site u d) - vx (x_pos (n_x n2))) * (fst (site u d) - vx (x_pos (n_x n2))) + (snd (site u d) - vy (x_pos (n_x n2))) * (snd (site u d) - vy (x_pos (n_x n2)))) < 1 / 2)%R.
Proof.
  intros G n1 n1' n2 n3 o1 o2 o3 os Rc St Is E1 S1 Q E2 S2 Rc2 E3 S3.
  destruct (accept_homing Rn G Rceil Rround Rcast n1 n1' o1 Rc St Is E1 S1) as (d & A & H). exists d. split; [exact A|].
  set (u := updateSLPState Rn (n_x n1)) in *. pose proof (homing_run Rn G Rceil Rround Rcast _ os Q _ _ _ H E2) as (H1 & H2 & H3 & H4 & _).
  destruct (cycle_inv _ _ _ _ _ _ _ _ E3 Rc2) as (C & _). pose proof (calc_edge _ _ _ _ _ _ _ C) as Ed. unfold edge in Ed. rewrite H1, S2 in Ed.
  destruct Ed as [[Ed _]|[_ W]]; [congruence|]. unfold withinLandingRadius in W. apply R_ltb_true in W.
  destruct (update_frame Rn (n_x n2)) as (_ & _ & _ & _ & _ & _ & _ & U8 & U9 & _ & _ & _ & _ & _ & _ & _ & _ & U18 & _). destruct (U18 H2) as (_ & _ & _ & _ & _ & U).
  rewrite U8, U9, U, H3, H4 in W. unfold site. destruct ((fst d =? 0) && (snd d =? 0)); exact W.
Qed.
Print Assumptions C75_descends_at_site_partial.
(** Once descending, every setpoint is the same point, downwards at 0.7 m/s without horizontal motion, until a mode message arrives. Any number system. *)
Theorem C75_vertical_descent :
  forall (N : num) G ceilc rnd cast os, Forall (fun o => is_mode o = false) os -> forall (n n' : node N) out,
  x_state (n_x n) = LAND -> x_reset (n_x n) = false -> x_changed (n_x n) = false -> nrun N G ceilc rnd cast n os = Some (n', out) ->
  Forall (fun s => vx (sp_pos s) = vx (x_loiter (n_x n)) /\ vy (sp_pos s) = vy (x_loiter (n_x n)) /\ vz (sp_pos s) = nanv N /\
                   sp_vel s = V3 (nanv N) (nanv N) (opp N (cst N 7 10)) /\ sp_yaw s = x_loiter_yaw (n_x n) /\ sp_yawrate s = nanv N) out /\
  x_state (n_x n') = LAND.
Proof. intros N G ceilc rnd cast os F n n' out S1 S2 S3 E. exact (land_run N G ceilc rnd cast os F n n' out S1 S2 S3 E). Qed.
Print Assumptions C75_vertical_descent.
(** ... and that point is where the vehicle was at the first descent cycle. *)
Theorem C75_descent_starts_at_vehicle :
  forall (N : num) G ceilc rnd cast (n n' : node N) out, n_received n = true -> x_state (n_x n) = LAND -> x_reset (n_x n) = false -> x_changed (n_x n) = true ->
  nstep N G ceilc rnd cast n OCycle = Some (n', out) ->
  vx (x_loiter (n_x n')) = vx (x_pos (n_x n)) /\ vy (x_loiter (n_x n')) = vy (x_pos (n_x n)) /\ x_loiter_yaw (n_x n') = x_yaw (n_x n) /\
  x_changed (n_x n') = false /\ x_state (n_x n') = LAND /\ x_reset (n_x n') = false.
Proof. intros N G ceilc rnd cast n n' out Rc S Rs Ch E. destruct (land_cycle N G ceilc rnd cast n n' out Rc S Rs E) as (_ & H). rewrite Ch in H. exact H. Qed.
Print Assumptions C75_descent_starts_at_vehicle.
(** A trajectory message accepted after the evaluation moves the goal: the vehicle descends 1000 m from the evaluated grid, with no further evaluation. *)
Definition f_stray : list (sop F32) := f_to_goto ++ [OTraj (f_traj 1000 4 2); OPose (fp (1000, 0) (0, 0) (4, 0)) (f32_me 0 0)] ++ f_cyc 25 ++ f_cyc 26.
Theorem C75_stray_refuted :
  obind (flander f_stray) (fun r => Some (f32_cast (vx (x_loiter (n_x (fst r)))))) = Some 1000 /\ in_state LAND (flander f_stray) = true /\
  in_state GOTO_LAND (flander f_to_goto) = true /\ obind (flander f_to_goto) (fun r => Some (map f32_cast [vx (x_pos (n_x (fst r))); vx (x_goal (n_x (fst r)))])) = Some [0; 0].
Proof. split; [|split; [|split]]; vm_compute; reflexivity. Qed.
Print Assumptions C75_stray_refuted.
Example C75_example : in_state LAND (flander (f_to_land ++ f_cyc 26 ++ f_cyc 27)) = true /\
  obind (flander (f_to_land ++ f_cyc 26 ++ f_cyc 27)) (fun r => Some (x_changed (n_x (fst r)))) = Some false /\
  obind (flander f_to_eval) (fun r => Some (x_island (n_x (fst r)))) = Some true.
Proof. split; [|split]; vm_compute; reflexivity. Qed.

(* ---------------------------------------------------------------- C76 *)
(** C76. Every commanded vertical speed is none, the landing speed up or down, or the vertical speed of a trajectory message that was received. *)
Theorem C76_vertical_speeds_partial :
  forall G os n out, nrun F32 G f32_ceil f32_round f32_cast (node_init F32 f32_ceil ((f32_me 0 0, f32_me 0 0), (f32_me 0 0, f32_me 0 0))) os = Some (n, out) ->
  forall s, In s out -> let v := vz (sp_vel s) in
  v = nanv F32 \/ v = mul F32 (ofZ F32 1) (cst F32 7 10) \/ v = mul F32 (opp F32 (ofZ F32 1)) (cst F32 7 10) \/ v = opp F32 (cst F32 7 10) \/
  exists m, In (OTraj m) os /\ v = vz (t_v1 m).
Proof.
  intros G os n out E s I v. pose proof (hist_vspeed F32 G f32_ceil f32_round f32_cast _ os n out E s I) as H. fold v in H.
  destruct H as [H|[H|[H|[H|(m & Im & H)]]]]; [left; exact H|right; left; exact H|right; right; left; exact H|right; right; right; left; exact H|].
  do 4 right. exists m. split; [|exact H]. clear -Im. induction os as [|o os IH]; [destruct Im|]. destruct o; cbn in Im; try (right; apply IH; exact Im).
  destruct Im as [<-|Im]; [left; reflexivity|right; apply IH; exact Im].
Qed.
Print Assumptions C76_vertical_speeds_partial.
Example C76_speeds : eqb F32 (mul F32 (ofZ F32 1) (cst F32 7 10)) (cst F32 7 10) = true /\ eqb F32 (mul F32 (opp F32 (ofZ F32 1)) (cst F32 7 10)) (opp F32 (cst F32 7 10)) = true.
Proof. split; vm_compute; reflexivity. Qed.
(** Aborting does not end the vertical command: the mode leaves landing while the altitude is being adjusted, the mission mode comes back, the autopilot repeats
    the same trajectory - and in the ordinary goal-following state the node goes on publishing "descend at 0.7 m/s, no altitude target", although the
    trajectory it forwards asks for altitude 4. *)
Definition f_abort : list (sop F32) :=
  [@OReconf F32 f_swcfg; OPose (fp (0, 0) (0, 0) (9, 0)) (f32_me 0 0); OTraj (f_traj 0 4 1)] ++ f_cyc 1 ++ f_cyc 2 ++
  [OMode M_OTHER true] ++ f_cyc 3 ++ [OMode M_MISSION true; OTraj (f_traj 0 4 1)].
Theorem C76_abort_refuted :
  in_state GOTO (flander f_abort) = true /\
  obind (flander f_abort) (fun r => Some (x_island (n_x (fst r)))) = Some false /\
  in_state GOTO (flander (f_abort ++ f_cyc 4)) = true /\
  obind (flander (f_abort ++ f_cyc 4)) (fun r => Some (match rev (snd r) with s :: _ => (isnanb F32 (vz (sp_pos s)), eqb F32 (vz (sp_vel s)) (opp F32 (cst F32 7 10))) | [] => (false, false) end))
    = Some (true, true).
Proof. split; [|split; [|split]]; vm_compute; reflexivity. Qed.
Print Assumptions C76_abort_refuted.

(* ---------------------------------------------------------------- C80 *)
(** C80. Kernels of 1..20 cells and planner grids of at least 41 x 41 cells: no history makes the node read or write outside a matrix. *)
Theorem C80_no_overrun_partial : forall G junk os, Forall safe_input os -> lander G junk os <> None.
Proof. intros G junk os F. destruct (safe_run G os F _ (init_tinv junk)) as (r & E & _). unfold lander. rewrite E. discriminate. Qed.
Print Assumptions C80_no_overrun_partial.
(** With the default parameters of both nodes (10 m grid of 1 m cells, kernel of 6 cells) the first cycle does. *)
Definition f_msg10 : gmsg F32 := @GMsg F32 0 (f32_me 10 0) (f32_me 1 0) 10 10 10 10 (repeat (f32_me 0 0) 100) (repeat 0 100) [] [] (f32_me 0 0, f32_me 0 0).
Theorem C80_default_refuted : flander [OGrid f_msg10; OCycle] = None /\ flander [OGrid f_msg10] <> None.
Proof. split; [apply undef_none; vm_compute; reflexivity|]. intros H. assert (Q : undef (flander [OGrid f_msg10]) = false) by (vm_compute; reflexivity). rewrite H in Q. discriminate. Qed.
Print Assumptions C80_default_refuted.
(** a kernel of 7 on a grid of 15 cells is large enough for the evaluation but not for the visualisation, whose offset is the constant 20 *)
Theorem C80_visualisation_refuted :
  let m := @GMsg F32 0 (f32_me 15 0) (f32_me 1 0) 15 15 15 15 (repeat (f32_me 0 0) 225) (repeat 0 225) [] [] (f32_me 0 0, f32_me 0 0) in
  obind (flander [OGrid m]) (fun r => calculateWaypoint F32 f32tr f32_round f32_cast (n_x (fst r))) <> None /\ flander [OGrid m; OCycle] = None.
Proof.
  cbv zeta. split; [|apply undef_none; vm_compute; reflexivity]. intros H.
  match type of H with ?o = None => assert (Q : undef o = false) by (vm_compute; reflexivity); rewrite H in Q; discriminate end.
Qed.
Print Assumptions C80_visualisation_refuted.
Example C80_example : exists (m : gmsg Rn), safe_input (OGrid m).
Proof.
  set (g := @Grid Rn (const_mat 41 0%R) (const_mat 41 0%R) (const_mat 41 0) (const_mat 41 1) (0%R, 0%R) (0%R, 0%R) (IZR 41) (IZR 1) 41).
  assert (W : well_sized Rn g) by (repeat split; reflexivity). destruct (serialise_spec Rn 0 g (0, 0) W) as (m & E & _). exists m. exists 0, g, (0, 0).
  split; [exact E|]. split; [|split; [cbn; lia|intros i j; right; reflexivity]]. split; [exact W|]. cbn. unfold Rceil. rn. unfold Rdiv. rewrite Rinv_1, Rmult_1_r. symmetry. apply (Zceil_IZR 41).
Qed.

(* ---------------------------------------------------------------- C81 *)
(** C81. On a grid of 40 or 41 rows the marker shows every cell of the window around the vehicle once, green exactly if the cell belongs to the disc and passed. *)
Theorem C81_colours_partial :
  forall (x : sw Rn), let s := q_smooth (x_cfg x) in let r := rows (g_land (x_grid x)) in
  winv x -> x_mask x = initMask s -> rows (x_hyst x) = r -> r / 2 = 20 -> 21 + s <= r ->
  exists l, vizCells Rn x = Some l /\ map fst l = list_prod (zfromto (20 - s) (20 + s)) (zfromto (20 - s) (20 + s)) /\
    forall i j b, In (i, j, b) l -> (b = true <-> disc s (i - 20) (j - 20) /\ cell (x_res x) i j = 1).
Proof.
  intros x s r W M Rh Ho Hr. assert (Hs : 0 <= s) by exact (wi_smooth _ W).
  assert (Hs20 : s <= 20). { assert (r <= 41) by (pose proof (Z.div_mod r 2 ltac:(lia)); pose proof (Z.mod_pos_bound r 2 ltac:(lia)); lia). lia. }
  eexists. split; [apply (viz_spec Rn x M (conj Hs Hs20) Hr Rh); [rewrite (wi_hc _ W); exact Rh|rewrite (wi_rr _ W); exact Rh|rewrite (wi_rc _ W); exact Rh]|].
  fold s r. rewrite Ho. split.
  - rewrite map_map. cbn [fst]. rewrite <- (map_id (list_prod _ _)) at 2. apply map_ext. intros [a b]; reflexivity.
  - intros i j b I. apply in_map_iff in I as ([k l] & I1 & I2). cbn [fst snd] in I1. assert (Ei : k = i) by congruence. assert (Ej : l = j) by congruence. assert (Eb : viz_green Rn x k l = b) by congruence. subst k l. clear I1.
    apply in_prod_iff in I2 as [I2 I3]. apply in_zfromto in I2, I3. rewrite <- Eb. pose proof (viz_colour x i j M Hs Ho (wi_res _ W)) as V. cbv zeta in V. fold s r in V. rewrite Ho in V. apply V; lia.
Qed.
Print Assumptions C81_colours_partial.
(** a grid of 41 cells, a disc of radius 1, all cells passed: the hypotheses hold *)
Definition ex_viz (j : (R * R) * (R * R)) : sw Rn :=
  let x := sw_init Rn Rceil j in
  @Sw Rn GOTO (@SwCfg Rn (9 / 10)%R (2 / 5)%R 4%R 1 1%R 2%R) (x_yaw_sp x) (x_yawrate_sp x) (x_loiter_yaw x) (x_yaw x) (x_radius x) (x_factor x) (x_alt x) false false false true false false false 0 0 (-1)
     (x_pos x) (x_goal x) (x_vel x) (x_loiter x) (x_anchor x) (Mat 41 41 (fun _ _ => 1%R)) (Mat 41 41 (fun _ _ => 1)) (initMask 1)
     (@Grid Rn (const_mat 41 0%R) (const_mat 41 0%R) (const_mat 41 0) (const_mat 41 1) (0%R, 0%R) (0%R, 0%R) 41%R 1%R 41).
Example C81_example : forall j, let x := ex_viz j in let s := q_smooth (x_cfg x) in let r := rows (g_land (x_grid x)) in
  winv x /\ x_mask x = initMask s /\ rows (x_hyst x) = r /\ r / 2 = 20 /\ 21 + s <= r /\ disc s (20 - 20) (21 - 20) /\ cell (x_res x) 20 21 = 1.
Proof.
  intros j x s r. split; [|repeat split; try reflexivity].
  - constructor; cbn.
    + eexists. reflexivity.
    + lia.
    + lra.
    + lra.
    + intros a b. right. reflexivity.
    + intros a b. right. reflexivity.
    + intros a b. cbn. lra.
    + reflexivity.
    + reflexivity.
    + reflexivity.
    + repeat split; reflexivity.
    + lia.
  - cbn. lia.
  - unfold disc, s, x. cbn [ex_viz x_cfg q_smooth]. change ((20 - 20) * (20 - 20) + (21 - 20) * (21 - 20)) with 1. rewrite sqrt_1. lra.
Qed.
(** The offset of the disc is the constant 20 instead of half the number of rows: on a grid of 44 rows the landable disc is drawn red where it is shifted. *)
Definition f_viz : sw F32 :=
  let x := sw_init F32 f32_ceil ((f32_me 0 0, f32_me 0 0), (f32_me 0 0, f32_me 0 0)) in
  @Sw F32 GOTO f_swcfg (x_yaw_sp x) (x_yawrate_sp x) (x_loiter_yaw x) (x_yaw x) (x_radius x) (x_factor x) (x_alt x) false false false true false false false 0 0 (-1)
     (x_pos x) (x_goal x) (x_vel x) (x_loiter x) (x_anchor x) (Mat 44 44 (fun _ _ => f32_me 1 0)) (Mat 44 44 (fun _ _ => 1)) (initMask 1)
     (g_new F32 f32_ceil ((f32_me 0 0, f32_me 0 0), (f32_me 0 0, f32_me 0 0)) (f32_me 44 0) (f32_me 1 0)).
Theorem C81_offset_refuted :
  vizCells F32 f_viz = Some [(21, 21, true); (21, 22, false); (21, 23, false); (22, 21, false); (22, 22, false); (22, 23, false); (23, 21, false); (23, 22, false); (23, 23, false)] /\
  evaluatePatch (x_res f_viz) (x_mask f_viz) 21 21 = Some true.
Proof. split; vm_compute; reflexivity. Qed.
Print Assumptions C81_offset_refuted.

(* ---------------------------------------------------------------- C84 *)
(** C84. If no grid is lost between cycles, landing stays requested and the grid keeps its size, every accepted patch rests on at least 20 grids. *)
Theorem C84_twenty_grids_partial :
  forall G junk os n out d, Forall input_ok os -> lander G junk os = Some (n, out) -> x_state (n_x n) = EVALUATE_GRID ->
  let vs := nview Rn G Rceil Rround Rcast (node_init Rn Rceil junk) os in
  let u := updateSLPState Rn (n_x n) in let r := rows (g_land (x_grid u)) in let s := q_smooth (x_cfg u) in
  gapless (map x_seq vs) -> Forall (fun y => x_island y = true /\ rows (g_land (x_grid y)) = r) vs ->
  s <= r / 2 + fst d -> r / 2 + fst d + s < r -> s <= r / 2 + snd d -> r / 2 + snd d + s < r ->
  patch_landable (x_res u) s (r / 2 + fst d) (r / 2 + snd d) ->
  exists pre suf w, vs = pre ++ suf ++ [w] /\ 20 <= Z.of_nat (length suf) /\ Forall (fun y => x_state y = SLOITER) suf /\
    forall di dj, - s <= di <= s -> - s <= dj <= s -> disc s di dj ->
      (q_thr (x_cfg w) < smoothed (map (evidence (r / 2 + fst d + di) (r / 2 + snd d + dj)) suf))%R.
Proof.
  intros G junk os n out d F E S vs u r s Hg Hi B1 B2 B3 B4 P.
  destruct (C47_accepted_on_evidence G junk os n out d F E S B1 B2 B3 B4 P) as (pre & v & l1 & suf & w & V & H1 & H2 & H3 & H4 & H5 & H6 & H7 & H8).
  fold vs in V.
  assert (L : l1 = []).
  { unfold restart in H3. destruct (rev l1) as [|a l'] eqn:Er; [apply (f_equal (@rev _)) in Er; rewrite rev_involutive in Er; exact Er|]. exfalso.
    destruct suf as [|b suf]; [apply H6; reflexivity|]. cbn [app] in H3. rewrite Forall_forall in Hi.
    assert (Ib : In b vs) by (rewrite V; apply in_or_app; right; cbn; right; apply in_or_app; right; left; reflexivity).
    assert (Ia : In a vs) by (rewrite V; apply in_or_app; right; cbn; right; apply in_or_app; left; apply in_rev; rewrite Er; left; reflexivity).
    destruct (Hi b Ib) as [Q1 Q2]. destruct (Hi a Ia) as [_ Q3]. destruct H3 as [H3|H3]; [congruence|]. apply H3. congruence. }
  subst l1. cbn [app] in V, H2. exists (pre ++ [v]), suf, w. split; [rewrite V, <- app_assoc; reflexivity|].
  split; [|split; [eapply Forall_impl; [|exact H2]; intros y [Hy _]; exact Hy|exact H8]].
  rewrite V in Hg. rewrite map_app in Hg. apply gapless_tail in Hg. cbn [map] in Hg. rewrite map_app in Hg. cbn [map] in Hg. apply gapless_span in Hg. rewrite map_length in Hg. lia.
Qed.
Print Assumptions C84_twenty_grids_partial.
(** The wait is measured on the message number, not on the grids seen: with lost messages five grids suffice. *)
Theorem C84_few_grids_refuted :
  length (filter (fun u => slstate_eqb (x_state u) SLOITER) (nview F32 f32tr f32_ceil f32_round f32_cast (node_init F32 f32_ceil ((f32_me 0 0, f32_me 0 0), (f32_me 0 0, f32_me 0 0))) f_to_land)) = 6%nat /\
  in_state LAND (flander f_to_land) = true.
Proof. split; vm_compute; reflexivity. Qed.
Print Assumptions C84_few_grids_refuted.
