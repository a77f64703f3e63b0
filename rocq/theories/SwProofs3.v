(** Invariants of the landing node (ideal arithmetic): masks, filter values, search counters. *)
From Coq Require Import ZArith Reals List Bool Lia Lra Permutation.
From Flocq Require Import Core BinarySingleNaN.
From Verif Require Import Num Mat CommonModel PfModel PfSpec PfProofs StarModel LpModel UsmModel SlModel SlSpec SlProofs SlProofs2 SlProofs3 SwModel SwSpec SwProofs SwProofs2.
Import ListNotations.
Local Open Scope Z_scope.

Lemma loop2_nodup r c : NoDup (loop2 r c).
Proof.
  unfold loop2. generalize (NoDup_zrange r). induction (zrange r) as [|a l IH]; intros H; cbn [list_prod]; [constructor|].
  inversion H as [|? ? H1 H2]; subst. apply NoDup_app.
  - apply FinFun.Injective_map_NoDup; [intros x y E; congruence|apply NoDup_zrange].
  - apply IH; exact H2.
  - intros [x y] I1 I2. apply in_map_iff in I1 as (z & E & _). injection E as <- <-. apply in_prod_iff in I2 as [I2 _]. contradiction.
Qed.
(** a cell-wise update of a matrix *)
Lemma cellwise {A B} (land : mat B) (f : B -> A -> A) l : NoDup l -> forall h : mat A,
  (forall i j, In (i, j) l -> (0 <= i < rows land /\ 0 <= j < cols land) /\ (0 <= i < rows h /\ 0 <= j < cols h)) ->
  exists h', foldM (fun h ij => let '(i, j) := ij in obind (mget land i j) (fun v => obind (mget h i j) (fun prev => mset h i j (f v prev)))) h l = Some h' /\
    rows h' = rows h /\ cols h' = cols h /\
    (forall i j, In (i, j) l -> cell h' i j = f (cell land i j) (cell h i j)) /\ (forall i j, ~ In (i, j) l -> cell h' i j = cell h i j).
Proof.
  induction l as [|[i j] l IH]; intros ND h H; cbn [foldM].
  - exists h. split; [reflexivity|]. repeat (split; [reflexivity|]). split; [intros i j []|reflexivity].
  - inversion ND as [|? ? N1 N2]; subst. destruct (H i j (or_introl eq_refl)) as [[L1 L2] [H1 H2]].
    rewrite (mget_some land i j) by assumption. cbn [obind]. rewrite (mget_some h i j) by assumption. cbn [obind].
    destruct (mset_some h i j (f (cell land i j) (cell h i j)) H1 H2) as (h1 & E1). rewrite E1.
    apply mset_inv in E1 as (_ & _ & R1 & C1 & V1 & O1).
    destruct (IH N2 h1) as (h' & E & R & C & V & O). { intros a b I. rewrite R1, C1. apply H. right; exact I. }
    exists h'. split; [exact E|]. split; [congruence|]. split; [congruence|]. split.
    + intros a b [I|I]; [injection I as <- <-; rewrite (O _ _ N1); exact V1|]. rewrite (V a b I). rewrite O1; [reflexivity|].
      destruct (Z.eq_dec a i), (Z.eq_dec b j); auto. subst. contradiction.
    + intros a b I. rewrite O by (intros F; apply I; right; exact F). apply O1.
      destruct (Z.eq_dec a i), (Z.eq_dec b j); auto. subst. exfalso. apply I. left; reflexivity.
Qed.

Section Inv.
Context (G : trig Rn).
Notation nstep := (nstep Rn G Rceil Rround Rcast).
Notation nrun := (nrun Rn G Rceil Rround Rcast).
Notation calc := (calculateWaypoint Rn G Rround Rcast).
Notation run_state := (run_state Rn G Rround Rcast).

Definition in01 (m : mat Rn) : Prop := forall i j, (0 <= cell m i j <= 1)%R.
Record winv (x : sw Rn) : Prop := WInv {
  wi_mask : exists s, x_mask x = initMask s;
  wi_smooth : 0 <= q_smooth (x_cfg x); wi_beta : (0 <= q_beta (x_cfg x) <= 1)%R; wi_thr : (0 <= q_thr (x_cfg x))%R;
  wi_res : bit_matrix (x_res x); wi_land : bit_matrix (g_land (x_grid x)); wi_hyst : in01 (x_hyst x);
  wi_hc : cols (x_hyst x) = rows (x_hyst x); wi_rr : rows (x_res x) = rows (x_hyst x); wi_rc : cols (x_res x) = rows (x_hyst x);
  wi_grid : well_sized Rn (x_grid x);
  wi_n : -1 <= x_n x <= 7 }.
(** ... and at the start of a cycle, after updateSLPState *)
Lemma update_inv x : winv x -> let u := updateSLPState Rn x in
  winv u /\ x_mask u = initMask (q_smooth (x_cfg u)) /\ rows (x_hyst u) = rows (g_land (x_grid u)).
Proof.
  intros [[s Hm] Hs Hb Ht Hr Hl Hh H1 H2 H3 Hg Hn]. cbv zeta.
  assert (Sq : cols (g_land (x_grid x)) = rows (g_land (x_grid x))) by (destruct Hg as (_ & _ & _ & _ & _ & _ & A & B); congruence).
  assert (M : x_mask (updateSLPState Rn x) = initMask (q_smooth (x_cfg x))).
  { unfold updateSLPState. destruct (x_island x); cbn [x_with_land x_mask].
    all: destruct (x_upd x); cbn [orb]; [reflexivity|].
    all: rewrite Hm; cbn [initMask rows]; destruct (Z.eqb_spec (2 * s + 1) (q_smooth (x_cfg x) * 2 + 1)); cbn [negb]; [|reflexivity].
    all: f_equal; lia. }
  assert (Z01 : (0 <= 0 <= 1)%R) by lra.
  assert (Bit0 : forall r c, bit_matrix (Mat r c (fun _ _ => 0))) by (intros r c i j; left; reflexivity).
  assert (H0 : forall r c, in01 (Mat r c (fun _ _ => ofZ Rn 0))) by (intros r c i j; exact Z01).
  split; [|split; [|]].
  - assert (Gen : forall x', x_mask x' = initMask (q_smooth (x_cfg x)) -> x_cfg x' = x_cfg x -> x_grid x' = x_grid x -> -1 <= x_n x' <= 7 ->
      (x_hyst x' = x_hyst x \/ x_hyst x' = mfill (x_hyst x) (ofZ Rn 0) \/ x_hyst x' = Mat (rows (g_land (x_grid x))) (cols (g_land (x_grid x))) (fun _ _ => ofZ Rn 0)) ->
      (x_res x' = x_res x \/ x_res x' = Mat (rows (g_land (x_grid x))) (cols (g_land (x_grid x))) (fun _ _ => 0)) ->
      rows (x_res x') = rows (x_hyst x') -> winv x').
    { intros x' B1 B2 B3 B4 B5 B6 B7.
      assert (C : cols (x_hyst x') = rows (x_hyst x')) by (destruct B5 as [-> |[-> | ->]]; cbn; auto).
      assert (D : cols (x_res x') = rows (x_res x')) by (destruct B6 as [-> | ->]; cbn; auto; congruence).
      constructor; rewrite ?B1, ?B2, ?B3; auto; try (eexists; reflexivity); try congruence.
      - destruct B6 as [-> | ->]; [exact Hr|apply Bit0].
      - destruct B5 as [-> |[-> | ->]]; [exact Hh| |]; intros i j; exact Z01. }
    apply Gen; unfold updateSLPState in *; destruct (x_island x); cbn [x_with_land x_cfg x_grid x_n x_hyst x_res x_mask] in *; auto; try lia;
      destruct (Z.eqb_spec (rows (g_land (x_grid x))) (rows (x_hyst x))); cbn [negb rows mfill]; auto.
  - rewrite M. unfold updateSLPState. destruct (x_island x); reflexivity.
  - unfold updateSLPState. destruct (x_island x); cbn [x_with_land x_hyst x_grid]; unfold mfill; cbn [rows]; destruct (Z.eqb_spec (rows (g_land (x_grid x))) (rows (x_hyst x))) as [Q|Q]; cbn [negb rows]; auto.
Qed.

(** the loiter filter *)
Lemma hystStep_spec x : winv x -> rows (x_hyst x) = rows (g_land (x_grid x)) ->
  exists h, hystStep Rn x = Some h /\ rows h = rows (x_hyst x) /\ cols h = cols (x_hyst x) /\ in01 h /\
    forall i j, 0 <= i < rows (x_hyst x) -> 0 <= j < rows (x_hyst x) ->
      (cell h i j = q_beta (x_cfg x) * cell (x_hyst x) i j + (1 - q_beta (x_cfg x)) * IZR (cell (g_land (x_grid x)) i j))%R.
Proof.
  intros [_ _ Hb _ _ Hl Hh H1 _ _ Hg _] E. assert (Sq : cols (g_land (x_grid x)) = rows (g_land (x_grid x))) by (destruct Hg as (_ & _ & _ & _ & _ & _ & A & B); congruence).
  unfold hystStep. set (land := g_land (x_grid x)) in *. set (b := q_beta (x_cfg x)) in *.
  set (f := fun (v : Z) (prev : Rn) => (b * prev + (1 - b) * IZR v)%R).
  destruct (cellwise land f (loop2 (rows land) (cols land)) (loop2_nodup _ _) (x_hyst x)) as (h & F & Rw & C & V & O).
  { intros i j I. apply in_loop2 in I. lia. }
  exists h. split; [exact F|]. split; [exact Rw|]. split; [exact C|]. split.
  - intros i j. assert (D : {In (i, j) (loop2 (rows land) (cols land))} + {~ In (i, j) (loop2 (rows land) (cols land))})
      by (apply in_dec; intros [a c] [a' c']; destruct (Z.eq_dec a a'), (Z.eq_dec c c'); [left; congruence|right; congruence..]).
    destruct D as [D|D]; [|rewrite (O i j D); apply Hh]. rewrite (V i j D). unfold f. specialize (Hh i j).
    set (hh := cell (x_hyst x) i j : R) in *. set (bb := b : R) in *.
    assert (Q : (0 <= bb * hh + (1 - bb) * IZR (cell land i j) <= 1)%R); [|exact Q].
    destruct (Hl i j) as [-> | ->].
    + change (0 <= bb <= 1)%R in Hb. change (0 <= hh <= 1)%R in Hh. nra.
    + change (0 <= bb <= 1)%R in Hb. change (0 <= hh <= 1)%R in Hh. nra.
  - intros i j Hi Hj. rewrite V; [reflexivity|]. apply in_loop2. lia.
Qed.
Lemma threshold_spec (thr : Rn) h i j : cell (hystThreshold Rn thr h) i j = if Rlt_dec thr (cell h i j) then 1%R else if Rlt_dec thr 0 then 1%R else 0%R.
Proof.
  unfold hystThreshold. cbn [cell]. rn. destruct (R_leb_spec (cell h i j) thr) as [A|A].
  - destruct (R_ltb_spec thr 0), (Rlt_dec thr (cell h i j)), (Rlt_dec thr 0); try reflexivity; exfalso; lra.
  - destruct (R_ltb_spec thr (cell h i j)), (Rlt_dec thr (cell h i j)); try reflexivity; exfalso; lra.
Qed.
Lemma threshold_bits (thr : Rn) h i j : Rcast (cell (hystThreshold Rn thr h) i j) = if Rlt_dec thr (cell h i j) then 1 else if Rlt_dec thr 0 then 1 else 0.
Proof. rewrite threshold_spec. unfold Rcast. destruct (Rlt_dec thr (cell h i j)); [apply (Ztrunc_IZR 1)|]. destruct (Rlt_dec thr 0); [apply (Ztrunc_IZR 1)|apply (Ztrunc_IZR 0)]. Qed.

Lemma winv_frame x y : winv x -> x_mask y = x_mask x -> x_cfg y = x_cfg x -> x_grid y = x_grid x -> x_hyst y = x_hyst x -> x_res y = x_res x -> x_n y = x_n x -> winv y.
Proof. intros [A1 A2 A3 A4 A5 A6 A7 A8 A9 A10 A11 A12] B1 B2 B3 B4 B5 B6. constructor; rewrite ?B1, ?B2, ?B3, ?B4, ?B5, ?B6; assumption. Qed.
Lemma vget_pattern n d : vget exploration_pattern n = Some d -> 0 <= n <= 7.
Proof.
  unfold vget. destruct (Z.ltb_spec n 0); [discriminate|]. intros E. assert (L : nth_error exploration_pattern (Z.to_nat n) <> None) by congruence.
  apply nth_error_Some in L. cbn in L. lia.
Qed.
Lemma run_inv x t y out : winv x -> rows (x_hyst x) = rows (g_land (x_grid x)) -> run_state x = Some (t, y, out) -> winv y.
Proof.
  intros W Eq E. assert (W' := W). destruct W' as [A1 A2 A3 A4 A5 A6 A7 A8 A9 A10 A11 A12]. unfold SwProofs2.run_state in E. destruct (x_state x).
  - unfold runGoTo in E. set (x0 := if x_explore x then _ else x) in E.
    assert (W0 : winv x0) by (unfold x0; destruct (x_explore x); apply (winv_frame x); auto).
    destruct (landingAreaHeightPercentile Rn Rround (x_grid x0) (q_smooth (x_cfg x0)) (ofZ Rn 80)) as [alt|]; cbn [obind] in E; [|discriminate].
    set (x1 := x_matrices Rn (x_alt_upd Rn x0 alt) _ _) in E.
    assert (W1 : winv x1).
    { destruct W0 as [B1 B2 B3 B4 B5 B6 B7 B8 B9 B10 B11 B12]. constructor; cbn; auto. intros i j; cbn. lra. }
    destruct (withinLandingRadius Rn x1 && x_island x1 && negb (x_decision x1)); [injection E as <- <- <-; exact W1|].
    destruct (withinLandingRadius Rn x1 && x_island x1 && x_decision x1 && negb (x_canland x1)); [|injection E as <- <- <-; exact W1].
    destruct (nextExploration Rn x1) as [x2|] eqn:X; cbn [obind] in E; [|discriminate]. injection E as <- <- <-.
    unfold nextExploration in X. destruct (if x_n x1 + 1 =? _ then _ else _) as [k f]. destruct (vget exploration_pattern k) eqn:V; cbn [obind] in X; [|discriminate].
    injection X as <-. apply vget_pattern in V. destruct W1 as [B1 B2 B3 B4 B5 B6 B7 B8 B9 B10 B11 B12]. constructor; try assumption. cbn [x_n]. lia.
  - unfold runLoiter in E. set (x1 := x_move Rn x _ _ _ _ _) in E.
    assert (W1 : winv x1) by (apply (winv_frame x); auto).
    destruct (_ <=? 20).
    + destruct (hystStep_spec x1 W1 Eq) as (h & Eh & Rh & Ch & Ih & _). rewrite Eh in E. cbn [obind] in E. injection E as <- <- <-.
      destruct W1 as [B1 B2 B3 B4 B5 B6 B7 B8 B9 B10 B11 B12]. constructor; try assumption; cbn [x_matrices x_hyst x_res]; try congruence. all: cbn in B8, B9, B10, Rh |- *; congruence.
    + injection E as <- <- <-. destruct W1 as [B1 B2 B3 B4 B5 B6 B7 B8 B9 B10 B11 B12]. constructor; try assumption; cbn [x_matrices x_hyst x_res]; auto.
      * intros i j. pose proof (threshold_bits (q_thr (x_cfg x1)) (x_hyst x1) i j) as Tb.
        change (Rcast (cell (hystThreshold Rn (q_thr (x_cfg x1)) (x_hyst x1)) i j) = 0 \/ Rcast (cell (hystThreshold Rn (q_thr (x_cfg x1)) (x_hyst x1)) i j) = 1).
        rewrite Tb. destruct (Rlt_dec _ _); auto. destruct (Rlt_dec _ _); auto.
      * intros i j. pose proof (threshold_spec (q_thr (x_cfg x1)) (x_hyst x1) i j) as Tb.
        change (0 <= cell (hystThreshold Rn (q_thr (x_cfg x1)) (x_hyst x1)) i j <= 1)%R. rewrite Tb. destruct (Rlt_dec _ _); [slra|]. destruct (Rlt_dec _ _); slra.
  - unfold runLand in E. injection E as <- <- <-. apply (winv_frame x); auto.
  - unfold runAltitudeChange in E. destruct (landingAreaHeightPercentile Rn Rround (x_grid x) (q_smooth (x_cfg x)) (ofZ Rn 80)) as [alt|]; cbn [obind] in E; [|discriminate].
    destruct (inVerticalRange Rn _); injection E as <- <- <-; apply (winv_frame x); auto.
  - unfold runEvaluateGrid in E. destruct (evaluatePatch _ _ _ _) as [[|]|]; cbn [obind] in E; try discriminate.
    + injection E as <- <- <-. apply (winv_frame x); auto.
    + destruct (findPatch _ _ _ _ _ _) as [[d|]|]; cbn [obind] in E; try discriminate; injection E as <- <- <-; apply (winv_frame x); auto.
  - unfold runGoToLand in E. injection E as <- <- <-. exact W.
Qed.
Lemma calc_inv x x' out : winv x -> calc x = Some (x', out) -> winv x'.
Proof.
  intros W E. destruct (update_inv x W) as (U & _ & Eq). destruct (calc_cases _ _ _ _ _ _ _ E) as [(_ & -> & _)|(_ & t & y & R & ->)].
  - apply (winv_frame (updateSLPState Rn x)); auto.
  - assert (Wy := run_inv _ _ _ _ U Eq R). destruct t; apply (winv_frame y); auto.
Qed.
(** a received grid *)
Lemma receive_inv (g0 : grid Rn) pos m g : well_sized Rn g0 -> bit_matrix (g_land g0) -> Forall (fun l => l = 0 \/ l = 1) (gm_land m) ->
  receiveGrid Rn Rceil g0 pos m = Some g -> well_sized Rn g /\ bit_matrix (g_land g).
Proof.
  intros W B F E. unfold receiveGrid in E. set (g1 := if _ || _ then _ else g0) in E.
  assert (P1 : well_sized Rn g1 /\ bit_matrix (g_land g1)).
  { unfold g1. destruct (_ || _); [|auto]. split; [apply well_sized_resize|]. intros i j; left; reflexivity. }
  destruct (foldM _ g1 _) as [g2|] eqn:Ef; cbn [obind] in E; [|discriminate]. injection E as <-.
  assert (P2 : well_sized Rn g2 /\ bit_matrix (g_land g2)).
  { revert P1 Ef. apply (foldM_inv (fun g => well_sized Rn g /\ bit_matrix (g_land g))). intros g [i j] g' _ [Wg Bg] St.
    destruct (vget (gm_mean m) _) as [a|]; cbn [obind] in St; [|discriminate].
    destruct (mset (g_mean g) i j a) as [mean|] eqn:M1; cbn [obind] in St; [|discriminate].
    destruct (vget (gm_land m) _) as [l|] eqn:V; cbn [obind] in St; [|discriminate].
    destruct (mset (g_land g) i j l) as [land|] eqn:M2; cbn [obind] in St; [|discriminate]. injection St as <-.
    apply mset_inv in M1 as (_ & _ & R1 & C1 & _). apply mset_inv in M2 as (_ & _ & R2 & C2 & V2 & O2).
    split; [destruct Wg as (? & ? & ? & ? & ? & ? & ? & ?); repeat split; cbn; first [congruence|assumption|etransitivity; eassumption]|]. cbn. intros a' b'.
    destruct (Z.eq_dec a' i), (Z.eq_dec b' j); try (rewrite O2 by auto; apply Bg). subst a' b'. rewrite V2.
    unfold vget in V. destruct (_ <? 0); [discriminate|]. apply nth_error_In in V. rewrite Forall_forall in F. apply F; exact V. }
  destruct P2 as [P2 P3]. split; [apply well_sized_limits; exact P2|exact P3].
Qed.
Lemma step_inv n o n' out : input_ok o -> winv (n_x n) -> nstep n o = Some (n', out) -> winv (n_x n').
Proof.
  intros I W E. assert (W' := W). destruct W' as [A1 A2 A3 A4 A5 A6 A7 A8 A9 A10 A11 A12]. destruct o as [c|p y|m|m a|m|]; cbn [SwModel.nstep] in E.
  - injection E as <- <-. destruct I as (I1 & I2 & I3). constructor; auto.
  - injection E as <- <-. apply (winv_frame (n_x n)); auto.
  - injection E as <- <-. apply (winv_frame (n_x n)); auto.
  - destruct m, a; injection E as <- <-; apply (winv_frame (n_x n)); auto.
  - destruct (receiveGrid Rn Rceil (x_grid (n_x n)) (x_pos (n_x n)) m) as [g|] eqn:R; cbn [obind] in E; [|discriminate]. injection E as <- <-.
    destruct (receive_inv _ _ _ _ A11 A6 I R). constructor; auto.
  - destruct (n_received n) eqn:Q; [|injection E as <- <-; exact W]. destruct (calc (n_x n)) as [[x o]|] eqn:C; cbn [obind fst snd] in E; [|discriminate].
    destruct (vizCells Rn x); cbn [obind] in E; [|discriminate]. injection E as <- <-. exact (calc_inv _ _ _ W C).
Qed.
Lemma init_winv junk : winv (n_x (node_init Rn Rceil junk)).
Proof.
  constructor; cbn.
  - exists 6. reflexivity.
  - lia.
  - unfold cst. rn. slra.
  - unfold cst. rn. slra.
  - intros i j; left; reflexivity.
  - intros i j; left; reflexivity.
  - intros i j. cbn. slra.
  - reflexivity.
  - reflexivity.
  - reflexivity.
  - repeat split; reflexivity.
  - lia.
Qed.
Lemma hist_winv junk os n out : Forall input_ok os -> nrun (node_init Rn Rceil junk) os = Some (n, out) -> winv (n_x n).
Proof.
  intros F E. apply (nrun_inv Rn G Rceil Rround Rcast (fun n => winv (n_x n)) input_ok os F) with (n := node_init Rn Rceil junk) (out := out); auto.
  - intros. eapply step_inv; eauto.
  - apply init_winv.
Qed.
End Inv.
