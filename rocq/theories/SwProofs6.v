(** Memory safety and visualisation of the landing node (ideal arithmetic). *)
From Coq Require Import ZArith Reals List Bool Lia Lra Permutation.
From Flocq Require Import Core BinarySingleNaN.
From Verif Require Import Num Mat CommonModel PfModel PfSpec StarModel LpModel UsmModel SlModel SlSpec SlProofs SlProofs2 SlProofs3 SwModel SwSpec SwProofs SwProofs2 SwProofs3 SwProofs4 SwProofs5.
Import ListNotations.
Local Open Scope Z_scope.

Lemma collect_gen {A B} (m : mat A) (g : Z -> Z -> A -> B) cells : (forall i j, In (i, j) cells -> 0 <= i < rows m /\ 0 <= j < cols m) -> forall acc,
  foldM (fun acc kl => obind (mget m (fst kl) (snd kl)) (fun v => Some (acc ++ [g (fst kl) (snd kl) v]))) acc cells =
  Some (acc ++ map (fun kl => g (fst kl) (snd kl) (cell m (fst kl) (snd kl))) cells).
Proof.
  induction cells as [|[i j] cells IH]; intros H acc; cbn [foldM map fst snd]; [rewrite app_nil_r; reflexivity|].
  destruct (H i j (or_introl eq_refl)). rewrite (mget_some m i j) by assumption. cbn [obind]. rewrite IH by (intros; apply H; right; assumption).
  rewrite <- app_assoc. reflexivity.
Qed.
Section Viz.
Context (N : num).
Definition viz_green (x : sw N) (k l : Z) : bool :=
  let s := q_smooth (x_cfg x) in
  negb (cell (x_res x) k l * (if inb (x_mask x) (k - (20 - s)) (l - (20 - s)) then cell (x_mask x) (k - (20 - s)) (l - (20 - s)) else 0) =? 0).
Lemma viz_spec (x : sw N) : let s := q_smooth (x_cfg x) in let r := rows (g_land (x_grid x)) in let o := r / 2 in
  x_mask x = initMask s -> 0 <= s <= 20 -> 21 + s <= r ->
  rows (x_hyst x) = r -> cols (x_hyst x) = r -> rows (x_res x) = r -> cols (x_res x) = r ->
  vizCells N x = Some (map (fun kl => (fst kl, snd kl, viz_green x (fst kl) (snd kl))) (list_prod (zfromto (o - s) (o + s)) (zfromto (o - s) (o + s)))).
Proof using.
  clear. intros s r o M Hs Hr A1 A2 A3 A4. unfold vizCells. fold s r o. rewrite A1, A2, A3, A4, M. cbn [initMask rows cols].
  destruct (Z.leb_spec 0 (20 - s)), (Z.leb_spec (20 - s + (2 * s + 1)) r); try lia. cbn [andb negb]. rewrite Z.eqb_refl. cbn [andb negb].
  set (cells := list_prod (zfromto (o - s) (o + s)) (zfromto (o - s) (o + s))).
  assert (In2 : forall k l, In (k, l) cells -> 0 <= k < r /\ 0 <= l < r).
  { intros k l I. apply in_prod_iff in I as [I1 I2]. apply in_zfromto in I1, I2. unfold o in I1, I2.
    pose proof (Z.div_mod r 2 ltac:(lia)). pose proof (Z.mod_pos_bound r 2 ltac:(lia)). lia. }
  match goal with |- foldM (fun acc kl => obind (mget ?m _ _) _) _ _ = _ => rewrite (collect_gen m (fun k l v => (k, l, negb (v =? 0)))) end.
  - cbn [app]. f_equal. apply map_ext. intros [k l]. cbn [fst snd cell]. unfold viz_green. fold s. rewrite M. reflexivity.
  - cbn [rows cols]. exact In2.
Qed.
End Viz.
Lemma viz_colour (x : sw Rn) k l : let s := q_smooth (x_cfg x) in let o := rows (g_land (x_grid x)) / 2 in
  x_mask x = initMask s -> 0 <= s -> o = 20 -> bit_matrix (x_res x) -> o - s <= k <= o + s -> o - s <= l <= o + s ->
  (viz_green Rn x k l = true <-> disc s (k - o) (l - o) /\ cell (x_res x) k l = 1).
Proof.
  intros s o M Hs Ho B Hk Hl. unfold viz_green. fold s. rewrite M. rewrite disc_iff by assumption.
  rewrite (proj2 (inb_true (initMask s) (k - (20 - s)) (l - (20 - s)))) by (cbn [rows cols initMask]; lia). cbn [initMask cell].
  replace (k - (20 - s) - s) with (k - o) by lia. replace (l - (20 - s) - s) with (l - o) by lia.
  destruct (Z.ltb_spec (4 * ((k - o) * (k - o) + (l - o) * (l - o))) ((2 * s + 1) * (2 * s + 1))) as [D|D]; destruct (B k l) as [E|E]; rewrite E.
  - change (negb (0 * 1 =? 0)) with false. split; [discriminate|]. intros [_ H]; discriminate.
  - change (negb (1 * 1 =? 0)) with true. split; [|reflexivity]. intros _. split; [exact D|reflexivity].
  - change (negb (0 * 0 =? 0)) with false. split; [discriminate|]. intros [H _]; lia.
  - change (negb (1 * 0 =? 0)) with false. split; [discriminate|]. intros [H _]; lia.
Qed.

Section Total.
Context (G : trig Rn).
Notation nstep := (nstep Rn G Rceil Rround Rcast).
Notation nrun := (nrun Rn G Rceil Rround Rcast).
Notation calc := (calculateWaypoint Rn G Rround Rcast).
Notation run_state := (run_state Rn G Rround Rcast).

Lemma run_rows x t y out : winv x -> rows (x_hyst x) = rows (g_land (x_grid x)) -> run_state x = Some (t, y, out) -> rows (x_hyst y) = rows (x_hyst x).
Proof.
  intros W Eq E. unfold SwProofs2.run_state in E. destruct (x_state x).
  - unfold runGoTo in E. set (x0 := if x_explore x then _ else x) in E.
    assert (W0 : x_hyst x0 = x_hyst x) by (unfold x0; destruct (x_explore x); reflexivity).
    destruct (landingAreaHeightPercentile Rn Rround (x_grid x0) (q_smooth (x_cfg x0)) (ofZ Rn 80)) as [alt|]; cbn [obind] in E; [|discriminate].
    set (x1 := x_matrices Rn (x_alt_upd Rn x0 alt) _ _) in E.
    assert (W1 : rows (x_hyst x1) = rows (x_hyst x)) by (unfold x1; cbn; rewrite W0; reflexivity).
    destruct (withinLandingRadius Rn x1 && x_island x1 && negb (x_decision x1)); [injection E as <- <- <-; exact W1|].
    destruct (withinLandingRadius Rn x1 && x_island x1 && x_decision x1 && negb (x_canland x1)); [|injection E as <- <- <-; exact W1].
    destruct (nextExploration Rn x1) as [x2|] eqn:X; cbn [obind] in E; [|discriminate]. injection E as <- <- <-.
    unfold nextExploration in X. destruct (if x_n x1 + 1 =? _ then _ else _) as [k f]. destruct (vget exploration_pattern k) eqn:V; cbn [obind] in X; [|discriminate].
    injection X as <-. exact W1.
  - unfold runLoiter in E. set (x1 := x_move Rn x _ _ _ _ _) in E. destruct (_ <=? 20).
    + assert (W1 : winv x1) by (apply (winv_frame x); auto). destruct (hystStep_spec x1 W1 Eq) as (h & Eh & Rh & _). rewrite Eh in E. cbn [obind] in E. injection E as <- <- <-. exact Rh.
    + injection E as <- <- <-. reflexivity.
  - unfold runLand in E. injection E as <- <- <-. reflexivity.
  - unfold runAltitudeChange in E. destruct (landingAreaHeightPercentile Rn Rround (x_grid x) (q_smooth (x_cfg x)) (ofZ Rn 80)) as [alt|]; cbn [obind] in E; [|discriminate].
    destruct (inVerticalRange Rn _); injection E as <- <- <-; reflexivity.
  - unfold runEvaluateGrid in E. destruct (evaluatePatch _ _ _ _) as [[|]|]; cbn [obind] in E; try discriminate.
    + injection E as <- <- <-. reflexivity.
    + destruct (findPatch _ _ _ _ _ _) as [[d|]|]; cbn [obind] in E; try discriminate; injection E as <- <- <-; reflexivity.
  - unfold runGoToLand in E. injection E as <- <- <-. reflexivity.
Qed.
(** every state function is defined *)
Lemma run_total x : winv x -> x_mask x = initMask (q_smooth (x_cfg x)) -> rows (x_hyst x) = rows (g_land (x_grid x)) ->
  1 <= q_smooth (x_cfg x) -> 2 * q_smooth (x_cfg x) + 1 <= g_rc (x_grid x) -> exists r, run_state x = Some r.
Proof.
  intros W M Eq Hs Hr. assert (W' := W). destruct W' as [_ _ _ _ Hb _ _ Hc Hrr Hrc Hg Hn].
  destruct (percentile_spec (x_grid x) (q_smooth (x_cfg x)) Hg Hs Hr) as (alt & Ea & _).
  unfold SwProofs2.run_state. destruct (x_state x).
  - unfold runGoTo. set (x0 := if x_explore x then _ else x).
    assert (S0 : x_grid x0 = x_grid x /\ x_cfg x0 = x_cfg x /\ x_n x0 = x_n x) by (unfold x0; destruct (x_explore x); repeat split). destruct S0 as (-> & -> & S3).
    rewrite Ea. cbn [obind]. set (x1 := x_matrices Rn (x_alt_upd Rn x0 alt) _ _).
    destruct (withinLandingRadius Rn x1 && x_island x1 && negb (x_decision x1)); [eauto|].
    destruct (withinLandingRadius Rn x1 && x_island x1 && x_decision x1 && negb (x_canland x1)); [|eauto].
    unfold nextExploration. change (Z.of_nat (length exploration_pattern)) with 8. change (x_n x1) with (x_n x0). rewrite S3.
    assert (V : forall k, 0 <= k < 8 -> exists d, vget exploration_pattern k = Some d).
    { intros k Hk. unfold vget. destruct (Z.ltb_spec k 0); [lia|]. destruct (nth_error exploration_pattern (Z.to_nat k)) eqn:E; [eauto|]. apply nth_error_None in E. cbn in E. lia. }
    destruct (Z.eqb_spec (x_n x + 1) 8).
    + destruct (V 0 ltac:(lia)) as (d & ->). cbn [obind]. eauto.
    + destruct (V (x_n x + 1) ltac:(lia)) as (d & ->). cbn [obind]. eauto.
  - unfold runLoiter. set (x1 := x_move Rn x _ _ _ _ _). destruct (_ <=? 20); [|eauto].
    assert (W1 : winv x1) by (apply (winv_frame x); auto). destruct (hystStep_spec x1 W1 Eq) as (h & -> & _). cbn [obind]. eauto.
  - eauto. unfold runLand. eauto.
  - unfold runAltitudeChange. rewrite Ea. cbn [obind]. destruct (inVerticalRange Rn _); eauto.
  - unfold runEvaluateGrid. assert (Sq : rows (g_land (x_grid x)) = g_rc (x_grid x) /\ cols (g_land (x_grid x)) = g_rc (x_grid x)) by (destruct Hg as (_ & _ & _ & _ & _ & _ & A & B); auto).
    destruct Sq as [Sq1 Sq2]. rewrite Sq1, Sq2, M. rewrite Sq1 in Eq. set (r := g_rc (x_grid x)) in *. set (s := q_smooth (x_cfg x)) in *.
    assert (Ra : rows (x_res x) = r) by (rewrite Hrr; exact Eq). assert (Ca : cols (x_res x) = r) by (rewrite Hrc; exact Eq).
    assert (Ci := tried_inside r s (0, 0) ltac:(lia) Hr (or_intror eq_refl)). cbn [fst snd] in Ci.
    destruct (evaluatePatch_spec (x_res x) s (r / 2 - s) (r / 2 - s)) as (b & -> & _); try assumption; try lia. cbn [obind]. destruct b; [eauto|].
    destruct (findPatch_spec (x_res x) r s (candidates r s)) as (o & -> & _); try assumption; try lia.
    { intros d I. apply candidates_iff in I; try assumption; lia. }
    cbn [obind]. destruct o; eauto.
  - unfold runGoToLand. eauto.
Qed.
(** inputs that keep the node inside its matrices: kernels of 1..20 cells and grids, as published by the planner, of at least 41 x 41 cells *)
Definition safe_input (o : sop Rn) : Prop :=
  match o with
  | OReconf c => 1 <= q_smooth c <= 20 /\ (0 <= q_beta c <= 1)%R /\ (0 <= q_thr c)%R
  | OGrid m => exists seq g idx, serialise Rn seq g idx = Some m /\ sized Rn Rceil g /\ 41 <= g_rc g /\ bit_matrix (g_land g)
  | _ => True end.
Lemma safe_ok o : safe_input o -> input_ok o.
Proof.
  destruct o as [c|p y|m|m a|m|]; cbn; auto; [intros (H & H2 & H3); split; [lia|auto]|].
  intros (seq & g & idx & E & [W _] & _ & B). destruct W as (W1 & W2 & W3 & W4 & W5 & W6 & W7 & W8).
  unfold serialise in E.
  assert (In2 : forall i j, In (i, j) (loop2 (g_rc g) (g_rc g)) -> 0 <= i < g_rc g /\ 0 <= j < g_rc g) by (intros; apply in_loop2; assumption).
  rewrite (collect_spec (g_mean g) (g_rc g) W1 W2 _ _ In2) in E. cbn [obind] in E. rewrite (collect_spec (g_land g) (g_rc g) W7 W8 _ _ In2) in E. cbn [obind] in E.
  rewrite (collect_spec (g_var g) (g_rc g) W3 W4 _ _ In2) in E. cbn [obind] in E. rewrite (collect_spec (g_cnt g) (g_rc g) W5 W6 _ _ In2) in E. cbn [obind app] in E.
  injection E as <-. cbn [gm_land]. apply Forall_forall. intros x I. apply in_map_iff in I as (ij & <- & _). apply B.
Qed.
Definition tinv (n : node Rn) : Prop :=
  winv (n_x n) /\ 1 <= q_smooth (x_cfg (n_x n)) <= 20 /\ sized Rn Rceil (x_grid (n_x n)) /\ (n_received n = true -> 41 <= g_rc (x_grid (n_x n))).
Lemma safe_step n o : tinv n -> safe_input o -> exists r, nstep n o = Some r /\ tinv (fst r).
Proof.
  intros (W & Hs & Sg & Hr) So. pose proof (safe_ok o So) as Io. destruct o as [c|p y|m|m a|m|].
  - eexists; split; [reflexivity|]. split; [eapply (step_inv G); [exact Io|exact W|reflexivity]|]. cbn. destruct So as [So _]. auto.
  - eexists; split; [reflexivity|]. split; [eapply (step_inv G); [exact Io|exact W|reflexivity]|]. cbn. auto.
  - eexists; split; [reflexivity|]. split; [eapply (step_inv G); [exact Io|exact W|reflexivity]|]. cbn. auto.
  - destruct (nstep n (OMode m a)) as [[n1 o1]|] eqn:E; [|destruct m, a; discriminate]. exists (n1, o1). split; [reflexivity|]. cbn [fst].
    split; [eapply (step_inv G); [exact Io|exact W|exact E]|]. destruct m, a; cbn in E; injection E as <- <-; cbn; auto.
  - destruct So as (seq & g & idx & Es & Gs & Gr & Gb).
    destruct (receive_spec Rn Rceil seq g idx m (x_grid (n_x n)) (x_pos (n_x n)) size_compat_R Gs Sg Es) as (g' & Rg & Sg' & Rc & _).
    destruct (nstep n (OGrid m)) as [[n1 o1]|] eqn:E; cbn [SwModel.nstep] in E; rewrite Rg in E; cbn [obind] in E; [|discriminate].
    exists (n1, o1). split; [reflexivity|]. cbn [fst]. split.
    { eapply (step_inv G) with (o := OGrid m); [exact Io|exact W|]. cbn [SwModel.nstep]. rewrite Rg. cbn [obind]. exact E. }
    injection E as <- <-. cbn. split; [exact Hs|]. split; [exact Sg'|]. intros _. lia.
  - cbn [SwModel.nstep]. destruct (n_received n) eqn:Q.
    2: { eexists; split; [reflexivity|]. unfold tinv. cbn [fst]. rewrite Q. auto. }
    specialize (Hr eq_refl). destruct (update_inv (n_x n) W) as (Wu & Mu & Eq). set (u := updateSLPState Rn (n_x n)) in *.
    destruct (update_frame Rn (n_x n)) as (U1 & U2 & U3 & _ & _ & _ & _ & _ & _ & _ & _ & _ & U13 & _). fold u in U1, U2, U3, U13.
    assert (Ex : exists x' out, calc (n_x n) = Some (x', out) /\ winv x' /\ x_cfg x' = x_cfg u /\ x_grid x' = x_grid u /\ x_mask x' = x_mask u /\ rows (x_hyst x') = rows (x_hyst u)).
    { unfold calculateWaypoint, iterateOnce, runCurrentState. fold u. destruct (x_reset u) eqn:Ru.
      - cbn [obind]. do 2 eexists. split; [reflexivity|]. split; [apply (winv_frame u); auto|]. repeat split; reflexivity.
      - assert (Ru' : exists r, run_state u = Some r) by (apply run_total; auto; rewrite ?U2, ?U13; lia). destruct Ru' as ([[t y] out] & E).
        destruct (run_state_frame _ _ _ _ _ _ _ _ E) as [(F1 & F2 & F3 & F4 & F5 & F6 & F7 & F8 & _) _]. pose proof (run_inv G _ _ _ _ Wu Eq E) as Wy. pose proof (run_rows _ _ _ _ Wu Eq E) as Ry.
        unfold SwProofs2.run_state in E. rewrite E. cbn [obind]. exists (match t with REPEAT => x_flags Rn y (x_state y) (x_reset y) false | _ => x_flags Rn y (sw_choose (x_state y) t) (x_reset y) true end), out.
        split; [destruct t; reflexivity|]. split; [destruct t; apply (winv_frame y); auto|]. destruct t; repeat split; cbn; auto. }
    destruct Ex as (x' & out & C & Wx & X1 & X2 & X3 & X4). rewrite C. cbn [obind fst snd].
    assert (V : exists l, vizCells Rn x' = Some l).
    { assert (Wx' := Wx). destruct Wx' as [_ _ _ _ _ _ _ A7 A8 A9 A10 _].
      assert (Rl : rows (x_hyst x') = rows (g_land (x_grid x'))) by (rewrite X4, X2; exact Eq).
      assert (Rg : rows (g_land (x_grid x')) = g_rc (x_grid x')) by (destruct A10 as (_ & _ & _ & _ & _ & _ & A & _); exact A).
      eexists. apply viz_spec.
      - rewrite X3, X1. exact Mu.
      - rewrite X1, U2. lia.
      - rewrite X1, U2, Rg, X2, U13. lia.
      - exact Rl.
      - rewrite A7. exact Rl.
      - rewrite A8. exact Rl.
      - rewrite A9. exact Rl. }
    destruct V as (l & ->). cbn [obind]. eexists; split; [reflexivity|]. cbn [fst]. split; [exact Wx|]. cbn [n_x n_received]. rewrite X1, X2, U2, U13. split; [exact Hs|].
    split; [exact Sg|discriminate].
Qed.
Lemma safe_run os : Forall safe_input os -> forall n, tinv n -> exists r, nrun n os = Some r /\ tinv (fst r).
Proof.
  induction 1 as [|o os Ho F IH]; intros n T; cbn [SwModel.nrun]; [eauto|].
  destruct (safe_step n o T Ho) as ([n1 o1] & E & T1). rewrite E. cbn [obind fst snd] in *. destruct (IH n1 T1) as ([n2 o2] & E2 & T2). rewrite E2. cbn [obind fst snd]. eauto.
Qed.
Lemma init_tinv junk : tinv (node_init Rn Rceil junk).
Proof.
  split; [apply init_winv|]. split; [cbn; lia|]. split; [|discriminate]. split; [repeat split|]. reflexivity.
Qed.
End Total.

(** the invariant holds at the start of every executed cycle *)
Lemma view_winv (G : trig Rn) junk os n out : Forall input_ok os -> nrun Rn G Rceil Rround Rcast (node_init Rn Rceil junk) os = Some (n, out) ->
  forall w, In w (nview Rn G Rceil Rround Rcast (node_init Rn Rceil junk) os) -> winv w.
Proof.
  revert n out. induction os as [|o os IH] using rev_ind; intros n out F E w I; [destruct I|].
  apply Forall_app in F as [F Fo]. destruct (nrun_snoc _ _ _ _ _ _ _ _ _ _ E) as (m & o1 & o2 & E1 & E2 & _).
  rewrite (nview_snoc _ _ _ _ _ _ _ _ _ _ _ _ E1 E2) in I. apply in_app_or in I as [I|I]; [eapply IH; eauto|].
  destruct o; try (exact (False_ind _ I)). destruct (n_received m); [|destruct I]. destruct I as [<-|[]].
  pose proof (hist_winv G junk os m o1 F E1) as Wm. destruct (update_inv (n_x m) Wm) as [Wu _]. exact Wu.
Qed.
