(** What a landing decision rests on (ideal arithmetic). *)
From Coq Require Import ZArith Reals List Bool Lia Lra Permutation.
From Flocq Require Import Core BinarySingleNaN.
From Verif Require Import Num Mat CommonModel PfModel PfSpec StarModel LpModel UsmModel SlModel SlSpec SlProofs SlProofs2 SlProofs3 SwModel SwSpec SwProofs SwProofs2 SwProofs3.
Import ListNotations.
Local Open Scope Z_scope.

Section View.
Context (N : num) (G : trig N) (ceilc rnd cast : N -> Z).
Notation nstep := (nstep N G ceilc rnd cast).
Notation nrun := (nrun N G ceilc rnd cast).
Notation nview := (nview N G ceilc rnd cast).
Lemma nview_app os1 os2 n n1 out : nrun n os1 = Some (n1, out) -> nview n (os1 ++ os2) = nview n os1 ++ nview n1 os2.
Proof using.
  revert n out. induction os1 as [|o os1 IH]; intros n out E; cbn [app SwModel.nrun SwSpec.nview] in *.
  - injection E as <- <-. reflexivity.
  - destruct (nstep n o) as [[n2 o2]|] eqn:S; cbn [obind fst snd] in E; [|discriminate].
    destruct (nrun n2 os1) as [[n3 o3]|] eqn:Q; cbn [obind fst snd] in E; [|discriminate]. injection E as <- <-. cbn [fst].
    rewrite (IH _ _ Q). rewrite app_assoc. reflexivity.
Qed.
Lemma nview_snoc os o n n1 out n2 out2 : nrun n os = Some (n1, out) -> nstep n1 o = Some (n2, out2) ->
  nview n (os ++ [o]) = nview n os ++ match o with OCycle => if n_received n1 then [updateSLPState N (n_x n1)] else [] | _ => [] end.
Proof using.
  intros E S. rewrite (nview_app _ _ _ _ _ E). cbn [SwSpec.nview]. rewrite S. rewrite app_nil_r. reflexivity.
Qed.
Lemma cycle_dec (n : node N) (o : sop N) : (o = OCycle /\ n_received n = true) \/ (o <> OCycle \/ n_received n = false).
Proof using. destruct o; try (right; left; discriminate). destruct (n_received n) eqn:Q; [left; auto|right; right; reflexivity]. Qed.
End View.

Section Evidence.
Context (G : trig Rn).
Notation nstep := (nstep Rn G Rceil Rround Rcast).
Notation nrun := (nrun Rn G Rceil Rround Rcast).
Notation nview := (nview Rn G Rceil Rround Rcast).
Notation calc := (calculateWaypoint Rn G Rround Rcast).
Notation run_state := (run_state Rn G Rround Rcast).

Definition zero (m : mat Rn) : Prop := forall i j, cell m i j = 0%R.
Definition filter_is (h : mat Rn) (l : list (sw Rn)) : Prop := forall i j, 0 <= i < rows h -> 0 <= j < rows h -> cell h i j = smoothed (map (evidence i j) l).
Lemma smoothed_snoc l bv : smoothed (l ++ [bv]) = (fst bv * smoothed l + (1 - fst bv) * snd bv)%R.
Proof. unfold smoothed. rewrite fold_left_app. reflexivity. Qed.
Lemma filter_zero h : zero h -> filter_is h [].
Proof. intros Z i j _ _. rewrite Z. reflexivity. Qed.

(** the filter at the start of a cycle: kept or zero *)
Lemma update_hyst x : let u := updateSLPState Rn x in
  (x_hyst u = x_hyst x /\ x_island x = true /\ rows (g_land (x_grid x)) = rows (x_hyst x) /\ x_res u = x_res x) \/
  (zero (x_hyst u) /\ (x_island x = false \/ rows (g_land (x_grid x)) <> rows (x_hyst x)) /\
   (x_res u = x_res x \/ forall i j, cell (x_res u) i j = 0)).
Proof.
  cbv zeta. unfold updateSLPState. destruct (x_island x) eqn:I; cbn [x_with_land x_hyst x_island x_res].
  - destruct (Z.eqb_spec (rows (g_land (x_grid x))) (rows (x_hyst x))); cbn [negb]; [left; auto|]. right. split; [intros i j; reflexivity|].
    split; [right; assumption|]. right. reflexivity.
  - right. split; [intros i j; reflexivity|]. split; [left; reflexivity|]. destruct (negb _); [right; reflexivity|left; reflexivity].
Qed.

Definition J (vs : list (sw Rn)) (x : sw Rn) : Prop :=
  match x_state x with
  | SALTITUDE_CHANGE => zero (x_hyst x)
  | SLOITER => exists pre v l1 suf, vs = pre ++ [v] ++ l1 ++ suf /\ x_state v = SALTITUDE_CHANGE /\ x_seq v = x_start x /\
      Forall (loitering (x_seq v)) (l1 ++ suf) /\ restart l1 suf /\
      Forall (fun u => rows (g_land (x_grid u)) = rows (x_hyst x)) suf /\ filter_is (x_hyst x) suf
  | EVALUATE_GRID => exists pre v l1 suf u, vs = pre ++ [v] ++ l1 ++ suf ++ [u] /\ x_state v = SALTITUDE_CHANGE /\
      Forall (loitering (x_seq v)) (l1 ++ suf) /\ restart l1 (suf ++ [u]) /\
      x_state u = SLOITER /\ x_reset u = false /\ 20 < Z.abs (x_seq u - x_seq v) /\
      Forall (fun w => rows (g_land (x_grid w)) = rows (x_res x)) suf /\
      forall i j, 0 <= i < rows (x_res x) -> 0 <= j < rows (x_res x) ->
        (cell (x_res x) i j = 1 <-> (q_thr (x_cfg u) < smoothed (map (evidence i j) suf))%R)
  | _ => True
  end.
Lemma J_frame vs x y : x_state y = x_state x -> x_hyst y = x_hyst x -> x_start y = x_start x -> x_res y = x_res x -> J vs x -> J vs y.
Proof. intros A B C D. unfold J. rewrite A, B, C, D. auto. Qed.

Lemma last_app {A} (l : list A) a : rev (l ++ [a]) = a :: rev l.
Proof. rewrite rev_app_distr. reflexivity. Qed.
Lemma restart_snoc old rest u : rest <> [] -> restart old rest -> restart old (rest ++ [u]).
Proof. unfold restart. destruct (rev old); [auto|]. destruct rest; [congruence|]. cbn. auto. Qed.

Lemma cycle_J vs x x' out : winv x -> J vs x -> calc x = Some (x', out) -> J (vs ++ [updateSLPState Rn x]) x'.
Proof.
  intros W Jx C. set (u := updateSLPState Rn x). pose proof (calc_edge _ _ _ _ _ _ _ C) as Ed. unfold edge in Ed.
  destruct (update_inv x W) as (Wu & Mu & Eq). fold u in Wu, Mu, Eq.
  destruct (update_frame Rn x) as (U1 & U2 & U3 & U4 & U5 & U6 & U7 & _ & _ & _ & _ & _ & U8 & _). fold u in U1, U2, U3, U4, U5, U6, U7, U8.
  destruct (calc_cases _ _ _ _ _ _ _ C) as [(R & -> & _)|(R & t & y & Rn_ & X)].
  { unfold J. cbn [x_flags x_state]. exact I. }
  fold u in Rn_. rewrite R in Ed. destruct (x_state x) eqn:St.
  - (* GOTO *) destruct Ed as [Ed|[Ed _]]; unfold J; rewrite Ed; [exact I|].
    rewrite X. unfold SwProofs2.run_state in Rn_. rewrite U1 in Rn_. unfold runGoTo in Rn_.
    set (x0 := if x_explore u then _ else u) in Rn_.
    destruct (landingAreaHeightPercentile Rn Rround (x_grid x0) (q_smooth (x_cfg x0)) (ofZ Rn 80)) as [alt|]; cbn [obind] in Rn_; [|discriminate].
    set (x1 := x_matrices Rn (x_alt_upd Rn x0 alt) _ _) in Rn_.
    assert (Z1 : zero (x_hyst x1)) by (intros i j; reflexivity).
    destruct (withinLandingRadius Rn x1 && x_island x1 && negb (x_decision x1)); [injection Rn_ as <- <- <-; exact Z1|].
    destruct (withinLandingRadius Rn x1 && x_island x1 && x_decision x1 && negb (x_canland x1)); [|injection Rn_ as <- <- <-; exact Z1].
    destruct (nextExploration Rn x1) as [x2|] eqn:Xn; cbn [obind] in Rn_; [|discriminate]. injection Rn_ as <- <- <-.
    unfold nextExploration in Xn. destruct (if x_n x1 + 1 =? _ then _ else _) as [k f]. destruct (vget exploration_pattern k); cbn [obind] in Xn; [|discriminate].
    injection Xn as <-. exact Z1.
  - (* SLOITER *)
    unfold J in Jx. rewrite St in Jx. destruct Jx as (pre & v & l1 & suf & Vs & Sv & Qv & Fl & Rs & Fr & Fi).
    unfold SwProofs2.run_state in Rn_. rewrite U1 in Rn_. unfold runLoiter in Rn_. set (x1 := x_move Rn u _ _ _ _ _) in Rn_.
    (* the evidence after updateSLPState *)
    assert (Evi : exists l1' suf', l1 ++ suf = l1' ++ suf' /\ restart l1' (suf' ++ [u]) /\
      Forall (fun w => rows (g_land (x_grid w)) = rows (g_land (x_grid u))) suf' /\ filter_is (x_hyst u) suf').
    { destruct (update_hyst x) as [(H1 & H2 & H3 & _)|(H1 & H2 & _)]; fold u in H1.
      - exists l1, suf. split; [reflexivity|]. rewrite U8, H3, H1. split; [|split; assumption].
        destruct suf as [|a suf]; [|apply restart_snoc; [discriminate|exact Rs]].
        unfold restart in *. destruct (rev l1); [exact I|destruct Rs].
      - destruct (l1 ++ suf) as [|a l] eqn:Ls.
        + exists [], []. split; [reflexivity|]. split; [exact I|]. split; [constructor|]. apply filter_zero. exact H1.
        + exists (l1 ++ suf), []. split; [rewrite app_nil_r; symmetry; exact Ls|]. split; [|split; [constructor|apply filter_zero; exact H1]].
          destruct suf as [|b suf0] using rev_ind.
          * unfold restart in Rs. destruct l1 as [|c l1]; [discriminate|]. destruct (rev (c :: l1)) eqn:Rv; [|destruct Rs].
            apply (f_equal (@rev _)) in Rv. rewrite rev_involutive in Rv. discriminate.
          * clear IHsuf0. unfold restart. rewrite app_assoc, last_app. cbn [app]. rewrite U4, U8. destruct H2 as [H2|H2]; [left; exact H2|right].
            apply Forall_app in Fr as [_ Fr]. inversion Fr as [|? ? Fr1 _]; subst. rewrite Fr1. exact H2. }
    destruct Evi as (l1' & suf' & E1 & E2 & E3 & E4).
    rewrite E1 in Vs, Fl.
    destruct Ed as [[Ed Sq]|[Ed Sq]]; unfold J; rewrite Ed.
    + (* stays *)
      assert (Sq' : (Z.abs (x_seq x1 - x_start x1) <=? 20) = true) by (apply Z.leb_le; unfold x1; cbn [x_move x_seq x_start]; rewrite U6, U7; exact Sq).
      rewrite Sq' in Rn_. assert (W1 : winv x1) by (apply (winv_frame u); auto).
      destruct (hystStep_spec x1 W1 Eq) as (h & Eh & Rh & Ch & _ & Hc). rewrite Eh in Rn_. cbn [obind] in Rn_. injection Rn_ as <- <- <-. cbn in X. rewrite X.
      cbn [x_flags x_matrices x_start x_hyst].
      exists pre, v, l1', (suf' ++ [u]). split; [rewrite Vs; rewrite <- !app_assoc; reflexivity|]. split; [exact Sv|]. split; [unfold x1; cbn [x_move x_start]; rewrite U6; exact Qv|].
      split. { rewrite app_assoc. apply Forall_app. split; [exact Fl|]. constructor; [|constructor]. split; [exact U1|]. split; [rewrite U3; exact R|]. rewrite U7, Qv. exact Sq. }
      split; [exact E2|]. cbn in Rh, Ch, Eq, Hc. split.
      * assert (Hu : rows (g_land (x_grid u)) = rows h) by (transitivity (rows (x_hyst u)); [symmetry; exact Eq|symmetry; exact Rh]).
        apply Forall_app. split; [|constructor; [exact Hu|constructor]]. eapply Forall_impl; [|exact E3]. cbn. intros w Hw. transitivity (rows (g_land (x_grid u))); [exact Hw|exact Hu].
      * intros i j Hi Hj. change (0 <= i < rows h) in Hi. change (0 <= j < rows h) in Hj. change (rows h = rows (x_hyst u)) in Rh. rewrite Rh in Hi, Hj. rewrite map_app. cbn [map]. rewrite smoothed_snoc. cbn [evidence fst snd].
        transitivity (q_beta (x_cfg u) * cell (x_hyst u) i j + (1 - q_beta (x_cfg u)) * IZR (cell (g_land (x_grid u)) i j))%R; [exact (Hc i j Hi Hj)|].
        rewrite (E4 i j Hi Hj). reflexivity.
    + (* decides *)
      assert (Sq' : (Z.abs (x_seq x1 - x_start x1) <=? 20) = false) by (apply Z.leb_gt; unfold x1; cbn [x_move x_seq x_start]; rewrite U6, U7; exact Sq).
      rewrite Sq' in Rn_. injection Rn_ as <- <- <-. cbn in X. rewrite X.
      exists pre, v, l1', suf', u. split; [rewrite Vs; rewrite <- !app_assoc; reflexivity|]. split; [exact Sv|]. split; [exact Fl|]. split; [exact E2|].
      split; [exact U1|]. split; [rewrite U3; exact R|]. split; [rewrite U7, Qv; exact Sq|].
      cbn [x_flags x_matrices x_res rows]. split.
      * eapply Forall_impl; [|exact E3]. intros w Hw. transitivity (rows (g_land (x_grid u))); [exact Hw|symmetry; exact Eq].
      * intros i j Hi Hj. rewrite <- (E4 i j) by (cbn in Hi, Hj; assumption).
        pose proof (threshold_bits (q_thr (x_cfg u)) (x_hyst u) i j) as Tb.
        change (Rcast (cell (hystThreshold Rn (q_thr (x_cfg u)) (x_hyst u)) i j) = 1 <-> (q_thr (x_cfg u) < cell (x_hyst u) i j)%R). rewrite Tb.
        pose proof (wi_thr u Wu) as Th. destruct (Rlt_dec _ _) as [L|L]; [split; intros; [exact L|reflexivity]|].
        destruct (Rlt_dec _ _) as [L2|L2]; [exfalso; slra|]. split; intros H; [discriminate|contradiction].
  - unfold J. rewrite Ed. exact I.
  - (* SALTITUDE_CHANGE *)
    assert (Zu : zero (x_hyst u)).
    { destruct (update_hyst x) as [(H1 & _)|(H1 & _)]; fold u in H1; [|exact H1]. rewrite H1. unfold J in Jx. rewrite St in Jx. exact Jx. }
    unfold SwProofs2.run_state in Rn_. rewrite U1 in Rn_. unfold runAltitudeChange in Rn_.
    destruct (landingAreaHeightPercentile Rn Rround (x_grid u) (q_smooth (x_cfg u)) (ofZ Rn 80)) as [alt|]; cbn [obind] in Rn_; [|discriminate].
    assert (Hy : x_hyst x' = x_hyst u) by (destruct (inVerticalRange Rn _); injection Rn_ as <- <- <-; rewrite X; reflexivity).
    destruct Ed as [Ed|[Ed Sq]]; unfold J; rewrite Ed, Hy; [exact Zu|].
    exists vs, u, [], []. cbn [app]. split; [reflexivity|]. split; [exact U1|]. split; [|split; [constructor|split; [exact I|split; [constructor|apply filter_zero; exact Zu]]]].
    destruct (inVerticalRange Rn _); injection Rn_ as <- <- <-; rewrite X in Ed |- *; [reflexivity|]. cbn in Ed. congruence.
  - destruct Ed as [[Ed _]|[Ed _]]; unfold J; rewrite Ed; exact I.
  - destruct Ed as [[Ed _]|[Ed _]]; unfold J; rewrite Ed; exact I.
Qed.
Lemma hist_J junk os n out : Forall input_ok os -> nrun (node_init Rn Rceil junk) os = Some (n, out) -> J (nview (node_init Rn Rceil junk) os) (n_x n).
Proof.
  revert n out. induction os as [|o os IH] using rev_ind; intros n out F E.
  - cbn in E. injection E as <- <-. exact I.
  - apply Forall_app in F as [F Fo]. destruct (nrun_snoc _ _ _ _ _ _ _ _ _ _ E) as (m & o1 & o2 & E1 & E2 & _). specialize (IH m o1 F E1).
    pose proof (hist_winv G junk os m o1 F E1) as W. rewrite (nview_snoc _ _ _ _ _ _ _ _ _ _ _ _ E1 E2).
    destruct (cycle_dec Rn m o) as [[-> Rc]|Cb].
    + destruct (cycle_inv _ _ _ _ _ _ _ _ E2 Rc) as (C & _). rewrite Rc. apply (cycle_J _ _ _ _ W IH C).
    + destruct (callback_inv _ _ _ _ _ _ _ _ _ E2 Cb) as (_ & S1 & _ & _ & _ & _ & _ & _ & _ & _ & _ & S2 & S3 & _ & _ & S4 & _).
      replace (match o with OCycle => if n_received m then [updateSLPState Rn (n_x m)] else [] | _ => [] end) with (@nil (sw Rn)).
      * rewrite app_nil_r. apply (J_frame _ (n_x m)); assumption.
      * destruct o; try reflexivity. destruct Cb as [Cb|Cb]; [congruence|]. rewrite Cb. reflexivity.
Qed.
(** the evaluated patch *)
Lemma accepts_landable u d : winv u -> x_mask u = initMask (q_smooth (x_cfg u)) -> rows (x_hyst u) = rows (g_land (x_grid u)) -> accepts Rn u d ->
  let r := rows (g_land (x_grid u)) in let s := q_smooth (x_cfg u) in
  (d = (0, 0) \/ tried_offset r s d) /\ patch_landable (x_res u) s (r / 2 + fst d) (r / 2 + snd d) /\
  s <= r / 2 + fst d /\ r / 2 + fst d + s < r /\ s <= r / 2 + snd d /\ r / 2 + snd d + s < r.
Proof.
  intros [_ Hs _ _ Hr _ _ _ Rr Rc Hg _] M E [A1 A2]. cbv zeta.
  assert (Sq : cols (g_land (x_grid u)) = rows (g_land (x_grid u))) by (destruct Hg as (_ & _ & _ & _ & _ & _ & X & Y); congruence).
  rewrite Sq, M in A2. set (r := rows (g_land (x_grid u))) in *. set (s := q_smooth (x_cfg u)) in *. assert (A3 := A2).
  unfold evaluatePatch in A3. cbn [rows cols initMask] in A3.
  destruct (Z.leb_spec 0 (r / 2 + fst d - s)), (Z.leb_spec 0 (r / 2 + snd d - s)), (Z.leb_spec (r / 2 + fst d - s + (2 * s + 1)) (rows (x_res u))),
    (Z.leb_spec (r / 2 + snd d - s + (2 * s + 1)) (cols (x_res u))); cbn [andb] in A3; try discriminate.
  assert (Ra : rows (x_res u) = r) by (rewrite Rr; exact E). assert (Ca : cols (x_res u) = r) by (rewrite Rc; exact E). rewrite Ra in H1. rewrite Ca in H2.
  destruct (evaluatePatch_spec (x_res u) s (r / 2 + fst d - s) (r / 2 + snd d - s)) as (b & Eb & B); try assumption; try lia.
  rewrite A2 in Eb. injection Eb as <-. replace (r / 2 + fst d - s + s) with (r / 2 + fst d) in B by lia. replace (r / 2 + snd d - s + s) with (r / 2 + snd d) in B by lia.
  split.
  - destruct A1 as [A1|A1]; [left; exact A1|right]. apply candidates_iff in A1; try assumption; lia.
  - split; [apply B; reflexivity|]. lia.
Qed.
End Evidence.
