(** Further proofs for planner_functions.cpp, in the form in which PfProps.v states them. *)
From Coq Require Import ZArith Reals List Bool Lia Lra.
From Flocq Require Import Core.
From Verif Require Import Num Mat CommonModel CommonSpec CommonProofs HistModel HistProofs PfModel PfSpec PfProofs PfProofs2 PfProofs3 PfPad PfSmooth PfCost PfMisc.
Import ListNotations.
Local Open Scope Z_scope.

Lemma accepted_R (position p : vec3 Rn) (lo hi : R) : (0 <= lo)%R -> (0 <= hi)%R ->
  accepted Rn position lo hi p = true <-> (lo < v3norm Rn (v3sub Rn p position) < hi)%R.
Proof.
  intros Hlo Hhi. unfold accepted, distSq, isnanb, v3norm.
  assert (Eq : v3sqnorm Rn (v3sub Rn position p) = v3sqnorm Rn (v3sub Rn p position)).
  { unfold v3sqnorm, v3sub. cbn [vx vy vz]. rn. tR. ring. }
  rewrite Eq. set (q := v3sqnorm Rn (v3sub Rn p position)).
  assert (Hq : (0 <= q)%R). { unfold q, v3sqnorm, v3sub. cbn [vx vy vz]. rn. apply Rplus_le_le_0_compat; [apply Rplus_le_le_0_compat|]; apply Rle_0_sqr. }
  clearbody q. clear Eq. rn.
  assert (Hr : forall x : R, R_eqb x x = true) by (intros x; now apply R_eqb_true). tR. rewrite !Hr. cbn [negb andb].
  pose proof (sqrt_pos q) as Hs. pose proof (sqrt_sqrt q Hq) as Hss. set (s := sqrt q) in *. clearbody s.
  rewrite andb_true_iff, !R_ltb_true. subst q. split; intros (A & B); split; nra.
Qed.

Section Hist.
Context (N : num) (G : trig N) (cast : N -> Z) (max_age : N).
Lemma history_traced (cs : list (cycle N)) (out : list (xyzi N)) :
  foldM (cycle_step N G cast max_age) [] cs = Some out -> forall q, In q out -> traced N G max_age cs q.
Proof.
  revert out. induction cs as [|c cs IH] using rev_ind; intros out E.
  - injection E as <-. intros q [].
  - rewrite foldM_app in E. destruct (foldM (cycle_step N G cast max_age) [] cs) as [o1|] eqn:E1; [|discriminate].
    cbn [foldM] in E. destruct (cycle_step N G cast max_age o1 c) as [o2|] eqn:E2; [|discriminate]. injection E as <-.
    refine (traced_snoc N G cast max_age cs o1 c o2 _ _ E2); [|intros q; now apply IH].
    intros X. unfold cycle_step, processPointcloud in E2. rewrite X in E2.
    destruct (foldM _ _ []) as [s1|]; [|discriminate]. destruct (foldM _ s1 o1) as [(m & o)|]; discriminate.
Qed.
End Hist.

Lemma accumulated_R (l : list (cycle Rn)) : accumulated Rn l = fold_right (fun c s => (cy_elapsed Rn c + s)%R) 0%R l.
Proof.
  assert (K : forall (l : list (cycle Rn)) (a : R), fold_left (fun (a : Rn) c => add Rn a (cy_elapsed Rn c)) l a = (a + fold_right (fun c s => cy_elapsed Rn c + s) 0 l)%R).
  { clear. induction l as [|c l IH]; intros a; cbn [fold_left fold_right]; [lra|]. rewrite IH. rn. tR. lra. }
  unfold accumulated. rewrite K. rn. lra.
Qed.
Lemma history_expires (G : trig Rn) (cast : R -> Z) (max_age : R) (cs : list (cycle Rn)) (last : cycle Rn) (old : list (cycle Rn)) (out : list (xyzi Rn)) (p : vec3 Rn) :
  foldM (cycle_step Rn G cast max_age) [] (old ++ cs ++ [last]) = Some out ->
  (forall c, In c (old ++ cs ++ [last]) -> (0 <= cy_elapsed Rn c)%R) ->
  (forall c, In c (cs ++ [last]) -> ~ In p (concat (cy_clouds Rn c))) ->
  (max_age <= fold_right (fun c s => cy_elapsed Rn c + s) 0 cs)%R ->
  ~ exists q, In q out /\ pt q = p.
Proof.
  intros E Hpos Hno Hage (q & Hq & <-).
  destruct (history_traced Rn G cast max_age _ _ E q Hq) as (pre & c & post & Es & Hin & _ & _ & Hpost).
  assert (Hnot : ~ In c (cs ++ [last])) by (intros X; exact (Hno c X Hin)).
  destruct (app_eq_app _ _ _ _ Es) as (l & [(H1 & H2)|(H1 & H2)]).
  - destruct l as [|x l].
    + cbn [app] in H2. apply Hnot. rewrite <- H2. now left.
    + cbn [app] in H2. injection H2 as <- H2. subst old.
      destruct (Hpost (l ++ cs) last [] ltac:(rewrite H2, <- app_assoc; reflexivity)) as (Hlt & _).
      rewrite accumulated_R in Hlt. cbn [ltb Rn] in Hlt. apply R_ltb_true in Hlt.
      rewrite fold_right_app in Hlt.
      assert (K : forall (l : list (cycle Rn)) (a : R), (forall c, In c l -> (0 <= cy_elapsed Rn c)%R) -> (a <= fold_right (fun c s => cy_elapsed Rn c + s) a l)%R).
      { clear. induction l as [|c l IH]; intros a H; cbn [fold_right]; [lra|]. pose proof (IH a (fun c' Hc => H c' (or_intror Hc))). pose proof (H c (or_introl eq_refl)). lra. }
      pose proof (K l (fold_right (fun c s => (cy_elapsed Rn c + s)%R) 0%R cs)) as K1.
      assert (K2 : forall c, In c l -> (0 <= cy_elapsed Rn c)%R).
      { intros c' Hc. apply Hpos. apply in_or_app. left. apply in_or_app. right. now right. }
      specialize (K1 K2). tR. lra.
  - apply Hnot. rewrite H2. apply in_or_app. right. now left.
Qed.

Lemma mean_R (cast : R -> Z) (position : vec3 Rn) (h0 : hist Rn) (cloud : list (xyzi Rn)) :
  reachable Rn h0 -> h_res h0 = ALPHA_RES -> (forall e z d, h_get Rn h0 e z = Some d -> d = 0%R) ->
  exists h, generateNewHistogram Rn Rtrig cast h0 cloud position = Some h /\
  forall e z, 0 <= e < 30 -> 0 <= z < 60 ->
    let pts := filter (fun q => same_cell (polarToHistogramIndex Rn cast (cartesianToPolarHistogram Rn Rtrig (pt q) position) ALPHA_RES) (z, e)) cloud in
    exists v : R, h_get Rn h e z = Some v /\ (pts = [] -> v = 0%R) /\
    (v * IZR (Z.of_nat (length pts)) = fold_right (fun q s => v3norm Rn (v3sub Rn (pt q) position) + s) 0 pts)%R.
Proof.
  intros Hr H6 H0. pose proof (reachable_ghist Rn h0 Hr H6) as Hg.
  destruct (generateNewHistogram_spec Rn Rtrig cast position h0 cloud Hg) as (h & E & _ & S). exists h. split; [exact E|].
  intros e z He Hz pts. rewrite (S e z He Hz). change (in_cell Rn Rtrig cast position e z cloud) with pts.
  rewrite (H0 e z (cell (h_dist h0) e z) (ghist_get Rn h0 e z Hg He Hz)).
  eexists. split; [reflexivity|]. destruct pts as [|q l].
  - split; [reflexivity|]. cbn. rn. lra.
  - split; [discriminate|].
    assert (Hl : (IZR (Z.of_nat (length (q :: l))) <> 0)%R). { apply not_0_IZR. cbn [length]. lia. }
    assert (K : forall (k : list (xyzi Rn)) (a : R), sum_from Rn Rtrig position a k = (a + fold_right (fun q s => v3norm Rn (v3sub Rn (pt q) position) + s) 0 k)%R).
    { clear. induction k as [|q k IH]; intros a; unfold sum_from in *; cbn [fold_left fold_right]; [lra|].
      rewrite IH. cbn [add Rn]. change (dist_of Rn Rtrig position (pt q)) with (v3norm Rn (v3sub Rn (pt q) position)). tR. lra. }
    cbn [div Rn ofZ]. rewrite K. tR. set (w := IZR (Z.of_nat (length (q :: l)))) in *. field. exact Hl.
Qed.

Lemma candidates_cells (N : num) (m : mat N) (c : candidate N) : In c (candidates N m) <->
  exists e z, 0 <= e < rows m /\ 0 <= z < cols m /\ c_cost c = cell m e z /\
    c_e c = pe (histogramIndexToPolar N e z ALPHA_RES (ofZ N 1)) /\ c_z c = pz (histogramIndexToPolar N e z ALPHA_RES (ofZ N 1)).
Proof.
  unfold candidates. rewrite in_map_iff. split.
  - intros ((e, z) & <- & H). apply in_grid_idx in H. exists e, z. cbn [fst snd c_cost c_e c_z]. intuition.
  - intros (e & z & He & Hz & E1 & E2 & E3). exists (e, z). split; [|apply in_grid_idx; auto].
    destruct c as [c1 c2 c3]. cbn [fst snd c_cost c_e c_z] in *. now rewrite E1, E2, E3.
Qed.

Lemma sphere_cell_direction (R C r c : Z) : 0 < R -> 0 < C -> C mod 2 = 0 -> - R <= r < 2 * R ->
  let (r', c') := sphere_cell R C r c in 0 <= r' < R /\ 0 <= c' < C /\
  (0 <= r < R -> r' = r /\ (c' - c) mod C = 0) /\
  (r < 0 -> r + r' = -1 /\ (c' - c - C / 2) mod C = 0) /\
  (R <= r -> r + r' = 2 * R - 1 /\ (c' - c - C / 2) mod C = 0).
Proof.
  intros HR HC Hev Hr. unfold sphere_cell.
  assert (M : forall x, 0 <= x mod C < C /\ (x mod C - x) mod C = 0).
  { intros x. pose proof (Z.mod_pos_bound x C HC). split; [assumption|]. rewrite Zminus_mod_idemp_l. rewrite Z.sub_diag. reflexivity. }
  destruct (M c) as (M1 & M2). destruct (M (c + C / 2)) as (M3 & M4).
  replace ((c + C / 2) mod C - (c + C / 2)) with ((c + C / 2) mod C - c - C / 2) in M4 by ring.
  generalize dependent (c mod C). generalize dependent ((c + C / 2) mod C). intros x Hx Ex y Hy Ey.
  destruct (Z.ltb_spec r 0); [|destruct (Z.ltb_spec r R)]; repeat split; try assumption; try lia; intros; try (exfalso; lia); assumption.
Qed.

Lemma interp_lin (s z : Z) : 1 <= s -> 0 <= z < 60 ->
  let a := z - z mod s in let w := Z.min s (60 - a) in
  0 <= a <= z /\ z < a + w /\ a mod s = 0 /\ 0 <= (a + w) mod 60 < 60 /\
  forall v : Z -> R, interp Rn s v z = (v a + IZR (z - a) / IZR w * (v ((a + w) mod 60) - v a))%R.
Proof.
  intros Hs Hz a w. unfold interp. pose proof (Z.mod_pos_bound z s ltac:(lia)) as M. pose proof (Z.div_mod z s ltac:(lia)) as E.
  assert (Hd : 0 <= z / s) by (apply Z.div_pos; lia).
  assert (Ha : a mod s = 0). { unfold a. replace (z - z mod s) with (z / s * s) by lia. apply Z.mod_mul. lia. }
  assert (Ha' : 0 <= a <= z) by (unfold a; nia). assert (Hw : 1 <= w) by (unfold w; lia).
  assert (Hz' : z < a + w) by (unfold w, a in *; lia).
  assert (Hw' : (1 <= IZR w)%R) by (apply IZR_le; exact Hw).
  split; [exact Ha'|]. split; [exact Hz'|]. split; [exact Ha|]. split; [apply Z.mod_pos_bound; lia|]. intros v.
  destruct (Z.eqb_spec (z mod s) 0) as [E0|E0].
  - unfold a. rewrite E0, Z.sub_0_r, Z.sub_diag. unfold Rdiv. rewrite !Rmult_0_l, Rplus_0_r. reflexivity.
  - fold a. replace (z mod s) with (z - a) by (unfold a; lia). destruct (Z.ltb_spec (a + s) 60) as [L|L].
    + assert (Ew : w = s) by (unfold w; lia). rewrite Ew in *. rewrite Z.mod_small by lia. unfold line. rn. tR. field. lra.
    + assert (Ew : w = 60 - a) by (unfold w; lia). replace ((a + w) mod 60) with 0 by (rewrite Ew; replace (a + (60 - a)) with 60 by lia; reflexivity).
      rewrite <- Ew. unfold line. rn. tR. field. lra.
Qed.

Lemma ZnearestA_ge1 x : (1 <= x)%R -> 1 <= ZnearestA x.
Proof. intros H. rewrite <- (Zrnd_IZR ZnearestA 1). apply Zrnd_le; [apply valid_rnd_NA|exact H]. Qed.

Lemma every_cell_filled (cast : R -> Z) (h : hist Rn) goal position velocity cp (margin : R) closest max_range min_range :
  reachable Rn h -> h_res h = ALPHA_RES -> (0 <= margin <= 180)%R ->
  exists facing (cm dm sm : mat Rn) img out,
    obstacleFacingGoal Rn Rtrig cast h goal position max_range min_range = Some facing /\
    getCostMatrix Rn Rtrig cast (ZnearestA : Rn -> Z) (Zceil : Rn -> Z) h goal position velocity cp margin closest max_range min_range = Some (out, img) /\
    rows out = 30 /\ cols out = 60 /\ rows dm = 30 /\ cols dm = 60 /\
    smoothPolarMatrix Rn dm (Zceil (margin / 6)%R) = Some sm /\ generateCostImage Rn cast cm sm = Some img /\
    forall e z, 0 <= e < 30 -> 0 <= z < 60 ->
      let step := ZnearestA (1 / cos (IZR (6 * e + 3 - 90) * (PI / 180)))%R in
      let evaluated z' := costFunction Rn Rtrig (histogramIndexToPolar Rn e z' ALPHA_RES 1%R)
                            (match h_get Rn h e z' with Some d => d | None => 0%R end) goal position velocity cp closest facing in
      let a := z - z mod step in let w := Z.min step (60 - a) in let b := (a + w) mod 60 in
      1 <= step /\
      cell out e z = (cell cm e z + cell sm e z)%R /\
      cell dm e z = (fst (evaluated a) + IZR (z - a) / IZR w * (fst (evaluated b) - fst (evaluated a)))%R /\
      cell cm e z = (snd (evaluated a) + IZR (z - a) / IZR w * (snd (evaluated b) - snd (evaluated a)))%R.
Proof.
  intros Hr H6 Hm. pose proof (reachable_ghist Rn h Hr H6) as Hg.
  assert (Hc : 0 <= Zceil (margin / 6)%R <= 30).
  { split; [rewrite <- (Zceil_IZR 0)|rewrite <- (Zceil_IZR 30)]; apply Zceil_le; lra. }
  destruct (costMatrix_R cast ZnearestA Zceil h goal position velocity cp margin closest max_range min_range Hg ZnearestA_ge1 Hc)
    as (facing & cm & dm & sm & img & out & E1 & E2 & R1 & C1 & R2 & C2 & E3 & E4 & S).
  exists facing, cm, dm, sm, img, out. do 8 (split; [assumption|]).
  intros e z He Hz step evaluated a w b.
  assert (Hstep : stepSize Rn Rtrig ZnearestA e = step).
  { unfold stepSize, step, histogramIndexToPolar, DEG_TO_RAD, ALPHA_RES. cbn [pe Rtrig t_cos]. rn. change (6 / 2)%Z with 3. f_equal. tR.
    replace (e * 6 + 3 - 90)%Z with (6 * e + 3 - 90)%Z by lia. reflexivity. }
  assert (H1 : 1 <= step) by (rewrite <- Hstep; apply stepSize_R; [exact ZnearestA_ge1|exact He]).
  destruct (S e z He Hz) as (S1 & S2 & S3). cbv zeta in S1, S2. rewrite Hstep in S1, S2.
  assert (Hev : forall z', 0 <= z' < 60 -> costFunction Rn Rtrig (histogramIndexToPolar Rn e z' ALPHA_RES 1%R) (cell (h_dist h) e z') goal position velocity cp closest facing = evaluated z').
  { intros z' Hz'. unfold evaluated. now rewrite (ghist_get Rn h e z' Hg He Hz'). }
  split; [exact H1|]. split; [exact S3|].
  destruct (interp_lin step z H1 Hz) as (Ha & Hza & _ & Hb & L). fold a in Ha, Hza, Hb, L. fold w in Hza, Hb, L. fold b in Hb, L.
  rewrite S1, S2, !L. rewrite (Hev a) by lia. rewrite (Hev b) by lia. split; reflexivity.
Qed.

Local Open Scope R_scope.
Lemma seg_x (a b : R) : seg_len (V3 a 0 0) (V3 b 0 0) = Rabs (b - a).
Proof.
  unfold seg_len, v3norm, v3sqnorm, v3sub. cbn [vx vy vz]. rn. tR.
  replace ((b - a) * (b - a) + (0 - 0) * (0 - 0) + (0 - 0) * (0 - 0)) with (Rsqr (b - a)) by (unfold Rsqr; ring). apply sqrt_Rsqr_abs.
Qed.
Lemma setpoint_fails_at_node :
  exists (path : list (vec3 Rn)) (dist : R), 0 < dist < path_length (V3 0 0 0) [V3 1 0 0; V3 3 0 0] /\
    path = rev [V3 (-1) 0 0; V3 0 0 0; V3 1 0 0; V3 3 0 0] /\
    no_zero_segment (V3 0 0 0) [V3 1 0 0; V3 3 0 0] /\
    fst (getSetpointFromPath Rn path dist) = false.
Proof.
  exists (rev [V3 (-1) 0 0; V3 0 0 0; V3 1 0 0; V3 3 0 0] : list (vec3 Rn)), 1.
  assert (L1 : seg_len (V3 0 0 0) (V3 1 0 0) = 1) by (rewrite seg_x; rewrite Rabs_pos_eq; lra).
  assert (L2 : seg_len (V3 1 0 0) (V3 3 0 0) = 2) by (rewrite seg_x; rewrite Rabs_pos_eq; lra).
  split; [|split; [reflexivity|]].
  - cbn [path_length]. rewrite L1, L2. lra.
  - assert (Z : no_zero_segment (V3 0 0 0) [V3 1 0 0; V3 3 0 0]) by (cbn; repeat split; intros [=]; lra).
    split; [exact Z|].
    destruct (setpoint_spec (V3 (-1) 0 0) (V3 0 0 0) (V3 1 0 0) [V3 3 0 0] 1 ltac:(lra) Z) as (ok & sp & E & _ & I).
    match type of E with ?x = _ => match goal with |- fst ?y = _ => change y with x end end.
    rewrite E. cbn [fst]. destruct ok; [|reflexivity]. exfalso. destruct (proj1 I eq_refl) as (_ & NI). apply NI.
    cbn [node_distances]. left. exact L1.
Qed.

Lemma smooth_raises (m o : mat Rn) (radius : Z) : (0 <= radius <= rows m)%Z -> (radius <= cols m)%Z -> (cols m mod 2 = 0)%Z -> (0 < cols m)%Z ->
  (forall i j, (0 <= i < rows m)%Z -> (0 <= j < cols m)%Z -> 0 <= cell m i j) ->
  smoothPolarMatrix Rn m radius = Some o ->
  forall r c k l, (0 <= r < rows m)%Z -> (0 <= c < cols m)%Z -> (- radius <= l <= radius)%Z -> (- radius <= k <= radius)%Z ->
    0 < sphere_at m (r + l) (c + k) -> 0 < cell o r c.
Proof.
  intros Hr Hc Hev HC Hpos E r c k l Hr' Hc' Hl Hk Hobs. destruct (smooth_spec m radius Hr Hc Hev HC) as (o' & E' & _ & _ & S).
  rewrite E in E'. injection E' as <-. rewrite S by assumption.
  assert (Hsp : forall i j, (- rows m <= i < 2 * rows m)%Z -> 0 <= sphere_at m i j).
  { intros i j Hij. pose proof (sphere_cell_range (rows m) (cols m) i j HC Hij) as (H1 & H2). unfold sphere_at.
    destruct (sphere_cell (rows m) (cols m) i j) as [a b]. cbn [fst snd] in *. now apply Hpos. }
  assert (Hterm : forall k', (0 <= k' < 2 * radius + 1)%Z -> forall l', (0 <= l' < 2 * radius + 1)%Z ->
     0 <= sphere_at m (r - radius + l') (c - radius + k') * cone radius l').
  { intros k' Hk' l' Hl'. apply Rmult_le_pos; [apply Hsp; lia|]. destruct (cone_pos radius l' Hl'). lra. }
  assert (Hin : forall k', (0 <= k' < 2 * radius + 1)%Z -> 0 <= zsum Rn (2 * radius + 1) (fun l => (sphere_at m (r - radius + l) (c - radius + k') * cone radius l)%R : Rn)).
  { intros k' Hk'. apply zsum_nonneg; [lia|]. intros l' Hl'. now apply Hterm. }
  eapply Rlt_le_trans; [|apply zsum_term with (k0 := (k + radius)%Z); [lia|]].
  - cbv beta. destruct (cone_pos radius (k + radius)%Z ltac:(lia)) as (K1 & _). apply Rmult_lt_0_compat; [|exact K1].
    eapply Rlt_le_trans; [|apply zsum_term with (k0 := (l + radius)%Z); [lia|]].
    + cbv beta. destruct (cone_pos radius (l + radius)%Z ltac:(lia)) as (L1 & _). apply Rmult_lt_0_compat; [|exact L1].
      replace (r - radius + (l + radius))%Z with (r + l)%Z by lia. replace (c - radius + (k + radius))%Z with (c + k)%Z by lia. exact Hobs.
    + intros l' Hl'. apply Hterm; [lia|exact Hl'].
  - intros k' Hk'. apply Rmult_le_pos; [now apply Hin|]. destruct (cone_pos radius k' Hk'). lra.
Qed.
