(** C117: the look-ahead path does not step into a wall that the planner remembers. Composes LpModel.v (the planner), StarModel.v (the tree), PfModel.v (histogram, costs,
    ranking): local_planner.cpp:72-83, 116-148, star_planner.cpp:42-159. Ideal arithmetic. *)
From Coq Require Import ZArith Reals List Bool Lia Lra Permutation.
From Flocq Require Import Core BinarySingleNaN.
From Verif Require Import Num Mat CommonModel CommonSpec CommonProofs HistModel HistProofs PfModel PfSpec PfProofs PfProofs2 PfProofs3 PfPad PfSmooth PfCost PfMisc PfExtra PfDecide
  PfDecideProps StarModel StarSpec StarProofs StarProofs2 LpModel LpSpec LpProofs LpProofs2.
Import ListNotations.
Local Open Scope R_scope.

(** the point q, looked at from p, is in the cell of row e (elevation) and column z (azimuth) of the 6-degree grid *)
Definition sees (cast : R -> Z) (p q : vec3 Rn) (e z : Z) : Prop := polarToHistogramIndex Rn cast (cartesianToPolarHistogram Rn Rtrig q p) ALPHA_RES = (z, e).
(** the cells within r rows and columns of (e, z); in a row with skipped columns (towards the poles) further, up to the next evaluated column *)
Definition near (r e z e' z' : Z) : Prop := (Z.abs (e' - e) <= r)%Z /\ exists k, (Z.abs k <= r + (step_of e' - 1))%Z /\ z' = ((z + k) mod 60)%Z.
(** walled: in all these cells there are remembered points, none of them farther than dmax; open: there are none *)
Definition walled (cast : R -> Z) (cloud : list (xyzi Rn)) (p : vec3 Rn) (r e z : Z) (dmax : R) : Prop :=
  forall e' z', near r e z e' z' -> (exists q, In q cloud /\ sees cast p (pt q) e' z') /\
    forall q, In q cloud -> sees cast p (pt q) e' z' -> 0 < v3norm Rn (v3sub Rn (pt q) p) <= dmax.
Definition clear (cast : R -> Z) (cloud : list (xyzi Rn)) (p : vec3 Rn) (r e z : Z) : Prop :=
  forall e' z' q, near r e z e' z' -> In q cloud -> ~ sees cast p (pt q) e' z'.

(** ** Proof *)
Definition cand_at (m : mat Rn) (c : Z * Z) : candidate Rn := Cand (cell m (fst c) (snd c)) (ce (fst c) : Rn) (cz (snd c) : Rn).
Lemma cand_at_in m e z : (0 <= e < rows m)%Z -> (0 <= z < cols m)%Z -> In (cand_at m (e, z)) (candidates Rn m).
Proof.
  intros He Hz. apply (proj2 (candidates_cells Rn m _)). exists e, z. do 2 (split; [assumption|]). cbn [cand_at c_cost c_e c_z fst snd].
  change (ofZ Rn 1) with (1 : Rn). rewrite centre_eq. repeat split; reflexivity.
Qed.
Lemma cand_at_inj m a b : cand_at m a = cand_at m b -> a = b.
Proof.
  destruct a as [e z], b as [e' z']. unfold cand_at. cbn [fst snd]. intros E. pose proof (f_equal c_e E) as E1. pose proof (f_equal c_z E) as E2. cbn [c_e c_z] in E1, E2.
  unfold ce in E1. unfold cz in E2. apply eq_IZR in E1, E2. f_equal; lia.
Qed.
Lemma candidate_cell m c : In c (candidates Rn m) -> exists e z, (0 <= e < rows m)%Z /\ (0 <= z < cols m)%Z /\ c = cand_at m (e, z).
Proof.
  intros I. destruct (proj1 (candidates_cells Rn m c) I) as (e & z & He & Hz & Ec & Ee & Ez). exists e, z. do 2 (split; [assumption|]).
  change (ofZ Rn 1) with (1 : Rn) in Ee, Ez. rewrite centre_eq in Ee, Ez. cbn [pe pz] in Ee, Ez. destruct c as [x y w]. cbn [c_cost c_e c_z] in *. subst. reflexivity.
Qed.
(** a cell that n others undercut is not among the n best *)
Lemma not_among_best (top : list (candidate Rn) -> option (candidate Rn * list (candidate Rn))) (m : mat Rn) n out (c1 : Z * Z) (fr : list (Z * Z)) :
  is_priority_queue Rn top -> (1 <= n)%Z -> getBestCandidatesFromCostMatrix Rn top m n = Some out -> NoDup fr -> (n <= Z.of_nat (length fr))%Z ->
  (forall e z, In (e, z) fr -> (0 <= e < rows m)%Z /\ (0 <= z < cols m)%Z /\ cell m e z < cell m (fst c1) (snd c1)) ->
  ~ In (cand_at m c1) out.
Proof.
  intros PQ Hn E ND Hl Hfr I1. assert (NN : forall x : Rn, isnanb Rn x = false).
  { intros x. unfold isnanb. rn. destruct (R_eqb_spec x x) as [_|X]; [reflexivity|]. exfalso. apply X. reflexivity. }
  destruct (getBest_spec Rn ordered_Rn top PQ m n Hn) as (out' & rest & E' & P & L & _ & M). { intros c _. apply NN. }
  rewrite E in E'. injection E' as <-.
  assert (Inc : incl (map (cand_at m) (c1 :: fr)) out).
  { intros c Hc. cbn [map] in Hc. destruct Hc as [<-|Hc]; [exact I1|]. apply in_map_iff in Hc as ((e, z) & <- & Hez). destruct (Hfr e z Hez) as (He & Hz & Hlt).
    pose proof (cand_at_in m e z He Hz) as I. apply (Permutation_in _ P), in_app_iff in I as [I|I]; [exact I|]. exfalso.
    pose proof (M _ _ I I1) as K. revert K. unfold cand_at. cbn [c_cost fst snd]. rn. tR. intros K.
    destruct (R_ltb_spec (cell m e z) (cell m (fst c1) (snd c1))); [discriminate|]. tR. lra. }
  assert (N1 : NoDup (map (cand_at m) (c1 :: fr))).
  { apply FinFun.Injective_map_NoDup; [intros a b; apply cand_at_inj|]. constructor; [|exact ND]. intros X. destruct c1 as [e z]. destruct (Hfr e z X) as (_ & _ & K). cbn [fst snd] in K. lra. }
  pose proof (NoDup_incl_length N1 Inc) as K. rewrite map_length in K. cbn [length] in K. lia.
Qed.

Lemma get_inj {A} (a b : A) : Some a = Some b -> a = b. Proof. congruence. Qed.
Lemma foldM_keeps {A S} (f : S -> A -> option S) (P : S -> Prop) l : (forall s a s', P s -> f s a = Some s' -> P s') -> forall s s', P s -> foldM f s l = Some s' -> P s'.
Proof.
  intros H. induction l as [|a l IH]; intros s s' Hs Ef; cbn [foldM] in Ef; [apply get_inj in Ef; rewrite <- Ef; exact Hs|].
  destruct (f s a) as [s1|] eqn:E1; [|discriminate Ef]. exact (IH s1 s' (H s a s1 Hs E1) Ef).
Qed.
Lemma fresh_hist (h0 : hist Rn) : h_new Rn ALPHA_RES = Some h0 -> reachable Rn h0 /\ h_res h0 = ALPHA_RES /\ (forall e z d, h_get Rn h0 e z = Some d -> d = 0%R).
Proof.
  intros E0. destruct (new_ghist Rn) as (h0' & E0' & G0 & Z0). assert (h0' = h0) as -> by congruence.
  split; [exists 6%Z, h0, []; split; [lia|split; [exact E0|reflexivity]]|]. split; [apply G0|].
  intros e z d. unfold h_get. destruct (wrapIndex Rn h0 e z) as [(a, b)|]; [|discriminate]. unfold mget. match goal with |- context [if ?b then _ else _] => destruct b; [|discriminate] end.
  intros X. apply get_inj in X. rewrite <- X. apply Z0.
Qed.
Lemma gnh_reachable cast cloud p (h0 h : hist Rn) : generateNewHistogram Rn Rtrig cast h0 cloud p = Some h -> reachable Rn h0 -> reachable Rn h.
Proof.
  unfold generateNewHistogram. intros E H0. destruct (foldM _ _ cloud) as [(counter, h1)|] eqn:E1; [|discriminate E].
  assert (K : forall (a : hist Rn) x y v b, reachable Rn a -> h_set Rn a x y v = Some b -> reachable Rn b).
  { intros a x y v b Ra Eb. apply (step_reachable Rn a (HSet x y v) b Ra). cbn [h_step]. rewrite Eb. reflexivity. }
  assert (R1 : reachable Rn h1).
  { refine (foldM_keeps _ (fun s : mat Z * hist Rn => reachable Rn (snd s)) cloud _ (_, h0) (counter, h1) H0 E1).
    intros (c, a) q (c', b) Ra. cbn [snd]. unfold gh_step. destruct (polarToHistogramIndex _ _ _ _) as (ix, iy). destruct (mget c iy ix); [|discriminate].
    destruct (mset c iy ix _); [|discriminate]. destruct (h_get Rn a iy ix); [|discriminate]. destruct (h_set Rn a iy ix _) as [b'|] eqn:Eb; [|discriminate].
    intros X. apply get_inj in X. assert (b' = b) as <- by congruence. exact (K _ _ _ _ _ Ra Eb). }
  refine (foldM_keeps _ (fun s : hist Rn => reachable Rn s) _ _ h1 h R1 E).
  intros a (e, z) b Ra. unfold gh_norm_step. destruct (mget counter e z) as [n|]; [|discriminate]. destruct (0 <? n)%Z.
  - destruct (h_get Rn a e z); [|discriminate]. intros Eb. exact (K _ _ _ _ _ Ra Eb).
  - intros Eb. exact (K _ _ _ _ _ Ra Eb).
Qed.

Section Look.
Context (cast : R -> Z) (cloud : list (xyzi Rn)) (p : vec3 Rn) (h0 h : hist Rn)
  (E0 : h_new Rn ALPHA_RES = Some h0) (E : generateNewHistogram Rn Rtrig cast h0 cloud p = Some h).
Lemma look_reachable : reachable Rn h /\ h_res h = ALPHA_RES.
Proof using E0 E.
  destruct (fresh_hist h0 E0) as (R0 & R6 & _). split; [exact (gnh_reachable _ _ _ _ _ E R0)|].
  destruct (generateNewHistogram_spec Rn Rtrig cast p h0 cloud (reachable_ghist Rn h0 R0 R6)) as (h' & E' & G & _). assert (h' = h) as -> by congruence. apply G.
Qed.
Lemma look_cell e z : (0 <= e < 30)%Z ->
  exists v : R, h_get Rn h e z = Some v /\
  ((forall q, In q cloud -> ~ sees cast p (pt q) e (z mod 60)) -> v = 0) /\
  forall dmax, (exists q, In q cloud /\ sees cast p (pt q) e (z mod 60)) ->
    (forall q, In q cloud -> sees cast p (pt q) e (z mod 60) -> 0 < v3norm Rn (v3sub Rn (pt q) p) <= dmax) -> 0 < v <= dmax.
Proof using E0 E.
  intros He. destruct (fresh_hist h0 E0) as (R0 & R6 & Z0). destruct look_reachable as (Rh & R6h).
  destruct (mean_R cast p h0 cloud R0 R6 Z0) as (h' & E' & S). assert (h' = h) as -> by congruence.
  pose proof (Z.mod_pos_bound z 60 ltac:(lia)) as Hz. specialize (S e (z mod 60)%Z He Hz). cbv zeta in S.
  set (pts := filter _ cloud) in S. destruct S as (v & Ev & V0 & Vs). exists v. split; [rewrite <- hval_mod by assumption; exact Ev|].
  assert (Ip : forall q, In q pts <-> In q cloud /\ sees cast p (pt q) e (z mod 60)).
  { intros q. unfold pts. rewrite filter_In. rewrite same_cell_true. reflexivity. }
  split.
  - intros Hn. apply V0. destruct pts as [|q l]; [reflexivity|]. exfalso. destruct (proj1 (Ip q) ltac:(left; reflexivity)) as (A & B). exact (Hn q A B).
  - intros dmax (q0 & Q0 & Q1) Hall.
    assert (Hp : forall q, In q pts -> 0 < v3norm Rn (v3sub Rn (pt q) p) <= dmax) by (intros q Hq; apply Ip in Hq as (A & B); exact (Hall q A B)).
    assert (I0 : In q0 pts) by (apply Ip; split; assumption).
    assert (K : forall l : list (xyzi Rn), (forall q, In q l -> 0 < v3norm Rn (v3sub Rn (pt q) p) <= dmax) ->
      0 <= fold_right (fun q s => v3norm Rn (v3sub Rn (pt q) p) + s) 0 l <= dmax * IZR (Z.of_nat (length l)) /\
      (l <> [] -> 0 < fold_right (fun q s => v3norm Rn (v3sub Rn (pt q) p) + s) 0 l)).
    { induction l as [|q l IH]; intros Hl; cbn [fold_right length]; [split; [cbn; lra|congruence]|].
      destruct IH as (IH & _); [intros; apply Hl; right; assumption|]. specialize (Hl q (or_introl eq_refl)). rewrite Nat2Z.inj_succ, succ_IZR. split; [lra|intros _; lra]. }
    destruct (K pts Hp) as (K1 & K2). assert (N0 : pts <> []) by (intros X; rewrite X in I0; destruct I0). specialize (K2 N0). rewrite <- Vs in K1, K2.
    assert (L : 0 < IZR (Z.of_nat (length pts))) by (apply IZR_lt; destruct pts; [congruence|cbn [length]; lia]).
    split; [nra|]. nra.
Qed.
Lemma wall_around r e z dmax : (r <= e < 30 - r)%Z -> walled cast cloud p r e z dmax -> all_around h r e z (fun x => 0 < x <= dmax).
Proof using E0 E.
  intros He W e' k He' Hk. destruct (look_cell e' (z + k) ltac:(lia)) as (v & Ev & _ & V). exists v. split; [exact Ev|].
  destruct (W e' ((z + k) mod 60)%Z) as (W1 & W2). { split; [exact He'|]. exists k. split; [exact Hk|reflexivity]. } exact (V dmax W1 W2).
Qed.
Lemma clear_around r e z : (r <= e < 30 - r)%Z -> clear cast cloud p r e z -> all_around h r e z (fun x => x = 0).
Proof using E0 E.
  intros He W e' k He' Hk. destruct (look_cell e' (z + k) ltac:(lia)) as (v & Ev & V & _). exists v. split; [exact Ev|]. apply V. intros q Hq.
  apply W; [|exact Hq]. split; [exact He'|]. exists k. split; [exact Hk|reflexivity].
Qed.
End Look.

(** what one step costs at most besides obstacles, and what an obstacle within dmax in all the margin costs at least (C112) *)
Definition detour_cost (cp : costParameters Rn) (eg : R) (e : Z) (speed : R) : R :=
  yaw_cost_param cp * 180 ^ 2 + pitch_cost_param cp * (IZR (6 * e - 87) - eg) ^ 2 + 2 * velocity_cost_param cp * speed.
Definition wall_cost (cp : costParameters Rn) (dmax : R) (r : Z) : R :=
  let x := obstacle_cost_param cp - dmax in 5000 * (1 + x / sqrt (1 + x * x)) * (1 + IZR r) ^ 2.

(** the candidates of a node *)
Lemma candidate_not_walled (cast : R -> Z) top cloud goal (cp : costParameters Rn) margin closest mx mn n p vel cs c :
  is_priority_queue Rn top -> 0 <= margin <= 180 -> (1 <= n)%Z ->
  0 <= yaw_cost_param cp /\ 0 <= pitch_cost_param cp /\ 0 <= velocity_cost_param cp ->
  starCandidates Rn Rtrig cast (ZnearestA : Rn -> Z) (Zceil : Rn -> Z) top cloud goal cp margin closest mx mn n p vel = Some cs -> In c cs ->
  exists e z, (0 <= e < 30)%Z /\ (0 <= z < 60)%Z /\ c_e c = IZR (6 * e - 87) /\ c_z c = IZR (6 * z - 177) /\
  forall eg zg d dmax fr, let r := Zceil (margin / 6) in
    goal = at_polar p eg zg d -> 5 <= d -> -90 < eg < 90 -> -180 < zg <= 180 -> (r <= e < 30 - r)%Z ->
    NoDup fr -> (n <= Z.of_nat (length fr))%Z ->
    (forall e2 z2, In (e2, z2) fr -> (r <= e2 < 30 - r)%Z /\ (0 <= z2 < 60)%Z /\ clear cast cloud p r e2 z2 /\
       detour_cost cp eg e2 (v3norm Rn vel) < wall_cost cp dmax r) ->
    ~ walled cast cloud p r e z dmax.
Proof.
  intros PQ Hm Hn Hw Es Ic. unfold starCandidates in Es. destruct (h_new Rn ALPHA_RES) as [h0|] eqn:E0; [|discriminate Es]. cbn [obind] in Es.
  destruct (generateNewHistogram Rn Rtrig cast h0 cloud p) as [h|] eqn:E1; [|discriminate Es]. cbn [obind] in Es.
  destruct (getCostMatrix Rn Rtrig cast _ _ h goal p vel cp margin closest mx mn) as [(out, img)|] eqn:E2; [|discriminate Es]. cbn [obind fst] in Es.
  destruct (look_reachable cast cloud p h0 h E0 E1) as (Rh & R6).
  destruct (matrices cast h goal p vel cp margin closest mx mn out img Rh R6 Hm E2) as (facing & cm & dm & sm & _ & R1 & C1 & _).
  assert (NN : forall x : Rn, isnanb Rn x = false).
  { intros x. unfold isnanb. rn. destruct (R_eqb_spec x x) as [_|X]; [reflexivity|]. exfalso. apply X. reflexivity. }
  destruct (getBest_spec Rn ordered_Rn top PQ out n Hn) as (out' & rest & E' & P & _). { intros k _. apply NN. }
  rewrite Es in E'. apply get_inj in E'. subst out'.
  assert (I : In c (candidates Rn out)) by (apply (Permutation_in _ (Permutation_sym P)), in_or_app; left; exact Ic).
  destruct (candidate_cell out c I) as (e & z & He & Hz & ->). rewrite R1 in He. rewrite C1 in Hz. exists e, z. do 2 (split; [assumption|]). do 2 (split; [reflexivity|]).
  intros eg zg d dmax fr r Eg Hd Heg Hzg Her ND Hl Hfr W. subst goal.
  apply (not_among_best top out n cs (e, z) fr PQ Hn Es ND Hl); [|exact Ic]. intros e2 z2 I2. destruct (Hfr e2 z2 I2) as (He2 & Hz2 & Cl & U).
  rewrite R1, C1. cbn [fst snd]. pose proof (radius_range margin Hm) as Rr. change (smooth_radius margin) with r in Rr. split; [lia|]. split; [exact Hz2|].
  apply (C112_walled_direction_not_chosen cast h p vel eg zg d closest cp margin mx mn out img e z e2 z2 dmax Rh R6 Hm Hd Heg Hzg Hw Her Hz He2 Hz2
           (wall_around cast cloud p h0 h E0 E1 r e z dmax Her W) (clear_around cast cloud p h0 h E0 E1 r e2 z2 He2 Cl) U E2).
Qed.

Lemma chain_in (tree : list (tnode Rn)) i l v : root_chain Rn tree i l -> In v l -> exists j, nth_error tree j = Some v.
Proof. intros R. induction R as [r Er|i t l Hi Et R IH]; intros Hv; cbn [In] in Hv; [destruct Hv as [<-|[]]; eauto|]. destruct Hv as [<-|Hv]; [eauto|exact (IH Hv)]. Qed.
Lemma step_length c_e c_z d p e z : 0 < d -> (0 <= e < 30)%Z -> (0 <= z < 60)%Z -> c_e = IZR (6 * e - 87) -> c_z = IZR (6 * z - 177) ->
  v3norm Rn (v3sub Rn (at_polar p c_e c_z d) p) = d.
Proof.
  intros Hd He Hz -> ->. apply dist_of_at; [exact Hd| |].
  - pose proof (IZR_le (-87) (6 * e - 87) ltac:(lia)). pose proof (IZR_le (6 * e - 87) 87 ltac:(lia)). lra.
  - pose proof (IZR_le (-177) (6 * z - 177) ltac:(lia)). pose proof (IZR_le (6 * z - 177) 177 ltac:(lia)). lra.
Qed.

(** C117. One planner run. Either the planner keeps the old path (nothing is remembered), or every step u of the new path, from its predecessor v (the path starts at the
    vehicle and is returned back to front), goes to the centre of a cell of the grid around v, one node distance away, and this cell is not walled, if as many other directions
    as a node has children are open and affordable: the cost of turning there, climbing there and of the change of velocity does not exceed that of the wall. [cloud]: the points
    remembered after the run; goal at least 5 m from v. *)
Theorem C117_no_step_into_a_wall :
  forall (secs : Z -> R) (cast : R -> Z) (top : list (candidate Rn) -> option (candidate Rn * list (candidate Rn))) (huge : R)
    (g : lp_config Rn) (s s' : lp_state Rn) (clouds : list (list (vec3 Rn))) (now : Z),
  is_priority_queue Rn top -> 0 <= g_margin g <= 180 -> (1 <= g_children g)%Z -> 0 < g_node_distance g ->
  0 <= yaw_cost_param (g_cost g) /\ 0 <= pitch_cost_param (g_cost g) /\ 0 <= velocity_cost_param (g_cost g) ->
  runPlanner Rn Rtrig secs cast (ZnearestA : Rn -> Z) (Zceil : Rn -> Z) top huge g s clouds now = Some s' ->
  let cloud := l_cloud s' in let r := Zceil (g_margin g / 6) in let speed := Rmax (v3norm Rn (l_vel s)) (g_node_distance g) in
  (l_path s' = l_path s /\ l_path_time s' = l_path_time s) \/
  (l_path_time s' = now /\ (exists p, l_path s' = p ++ [l_pos s]) /\
   forall k u v, nth_error (l_path s') k = Some u -> nth_error (l_path s') (S k) = Some v ->
   exists e z, (0 <= e < 30)%Z /\ (0 <= z < 60)%Z /\ u = at_polar v (IZR (6 * e - 87)) (IZR (6 * z - 177)) (g_node_distance g) /\
   forall eg zg d dmax (others : list (Z * Z)),
     l_goal s = at_polar v eg zg d -> 5 <= d -> -90 < eg < 90 -> -180 < zg <= 180 -> (r <= e < 30 - r)%Z ->
     NoDup others -> (g_children g <= Z.of_nat (length others))%Z ->
     (forall e2 z2, In (e2, z2) others -> (r <= e2 < 30 - r)%Z /\ (0 <= z2 < 60)%Z /\ clear cast cloud v r e2 z2 /\
        detour_cost (g_cost g) eg e2 speed < wall_cost (g_cost g) dmax r) ->
     ~ walled cast cloud v r e z dmax).
Proof.
  intros secs cast top huge g s s' clouds now PQ Hm Hc Hnd Hw E cloud r speed.
  destruct (cycle_inv Rn Rtrig secs cast (ZnearestA : Rn -> Z) (Zceil : Rn -> Z) top huge g s clouds now s' ltac:(lia) E)
    as (_ & _ & _ & _ & _ & _ & _ & _ & _ & _ & _ & h0 & h & b & _ & _ & _ & _ & B).
  destruct b; [left; destruct B as (B1 & B2 & _); split; assumption|]. right. destruct B as (B1 & t & B2 & B3 & _ & _). split; [exact B1|].
  split. { rewrite B3. exact (cycle_path Rn Rtrig secs cast (ZnearestA : Rn -> Z) (Zceil : Rn -> Z) top huge g s clouds now s' t ltac:(lia) E B2). }
  fold cloud in B2. set (cands := starCandidates Rn Rtrig cast (ZnearestA : Rn -> Z) (Zceil : Rn -> Z) top cloud (l_goal s) (g_cost g) (g_margin g) (l_closest s') (g_max_range g) (g_min_range g) (g_children g)) in B2.
  destruct (build_inv Rn Rtrig huge cands (starParams Rn g s) t ltac:(cbn; lia) B2) as (chain & I & _ & RC & Ep).
  intros k u v Eu Ev. rewrite B3, Ep in Eu, Ev. rewrite nth_error_map in Eu, Ev.
  destruct (nth_error chain k) as [nu|] eqn:Enu; [|discriminate Eu]. destruct (nth_error chain (S k)) as [nv|] eqn:Env; [|discriminate Ev].
  cbn [option_map] in Eu, Ev. apply get_inj in Eu, Ev. subst u v.
  pose proof (chain_edges Rn Rtrig huge cands (starParams Rn g s) _ _ _ _ _ _ I RC k nu nv Enu Env) as (c & cs & Ecs & Icc & Epos & _).
  assert (Spd : v3norm Rn (n_vel nv) <= speed).
  { destruct (chain_in _ _ _ nv RC (nth_error_In _ _ Env)) as (j & Ej). destruct j as [|j].
    - destruct (ti_root _ _ _ _ _ _ _ _ _ I) as (rt & Er & _ & Ev & _). assert (rt = nv) as -> by congruence. rewrite Ev. apply Rmax_l.
    - destruct (ti_par _ _ _ _ _ _ _ _ _ I (S j) nv ltac:(lia) Ej) as (_ & _ & o & _ & c' & cs' & Ecs' & Ic' & Ep' & Ev' & _).
      rewrite Ev', Ep'. destruct (candidate_not_walled cast top cloud (l_goal s) (g_cost g) (g_margin g) (l_closest s') (g_max_range g) (g_min_range g) (g_children g)
        (n_pos o) (n_vel o) cs' c' PQ Hm Hc Hw Ecs' Ic') as (e' & z' & He' & Hz' & Ce' & Cz' & _).
      apply Rle_trans with (g_node_distance g); [|apply Rmax_r]. right. exact (step_length _ _ (g_node_distance g) (n_pos o) e' z' Hnd He' Hz' Ce' Cz'). }
  destruct (candidate_not_walled cast top cloud (l_goal s) (g_cost g) (g_margin g) (l_closest s') (g_max_range g) (g_min_range g) (g_children g)
        (n_pos nv) (n_vel nv) cs c PQ Hm Hc Hw Ecs Icc) as (e & z & He & Hz & Ce & Cz & NW).
  exists e, z. do 2 (split; [assumption|]). split; [rewrite Epos, Ce, Cz; reflexivity|].
  intros eg zg d dmax others Eg Hd Heg Hzg Her ND Hl Hfr. apply (NW eg zg d dmax others Eg Hd Heg Hzg Her ND Hl).
  intros e2 z2 I2. destruct (Hfr e2 z2 I2) as (F1 & F2 & F3 & F4). do 3 (split; [assumption|]).
  eapply Rle_lt_trans; [|exact F4]. unfold detour_cost. apply Rplus_le_compat_l. apply Rmult_le_compat_l; [destruct Hw as (_ & _ & Hv); tR; lra|exact Spd].
Qed.
Print Assumptions C117_no_step_into_a_wall.

(** A wall at the vehicle: points 2 m away in the rows 8 to 22 and columns 23 to 37, the goal 20 m ahead behind it, the vehicle at rest. With the default parameters (8 children,
    40 degrees, 2 m) straight ahead is walled while the eight directions straight back are open and affordable: the path does not begin with 2 m straight ahead. *)
Definition ex_origin : vec3 Rn := V3 (0 : Rn) 0 0.
Definition ex_wall : list (xyzi Rn) :=
  flat_map (fun e => map (fun z => XYZI (at_polar ex_origin (IZR (6 * e - 87)) (IZR (6 * z - 177)) 2) (0 : Rn)) (map (Z.add 23) (zrange 15))) (map (Z.add 8) (zrange 15)).
Definition ex_others : list (Z * Z) := map (fun z => (15, z)%Z) (zrange 8).
Lemma ex_sees e z e' z' : (0 <= e < 30)%Z -> (0 <= z < 60)%Z ->
  sees (Ztrunc : R -> Z) ex_origin (at_polar ex_origin (IZR (6 * e - 87)) (IZR (6 * z - 177)) 2) e' z' <-> e' = e /\ z' = z.
Proof.
  intros He Hz. unfold sees. rewrite polar_of_at.
  - replace (Pol (IZR (6 * e - 87) : Rn) (IZR (6 * z - 177) : Rn) (2 : Rn)) with (histogramIndexToPolar Rn e z ALPHA_RES (2 : Rn)).
    + rewrite histogramIndex_roundtrip_R by (unfold ALPHA_RES; lia || reflexivity). split; [intros X; injection X as -> ->; split; reflexivity|intros (-> & ->); reflexivity].
    + unfold histogramIndexToPolar, ALPHA_RES. change (6 / 2)%Z with 3%Z. rn. f_equal; f_equal; lia.
  - lra.
  - pose proof (IZR_le (-87) (6 * e - 87) ltac:(lia)). pose proof (IZR_le (6 * e - 87) 87 ltac:(lia)). lra.
  - pose proof (IZR_le (-177) (6 * z - 177) ltac:(lia)). pose proof (IZR_le (6 * z - 177) 177 ltac:(lia)). lra.
Qed.
Lemma ex_in q : In q ex_wall <-> exists e z, (8 <= e <= 22)%Z /\ (23 <= z <= 37)%Z /\ q = XYZI (at_polar ex_origin (IZR (6 * e - 87)) (IZR (6 * z - 177)) 2) (0 : Rn).
Proof.
  unfold ex_wall. rewrite in_flat_map. split.
  - intros (e & He & Hq). apply in_map_iff in He as (a & <- & Ha). apply in_zrange in Ha. apply in_map_iff in Hq as (z & <- & Hz). apply in_map_iff in Hz as (b & <- & Hb). apply in_zrange in Hb.
    exists (8 + a)%Z, (23 + b)%Z. split; [lia|]. split; [lia|reflexivity].
  - intros (e & z & He & Hz & ->). exists e. split; [apply in_map_iff; exists (e - 8)%Z; split; [lia|apply in_zrange; lia]|].
    apply in_map_iff. exists z. split; [reflexivity|]. apply in_map_iff. exists (z - 23)%Z. split; [lia|apply in_zrange; lia].
Qed.
Example C117_example :
  let r := Zceil (40 / 6) in let goal := at_polar ex_origin 0 3 20 in
  (r <= 15 < 30 - r)%Z /\ walled (Ztrunc : R -> Z) ex_wall ex_origin r 15 30 2 /\
  NoDup ex_others /\ (8 <= Z.of_nat (length ex_others))%Z /\
  (forall e2 z2, In (e2, z2) ex_others -> (r <= e2 < 30 - r)%Z /\ (0 <= z2 < 60)%Z /\ clear (Ztrunc : R -> Z) ex_wall ex_origin r e2 z2 /\
     detour_cost default_cp 0 e2 (Rmax (v3norm Rn (V3 (0 : Rn) 0 0)) 2) < wall_cost default_cp 2 r) /\
  (forall (top : list (candidate Rn) -> option (candidate Rn * list (candidate Rn))) (secs : Z -> R) (cast : R -> Z) (huge : R) (g : lp_config Rn) (s : lp_state Rn) (clouds : list (list (vec3 Rn))) (now : Z), is_priority_queue Rn top -> 0 <= g_margin g <= 180 -> (1 <= g_children g)%Z -> clouds <> [] ->
     exists s', runPlanner Rn Rtrig secs cast (ZnearestA : Rn -> Z) (Zceil : Rn -> Z) top huge g s clouds now = Some s').
Proof.
  assert (Er : Zceil (40 / 6) = 7%Z). { apply Zceil_imp. rewrite minus_IZR. split; lra. }
  cbv zeta. rewrite Er. split; [lia|]. split.
  { intros e' z' (He' & k & Hk & ->). rewrite step_level in Hk by lia. rewrite Z.mod_small by lia. split.
    - eexists. split; [apply ex_in; exists e', (30 + k)%Z; split; [lia|split; [lia|reflexivity]]|]. cbn [pt]. apply ex_sees; [lia|lia|split; reflexivity].
    - intros q Hq _. apply ex_in in Hq as (e & z & He & Hz & ->). cbn [pt]. rewrite (step_length _ _ 2 ex_origin e z); try reflexivity; try lia; lra. }
  split. { unfold ex_others. apply FinFun.Injective_map_NoDup; [intros a b X; injection X as ->; reflexivity|]. unfold zrange. apply FinFun.Injective_map_NoDup; [intros a b X; lia|apply seq_NoDup]. }
  split. { vm_compute. discriminate. }
  split.
  { intros e2 z2 I2. unfold ex_others in I2. apply in_map_iff in I2 as (x & X & Hx). injection X as <- <-. apply in_zrange in Hx. split; [lia|]. split; [lia|]. split.
    - intros e' z' q (He' & k & Hk & ->) Hq Sq. rewrite step_level in Hk by lia. apply ex_in in Hq as (e & z & He & Hz & ->). cbn [pt] in Sq.
      apply ex_sees in Sq as (-> & Ez); [|lia|lia]. pose proof (Z.mod_pos_bound (x + k) 60 ltac:(lia)). pose proof (Z.div_mod (x + k) 60 ltac:(lia)) as D.
      assert ((x + k) / 60 = 0 \/ (x + k) / 60 = -1)%Z; [|lia]. destruct (Z.le_gt_cases 0 (x + k)); [left; apply Z.div_small; lia|right].
      symmetry. apply (Z.div_unique _ _ (-1) (x + k + 60)); lia.
    - assert (V : v3norm Rn (V3 (0 : Rn) 0 0) = 0). { unfold v3norm, v3sqnorm, v3dot. cbn [vx vy vz]. rn. tR. replace (0 * 0 + 0 * 0 + 0 * 0) with 0 by ring. apply sqrt_0. }
      rewrite V. rewrite Rmax_right by lra. unfold detour_cost, wall_cost. cbv zeta. cbn [velocity_cost_param yaw_cost_param pitch_cost_param obstacle_cost_param default_cp].
      change (6 * 15 - 87)%Z with 3%Z. tR. set (q := sqrt _).
      assert (Q : 0 < q <= 7). { unfold q. split; [apply sqrt_lt_R0; lra|]. rewrite <- (sqrt_square 7) by lra. apply sqrt_le_1; lra. }
      assert (13 / 14 <= (17 / 2 - 2) / q). { apply Rmult_le_reg_r with q; [lra|]. unfold Rdiv at 2. rewrite Rmult_assoc, Rinv_l by lra. lra. }
      lra. }
  intros top secs cast huge g s clouds now PQ Hm Hc Hne. exact (cycle_total secs cast top huge g s clouds now PQ Hm Hc Hne).
Qed.
