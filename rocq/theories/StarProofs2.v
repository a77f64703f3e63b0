(** Look-ahead tree over the reals: edge lengths, best-first choice, totality with the real candidate computation. *)
From Coq Require Import ZArith Reals List Bool Lia Lra Arith Permutation.
From Flocq Require Import Core.
From Verif Require Import Num Mat CommonModel CommonSpec HistModel HistProofs PfModel PfSpec PfProofs2 PfProofs3 PfCost PfExtra StarModel StarSpec StarProofs CommonProofs.
Import ListNotations.

Section RealTree.
Local Open Scope R_scope.
Lemma polar_dist (e z r : R) (pos : vec3 Rn) : 0 <= r ->
  v3norm Rn (v3sub Rn (polarHistogramToCartesian Rn Rtrig (Pol e z r : polar Rn) pos) pos) = r.
Proof.
  intros Hr. rewrite polarHistogramToCartesian_dir. unfold hist_direction. cbn [pe pz pr]. unfold v3norm, v3sqnorm, v3sub. cbn [vx vy vz]. rn.
  tR. set (a := e * PI / 180). set (b := z * PI / 180).
  pose proof (sin2_cos2 a) as Ha. pose proof (sin2_cos2 b) as Hb. unfold Rsqr in *.
  transitivity (sqrt (r * r)); [f_equal|apply sqrt_square; exact Hr].
  transitivity (r * r * ((sin a * sin a + cos a * cos a * (sin b * sin b + cos b * cos b)))); [ring|]. rewrite Hb. rewrite Rmult_1_r, Ha. ring.
Qed.

Notation dist_to t p := (v3norm Rn (v3sub Rn (n_pos t) p)).
Lemma pick_R huge (P : star_params Rn) tree origin o b : pick Rn huge P tree origin = (o, b) ->
  if b then exists t, nth_error tree o = Some t /\ n_closed t = false /\ dist_to t (sp_position P) < max_path_length P /\ n_total t < huge /\
       forall i t', nth_error tree i = Some t' -> n_closed t' = false -> dist_to t' (sp_position P) < max_path_length P -> n_total t <= n_total t'
  else o = origin /\ forall i t', nth_error tree i = Some t' -> n_closed t' = false -> dist_to t' (sp_position P) < max_path_length P -> huge <= n_total t'.
Proof.
  unfold pick.
  match goal with |- context [fold_left ?f ?l ?s] =>
    assert (K : forall l' done st, l = done ++ l' ->
       (fun st : R * nat * bool => let '(mc, o, b) := st in
          (if b then exists t, nth_error tree o = Some t /\ n_closed t = false /\ dist_to t (sp_position P) < max_path_length P /\ n_total t = mc /\ mc < huge else mc = huge /\ o = origin) /\
          forall i t', In (i, t') done -> n_closed t' = false -> dist_to t' (sp_position P) < max_path_length P -> mc <= n_total t') st ->
       (fun st : R * nat * bool => let '(mc, o, b) := st in
          (if b then exists t, nth_error tree o = Some t /\ n_closed t = false /\ dist_to t (sp_position P) < max_path_length P /\ n_total t = mc /\ mc < huge else mc = huge /\ o = origin) /\
          forall i t', In (i, t') l -> n_closed t' = false -> dist_to t' (sp_position P) < max_path_length P -> mc <= n_total t') (fold_left f l' st)) end.
  { induction l' as [|(i, t) l' IH]; intros done ((mc, o0), b0) El (H1 & H2); cbn [fold_left].
    - rewrite app_nil_r in El. subst done. split; assumption.
    - apply IH with (done := done ++ [(i, t)]); [rewrite <- app_assoc; exact El|].
      assert (X : In (i, t) (combine (seq 0 (length tree)) tree)) by (rewrite El; apply in_or_app; right; now left).
      apply combine_seq_nth in X. rewrite Nat.sub_0_r in X. destruct X as [_ X].
      destruct (n_closed t) eqn:E1; cbn [negb andb].
      { split; [exact H1|]. intros i' t' Hin Hc. apply in_app_or in Hin. destruct Hin as [Hin|[[= <- <-]|[]]]; [eauto|congruence]. }
      cbn [ltb Rn]. destruct (R_ltb_spec (n_total t) mc) as [L1|L1]; cbn [andb].
      + match goal with |- context [R_ltb ?a ?b] => destruct (R_ltb_spec a b) as [L2|L2] end.
        * split; [exists t; repeat split; auto; destruct b0; [destruct H1 as (? & _ & _ & _ & <- & ?)|destruct H1 as [-> _]]; lra|].
          intros i' t' Hin Hc Hd. apply in_app_or in Hin. destruct Hin as [Hin|[[= <- <-]|[]]]; [specialize (H2 _ _ Hin Hc Hd); lra|apply Rle_refl].
        * split; [exact H1|]. intros i' t' Hin Hc Hd. apply in_app_or in Hin. destruct Hin as [Hin|[[= <- <-]|[]]]; [eauto|contradiction].
      + split; [exact H1|]. intros i' t' Hin Hc Hd. apply in_app_or in Hin. destruct Hin as [Hin|[[= <- <-]|[]]]; [eauto|]. apply Rnot_lt_le. exact L1. }
  specialize (K _ [] (huge, origin, false) eq_refl). cbv beta iota zeta in K. specialize (K ltac:(split; [split; reflexivity|intros ? ? []])).
  destruct (fold_left _ _ _) as ((mc, o'), b'). intros [= <- <-]. destruct K as (K1 & K2).
  assert (K3 : forall i t', nth_error tree i = Some t' -> n_closed t' = false -> dist_to t' (sp_position P) < max_path_length P -> mc <= n_total t').
  { intros i t' Ht. apply (K2 i t'). apply combine_seq_nth. rewrite Nat.sub_0_r. split; [lia|exact Ht]. }
  destruct b'.
  - destruct K1 as (t & E1 & E2 & E3 & <- & E5). exists t. auto.
  - destruct K1 as (-> & ->). split; auto.
Qed.
Lemma expand_best G huge cands (P : star_params Rn) s s' : expandOnce Rn G huge cands P s = Some s' ->
  if ss_go s' then exists t, nth_error (ss_tree s') (ss_origin s') = Some t /\ n_closed t = false /\ dist_to t (sp_position P) < max_path_length P /\ n_total t < huge /\
       forall i t', nth_error (ss_tree s') i = Some t' -> n_closed t' = false -> dist_to t' (sp_position P) < max_path_length P -> n_total t <= n_total t'
  else forall i t', nth_error (ss_tree s') i = Some t' -> n_closed t' = false -> dist_to t' (sp_position P) < max_path_length P -> huge <= n_total t'.
Proof.
  unfold expandOnce. destruct (nth_error _ _) as [o|]; [|discriminate]. destruct (cands _ _) as [cs|]; [|discriminate].
  match goal with |- match ?x with _ => _ end = _ -> _ => destruct x as [t1|]; [|discriminate] end.
  destruct (pick _ _ _ _ _) as (o', go) eqn:Ep. intros [= <-]. cbn [ss_go ss_tree ss_origin]. pose proof (pick_R _ _ _ _ _ _ Ep) as K.
  destruct go; [exact K|exact (proj2 K)].
Qed.
End RealTree.

Lemma starCandidates_total (cast : R -> Z) (top : list (candidate Rn) -> option (candidate Rn * list (candidate Rn)))
    cloud goal cp (margin : R) closest max_range min_range n opos ovel :
  is_priority_queue Rn top -> (0 <= margin <= 180)%R -> (1 <= n)%Z ->
  exists cs, starCandidates Rn Rtrig cast (ZnearestA : Rn -> Z) (Zceil : Rn -> Z) top cloud goal cp margin closest max_range min_range n opos ovel = Some cs /\
    Z.of_nat (length cs) = Z.min n 1800.
Proof.
  intros PQ Hm Hn. unfold starCandidates. destruct (h_new Rn ALPHA_RES) as [h0|] eqn:E0; [|discriminate E0]. cbn [obind].
  assert (G0 : ghist Rn h0).
  { apply reachable_ghist; [exists 6%Z, h0, []; split; [lia|split; [exact E0|reflexivity]]|]. cbn in E0. injection E0 as <-. reflexivity. }
  destruct (generateNewHistogram_spec Rn Rtrig cast opos h0 cloud G0) as (h & E1 & G1 & _). rewrite E1. cbn [obind].
  assert (Hc : (0 <= Zceil (margin / 6)%R <= 30)%Z).
  { split; [rewrite <- (Zceil_IZR 0)|rewrite <- (Zceil_IZR 30)]; apply Zceil_le; lra. }
  destruct (costMatrix_R cast ZnearestA Zceil h goal opos ovel cp margin closest max_range min_range G1 ZnearestA_ge1 Hc)
    as (facing & cm & dm & sm & img & out & _ & E2 & R1 & C1 & _). rewrite E2. cbn [obind fst].
  destruct (getBest_spec Rn ordered_Rn top PQ out n Hn) as (cs & rest & E & _ & L & _).
  { intros c _. unfold isnanb. cbn [eqb Rn]. destruct (R_eqb_spec (c_cost c) (c_cost c)); [reflexivity|congruence]. }
  exists cs. split; [exact E|]. rewrite L. unfold candidates. rewrite map_length, length_grid_idx, R1, C1. reflexivity.
Qed.
Lemma starCandidates_zero (cast : R -> Z) (top : list (candidate Rn) -> option (candidate Rn * list (candidate Rn)))
    cloud goal cp (margin : R) closest max_range min_range opos ovel :
  is_priority_queue Rn top -> (0 <= margin <= 180)%R ->
  starCandidates Rn Rtrig cast (ZnearestA : Rn -> Z) (Zceil : Rn -> Z) top cloud goal cp margin closest max_range min_range 0 opos ovel = None.
Proof.
  intros PQ Hm. unfold starCandidates. destruct (h_new Rn ALPHA_RES) as [h0|] eqn:E0; [|discriminate E0]. cbn [obind].
  assert (G0 : ghist Rn h0).
  { apply reachable_ghist; [exists 6%Z, h0, []; split; [lia|split; [exact E0|reflexivity]]|]. cbn in E0. injection E0 as <-. reflexivity. }
  destruct (generateNewHistogram_spec Rn Rtrig cast opos h0 cloud G0) as (h & E1 & G1 & _). rewrite E1. cbn [obind].
  assert (Hc : (0 <= Zceil (margin / 6)%R <= 30)%Z).
  { split; [rewrite <- (Zceil_IZR 0)|rewrite <- (Zceil_IZR 30)]; apply Zceil_le; lra. }
  destruct (costMatrix_R cast ZnearestA Zceil h goal opos ovel cp margin closest max_range min_range G1 ZnearestA_ge1 Hc)
    as (facing & cm & dm & sm & img & out & _ & E2 & R1 & C1 & _). rewrite E2. cbn [obind fst].
  apply getBest_zero; [exact PQ|]. intros X. apply (f_equal (@length _)) in X.
  unfold candidates in X. rewrite map_length, length_grid_idx, R1, C1 in X. discriminate.
Qed.
