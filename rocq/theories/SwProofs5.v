(** Search pattern, height percentile, memory safety and visualisation of the landing node. *)
From Coq Require Import ZArith Reals List Bool Lia Lra Permutation Sorting.Sorted.
From Flocq Require Import Core BinarySingleNaN.
From Verif Require Import Num Mat CommonModel PfModel PfSpec StarModel LpModel UsmModel SlModel SlSpec SlProofs SlProofs2 SlProofs3 SwModel SwSpec SwProofs SwProofs2 SwProofs3 SwProofs4.
Import ListNotations.
Local Open Scope Z_scope.

(* ---------------------------------------------------------------- search pattern *)
Section Search.
Context (G : trig Rn).
Notation nstep := (nstep Rn G Rceil Rround Rcast).
Notation nview := (nview Rn G Rceil Rround Rcast).
Notation moves := (moves Rn G Rceil Rround Rcast).
Notation calc := (calculateWaypoint Rn G Rround Rcast).
Definition K (k : nat) (A : vec3 Rn) (x : sw Rn) : Prop :=
  match k with
  | O => x_n x = -1 /\ x_factor x = 1%R /\ x_explore x = false
  | S k' => x_n x = Z.of_nat (k' mod 8) /\ x_factor x = IZR (spiral_round k') /\ x_explore x = true /\ x_anchor x = A
  end.
Lemma K_frame k A x y : x_n y = x_n x -> x_factor y = x_factor x -> x_explore y = x_explore x -> x_anchor y = x_anchor x -> K k A x -> K k A y.
Proof. intros B1 B2 B3 B4. destruct k; unfold K; rewrite B1, B2, B3, ?B4; auto. Qed.
Lemma succ_mod8 k : (S k mod 8 = if (k mod 8 =? 7)%nat then 0 else S (k mod 8))%nat /\ (S k / 8 = if (k mod 8 =? 7)%nat then S (k / 8) else k / 8)%nat.
Proof.
  pose proof (Nat.div_mod k 8 ltac:(lia)) as D. pose proof (Nat.mod_upper_bound k 8 ltac:(lia)) as B.
  destruct (Nat.eqb_spec (k mod 8) 7) as [E|E].
  - assert (Q : (S k = 8 * S (k / 8) + 0)%nat) by lia. split; [symmetry; apply (Nat.mod_unique _ _ (S (k / 8))); lia|symmetry; apply (Nat.div_unique _ _ _ 0); lia].
  - split; [symmetry; apply (Nat.mod_unique _ _ (k / 8)); lia|symmetry; apply (Nat.div_unique _ _ _ (S (k mod 8))); lia].
Qed.
(** position and factor after one more search step *)
Lemma next_counters k A x : K k A x ->
  (if x_n x + 1 =? 8 then (0, (x_factor x + 1)%R) else (x_n x + 1, x_factor x)) = (Z.of_nat (k mod 8), IZR (spiral_round k)).
Proof.
  destruct k as [|k]; unfold K; intros H.
  - destruct H as (-> & -> & _). reflexivity.
  - destruct H as (-> & -> & _). destruct (succ_mod8 k) as [M D]. unfold spiral_round. rewrite M, D.
    destruct (Nat.eqb_spec (k mod 8) 7) as [E|E].
    + rewrite E. change (Z.of_nat 7 + 1 =? 8) with true. apply (f_equal (fun z => (0, z))). rewrite <- plus_IZR. apply (f_equal IZR). lia.
    + pose proof (Nat.mod_upper_bound k 8 ltac:(lia)). destruct (Z.eqb_spec (Z.of_nat (k mod 8) + 1) 8); [lia|]. f_equal. lia.
Qed.
Lemma goal_eq (q f s c d a : R) : (a + q * f * 2 * s * c * d = a + q * (2 * s) * c * (f * d))%R. Proof. ring. Qed.
Lemma pattern_dir k : vget exploration_pattern (Z.of_nat (k mod 8)) = Some (spiral_dir k).
Proof.
  unfold vget, spiral_dir. pose proof (Nat.mod_upper_bound k 8 ltac:(lia)) as B. destruct (Z.ltb_spec (Z.of_nat (k mod 8)) 0); [lia|]. rewrite Nat2Z.id.
  apply nth_error_nth'. exact B.
Qed.
Lemma cycle_K k A x x' out : x_island x = true -> K k A x -> calc x = Some (x', out) ->
  let u := updateSLPState Rn x in
  if x_decision u && negb (x_decision x')
  then K (S k) (match k with O => x_loiter u | _ => A end) x' /\ x_goal x' = spiral_goal (match k with O => x_loiter u | _ => A end) u k
  else K k A x'.
Proof.
  intros Is Kx C u. destruct (update_frame Rn x) as (U1 & U2 & U3 & U4 & U5 & U6 & U7 & U8 & U9 & U10 & U11 & U12 & U13 & U14 & U15 & U16 & U17 & U18 & _).
  fold u in U1, U2, U3, U4, U5, U6, U7, U8, U9, U10, U11, U12, U13, U18. destruct (U18 Is) as (V1 & V2 & V3_ & V4 & V5 & V6).
  assert (Ku : K k A u) by (apply (K_frame k A x); assumption).
  destruct (calc_cases _ _ _ _ _ _ _ C) as [(R_ & X & _)|(R_ & t & y & Rs & X)]; fold u in X.
  { assert (D : x_decision u && negb (x_decision x') = false) by (rewrite X; cbn; destruct (x_decision u); reflexivity). rewrite D. rewrite X. exact Ku. }
  fold u in Rs.
  assert (Fr : x_n x' = x_n y /\ x_factor x' = x_factor y /\ x_explore x' = x_explore y /\ x_anchor x' = x_anchor y /\ x_decision x' = x_decision y /\ x_goal x' = x_goal y) by (rewrite X; destruct t; repeat split; reflexivity).
  destruct Fr as (F1 & F2 & F3 & F4 & F5 & F6).
  assert (NoMove : x_n y = x_n u -> x_factor y = x_factor u -> x_explore y = x_explore u -> x_anchor y = x_anchor u ->
    (x_decision u = true -> x_decision y = true) ->
    if x_decision u && negb (x_decision x') then K (S k) (match k with O => x_loiter u | _ => A end) x' /\ x_goal x' = spiral_goal (match k with O => x_loiter u | _ => A end) u k else K k A x').
  { intros B1 B2 B3 B4 B5. assert (D : x_decision u && negb (x_decision x') = false) by (rewrite F5; destruct (x_decision u); [rewrite B5; reflexivity|reflexivity]).
    rewrite D. apply (K_frame k A u); [congruence| |congruence|congruence|exact Ku]. rewrite F2. exact B2. }
  unfold SwProofs2.run_state in Rs. rewrite U1 in Rs. destruct (x_state x).
  - unfold runGoTo in Rs. set (x0 := if x_explore u then _ else u) in Rs.
    assert (S0 : x_n x0 = x_n u /\ x_factor x0 = x_factor u /\ x_explore x0 = x_explore u /\ x_anchor x0 = x_anchor u /\ x_decision x0 = x_decision u /\ x_loiter x0 = x_loiter u /\
      x_cfg x0 = x_cfg u /\ x_grid x0 = x_grid u) by (unfold x0; destruct (x_explore u) eqn:Q; cbn; rewrite ?Q; repeat split; auto).
    destruct S0 as (S1 & S2 & S3 & S4 & S5 & S6 & S7 & S8).
    destruct (landingAreaHeightPercentile Rn Rround (x_grid x0) (q_smooth (x_cfg x0)) (ofZ Rn 80)) as [alt|]; cbn [obind] in Rs; [|discriminate].
    set (x1 := x_matrices Rn (x_alt_upd Rn x0 alt) _ _) in Rs.
    destruct (withinLandingRadius Rn x1 && x_island x1 && negb (x_decision x1)).
    { injection Rs as <- <- <-. apply NoMove; cbn; auto. intros; congruence. }
    destruct (withinLandingRadius Rn x1 && x_island x1 && x_decision x1 && negb (x_canland x1)) eqn:B.
    2: { injection Rs as <- <- <-. apply NoMove; cbn; auto. intros; congruence. }
    destruct (nextExploration Rn x1) as [x2|] eqn:Xn; cbn [obind] in Rs; [|discriminate]. injection Rs as <- <- <-.
    apply andb_true_iff in B as [B _]. apply andb_true_iff in B as [_ B]. change (x_decision x1) with (x_decision x0) in B. rewrite S5 in B.
    unfold nextExploration in Xn. change (Z.of_nat (length exploration_pattern)) with 8 in Xn.
    assert (K1 : K k A x1) by (apply (K_frame k A u); cbn; assumption). pose proof (next_counters k A x1 K1) as Nc.
    match type of Xn with context [if ?b then ?p else ?q] => change (if b then p else q) with (if x_n x1 + 1 =? 8 then (0, (x_factor x1 + 1)%R) else (x_n x1 + 1, x_factor x1)) in Xn end.
    rewrite Nc in Xn. rewrite pattern_dir in Xn. cbn [obind] in Xn.
    assert (Ex : x_explore x1 = negb (Nat.eqb k 0)) by (destruct k; cbn in K1; decompose [and] K1; assumption).
    set (A' := match k with O => x_loiter u | _ => A end).
    assert (An : (if x_explore x1 then x_anchor x1 else x_loiter x1) = A').
    { rewrite Ex. unfold A'. destruct k; cbn [Nat.eqb negb]; [cbn; exact S6|]. cbn in K1. decompose [and] K1. assumption. }
    rewrite An in Xn. apply (f_equal (fun o => match o with Some z => z | None => x1 end)) in Xn. cbv beta iota in Xn. rename Xn into X2. rewrite F5, <- X2. cbn [x_decision]. rewrite B. cbn [andb negb]. split.
    + apply (K_frame (S k) A' x2); [rewrite F1; reflexivity|rewrite F2; reflexivity|rewrite F3; reflexivity|rewrite F4; reflexivity|].
      rewrite <- X2. unfold K. cbn [x_n x_factor x_explore x_anchor]. repeat split; reflexivity.
    + rewrite F6, <- X2. cbn [x_goal]. unfold spiral_goal. change (x_cfg x1) with (x_cfg x0). change (x_grid x1) with (x_grid x0). rewrite S7, S8.
      f_equal; apply goal_eq.
  - unfold runLoiter in Rs. set (x1 := x_move Rn u _ _ _ _ _) in Rs. destruct (_ <=? 20).
    + destruct (hystStep Rn x1) as [h|]; cbn [obind] in Rs; [|discriminate]. injection Rs as <- <- <-. apply NoMove; cbn; auto.
    + injection Rs as <- <- <-. apply NoMove; cbn; auto.
  - unfold runLand in Rs. injection Rs as <- <- <-. apply NoMove; cbn; auto.
  - unfold runAltitudeChange in Rs. destruct (landingAreaHeightPercentile Rn Rround (x_grid u) (q_smooth (x_cfg u)) (ofZ Rn 80)) as [alt|]; cbn [obind] in Rs; [|discriminate].
    destruct (inVerticalRange Rn _); injection Rs as <- <- <-; apply NoMove; cbn; auto.
  - unfold runEvaluateGrid in Rs. destruct (evaluatePatch _ _ _ _) as [[|]|]; cbn [obind] in Rs; try discriminate.
    + injection Rs as <- <- <-. apply NoMove; cbn; auto.
    + destruct (findPatch _ _ _ _ _ _) as [[d|]|]; cbn [obind] in Rs; try discriminate; injection Rs as <- <- <-; apply NoMove; cbn; auto.
  - unfold runGoToLand in Rs. injection Rs as <- <- <-. apply NoMove; auto.
Qed.
Lemma search_moves os : forall n k A, K k A (n_x n) -> Forall (fun u => x_island u = true) (nview n os) ->
  exists a, (k <> O -> a = A) /\ (k = O -> forall u x, nth_error (moves n os) 0 = Some (u, x) -> a = x_loiter u) /\
  forall j u x, nth_error (moves n os) j = Some (u, x) -> x_goal x = spiral_goal a u (k + j).
Proof.
  induction os as [|o os IH]; intros n k A Kn F.
  - exists A. split; [auto|]. split; [intros _ u x H; discriminate|]. intros [|j] u x H; discriminate.
  - cbn [SwSpec.moves SwSpec.nview] in *. destruct (nstep n o) as [[n1 out]|] eqn:E; cbn [fst].
    2: { exists A. split; [auto|]. split; [intros _ u x H; discriminate|]. intros [|j] u x H; discriminate. }
    cbn [fst] in F. apply Forall_app in F as [F1 F2].
    destruct (cycle_dec Rn n o) as [[-> Rc]|Cb].
    + rewrite Rc in F1 |- *. cbn [andb]. inversion F1 as [|? ? I1 _]; subst. destruct (cycle_inv _ _ _ _ _ _ _ _ E Rc) as (C & _).
      assert (I2 : x_island (n_x n) = true) by (destruct (update_frame Rn (n_x n)) as (_ & _ & _ & Q & _); congruence).
      pose proof (cycle_K k A _ _ _ I2 Kn C) as St. cbv zeta in St. destruct (x_decision (updateSLPState Rn (n_x n)) && negb (x_decision (n_x n1))).
      * destruct St as [Kn1 Go]. set (A' := match k with O => _ | _ => A end) in *. destruct (IH n1 (S k) A' Kn1 F2) as (a & H1 & _ & H3).
        specialize (H1 ltac:(discriminate)). subst a. exists A'. split; [intros Hk; unfold A'; destruct k; [congruence|reflexivity]|].
        split; [intros -> u x H; cbn in H; injection H as <- <-; reflexivity|].
        intros [|j] u x H; cbn in H.
        -- injection H as <- <-. rewrite Nat.add_0_r. exact Go.
        -- rewrite (H3 j u x H). f_equal. lia.
      * destruct (IH n1 k A St F2) as (a & H). exists a. exact H.
    + destruct (callback_inv _ _ _ _ _ _ _ _ _ E Cb) as (_ & _ & _ & _ & _ & Q1 & Q2 & Q3 & _ & _ & Q4 & _).
      assert (Kn1 : K k A (n_x n1)) by (apply (K_frame k A (n_x n)); assumption). destruct (IH n1 k A Kn1 F2) as (a & H). exists a.
      replace (match o with OCycle => if n_received n && x_decision (updateSLPState Rn (n_x n)) && negb (x_decision (n_x n1)) then [(updateSLPState Rn (n_x n), n_x n1)] else [] | _ => [] end)
        with (@nil (sw Rn * sw Rn)); [exact H|]. destruct o; try reflexivity. destruct Cb as [Cb|Cb]; [congruence|]. rewrite Cb. reflexivity.
Qed.
(** no offset is visited twice *)
Lemma spiral_distinct k k' : spiral_round k * fst (spiral_dir k) = spiral_round k' * fst (spiral_dir k') ->
  spiral_round k * snd (spiral_dir k) = spiral_round k' * snd (spiral_dir k') -> k = k'.
Proof.
  unfold spiral_round, spiral_dir. pose proof (Nat.div_mod k 8 ltac:(lia)) as D. pose proof (Nat.div_mod k' 8 ltac:(lia)) as D'.
  pose proof (Nat.mod_upper_bound k 8 ltac:(lia)) as B. pose proof (Nat.mod_upper_bound k' 8 ltac:(lia)) as B'.
  set (q := (k / 8)%nat) in *. set (q' := (k' / 8)%nat) in *. set (m := (k mod 8)%nat) in *. set (m' := (k' mod 8)%nat) in *. clearbody q q' m m'.
  intros E1 E2. destruct m as [|[|[|[|[|[|[|[|m]]]]]]]]; try lia; destruct m' as [|[|[|[|[|[|[|[|m']]]]]]]]; try lia; cbn [nth fst snd] in E1, E2; lia.
Qed.
End Search.

(* ---------------------------------------------------------------- percentile *)
Section Percentile.
Context (N : num).
Lemma insert_perm a l : Permutation (insert N a l) (a :: l).
Proof using. induction l as [|b l IH]; cbn; [reflexivity|]. destruct (ltb N b a); [|reflexivity]. rewrite IH. apply perm_swap. Qed.
Lemma isort_perm l : Permutation (isort N l) l.
Proof using. unfold isort. induction l as [|a l IH]; cbn; [reflexivity|]. rewrite insert_perm, IH. reflexivity. Qed.
Lemma samples_spec (g : grid N) s : well_sized N g -> 2 * s + 1 <= g_rc g -> 0 <= s -> altitudeSamples N g s = Some (area_heights g s).
Proof using.
  clear. intros (A1 & A2 & _ & _ & _ & _ & A7 & _) H Hs. unfold altitudeSamples, area_heights. rewrite A7. set (o := g_rc g / 2).
  assert (O1 : 0 <= o - s /\ o + s < g_rc g).
  { unfold o. pose proof (Z.div_mod (g_rc g) 2 ltac:(lia)). pose proof (Z.mod_pos_bound (g_rc g) 2 ltac:(lia)). lia. }
  rewrite (collect_spec (g_mean g) (g_rc g) A1 A2); [reflexivity|]. intros i j I. apply in_prod_iff in I as [I1 I2]. apply in_zfromto in I1, I2. lia.
Qed.
Lemma heights_length (g : grid N) s : 0 <= s -> Z.of_nat (length (area_heights g s)) = (s * 2 + 1) * (s * 2 + 1).
Proof using.
  clear. intros Hs. unfold area_heights. rewrite map_length, prod_length. unfold zfromto. rewrite !map_length. unfold zrange. rewrite !map_length, !seq_length. rewrite Nat2Z.inj_mul, Z2Nat.id by lia. ring_simplify. nia.
Qed.
End Percentile.
Section RPercentile.
Local Open Scope R_scope.
Lemma insert_sorted a l : StronglySorted Rle l -> StronglySorted Rle (insert Rn a l : list R).
Proof.
  induction l as [|b l IH]; intros H; cbn [insert]; [constructor; constructor|]. rn. inversion H as [|? ? H1 H2]; subst.
  destruct (R_ltb_spec b a) as [L|L].
  - constructor; [apply IH; exact H1|]. eapply (Permutation_Forall (x := a :: l)); [symmetry; apply (insert_perm Rn)|]. constructor; [lra|exact H2].
  - constructor; [constructor; assumption|]. constructor; [lra|]. eapply Forall_impl; [|exact H2]. intros c Hc; cbn in *; lra.
Qed.
Lemma isort_sorted l : StronglySorted Rle (isort Rn l : list R).
Proof. unfold isort. induction l as [|a l IH]; cbn [fold_right]; [constructor|]. apply insert_sorted. exact IH. Qed.
Definition below (v : R) (l : list R) : Z := count (fun x => R_leb x v) l.
Definition above (v : R) (l : list R) : Z := count (fun x => R_leb v x) l.
Lemma count_perm {A} (f : A -> bool) l l' : Permutation l l' -> count f l = count f l'.
Proof.
  induction 1 as [|x l l' H IH|x y l|l l2 l3 H1 IH1 H2 IH2]; rewrite ?count_cons in *; try lia.
Qed.
Lemma count_app_ {A} (f : A -> bool) l l' : count f (l ++ l') = (count f l + count f l')%Z.
Proof. induction l as [|a l IH]; [reflexivity|]. cbn [app]. rewrite !count_cons, IH. lia. Qed.
Lemma count_all {A} (f : A -> bool) l : Forall (fun x => f x = true) l -> count f l = Z.of_nat (length l).
Proof. induction 1 as [|a l H F IH]; [reflexivity|]. rewrite count_cons, H, IH. cbn [length]. lia. Qed.
Lemma sorted_rank l k v : StronglySorted Rle l -> nth_error l k = Some v ->
  (Z.of_nat k + 1 <= below v l)%Z /\ (Z.of_nat (length l) - Z.of_nat k <= above v l)%Z.
Proof.
  intros S E. destruct (nth_error_split l k E) as (a & b & -> & L). unfold below, above. rewrite !count_app_, !count_cons.
  assert (Sv : Forall (fun x => x <= v) a /\ Forall (fun x => v <= x) b).
  { clear E L. induction a as [|x a IH]; cbn [app] in S; inversion S as [|? ? S1 S2]; subst.
    - split; [constructor|exact S2].
    - destruct (IH S1) as [I1 I2]. split; [|exact I2]. constructor; [|exact I1]. apply Forall_app in S2 as [_ S2]. inversion S2; assumption. }
  destruct Sv as [Sa Sb]. rewrite (count_all (fun x => R_leb x v) a), (count_all (fun x => R_leb v x) b), app_length.
  - rewrite (proj2 (R_leb_true v v)) by lra. pose proof (count_nonneg (fun x => R_leb x v) b). pose proof (count_nonneg (fun x => R_leb v x) a). cbn [length]. lia.
  - eapply Forall_impl; [|exact Sb]. intros x Hx. apply R_leb_true. exact Hx.
  - eapply Forall_impl; [|exact Sa]. intros x Hx. apply R_leb_true. exact Hx.
Qed.
Lemma index80 n : (9 <= n)%Z -> let k := Rround (80 / 100 * IZR n) in (0 <= k < n)%Z /\ 80 / 100 * IZR n - 1 / 2 <= IZR k <= 80 / 100 * IZR n + 1 / 2.
Proof.
  intros Hn k. assert (Hr : 9 <= IZR n) by (apply IZR_le; exact Hn).
  assert (B : 80 / 100 * IZR n - 1 / 2 <= IZR k <= 80 / 100 * IZR n + 1 / 2).
  { unfold k, Rround. pose proof (Znearest_half (Z.leb 0) (80 / 100 * IZR n)) as Hh. apply Rabs_le_inv in Hh. lra. }
  split; [|exact B]. split; [apply le_IZR|apply lt_IZR]; lra.
Qed.
Lemma percentile_spec (g : grid Rn) s : well_sized Rn g -> (1 <= s)%Z -> (2 * s + 1 <= g_rc g)%Z ->
  exists v, landingAreaHeightPercentile Rn Rround g s (ofZ Rn 80) = Some v /\ In v (area_heights g s) /\
    80 / 100 * IZR ((2 * s + 1) * (2 * s + 1)) + 1 / 2 <= IZR (below v (area_heights g s)) /\
    20 / 100 * IZR ((2 * s + 1) * (2 * s + 1)) - 1 / 2 <= IZR (above v (area_heights g s)).
Proof.
  intros W Hs Hr. unfold landingAreaHeightPercentile. rewrite (samples_spec Rn g s W) by lia. cbn [obind].
  pose proof (heights_length Rn g s ltac:(lia)) as L. set (hs := area_heights g s) in *. rn.
  set (n := ((s * 2 + 1) * (s * 2 + 1))%Z) in *. assert (Hn : (9 <= n)%Z) by (unfold n; nia). replace ((2 * s + 1) * (2 * s + 1))%Z with n by (unfold n; ring).
  destruct (index80 n Hn) as [K1 K2]. set (k := Rround (80 / 100 * IZR n)) in *.
  pose proof (isort_perm Rn hs) as P. pose proof (Permutation_length P) as PL.
  unfold vget. destruct (Z.ltb_spec k 0); [lia|]. destruct (nth_error (isort Rn hs) (Z.to_nat k)) as [v|] eqn:E.
  2: { apply nth_error_None in E. lia. }
  exists v. split; [reflexivity|]. split; [apply (Permutation_in _ P); apply nth_error_In in E; exact E|].
  destruct (sorted_rank _ _ _ (isort_sorted hs) E) as [B A]. unfold below, above in *. rewrite (count_perm _ _ _ P) in B. rewrite (count_perm _ _ _ P) in A. assert (PL' : Z.of_nat (@length R (isort Rn hs)) = n) by (transitivity (Z.of_nat (length hs)); [exact (f_equal Z.of_nat PL)|exact L]). rewrite PL', Z2Nat.id in A by lia. rewrite Z2Nat.id in B by lia.
  apply IZR_le in A, B. rewrite minus_IZR in A. rewrite plus_IZR in B. split; lra.
Qed.
End RPercentile.
