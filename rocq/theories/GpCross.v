(** Which cells are looked at when a move is judged (node.cpp:25-47), over the reals; angles between moves. *)
From Coq Require Import ZArith Reals List Bool Lia Lra.
From Flocq Require Import Core.
From Verif Require Import Num CommonModel CommonSpec CommonProofs GpModel GpSearch GpSpec GpPlan GpPlanSpec GpProofs GpCellProofs.
Import ListNotations.
Local Open Scope R_scope.

(** the point at fraction t of the straight way from the centre of p to the centre of c *)
Definition on_way (sc : R) (p c : gcell) (t : R) : vec3 Rn :=
  let w i j := sc * (IZR i + / 2) + t * (sc * (IZR j + / 2) - sc * (IZR i + / 2)) in
  V3 (w (cx p) (cx c) : Rn) (w (cy p) (cy c)) (w (cz p) (cz c)).

Lemma cins_In l c d : In d (cins l c) <-> In d l \/ d = c.
Proof.
  unfold cins. destruct (cmem c l) eqn:E.
  - split; [auto|]. intros [H|H]; [exact H|]. subst d. unfold cmem in E. apply existsb_exists in E. destruct E as (x & X & Y). apply ceq_spec in Y. subst. exact X.
  - rewrite in_app_iff. cbn [In]. split; [intros [H|[H|[]]]|intros [H|H]]; auto.
Qed.
Lemma fold_In {A} (f : list gcell -> A -> list gcell) (P : A -> gcell -> Prop) :
  (forall acc a d, In d (f acc a) <-> In d acc \/ P a d) ->
  forall l acc d, In d (fold_left f l acc) <-> In d acc \/ exists a, In a l /\ P a d.
Proof.
  intros H l. induction l as [|a l IH]; intros acc d; cbn [fold_left].
  - split; [auto|]. intros [X|(a & [] & _)]; exact X.
  - rewrite IH, H. cbn [In]. split.
    + intros [[X|X]|(b & X & Y)]; [auto|right; exists a; auto|right; exists b; auto].
    + intros [X|(b & [-> |X] & Y)]; [auto|auto|right; exists b; auto].
Qed.
Lemma ints_In lo hi i : In i (ints lo hi) <-> (lo <= i <= hi)%Z.
Proof.
  unfold ints. rewrite in_map_iff. split.
  - intros (k & <- & H). apply in_seq in H. lia.
  - intros H. exists (Z.to_nat (i - lo)). split; [lia|]. apply in_seq. lia.
Qed.

Definition span (n : gnode) : Z :=
  Z.max (Z.abs (cx (n_cell n) - cx (n_par n))) (Z.max (Z.abs (cy (n_cell n) - cy (n_par n))) (Z.abs (cz (n_cell n) - cz (n_par n)))).
(** coordinate in cells after i of 2m half steps from cell p to cell c *)
Definition half (m p c i : Z) : R := IZR p + / 2 + IZR (c - p) * IZR i / IZR (2 * m).
Lemma half_pos (sc : R) m p c i : 0 < sc -> (0 < m)%Z ->
  (pos1 Rn sc p + (pos1 Rn sc c - pos1 Rn sc p) / IZR (2 * m) * IZR i) / sc = half m p c i.
Proof.
  intros Hs Hm. rewrite !pos1_R. unfold half. rewrite minus_IZR. assert (IZR (2 * m) <> 0) by (apply IZR_neq; lia). field. split; lra.
Qed.
Lemma getCells_In (sc : R) n d : 0 < sc ->
  In d (getCells Rn Rfl sc n) <->
  exists i, (1 <= i <= 2 * span n)%Z /\
    (cx d = Zfloor (half (span n) (cx (n_par n)) (cx (n_cell n)) i + / 10 / sc) \/ cx d = Zfloor (half (span n) (cx (n_par n)) (cx (n_cell n)) i - / 10 / sc)) /\
    (cy d = Zfloor (half (span n) (cy (n_par n)) (cy (n_cell n)) i + / 10 / sc) \/ cy d = Zfloor (half (span n) (cy (n_par n)) (cy (n_cell n)) i - / 10 / sc)) /\
    cz d = Zfloor (half (span n) (cz (n_par n)) (cz (n_cell n)) i).
Proof.
  intros Hs. unfold getCells. cbv zeta. fold (span n). set (m := span n).
  set (A := fun i => pos1 Rn sc (cx (n_par n)) + (pos1 Rn sc (cx (n_cell n)) - pos1 Rn sc (cx (n_par n))) / IZR (2 * m) * IZR i).
  set (B := fun i => pos1 Rn sc (cy (n_par n)) + (pos1 Rn sc (cy (n_cell n)) - pos1 Rn sc (cy (n_par n))) / IZR (2 * m) * IZR i).
  set (D := fun i => pos1 Rn sc (cz (n_par n)) + (pos1 Rn sc (cz (n_cell n)) - pos1 Rn sc (cz (n_par n))) / IZR (2 * m) * IZR i).
  rewrite (fold_In _ (fun i d => exists e f : R, (e = / 10 \/ e = - / 10) /\ (f = / 10 \/ f = - / 10) /\
    d = C3 (Zfloor ((A i + e) / sc)) (Zfloor ((B i + f) / sc)) (Zfloor (D i / sc)))).
  2:{ intros acc i x. rewrite !cins_In.
      assert (E : forall e f (e' f' : Rn), e' = e -> f' = f -> cell_of Rn Rfl sc (V3 (A i + e' : Rn) (B i + f' : Rn) (D i)) = C3 (Zfloor ((A i + e) / sc)) (Zfloor ((B i + f) / sc)) (Zfloor (D i / sc))).
      { intros e f e' f' -> ->. reflexivity. }
      assert (K : cst Rn 1 10 = / 10). { rewrite cst_Rn. tR. lra. }
      assert (KM : forall a : R, sub Rn a (cst Rn 1 10) = a + - / 10). { intros a. rewrite K. rn. lra. }
      assert (KP : forall a : R, add Rn a (cst Rn 1 10) = a + / 10). { intros a. rewrite K. rn. lra. }
      change (add Rn (pos1 Rn sc (cx (n_par n))) (mul Rn (div Rn (sub Rn (pos1 Rn sc (cx (n_cell n))) (pos1 Rn sc (cx (n_par n)))) (ofZ Rn (2 * m))) (ofZ Rn i))) with (A i : Rn).
      change (add Rn (pos1 Rn sc (cy (n_par n))) (mul Rn (div Rn (sub Rn (pos1 Rn sc (cy (n_cell n))) (pos1 Rn sc (cy (n_par n)))) (ofZ Rn (2 * m))) (ofZ Rn i))) with (B i : Rn).
      change (add Rn (pos1 Rn sc (cz (n_par n))) (mul Rn (div Rn (sub Rn (pos1 Rn sc (cz (n_cell n))) (pos1 Rn sc (cz (n_par n)))) (ofZ Rn (2 * m))) (ofZ Rn i))) with (D i : Rn).
      rewrite !KM, !KP.
      change (cell_of Rn Rfl sc (V3 (A i + / 10 : Rn) (B i + / 10) (D i))) with (C3 (Zfloor ((A i + / 10) / sc)) (Zfloor ((B i + / 10) / sc)) (Zfloor (D i / sc))).
      change (cell_of Rn Rfl sc (V3 (A i + / 10 : Rn) (B i + - / 10) (D i))) with (C3 (Zfloor ((A i + / 10) / sc)) (Zfloor ((B i + - / 10) / sc)) (Zfloor (D i / sc))).
      change (cell_of Rn Rfl sc (V3 (A i + - / 10 : Rn) (B i + / 10) (D i))) with (C3 (Zfloor ((A i + - / 10) / sc)) (Zfloor ((B i + / 10) / sc)) (Zfloor (D i / sc))).
      change (cell_of Rn Rfl sc (V3 (A i + - / 10 : Rn) (B i + - / 10) (D i))) with (C3 (Zfloor ((A i + - / 10) / sc)) (Zfloor ((B i + - / 10) / sc)) (Zfloor (D i / sc))).
      split.
      - intros [[[[H|H]|H]|H]|H]; [left; exact H|right..]; subst x; eexists; eexists; (split; [|split; [|reflexivity]]); auto.
      - intros [H|(e & f & [-> | ->] & [-> | ->] & ->)]; auto. }
  cbn [In].
  assert (H10 : forall a, (a + / 10) / sc = a / sc + / 10 / sc) by (intros; field; lra).
  assert (H11 : forall a, (a + - / 10) / sc = a / sc - / 10 / sc) by (intros; field; lra).
  split.
  - intros [[]|(i & Hi & e & f & He & Hf & ->)]. apply ints_In in Hi. assert (0 < m)%Z by lia. exists i. split; [exact Hi|]. cbn [cx cy cz].
    rewrite <- !(half_pos sc) by assumption. fold (A i) (B i) (D i).
    destruct He as [-> | ->], Hf as [-> | ->]; rewrite ?H10, ?H11; auto.
  - intros (i & Hi & Hx & Hy & Hz). right. exists i. split; [apply ints_In; exact Hi|]. assert (0 < m)%Z by lia.
    rewrite <- !(half_pos sc) in Hx, Hy, Hz by assumption. fold (A i) in Hx. fold (B i) in Hy. fold (D i) in Hz.
    rewrite <- H10, <- H11 in Hx, Hy. destruct d as [d1 d2 d3]. cbn [cx cy cz] in *.
    exists (if Z.eq_dec d1 (Zfloor ((A i + / 10) / sc)) then / 10 else - / 10), (if Z.eq_dec d2 (Zfloor ((B i + / 10) / sc)) then / 10 else - / 10).
    destruct (Z.eq_dec d1 _), (Z.eq_dec d2 _); (split; [auto|]); (split; [auto|]); f_equal; tauto || (destruct Hx, Hy; tauto).
Qed.

(** soundness: a cell that is looked at contains a point ten centimetres off a point of the way, at the same height *)
Lemma cells_near (sc : R) n d : 0 < sc -> In d (getCells Rn Rfl sc n) ->
  exists t q, 0 < t <= 1 /\ in_cube sc d q /\ let w := on_way sc (n_par n) (n_cell n) t in
    Rabs (vx q - vx w) = / 10 /\ Rabs (vy q - vy w) = / 10 /\ vz q = vz w.
Proof.
  intros Hs H. apply getCells_In in H; [|exact Hs]. destruct H as (i & Hi & Hx & Hy & Hz). set (m := span n) in *.
  assert (Hm : (0 < m)%Z) by lia. assert (Hm' : 0 < IZR (2 * m)) by (apply IZR_lt; lia).
  assert (Hi1 : 0 < IZR i) by (apply IZR_lt; lia). assert (Hi2 : IZR i <= IZR (2 * m)) by (apply IZR_le; lia).
  exists (IZR i / IZR (2 * m)).
  assert (W : forall p c, sc * (IZR p + / 2) + IZR i / IZR (2 * m) * (sc * (IZR c + / 2) - sc * (IZR p + / 2)) = sc * half m p c i).
  { intros p c. unfold half. rewrite minus_IZR. field. lra. }
  assert (F : forall z x, z = Zfloor x -> IZR z * sc <= sc * x < IZR (z + 1) * sc).
  { intros z x ->. pose proof (Zfloor_lb x). pose proof (Zfloor_ub x). rewrite plus_IZR.
    split; [rewrite Rmult_comm; apply Rmult_le_compat_l; lra|rewrite (Rmult_comm _ sc); apply Rmult_lt_compat_l; lra]. }
  assert (X : forall z x, z = Zfloor (x + / 10 / sc) \/ z = Zfloor (x - / 10 / sc) -> exists y, IZR z * sc <= y < IZR (z + 1) * sc /\ Rabs (y - sc * x) = / 10).
  { intros z x [E|E]; apply F in E.
    - exists (sc * (x + / 10 / sc)). split; [exact E|]. replace (sc * (x + / 10 / sc) - sc * x) with (/ 10) by (field; lra). apply Rabs_pos_eq. lra.
    - exists (sc * (x - / 10 / sc)). split; [exact E|]. replace (sc * (x - / 10 / sc) - sc * x) with (- / 10) by (field; lra). rewrite Rabs_Ropp. apply Rabs_pos_eq. lra. }
  destruct (X _ _ Hx) as (x & X1 & X2). destruct (X _ _ Hy) as (y & Y1 & Y2). apply F in Hz.
  exists (V3 (x : Rn) y (sc * half m (cz (n_par n)) (cz (n_cell n)) i)).
  split; [|split].
  - split; [apply Rdiv_lt_0_compat; lra|]. apply Rmult_le_reg_r with (IZR (2 * m)); [lra|]. replace (IZR i / IZR (2 * m) * IZR (2 * m)) with (IZR i) by (field; lra). lra.
  - unfold in_cube. cbn [vx vy vz]. auto.
  - cbv zeta. unfold on_way. cbn [vx vy vz]. rewrite !W. auto.
Qed.

(* ------------------------------------------------------------------------------------------- completeness *)
Lemma near_floor (dl : R) (Hd : 0 < dl < / 2) a : Zfloor a = Zfloor (a + dl) \/ Zfloor a = Zfloor (a - dl).
Proof.
  pose proof (Zfloor_lb a) as A. pose proof (Zfloor_ub a) as B. set (z := Zfloor a) in *.
  destruct (Rlt_le_dec (a + dl) (IZR z + 1)); [left|right]; symmetry; apply Zfloor_imp; rewrite plus_IZR; lra.
Qed.
Lemma floor_between a x b : Rmin a b <= x <= Rmax a b -> Rabs (b - a) <= / 2 -> Zfloor x = Zfloor a \/ Zfloor x = Zfloor b.
Proof.
  intros H1 H2. pose proof (Zfloor_lb a) as A1. pose proof (Zfloor_ub a) as A2. pose proof (Zfloor_lb b) as B1. pose proof (Zfloor_ub b) as B2.
  pose proof (Zfloor_lb x) as X1. pose proof (Zfloor_ub x) as X2. apply Rabs_le_inv in H2.
  set (za := Zfloor a) in *. set (zb := Zfloor b) in *. set (zx := Zfloor x) in *.
  assert (Rmin a b <= a /\ Rmin a b <= b /\ a <= Rmax a b /\ b <= Rmax a b) as (_ & _ & _ & _)
    by (repeat split; [apply Rmin_l|apply Rmin_r|apply Rmax_l|apply Rmax_r]).
  destruct (Rle_lt_dec a b).
  - rewrite Rmin_left, Rmax_right in H1 by lra.
    assert (IZR za < IZR (zx + 1)) by (rewrite plus_IZR; lra). assert (IZR zx < IZR (zb + 1)) by (rewrite plus_IZR; lra).
    assert (IZR zb < IZR (za + 2)) by (rewrite plus_IZR; lra). apply lt_IZR in H, H0, H3. lia.
  - rewrite Rmin_right, Rmax_left in H1 by lra.
    assert (IZR zb < IZR (zx + 1)) by (rewrite plus_IZR; lra). assert (IZR zx < IZR (za + 1)) by (rewrite plus_IZR; lra).
    assert (IZR za < IZR (zb + 2)) by (rewrite plus_IZR; lra). apply lt_IZR in H, H0, H3. lia.
Qed.
Section OneDim.
Variables (m p c : Z).
Hypothesis Hm : (0 < m)%Z.
Hypothesis Hk : (Z.abs (c - p) <= m)%Z.
Definition hs (s : R) : R := IZR p + / 2 + IZR (c - p) * s / IZR (2 * m).
Let M0 : 0 < IZR m. Proof. apply IZR_lt; lia. Qed.
Let K1 : - IZR m <= IZR (c - p) <= IZR m. Proof. rewrite <- opp_IZR. split; apply IZR_le; lia. Qed.
Lemma hs_eq s : hs s = IZR p + / 2 + IZR (c - p) / IZR m * (s / 2).
Proof. unfold hs. rewrite mult_IZR. field. lra. Qed.
Lemma slope : -1 <= IZR (c - p) / IZR m <= 1.
Proof.
  split; apply Rmult_le_reg_r with (IZR m); try lra; unfold Rdiv; rewrite Rmult_assoc, Rinv_l by lra; lra.
Qed.
Lemma hs_between i s : i <= s <= i + 1 -> Zfloor (hs s) = Zfloor (hs i) \/ Zfloor (hs s) = Zfloor (hs (i + 1)).
Proof.
  intros H. pose proof slope as S. set (k := IZR (c - p) / IZR m) in *.
  apply floor_between; rewrite !hs_eq; fold k.
  - set (q := IZR p + / 2). destruct (Rle_lt_dec 0 k) as [P|P].
    + assert (k * (i / 2) <= k * (s / 2) <= k * ((i + 1) / 2)) by (split; apply Rmult_le_compat_l; lra).
      rewrite Rmin_left, Rmax_right by lra. lra.
    + assert (k * (s / 2) <= k * (i / 2) /\ k * ((i + 1) / 2) <= k * (s / 2)) as (? & ?) by (split; nra).
      rewrite Rmin_right, Rmax_left by lra. lra.
  - replace (_ - _) with (k / 2) by (field). apply Rabs_le. lra.
Qed.
Lemma hs_dominant dl (Hd : 0 < dl < / 2) (i : Z) s : Z.abs (c - p) = m -> IZR i < s < IZR i + 1 ->
  (Zfloor (hs s) = Zfloor (hs (IZR i) + dl) \/ Zfloor (hs s) = Zfloor (hs (IZR i) - dl)) /\
  (Zfloor (hs s) = Zfloor (hs (IZR i + 1) + dl) \/ Zfloor (hs s) = Zfloor (hs (IZR i + 1) - dl)).
Proof.
  intros D H. pose proof Hd as Hd'.
  assert (E : exists z : Z, IZR z < hs s < IZR z + 1 /\ (exists e, (e = dl \/ e = - dl) /\ IZR z < hs (IZR i) + e < IZR z + 1) /\
                            (exists e, (e = dl \/ e = - dl) /\ IZR z < hs (IZR i + 1) + e < IZR z + 1)).
  { rewrite !hs_eq.
    destruct (Z.Even_or_Odd i) as [(j & Ej)|(j & Ej)]; assert (Ei : IZR i = 2 * IZR j \/ IZR i = 2 * IZR j + 1) by (subst i; rewrite ?plus_IZR, ?mult_IZR; lra).
    - assert (Ei' : IZR i = 2 * IZR j) by (subst i; rewrite mult_IZR; lra). clear Ei.
      destruct (Z.abs_eq_or_opp (c - p)) as [A|A].
      + replace (IZR (c - p) / IZR m) with 1 by (rewrite <- A, D; field; lra).
        exists (p + j)%Z. rewrite plus_IZR. split; [lra|]. split; [exists dl; split; [auto|lra]|exists (- dl); split; [auto|lra]].
      + replace (IZR (c - p) / IZR m) with (-1) by (replace (c - p)%Z with (- m)%Z by lia; rewrite opp_IZR; field; lra).
        exists (p - j)%Z. rewrite minus_IZR. split; [lra|]. split; [exists dl; split; [auto|lra]|exists dl; split; [auto|lra]].
    - assert (Ei' : IZR i = 2 * IZR j + 1) by (subst i; rewrite plus_IZR, mult_IZR; lra). clear Ei.
      destruct (Z.abs_eq_or_opp (c - p)) as [A|A].
      + replace (IZR (c - p) / IZR m) with 1 by (rewrite <- A, D; field; lra).
        exists (p + j + 1)%Z. rewrite !plus_IZR. split; [lra|]. split; [exists dl; split; [auto|lra]|exists dl; split; [auto|lra]].
      + replace (IZR (c - p) / IZR m) with (-1) by (replace (c - p)%Z with (- m)%Z by lia; rewrite opp_IZR; field; lra).
        exists (p - j - 1)%Z. rewrite !minus_IZR. split; [lra|]. split; [exists (- dl); split; [auto|lra]|exists dl; split; [auto|lra]]. }
  destruct E as (z & Z1 & (e & E1 & E2) & (f & F1 & F2)).
  assert (Q : forall x, IZR z < x < IZR z + 1 -> Zfloor x = z) by (intros; apply Zfloor_imp; rewrite plus_IZR; lra).
  apply Q in Z1, E2, F2. rewrite Z1.
  unfold Rminus. symmetry in E2, F2. destruct E1 as [-> | ->], F1 as [-> | ->]; split; auto.
Qed.
Lemma hs_start s : 0 <= s < 1 -> Zfloor (hs s) = p.
Proof.
  intros H. pose proof slope as S. rewrite hs_eq. set (k := IZR (c - p) / IZR m) in *.
  assert (- / 2 < k * (s / 2) < / 2). { split; nra. }
  apply Zfloor_imp. rewrite plus_IZR. lra.
Qed.
End OneDim.
Lemma hs_half m p c i : hs m p c (IZR i) = half m p c i. Proof. reflexivity. Qed.

Definition plain_move (p c : gcell) : Prop :=
  cz c = cz p \/ (cx c = cx p /\ cy c = cy p) \/
  (cy c = cy p /\ (Z.abs (cz c - cz p) <= Z.abs (cx c - cx p))%Z) \/ (cx c = cx p /\ (Z.abs (cz c - cz p) <= Z.abs (cy c - cy p))%Z).
Lemma cells_complete (sc t : R) n d : / 5 < sc -> plain_move (n_par n) (n_cell n) -> 0 <= t <= 1 ->
  in_cube sc d (on_way sc (n_par n) (n_cell n) t) -> d = n_par n \/ In d (getCells Rn Rfl sc n).
Proof.
  intros Hs Hpl Ht Hc. set (m := span n). set (p := n_par n) in *. set (c := n_cell n) in *.
  assert (Hd : 0 < / 10 / sc < / 2).
  { split; [apply Rdiv_lt_0_compat; lra|]. apply Rmult_lt_reg_r with sc; [lra|]. replace (/ 10 / sc * sc) with (/ 10) by (field; lra). lra. }
  assert (M0 : (0 <= m)%Z) by (unfold m, span; lia).
  assert (Bx : (Z.abs (cx c - cx p) <= m)%Z) by (unfold m, span, c, p; lia).
  assert (By : (Z.abs (cy c - cy p) <= m)%Z) by (unfold m, span, c, p; lia).
  assert (Bz : (Z.abs (cz c - cz p) <= m)%Z) by (unfold m, span, c, p; lia).
  assert (Bm : (m = Z.abs (cx c - cx p) \/ m = Z.abs (cy c - cy p) \/ m = Z.abs (cz c - cz p))%Z) by (unfold m, span, c, p; lia).
  set (s := 2 * IZR m * t).
  assert (EC : (0 < m)%Z -> cx d = Zfloor (hs m (cx p) (cx c) s) /\ cy d = Zfloor (hs m (cy p) (cy c) s) /\ cz d = Zfloor (hs m (cz p) (cz c) s)).
  { intros Hm. assert (0 < IZR m) by (apply IZR_lt; lia).
    unfold in_cube, on_way in Hc. cbn [vx vy vz] in Hc.
    assert (E : forall i j z, IZR z * sc <= sc * (IZR i + / 2) + t * (sc * (IZR j + / 2) - sc * (IZR i + / 2)) < IZR (z + 1) * sc -> z = Zfloor (hs m i j s)).
    { intros i j z Hz. symmetry. apply Zfloor_imp.
      replace (sc * (IZR i + / 2) + t * (sc * (IZR j + / 2) - sc * (IZR i + / 2))) with (hs m i j s * sc) in Hz
        by (unfold hs, s; rewrite minus_IZR, mult_IZR; field; lra).
      destruct Hz as [Z1 Z2]. apply Rmult_le_reg_r in Z1; [|lra]. apply Rmult_lt_reg_r in Z2; [|lra]. lra. }
    destruct Hc as (C1 & C2 & C3). auto. }
  assert (EQ : forall a b : gcell, cx a = cx b -> cy a = cy b -> cz a = cz b -> a = b) by (intros [] []; cbn; intros; subst; reflexivity).
  destruct (Z.eq_dec m 0) as [Em|Em].
  { left. clear EC. unfold in_cube, on_way in Hc. cbn [vx vy vz] in Hc.
    assert (E : forall i j z, j = i -> IZR z * sc <= sc * (IZR i + / 2) + t * (sc * (IZR j + / 2) - sc * (IZR i + / 2)) < IZR (z + 1) * sc -> z = i).
    { intros i j z -> Hz. replace (sc * (IZR i + / 2) + t * (sc * (IZR i + / 2) - sc * (IZR i + / 2))) with ((IZR i + / 2) * sc) in Hz by ring.
      destruct Hz as [Z1 Z2]. apply Rmult_le_reg_r in Z1; [|lra]. apply Rmult_lt_reg_r in Z2; [|lra].
      assert (IZR z < IZR (i + 1)) by (rewrite plus_IZR; lra). rewrite plus_IZR in Z2. assert (IZR i < IZR (z + 1)) by (rewrite plus_IZR; lra).
      apply lt_IZR in H, H0. lia. }
    destruct Hc as (C1 & C2 & C3). apply E in C1; [|lia]. apply E in C2; [|lia]. apply E in C3; [|lia]. apply EQ; assumption. }
  assert (Hm : (0 < m)%Z) by lia. assert (Hm' : 0 < IZR m) by (apply IZR_lt; lia). destruct (EC Hm) as (Dx & Dy & Dz). clear EC Hc.
  assert (S0 : 0 <= s <= IZR (2 * m)). { unfold s. rewrite mult_IZR. split; nra. }
  set (i := Zfloor s). pose proof (Zfloor_lb s) as I1. pose proof (Zfloor_ub s) as I2. fold i in I1, I2.
  assert (I0 : (0 <= i)%Z). { assert (IZR (-1) < IZR i) by lra. apply lt_IZR in H. lia. }
  assert (IM : (i <= 2 * m)%Z). { assert (IZR i < IZR (2 * m + 1)) by (rewrite plus_IZR; lra). apply lt_IZR in H. lia. }
  destruct (Z.eq_dec i 0) as [Ei|Ei].
  { left. assert (0 <= s < 1) by (rewrite Ei in I2; lra).
    rewrite (hs_start m _ _ Hm Bx s H) in Dx. rewrite (hs_start m _ _ Hm By s H) in Dy. rewrite (hs_start m _ _ Hm Bz s H) in Dz. apply EQ; assumption. }
  right. apply getCells_In; [lra|]. fold m p c.
  destruct (Req_dec s (IZR i)) as [Es|Es].
  { exists i. split; [lia|]. rewrite <- !hs_half, <- Es. split; [|split; [|exact Dz]]; rewrite ?Dx, ?Dy; apply near_floor; exact Hd. }
  assert (IS : IZR i < s < IZR i + 1) by lra.
  assert (IM2 : (i + 1 <= 2 * m)%Z). { assert (IZR i < IZR (2 * m)) by lra. apply lt_IZR in H. lia. }
  assert (IP : hs m (cx p) (cx c) (IZR i + 1) = half m (cx p) (cx c) (i + 1) /\ hs m (cy p) (cy c) (IZR i + 1) = half m (cy p) (cy c) (i + 1) /\
               hs m (cz p) (cz c) (IZR i + 1) = half m (cz p) (cz c) (i + 1)) by (rewrite <- plus_IZR; auto).
  destruct IP as (Px & Py & Pz).
  assert (IC : IZR i <= s <= IZR i + 1) by lra.
  pose proof (fun a => near_floor _ Hd a) as NF.
  pose proof (hs_between m _ _ Hm Bx (IZR i) s IC) as Tx. pose proof (hs_between m _ _ Hm By (IZR i) s IC) as Ty. pose proof (hs_between m _ _ Hm Bz (IZR i) s IC) as Tz.
  pose proof (hs_dominant m (cx p) (cx c) Hm _ Hd i s) as Ux. pose proof (hs_dominant m (cy p) (cy c) Hm _ Hd i s) as Uy.
  rewrite Px in Tx, Ux. rewrite Py in Ty, Uy. rewrite Pz in Tz. rewrite hs_half in Tx, Ty, Tz, Ux, Uy. rewrite <- Dx in Tx, Ux. rewrite <- Dy in Ty, Uy. rewrite <- Dz in Tz.
  assert (Still : forall a b s1 s2, b = a -> hs m a b s1 = hs m a b s2). { intros a b s1 s2 ->. unfold hs. rewrite Z.sub_diag. unfold Rdiv. rewrite !Rmult_0_l. reflexivity. }
  (* choose the sample *)
  assert (Pick : forall j, j = i \/ j = (i + 1)%Z ->
     (cx d = Zfloor (half m (cx p) (cx c) j + / 10 / sc) \/ cx d = Zfloor (half m (cx p) (cx c) j - / 10 / sc)) ->
     (cy d = Zfloor (half m (cy p) (cy c) j + / 10 / sc) \/ cy d = Zfloor (half m (cy p) (cy c) j - / 10 / sc)) ->
     cz d = Zfloor (half m (cz p) (cz c) j) ->
     exists i0, (1 <= i0 <= 2 * m)%Z /\
     (cx d = Zfloor (half m (cx p) (cx c) i0 + / 10 / sc) \/ cx d = Zfloor (half m (cx p) (cx c) i0 - / 10 / sc)) /\
     (cy d = Zfloor (half m (cy p) (cy c) i0 + / 10 / sc) \/ cy d = Zfloor (half m (cy p) (cy c) i0 - / 10 / sc)) /\
     cz d = Zfloor (half m (cz p) (cz c) i0)).
  { intros j Hj A B C. exists j. split; [lia|]. auto. }
  assert (NX : forall j, cx d = Zfloor (half m (cx p) (cx c) j) -> cx d = Zfloor (half m (cx p) (cx c) j + / 10 / sc) \/ cx d = Zfloor (half m (cx p) (cx c) j - / 10 / sc)).
  { intros j ->. apply NF. }
  assert (NY : forall j, cy d = Zfloor (half m (cy p) (cy c) j) -> cy d = Zfloor (half m (cy p) (cy c) j + / 10 / sc) \/ cy d = Zfloor (half m (cy p) (cy c) j - / 10 / sc)).
  { intros j ->. apply NF. }
  assert (SX : cx c = cx p -> forall j, cx d = Zfloor (half m (cx p) (cx c) j)). { intros E j. rewrite Dx, <- hs_half. f_equal. apply Still, E. }
  assert (SY : cy c = cy p -> forall j, cy d = Zfloor (half m (cy p) (cy c) j)). { intros E j. rewrite Dy, <- hs_half. f_equal. apply Still, E. }
  assert (SZ : cz c = cz p -> forall j, cz d = Zfloor (half m (cz p) (cz c) j)). { intros E j. rewrite Dz, <- hs_half. f_equal. apply Still, E. }
  destruct Hpl as [L|[[L1 L2]|[[L1 L2]|[L1 L2]]]].
  - destruct Bm as [B|[B|B]].
    + destruct (Ux (eq_sym B) IS) as (U1 & U2). destruct Ty as [T|T]; [apply (Pick i)|apply (Pick (i + 1)%Z)]; auto.
    + destruct (Uy (eq_sym B) IS) as (U1 & U2). destruct Tx as [T|T]; [apply (Pick i)|apply (Pick (i + 1)%Z)]; auto.
    + rewrite L in B. lia.
  - destruct Tz as [T|T]; [apply (Pick i)|apply (Pick (i + 1)%Z)]; auto.
  - assert (B : Z.abs (cx c - cx p) = m) by lia. destruct (Ux B IS) as (U1 & U2). destruct Tz as [T|T]; [apply (Pick i)|apply (Pick (i + 1)%Z)]; auto.
  - assert (B : Z.abs (cy c - cy p) = m) by lia. destruct (Uy B IS) as (U1 & U2). destruct Tz as [T|T]; [apply (Pick i)|apply (Pick (i + 1)%Z)]; auto.
Qed.
