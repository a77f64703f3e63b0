(** Proofs about the landing decision per cell, whole runs and histories, and the transport of the grid. *)
From Coq Require Import ZArith Reals List Bool Lia Lra.
From Flocq Require Import Core BinarySingleNaN.
From Verif Require Import Num Mat CommonModel PfModel PfSpec StarModel LpModel SlModel SlSpec SlProofs.
Import ListNotations.
Local Open Scope Z_scope.

Lemma in_zfromto a b x : In x (zfromto a b) <-> a <= x <= b.
Proof.
  unfold zfromto. rewrite in_map_iff. split.
  - intros (i & <- & H). apply in_zrange in H. lia.
  - intros H. exists (x - a). split; [lia|]. apply in_zrange. lia.
Qed.
Lemma in_window p k t : In (k, t) (window p) <-> - p <= k <= p /\ - p <= t <= p.
Proof. unfold window. rewrite in_prod_iff, !in_zfromto. tauto. Qed.
Lemma in_loop2 r c i j : In (i, j) (loop2 r c) <-> 0 <= i < r /\ 0 <= j < c.
Proof. unfold loop2. rewrite in_prod_iff, !in_zrange. tauto. Qed.
Lemma count_cons {A} (f : A -> bool) a l : count f (a :: l) = (if f a then 1 else 0) + count f l.
Proof. unfold count. cbn. destruct (f a); cbn [List.length]; lia. Qed.
Lemma count_nonneg {A} (f : A -> bool) l : 0 <= count f l.
Proof. unfold count. lia. Qed.

Section Land.
Context (N : num).
Lemma in_grid_inb {A} (m : mat A) n i j : rows m = n -> cols m = n -> inb m i j = in_grid n i j.
Proof using. intros <- H. unfold inb, in_grid. rewrite H. reflexivity. Qed.
Lemma in_grid_true n i j : in_grid n i j = true <-> 0 <= i < n /\ 0 <= j < n.
Proof using. unfold in_grid. rewrite !andb_true_iff, !Z.leb_le, !Z.ltb_lt. lia. Qed.

(** safe_landing_planner.cpp:79-88 *)
Lemma land0_spec (c : slp_cfg N) (g : grid N) : well_sized N g ->
  exists land, mbuild 0 (g_rc g) (g_rc g) (cellLandable N c g) = Some land /\ rows land = g_rc g /\ cols land = g_rc g /\
    forall i j, 0 <= i < g_rc g -> 0 <= j < g_rc g -> cell land i j = if flat_cell N c g i j then 1 else 0.
Proof using.
  intros (W1 & W2 & W3 & W4 & W5 & W6 & _).
  assert (E : forall i j, 0 <= i < g_rc g -> 0 <= j < g_rc g -> cellLandable N c g i j = Some (if flat_cell N c g i j then 1 else 0)).
  { intros i j Hi Hj. unfold cellLandable. rewrite !mget_some by lia. cbn [obind]. unfold flat_cell.
    destruct (ltb N (ofZ N (cell (g_cnt g) i j)) (k_points c)), (ltb N (k_std c) (sqrtv N (cell (g_var g) i j))); reflexivity. }
  rewrite mbuild_some by (intros i j Hi Hj; rewrite (E i j Hi Hj); discriminate).
  eexists; split; [reflexivity|]. cbn. repeat split. intros i j Hi Hj. rewrite (E i j Hi Hj). reflexivity.
Qed.

Lemma select_max t x : 1 <= t -> 0 <= x -> select2 t 1 0 x = if x <=? t then 1 else 0.
Proof using. intros Ht Hx. unfold select2. destruct (Z.leb_spec x t); [destruct (Z.ltb_spec t 1); lia|]. destruct (Z.ltb_spec t x); lia. Qed.
Lemma select_max0 x : 0 <= x -> select2 0 1 0 x = 0.
Proof using. intros Hx. unfold select2. destruct (Z.leb_spec x 0); [reflexivity|]. destruct (Z.ltb_spec 0 x); [reflexivity|lia]. Qed.
Lemma select_min t x : 0 <= t -> select2 t 0 1 x = if t <? x then 1 else 0.
Proof using.
  intros Ht. unfold select2. destruct (Z.leb_spec x t).
  - destruct (Z.ltb_spec t 0); [lia|]. destruct (Z.ltb_spec t x); [lia|reflexivity].
  - destruct (Z.ltb_spec t x); [reflexivity|lia].
Qed.

Lemma accumulate_spec (c : slp_cfg N) p (g : grid N) land i j : well_sized N g -> 0 < p ->
  rows land = g_rc g -> cols land = g_rc g ->
  (forall i j, 0 <= i < g_rc g -> 0 <= j < g_rc g -> cell land i j = if flat_cell N c g i j then 1 else 0) ->
  0 <= i < g_rc g -> 0 <= j < g_rc g ->
  accumulate N c p land (g_mean g) (i + p) (j + p) = Some (flat_around N c g p i j, steps_around N c g p i j).
Proof using.
  intros (W1 & W2 & _) Hp R1 R2 L Hi Hj.
  set (f := fun (acc : Z * Z) (kt : Z * Z) => let '(k, t) := kt in
      obind (mget (padded p 0 land) (i + p + k) (j + p + t)) (fun l =>
      obind (mget (padded p (ofZ N 0) (g_mean g)) (i + p) (j + p)) (fun m0 =>
      obind (mget (padded p (ofZ N 0) (g_mean g)) (i + p + k) (j + p + t)) (fun m1 =>
      Some (fst acc + l, if ltb N (k_mean_diff c) (absv N (sub N m0 m1)) then snd acc + 1 else snd acc))))).
  set (q1 := fun q => in_grid (g_rc g) (fst q) (snd q) && flat_cell N c g (fst q) (snd q)).
  set (q2 := fun q => ltb N (k_mean_diff c) (absv N (sub N (mean_at N g i j) (mean_at N g (fst q) (snd q))))).
  assert (St : forall a b k t, - p <= k <= p -> - p <= t <= p ->
    f (a, b) (k, t) = Some (a + (if q1 (i + k, j + t) then 1 else 0), b + (if q2 (i + k, j + t) then 1 else 0))).
  { intros a b k t Hk Ht. unfold f, q1, q2. rewrite !mget_some by (unfold padded; cbn [rows cols]; lia). cbn [obind fst snd].
    assert (P : forall x y, cell (padded p (ofZ N 0) (g_mean g)) (x + p) (y + p) = mean_at N g x y).
    { intros x y. unfold padded, mean_at. cbn [cell]. rewrite !Z.add_simpl_r. rewrite (in_grid_inb (g_mean g) (g_rc g) x y W1 W2). reflexivity. }
    replace (i + p + k) with (i + k + p) by lia. replace (j + p + t) with (j + t + p) by lia. rewrite !P.
    assert (Q : cell (padded p 0 land) (i + k + p) (j + t + p) = if in_grid (g_rc g) (i + k) (j + t) && flat_cell N c g (i + k) (j + t) then 1 else 0).
    { unfold padded. cbn [cell]. rewrite !Z.add_simpl_r. rewrite (in_grid_inb land (g_rc g) _ _ R1 R2).
      destruct (in_grid (g_rc g) (i + k) (j + t)) eqn:I; cbn [andb]; [|reflexivity]. apply in_grid_true in I. apply L; tauto. }
    rewrite Q. destruct (ltb N (k_mean_diff c) _); [reflexivity|]. rewrite (Z.add_0_r b). reflexivity. }
  assert (Gen : forall l a b, (forall k t, In (k, t) l -> - p <= k <= p /\ - p <= t <= p) ->
    foldM f (a, b) l = Some (a + count q1 (map (fun kt => (i + fst kt, j + snd kt)) l), b + count q2 (map (fun kt => (i + fst kt, j + snd kt)) l))).
  { induction l as [|[k t] l IH]; intros a b Hl.
    - cbn. unfold count. cbn. rewrite !Z.add_0_r. reflexivity.
    - cbn [foldM map]. destruct (Hl k t (or_introl eq_refl)) as [Hk Ht].
      rewrite (St a b k t Hk Ht), IH by (intros; apply Hl; right; assumption).
      rewrite !count_cons. cbn [fst snd]. rewrite !Z.add_assoc. reflexivity. }
  unfold accumulate. fold f. rewrite Gen by (intros; apply in_window; assumption). reflexivity.
Qed.

(** the decision per cell *)
Definition landable (c : slp_cfg N) (g : grid N) (p i j : Z) : bool :=
  if 0 <? p then (k_min_land c <? flat_around N c g p i j) && (steps_around N c g p i j <=? k_max_diff c) else flat_cell N c g i j.
Lemma landing_spec (c : slp_cfg N) p (g : grid N) : well_sized N g -> 0 <= k_min_land c -> 1 <= k_max_diff c ->
  exists land, isLandingPossible N c p g = Some land /\ rows land = g_rc g /\ cols land = g_rc g /\
    forall i j, 0 <= i < g_rc g -> 0 <= j < g_rc g -> cell land i j = if landable c g p i j then 1 else 0.
Proof using.
  intros W H1 H2. unfold isLandingPossible, landable. destruct (land0_spec c g W) as (land & -> & R1 & R2 & L). cbn [obind].
  destruct (Z.ltb_spec 0 p) as [Hp|Hp].
  - assert (E : forall i j, 0 <= i < g_rc g -> 0 <= j < g_rc g ->
      obind (accumulate N c p land (g_mean g) (i + p) (j + p)) (fun acc => Some (select2 (k_max_diff c) 1 0 (snd acc) * select2 (k_min_land c) 0 1 (fst acc))) =
      Some (if (k_min_land c <? flat_around N c g p i j) && (steps_around N c g p i j <=? k_max_diff c) then 1 else 0)).
    { intros i j Hi Hj. rewrite (accumulate_spec c p g land i j W Hp R1 R2 L Hi Hj). cbn [obind fst snd].
      rewrite select_max by (try assumption; apply count_nonneg). rewrite select_min by assumption.
      destruct (k_min_land c <? _), (_ <=? k_max_diff c); reflexivity. }
    rewrite mbuild_some by (intros i j Hi Hj; rewrite (E i j Hi Hj); discriminate).
    eexists; split; [reflexivity|]. cbn. repeat split. intros i j Hi Hj. rewrite (E i j Hi Hj). reflexivity.
  - exists land. split; [reflexivity|]. split; [exact R1|]. split; [exact R2|]. exact L.
Qed.
(** with a zero limit on differing cells nothing is ever landable *)
Lemma landing_max0 (c : slp_cfg N) p (g : grid N) : well_sized N g -> k_max_diff c = 0 -> 0 < p ->
  exists land, isLandingPossible N c p g = Some land /\ forall i j, 0 <= i < g_rc g -> 0 <= j < g_rc g -> cell land i j = 0.
Proof using.
  intros W H2 Hp. unfold isLandingPossible. destruct (land0_spec c g W) as (land & -> & R1 & R2 & L). cbn [obind].
  rewrite (proj2 (Z.ltb_lt 0 p) Hp).
  assert (E : forall i j, 0 <= i < g_rc g -> 0 <= j < g_rc g ->
      obind (accumulate N c p land (g_mean g) (i + p) (j + p)) (fun acc => Some (select2 (k_max_diff c) 1 0 (snd acc) * select2 (k_min_land c) 0 1 (fst acc))) = Some 0).
  { intros i j Hi Hj. rewrite (accumulate_spec c p g land i j W Hp R1 R2 L Hi Hj). cbn [obind fst snd].
    rewrite H2, select_max0 by apply count_nonneg. reflexivity. }
  rewrite mbuild_some by (intros i j Hi Hj; rewrite (E i j Hi Hj); discriminate).
  eexists; split; [reflexivity|]. cbn. intros i j Hi Hj. rewrite (E i j Hi Hj). reflexivity.
Qed.
(** totality for any parameters *)
Lemma landing_total (c : slp_cfg N) p (g : grid N) : well_sized N g ->
  exists land, isLandingPossible N c p g = Some land /\ rows land = g_rc g /\ cols land = g_rc g.
Proof using.
  intros W. unfold isLandingPossible. destruct (land0_spec c g W) as (land & -> & R1 & R2 & L). cbn [obind].
  destruct (Z.ltb_spec 0 p) as [Hp|Hp]; [|exists land; repeat split; assumption].
  rewrite mbuild_some by (intros i j Hi Hj; rewrite (accumulate_spec c p g land i j W Hp R1 R2 L Hi Hj); discriminate).
  eexists; split; [reflexivity|]. split; reflexivity.
Qed.

Lemma combine_spec (g prev : grid N) alpha : well_sized N g -> well_sized N prev -> g_rc prev = g_rc g ->
  exists g', combine N g prev alpha = Some g' /\ well_sized N g' /\ g_rc g' = g_rc g /\ g_cnt g' = g_cnt g /\ g_land g' = g_land g /\
    g_size g' = g_size g /\ g_cell g' = g_cell g /\ g_min g' = g_min g /\ g_max g' = g_max g /\
    forall i j, cell (g_mean g') i j = add N (mul N alpha (cell (g_mean prev) i j)) (mul N (sub N (ofZ N 1) alpha) (cell (g_mean g) i j)) /\
                cell (g_var g') i j = add N (mul N alpha (cell (g_var prev) i j)) (mul N (sub N (ofZ N 1) alpha) (cell (g_var g) i j)).
Proof using.
  intros (W1 & W2 & W3 & W4 & W5 & W6 & W7 & W8) (P1 & P2 & P3 & P4 & P5 & P6 & P7 & P8) E. unfold combine, mblend.
  rewrite P1, P2, P3, P4, W1, W2, W3, W4, E, !Z.eqb_refl. cbn [andb obind].
  eexists; split; [reflexivity|]. unfold well_sized, g_set. cbn. repeat split; assumption.
Qed.
End Land.
