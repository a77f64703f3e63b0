(** Replay of recorded grids and temporal smoothing. *)
From Coq Require Import ZArith Reals List Bool Lia Lra.
From Flocq Require Import Core BinarySingleNaN.
From Verif Require Import Num Mat CommonModel PfModel PfSpec SlModel SlSpec SlProofs SlProofs2 SlProofs3.
Import ListNotations.
Local Open Scope Z_scope.

Section Raw.
Context (N : num) (cast ceilc : N -> Z).
Lemma serialise_dims seq g idx m : well_sized N g -> serialise N seq g idx = Some m -> gm_sd1 m = g_rc g /\ gm_cd1 m = g_rc g.
Proof using.
  clear cast ceilc. intros (W1 & W2 & W3 & W4 & W5 & W6 & W7 & W8). unfold serialise.
  assert (In2 : forall i j, In (i, j) (loop2 (g_rc g) (g_rc g)) -> 0 <= i < g_rc g /\ 0 <= j < g_rc g) by (intros; apply in_loop2; assumption).
  rewrite (collect_spec (g_mean g) (g_rc g) W1 W2 _ _ In2). cbn [obind]. rewrite (collect_spec (g_land g) (g_rc g) W7 W8 _ _ In2). cbn [obind].
  rewrite (collect_spec (g_var g) (g_rc g) W3 W4 _ _ In2). cbn [obind]. rewrite (collect_spec (g_cnt g) (g_rc g) W5 W6 _ _ In2). cbn [obind app].
  intros [= <-]. split; assumption.
Qed.
Lemma raw_spec seq g idx m g0 pos : size_compat N ceilc -> sized N ceilc g -> sized N ceilc g0 -> serialise N seq g idx = Some m ->
  exists g', processRawGrid N ceilc g0 pos m = Some g' /\ sized N ceilc g' /\ g_rc g' = g_rc g /\
    ((eqb N (g_size g0) (g_size g) = true /\ eqb N (g_cell g0) (g_cell g) = true /\ g_size g' = g_size g0 /\ g_cell g' = g_cell g0) \/
     (g_size g' = g_size g /\ g_cell g' = g_cell g)) /\
    forall i j, 0 <= i < g_rc g -> 0 <= j < g_rc g ->
      cell (g_mean g') i j = cell (g_mean g) i j /\ cell (g_cnt g') i j = cell (g_cnt g) i j /\
      cell (g_var g') i j = mul N (sqrtv N (cell (g_var g) i j)) (sqrtv N (cell (g_var g) i j)).
Proof using.
  intros Cmp [W Wr] [W0 Wr0] Em. destruct (serialise_spec N seq g idx W) as (m' & E & M1 & M2 & M3 & M4 & M5 & M6). rewrite Em in E. injection E as <-.
  destruct (serialise_dims seq g idx m W Em) as [M7 M8].
  unfold processRawGrid. rewrite M2, M3, M4, M5, M7, M8.
  set (g1 := if negb (eqb N (g_size (setFilterLimits N (g_reset N g0) pos)) (g_size g)) || negb (eqb N (g_cell (setFilterLimits N (g_reset N g0) pos)) (g_cell g)) then g_resize N ceilc (setFilterLimits N (g_reset N g0) pos) (g_size g) (g_cell g) else setFilterLimits N (g_reset N g0) pos).
  assert (S1 : sized N ceilc g1 /\ g_rc g1 = g_rc g /\
    ((eqb N (g_size g0) (g_size g) = true /\ eqb N (g_cell g0) (g_cell g) = true /\ g_size g1 = g_size g0 /\ g_cell g1 = g_cell g0) \/
     (g_size g1 = g_size g /\ g_cell g1 = g_cell g))).
  { unfold g1. cbn [setFilterLimits g_reset g_size g_cell]. destruct (eqb N (g_size g0) (g_size g)) eqn:A, (eqb N (g_cell g0) (g_cell g)) eqn:B; cbn [negb orb];
    try (split; [apply sized_resize|]; split; [cbn; rewrite Wr; reflexivity|]; right; split; reflexivity).
    split; [split; [apply well_sized_limits, well_sized_reset; exact W0|exact Wr0]|]. split; [cbn; rewrite Wr0, Wr; apply Cmp; assumption|].
    left. repeat split. }
  clearbody g1. destruct S1 as ([V Vr] & Rc & Sz).
  assert (Gen : forall l gx, well_sized N gx -> g_rc gx = g_rc g -> g_size gx = g_size g1 -> g_cell gx = g_cell g1 ->
    (forall i j, In (i, j) l -> 0 <= i < g_rc g /\ 0 <= j < g_rc g) ->
    exists gy, foldM (fun h ij => let '(i, j) := ij in
      obind (vget (gm_mean m) (g_rc g * i + j)) (fun a => obind (mset (g_mean h) i j a) (fun mean =>
      obind (vget (gm_std m) (g_rc g * i + j)) (fun sd => obind (mset (g_var h) i j (mul N sd sd)) (fun var =>
      obind (vget (gm_cnt m) (g_rc g * i + j)) (fun c => obind (mset (g_cnt h) i j c) (fun cnt => Some (g_set N h mean var cnt)))))))) gx l = Some gy /\
      well_sized N gy /\ g_rc gy = g_rc g /\ g_size gy = g_size g1 /\ g_cell gy = g_cell g1 /\
      (forall i j, ~ In (i, j) l -> cell (g_mean gy) i j = cell (g_mean gx) i j /\ cell (g_cnt gy) i j = cell (g_cnt gx) i j /\
                                    cell (g_var gy) i j = cell (g_var gx) i j) /\
      (forall i j, In (i, j) l -> cell (g_mean gy) i j = cell (g_mean g) i j /\ cell (g_cnt gy) i j = cell (g_cnt g) i j /\
                                  cell (g_var gy) i j = mul N (sqrtv N (cell (g_var g) i j)) (sqrtv N (cell (g_var g) i j)))).
  { induction l as [|[i j] l IH]; intros gx X1 X2 X3 X4 X5.
    - exists gx. split; [reflexivity|]. repeat (split; [assumption|]). split; [repeat split; reflexivity|]. intros i j [].
    - cbn [foldM]. destruct (X5 i j (or_introl eq_refl)) as [Hi Hj]. destruct (M6 i j Hi Hj) as (Q1 & _ & Q2 & Q3). rewrite Q1, Q2, Q3. cbn [obind].
      destruct X1 as (Y1 & Y2 & Y3 & Y4 & Y5 & Y6 & Y7 & Y8). unfold mset at 1. rewrite (proj2 (inb_true (g_mean gx) i j)) by lia. cbn [obind].
      unfold mset at 1. rewrite (proj2 (inb_true (g_var gx) i j)) by lia. cbn [obind].
      unfold mset at 1. rewrite (proj2 (inb_true (g_cnt gx) i j)) by lia. cbn [obind].
      set (gn := g_set N _ _ _ _).
      destruct (IH gn) as (gy & E & Z1 & Z2 & Z3 & Z4 & Z5 & Z6); try assumption.
      + unfold gn, well_sized. cbn. tauto.
      + intros; apply X5; right; assumption.
      + exists gy. split; [exact E|]. repeat (split; [assumption|]).
        assert (Cell : forall i' j', cell (g_mean gn) i' j' = (if (i' =? i) && (j' =? j) then cell (g_mean g) i j else cell (g_mean gx) i' j') /\
                                     cell (g_cnt gn) i' j' = (if (i' =? i) && (j' =? j) then cell (g_cnt g) i j else cell (g_cnt gx) i' j') /\
                                     cell (g_var gn) i' j' = (if (i' =? i) && (j' =? j) then mul N (sqrtv N (cell (g_var g) i j)) (sqrtv N (cell (g_var g) i j)) else cell (g_var gx) i' j'))
          by (intros; repeat split; reflexivity).
        assert (Dec : forall i' j', {In (i', j') l} + {~ In (i', j') l}) by (intros; apply in_dec; intros [a b] [a' b']; destruct (Z.eq_dec a a'), (Z.eq_dec b b'); [left; congruence|right; congruence..]).
        split; intros i' j' H.
        * assert (H1 : ~ In (i', j') l) by (intros F; apply H; right; exact F). destruct (Z5 i' j' H1) as (-> & -> & ->). destruct (Cell i' j') as (-> & -> & ->).
          destruct (Z.eqb_spec i' i), (Z.eqb_spec j' j); cbn [andb]; try (repeat split; reflexivity). exfalso; apply H; left; subst; reflexivity.
        * destruct (Dec i' j') as [D|D]; [apply Z6; exact D|]. destruct H as [H|H]; [|contradiction]. injection H as <- <-.
          destruct (Z5 i j D) as (-> & -> & ->). destruct (Cell i j) as (-> & -> & ->). rewrite !Z.eqb_refl. repeat split; reflexivity. }
  destruct (Gen (loop2 (g_rc g) (g_rc g)) g1 V Rc eq_refl eq_refl) as (gy & E & Z1 & Z2 & Z3 & Z4 & _ & Z6); [intros; apply in_loop2; assumption|].
  exists gy. split; [exact E|]. split. { split; [exact Z1|]. rewrite Z2, Z3, Z4, <- Rc. exact Vr. }
  split; [exact Z2|]. rewrite Z3, Z4. split; [exact Sz|]. intros i j Hi Hj. apply Z6. apply in_loop2. split; assumption.
Qed.
(** a recording made with other matrix dimensions cannot be blended with the grid in memory *)
Lemma combine_mismatch (g prev : grid N) alpha : well_sized N g -> well_sized N prev -> g_rc prev <> g_rc g -> combine N g prev alpha = None.
Proof using.
  clear. intros (A & _) (B & _) D. unfold combine, mblend. rewrite A, B. destruct (Z.eqb_spec (g_rc prev) (g_rc g)); [contradiction|]. reflexivity.
Qed.
End Raw.

Section Smooth.
Local Open Scope R_scope.
(** the grid in which the next cloud is smoothed in: the current one, or zeros after a size change *)
Definition base (s : slp Rn) : grid Rn := s_grid (applyResize Rn Rceil s).
Lemma blend0 (h m : R) : m = h + 1 * (m - h). Proof. ring. Qed.
Lemma blend1 (h m a p : R) : h + p * ((a * m + (1 - a) * h) - h) = h + a * p * (m - h). Proof. ring. Qed.
Lemma smoothing_run (h : R) i j (clouds : list (list (vec3 Rn))) : forall s s', slp_ok Rn Rceil s -> cell_pos s ->
  (0 <= i < g_rc (base s))%Z -> (0 <= j < g_rc (base s))%Z ->
  (forall cloud, In cloud clouds -> forall hs, heights_in (s_pos s) (g_size (base s)) (g_cell (base s)) i j cloud hs -> average hs = h) ->
  slp_run Rn Rcast Rceil s (map OpCloud clouds) = Some s' ->
  cell (g_mean (base s')) i j = h + (k_alpha (s_cfg s)) ^ (length clouds) * (cell (g_mean (base s)) i j - h) /\ g_rc (base s') = g_rc (base s).
Proof.
  induction clouds as [|c clouds IH]; intros s s' Ok Cp Hi Hj Hh E.
  - cbn in E. injection E as <-. cbn [length pow]. split; [|reflexivity]. exact (blend0 _ _).
  - cbn [map slp_run foldM slp_step] in E. destruct (runCloud_spec s c Ok Cp) as (s1 & E1 & Ok1 & Cp1 & _ & Cf & Pd & Ps & Up & Gs & Gc & Gr & _ & Cell & _).
    change (s_grid (applyResize Rn Rceil s)) with (base s) in *.
    unfold slp_run in E. cbn [foldM slp_step] in E. rewrite E1 in E.
    assert (B1 : base s1 = s_grid s1) by (unfold base, applyResize; rewrite Up; reflexivity).
    specialize (IH s1 s' Ok1 Cp1). rewrite B1 in IH. rewrite Gs, Gc, Gr, Ps in IH.
    destruct IH as [I1 I2]; try assumption. { intros cl I. apply Hh. right; exact I. }
    destruct (Cell i j) as (hs & H1 & _ & H2 & _). { rewrite Gr; exact Hi. } { rewrite Gr; exact Hj. }
    rewrite Gs, Gc in H1. rewrite (Hh c (or_introl eq_refl) hs H1) in H2. split; [|congruence].
    rewrite I1, H2, Cf. cbn [length pow]. exact (blend1 _ _ _ _).
Qed.
End Smooth.
