(** Whole runs of the landing site detection, its histories, and the transport of the grid to the landing waypoint generator. *)
From Coq Require Import ZArith Reals List Bool Lia Lra.
From Flocq Require Import Core BinarySingleNaN.
From Verif Require Import Num Mat CommonModel PfModel PfSpec StarModel LpModel SlModel SlSpec SlProofs SlProofs2.
Import ListNotations.
Local Open Scope Z_scope.

Section Run.
Context (N : num) (cast ceilc : N -> Z).
(** the size announced by a grid determines its matrices *)
Definition sized (g : grid N) : Prop := well_sized N g /\ g_rc g = ceilc (div N (g_size g) (g_cell g)).
Definition slp_ok (s : slp N) : Prop :=
  sized (s_grid s) /\ sized (s_prev s) /\ g_size (s_prev s) = g_size (s_grid s) /\ g_cell (s_prev s) = g_cell (s_grid s).
Lemma sized_resize g a b : sized (g_resize N ceilc g a b).
Proof using. split; [apply well_sized_resize|reflexivity]. Qed.
Lemma ok_resize s : slp_ok s -> slp_ok (applyResize N ceilc s).
Proof using.
  intros H. unfold applyResize. destruct (s_upd s); [|exact H]. unfold slp_ok. cbn [s_grid s_prev].
  split; [apply sized_resize|]. split; [apply sized_resize|]. split; reflexivity.
Qed.

(** what the run after filling the new grid does *)
Lemma finish_spec s g seq : sized g -> slp_ok s -> g_size g = g_size (s_grid s) -> g_cell g = g_cell (s_grid s) ->
  exists s', finishRun N cast s g seq = Some s' /\ slp_ok s' /\ s_prev s' = s_grid s /\ s_cfg s' = s_cfg s /\ s_pad s' = s_pad s /\
    s_upd s' = s_upd s /\ s_pos s' = s_pos s /\ s_seq s' = seq /\
    g_rc (s_grid s') = g_rc g /\ g_size (s_grid s') = g_size g /\ g_cell (s_grid s') = g_cell g /\ 
    g_min (s_grid s') = g_min g /\ g_max (s_grid s') = g_max g /\ g_cnt (s_grid s') = g_cnt g /\
    s_idx s' = computeGridIndexes N cast g (vx (s_pos s)) (vy (s_pos s)) /\
    (forall i j, let a := k_alpha (s_cfg s) in
       cell (g_mean (s_grid s')) i j = add N (mul N a (cell (g_mean (s_grid s)) i j)) (mul N (sub N (ofZ N 1) a) (cell (g_mean g) i j)) /\
       cell (g_var (s_grid s')) i j = add N (mul N a (cell (g_var (s_grid s)) i j)) (mul N (sub N (ofZ N 1) a) (cell (g_var g) i j))) /\
    (0 <= k_min_land (s_cfg s) -> 1 <= k_max_diff (s_cfg s) -> forall i j, 0 <= i < g_rc g -> 0 <= j < g_rc g ->
       cell (g_land (s_grid s')) i j = if landable N (s_cfg s) (s_grid s') (s_pad s) i j then 1 else 0) /\
    (k_max_diff (s_cfg s) = 0 -> 0 < s_pad s -> forall i j, 0 <= i < g_rc g -> 0 <= j < g_rc g -> cell (g_land (s_grid s')) i j = 0).
Proof using.
  intros [W Wr] ([G Gr] & [P Pr] & S1 & S2) Z1 Z2.
  assert (Erc : g_rc (s_grid s) = g_rc g) by (rewrite Gr, Wr, Z1, Z2; reflexivity).
  destruct (combine_spec N g (s_grid s) (k_alpha (s_cfg s)) W G Erc) as (g1 & E1 & W1 & R1 & C1 & L1 & Q1 & Q2 & Q3 & Q4 & V1).
  unfold finishRun. rewrite E1. cbn [obind].
  destruct (landing_total N (s_cfg s) (s_pad s) g1 W1) as (land & E2 & L2 & L3). rewrite E2. cbn [obind].
  assert (WL : well_sized N (g_set_land N g1 land)).
  { destruct W1 as (? & ? & ? & ? & ? & ? & ? & ?). unfold well_sized, g_set_land. cbn. tauto. }
  assert (Same : forall i j, landable N (s_cfg s) (g_set_land N g1 land) (s_pad s) i j = landable N (s_cfg s) g1 (s_pad s) i j) by reflexivity.
  eexists; split; [reflexivity|]. unfold slp_ok, sized. cbn [s_grid s_prev s_cfg s_pad s_upd s_pos s_seq s_idx].
  split. { split; [split; [exact WL|cbn [g_set_land g_rc g_size g_cell]; congruence]|]. split; [split; assumption|].
           cbn [g_set_land g_size g_cell]. split; congruence. }
  repeat (split; [first [reflexivity|cbn [g_set_land g_rc g_size g_cell g_min g_max g_cnt]; assumption]|]).
  split. { unfold computeGridIndexes. rewrite Q2, Q3. reflexivity. }
  split. { exact V1. }
  split.
  - intros Hm Hx i j Hi Hj. rewrite Same.
    destruct (landing_spec N (s_cfg s) (s_pad s) g1 W1 Hm Hx) as (land' & E' & _ & _ & L'). rewrite E2 in E'. injection E' as <-.
    cbn [g_set_land g_land]. apply L'; rewrite R1; assumption.
  - intros Hx Hp i j Hi Hj.
    destruct (landing_max0 N (s_cfg s) (s_pad s) g1 W1 Hx Hp) as (land' & E' & L'). rewrite E2 in E'. injection E' as <-.
    cbn [g_set_land g_land]. apply L'; rewrite R1; assumption.
Qed.
End Run.

(* ------------------------------------------------------------------ histories over the reals *)
Section Hist.
Definition cell_pos (s : slp Rn) : Prop := (0 < k_cell (s_cfg s))%R /\ (0 < g_cell (s_grid s))%R /\ (0 < g_cell (s_prev s))%R.
(** operations with a live cloud and a positive cell size *)
Definition live_op (o : slp_op Rn) : Prop := match o with OpCfg c => (0 < k_cell c)%R | OpRaw _ => False | _ => True end.

Lemma runCloud_spec s cloud : slp_ok Rn Rceil s -> cell_pos s ->
  let s0 := applyResize Rn Rceil s in
  exists s', runCloud Rn Rcast Rceil s cloud = Some s' /\ slp_ok Rn Rceil s' /\ cell_pos s' /\
    s_prev s' = s_grid s0 /\ s_cfg s' = s_cfg s /\ s_pad s' = s_pad s0 /\ s_pos s' = s_pos s /\ s_upd s' = false /\
    g_size (s_grid s') = g_size (s_grid s0) /\ g_cell (s_grid s') = g_cell (s_grid s0) /\ g_rc (s_grid s') = g_rc (s_grid s0) /\
    s_idx s' = (Zfloor (g_size (s_grid s') / 2 / g_cell (s_grid s')), Zfloor (g_size (s_grid s') / 2 / g_cell (s_grid s')))%R /\
    (forall i j, 0 <= i < g_rc (s_grid s') -> 0 <= j < g_rc (s_grid s') -> exists hs,
       heights_in (s_pos s) (g_size (s_grid s')) (g_cell (s_grid s')) i j cloud hs /\ cell (g_cnt (s_grid s')) i j = Z.of_nat (length hs) /\
       let a := k_alpha (s_cfg s) in
       (cell (g_mean (s_grid s')) i j = a * cell (g_mean (s_grid s0)) i j + (1 - a) * average hs /\
        cell (g_var (s_grid s')) i j = a * cell (g_var (s_grid s0)) i j + (1 - a) * variance hs)%R) /\
    (0 <= k_min_land (s_cfg s) -> 1 <= k_max_diff (s_cfg s) -> forall i j, 0 <= i < g_rc (s_grid s') -> 0 <= j < g_rc (s_grid s') ->
       cell (g_land (s_grid s')) i j = if landable Rn (s_cfg s) (s_grid s') (s_pad s') i j then 1 else 0).
Proof.
  intros Ok Cp s0. assert (Ok0 : slp_ok Rn Rceil s0) by (apply ok_resize; exact Ok).
  assert (Cp0 : cell_pos s0).
  { destruct Cp as (A & B & C). unfold s0, applyResize. destruct (s_upd s); [|split; [exact A|split; assumption]].
    unfold cell_pos. cbn [s_cfg s_grid s_prev g_resize g_cell]. tauto. }
  assert (Cfg0 : s_cfg s0 = s_cfg s /\ s_pos s0 = s_pos s /\ s_upd s0 = false).
  { unfold s0, applyResize. destruct (s_upd s) eqn:U; cbn; auto. }
  destruct Cfg0 as (Cf & Ps & Up).
  pose proof Ok0 as ([G Gr] & [P Pr] & S1 & S2). destruct Cp0 as (A & B & C).
  destruct (cloud_holds (s_pos s0) (s_prev s0) cloud C Pr P) as (g & E & W & R1 & R2 & R3 & R4 & R5 & _ & H).
  unfold runCloud. fold s0. rewrite E. cbn [obind].
  assert (Sg : sized Rn Rceil g) by (split; [exact W|rewrite R1, R2, R3; exact Pr]).
  destruct (finish_spec Rn Rcast Rceil s0 g (s_seq s0 + 1) Sg Ok0) as
    (s' & E' & Ok' & F1 & F2 & F3 & F4 & F5 & F6 & F7 & F8 & F9 & F10 & F11 & F12 & F13 & F14 & F15 & F16); [congruence|congruence|].
  exists s'. split; [exact E'|]. split; [exact Ok'|].
  assert (Gc : g_cell (s_grid s') = g_cell (s_grid s0)) by congruence.
  assert (Gs : g_size (s_grid s') = g_size (s_grid s0)) by congruence.
  assert (Grc : g_rc (s_grid s') = g_rc (s_grid s0)) by (rewrite F7, R1, Pr, Gr, S1, S2; reflexivity).
  split. { unfold cell_pos. rewrite F2, F1, Gc. repeat split; try assumption; try (rewrite Cf in A; exact A). }
  split; [exact F1|]. split; [congruence|]. split; [exact F3|]. split; [congruence|]. split; [congruence|]. split; [exact Gs|]. split; [exact Gc|].
  split; [exact Grc|]. split.
  { rewrite F13. unfold computeGridIndexes. rewrite R4, R3. cbn [setFilterLimits g_min fst snd]. rn. rewrite !floor_cast.
    rewrite Gs, Gc, S1, S2. f_equal; f_equal; f_equal; lra. }
  split.
  - intros i j Hi Hj. rewrite F7, R1 in Hi, Hj. destruct (H i j Hi Hj) as (hs & X1 & X2 & X3 & X4). exists hs.
    rewrite Gs, Gc, <- S1, <- S2, <- Ps. split; [exact X1|]. split; [rewrite F12; exact X2|]. cbv zeta. rewrite <- Cf.
    destruct (F14 i j) as [Y1 Y2]. rewrite Y1, Y2, X3, X4. rn. split; reflexivity.
  - intros Hm Hx i j Hi Hj. rewrite <- Cf. rewrite F3. apply F15; rewrite ?Cf; try assumption; rewrite <- F7; assumption.
Qed.

Lemma step_ok s o : slp_ok Rn Rceil s -> cell_pos s -> live_op o ->
  exists s', slp_step Rn Rcast Rceil s o = Some s' /\ slp_ok Rn Rceil s' /\ cell_pos s'.
Proof.
  intros Ok Cp L. destruct o as [c|p|cloud|m]; cbn [slp_step].
  - eexists; split; [reflexivity|]. split; [exact Ok|]. destruct Cp as (A & B & C). split; [exact L|]. split; assumption.
  - eexists; split; [reflexivity|]. split; [exact Ok|]. exact Cp.
  - destruct (runCloud_spec s cloud Ok Cp) as (s' & E & O & C & _). exists s'. auto.
  - destruct L.
Qed.
Lemma init_ok j1 j2 : slp_ok Rn Rceil (slp_init Rn Rceil j1 j2) /\ cell_pos (slp_init Rn Rceil j1 j2).
Proof.
  split.
  - unfold slp_ok, sized, slp_init, well_sized. cbn. repeat split.
  - unfold cell_pos, slp_init. cbn. lra.
Qed.
Lemma hist_ok j1 j2 os : Forall live_op os ->
  exists s, slp_run Rn Rcast Rceil (slp_init Rn Rceil j1 j2) os = Some s /\ slp_ok Rn Rceil s /\ cell_pos s.
Proof.
  intros F. destruct (init_ok j1 j2) as [A B].
  destruct (foldM_total (fun s => slp_ok Rn Rceil s /\ cell_pos s) (slp_step Rn Rcast Rceil) os) with (s := slp_init Rn Rceil j1 j2) as (s & E & O & C).
  - intros s o I [O C]. rewrite Forall_forall in F. destruct (step_ok s o O C (F o I)) as (s' & E & O' & C'). exists s'. auto.
  - split; assumption.
  - exists s. auto.
Qed.

(** variances never get negative *)
Definition var_ok (s : slp Rn) : Prop := forall i j, (0 <= i < g_rc (s_grid s) -> 0 <= j < g_rc (s_grid s) -> (0 <= cell (g_var (s_grid s)) i j)%R).
Definition alpha_op (o : slp_op Rn) : Prop := match o with OpCfg c => (0 <= k_alpha c <= 1)%R | _ => True end.
Lemma var_step s o s' : slp_ok Rn Rceil s -> cell_pos s -> live_op o -> alpha_op o -> (0 <= k_alpha (s_cfg s) <= 1)%R -> var_ok s ->
  slp_step Rn Rcast Rceil s o = Some s' -> var_ok s' /\ (0 <= k_alpha (s_cfg s') <= 1)%R.
Proof.
  intros Ok Cp L A Al V E. destruct o as [c|p|cloud|m]; cbn [slp_step] in E.
  - injection E as <-. split; [exact V|exact A].
  - injection E as <-. split; [exact V|exact Al].
  - destruct (runCloud_spec s cloud Ok Cp) as (s1 & E1 & _ & _ & F1 & F2 & F3 & F4 & F5 & F6 & F7 & F8 & F9 & F10 & F11). rewrite E in E1.
    injection E1 as <-. split; [|rewrite F2; exact Al]. intros i j Hi Hj. destruct (F10 i j Hi Hj) as (hs & _ & _ & _ & X). rewrite X.
    assert (Vp : (0 <= cell (g_var (s_grid (applyResize Rn Rceil s))) i j)%R).
    { rewrite F8 in Hi, Hj. revert Hi Hj. unfold applyResize. destruct (s_upd s); [cbn; intros; lra|]. apply V. }
    pose proof (variance_nonneg hs). apply Rplus_le_le_0_compat; apply Rmult_le_pos; lra.
  - destruct L.
Qed.
Lemma var_hist j1 j2 os s : Forall live_op os -> Forall alpha_op os ->
  slp_run Rn Rcast Rceil (slp_init Rn Rceil j1 j2) os = Some s -> var_ok s.
Proof.
  intros F1 F2 E. destruct (init_ok j1 j2) as [A B]. rewrite Forall_forall in F1, F2.
  enough (Q : slp_ok Rn Rceil s /\ cell_pos s /\ var_ok s /\ (0 <= k_alpha (s_cfg s) <= 1)%R) by tauto.
  refine (foldM_inv (fun s => slp_ok Rn Rceil s /\ cell_pos s /\ var_ok s /\ (0 <= k_alpha (s_cfg s) <= 1)%R) (slp_step Rn Rcast Rceil) os _ _ _ _ E).
  - intros s1 o s2 I (O & C & V & Al) St. destruct (step_ok s1 o O C (F1 o I)) as (s3 & E3 & O3 & C3). rewrite St in E3. injection E3 as <-.
    destruct (var_step s1 o s2 O C (F1 o I) (F2 o I) Al V St) as [V2 A2]. auto.
  - split; [exact A|]. split; [exact B|]. split; [intros i j _ _; cbn; lra|cbn; lra].
Qed.
End Hist.

(* ------------------------------------------------------------------ transport *)
Section Transport.
Context (N : num) (ceilc : N -> Z).
Lemma nth_flat_rows {A B} (l : list A) (f : A -> list B) (n i j : nat) :
  (forall a, In a l -> length (f a) = n) -> (j < n)%nat -> forall a, nth_error l i = Some a -> nth_error (flat_map f l) (n * i + j) = nth_error (f a) j.
Proof using.
  clear. intros Hl Hj. revert i. induction l as [|b l IH]; intros i a H; [destruct i; discriminate|]. cbn [flat_map].
  destruct i as [|i]; cbn in H.
  - injection H as <-. rewrite Nat.mul_0_r. cbn [Nat.add]. apply nth_error_app1. rewrite (Hl b (or_introl eq_refl)). exact Hj.
  - rewrite nth_error_app2; rewrite (Hl b (or_introl eq_refl)); [|lia]. replace (n * S i + j - n)%nat with (n * i + j)%nat by lia.
    apply IH; [intros; apply Hl; right; assumption|exact H].
Qed.
Lemma nth_zrange n k : (k < Z.to_nat n)%nat -> nth_error (zrange n) k = Some (Z.of_nat k).
Proof using.
  clear. intros H. unfold zrange. rewrite nth_error_map. rewrite nth_error_nth' with (d := 0%nat) by (rewrite seq_length; exact H).
  rewrite seq_nth by exact H. reflexivity.
Qed.
Lemma list_prod_flat {A B} (l : list A) (l' : list B) : list_prod l l' = flat_map (fun a => map (fun b => (a, b)) l') l.
Proof using. clear. induction l as [|a l IH]; cbn; [reflexivity|]. rewrite IH. reflexivity. Qed.
Lemma vget_loop {A} (f : Z * Z -> A) n i j : 0 <= i < n -> 0 <= j < n -> vget (map f (loop2 n n)) (n * i + j) = Some (f (i, j)).
Proof using.
  clear. intros Hi Hj. unfold vget. destruct (Z.ltb_spec (n * i + j) 0); [nia|].
  rewrite nth_error_map. unfold loop2. rewrite list_prod_flat.
  replace (Z.to_nat (n * i + j)) with (Z.to_nat n * Z.to_nat i + Z.to_nat j)%nat by nia.
  rewrite nth_flat_rows with (a := i).
  - rewrite nth_error_map, nth_zrange by lia. cbn. rewrite Z2Nat.id by lia. reflexivity.
  - intros a _. rewrite map_length, length_zrange. reflexivity.
  - lia.
  - rewrite nth_zrange by lia. f_equal. lia.
Qed.
Lemma collect_spec {A} (m : mat A) n : rows m = n -> cols m = n -> forall cells acc,
  (forall i j, In (i, j) cells -> 0 <= i < n /\ 0 <= j < n) ->
  foldM (fun acc ij => obind (mget m (fst ij) (snd ij)) (fun v => Some (acc ++ [v]))) acc cells =
  Some (acc ++ map (fun ij => cell m (fst ij) (snd ij)) cells).
Proof using.
  clear. intros R C. induction cells as [|[i j] cells IH]; intros acc H; cbn [foldM map fst snd]; [rewrite app_nil_r; reflexivity|].
  destruct (H i j (or_introl eq_refl)). rewrite mget_some by lia. cbn [obind]. rewrite IH by (intros; apply H; right; assumption).
  rewrite <- app_assoc. reflexivity.
Qed.
Lemma serialise_spec seq g idx : well_sized N g ->
  exists m, serialise N seq g idx = Some m /\ gm_seq m = seq /\ gm_size m = g_size g /\ gm_cell m = g_cell g /\ gm_d0 m = g_rc g /\ gm_d1 m = g_rc g /\
    forall i j, 0 <= i < g_rc g -> 0 <= j < g_rc g ->
      vget (gm_mean m) (g_rc g * i + j) = Some (cell (g_mean g) i j) /\ vget (gm_land m) (g_rc g * i + j) = Some (cell (g_land g) i j) /\
      vget (gm_std m) (g_rc g * i + j) = Some (sqrtv N (cell (g_var g) i j)) /\ vget (gm_cnt m) (g_rc g * i + j) = Some (cell (g_cnt g) i j).
Proof using.
  clear ceilc. intros (W1 & W2 & W3 & W4 & W5 & W6 & W7 & W8). unfold serialise.
  assert (In2 : forall i j, In (i, j) (loop2 (g_rc g) (g_rc g)) -> 0 <= i < g_rc g /\ 0 <= j < g_rc g) by (intros; apply in_loop2; assumption).
  rewrite (collect_spec (g_mean g) (g_rc g) W1 W2 _ _ In2). cbn [obind]. rewrite (collect_spec (g_land g) (g_rc g) W7 W8 _ _ In2). cbn [obind].
  rewrite (collect_spec (g_var g) (g_rc g) W3 W4 _ _ In2). cbn [obind]. rewrite (collect_spec (g_cnt g) (g_rc g) W5 W6 _ _ In2). cbn [obind app].
  eexists; split; [reflexivity|]. cbn [gm_seq gm_size gm_cell gm_d0 gm_d1 gm_mean gm_land gm_std gm_cnt].
  repeat (split; [first [reflexivity|assumption]|]). intros i j Hi Hj. rewrite map_map. rewrite !vget_loop by assumption. repeat split; reflexivity.
Qed.
(** the sender's and receiver's notion of size agree *)
Definition size_compat : Prop := forall a a' b b', eqb N a a' = true -> eqb N b b' = true -> ceilc (div N a b) = ceilc (div N a' b').
Lemma receive_spec seq g idx m g0 pos : size_compat -> sized N ceilc g -> sized N ceilc g0 -> serialise N seq g idx = Some m ->
  exists g', receiveGrid N ceilc g0 pos m = Some g' /\ sized N ceilc g' /\ g_rc g' = g_rc g /\
    (g_size g' = g_size g \/ eqb N (g_size g') (g_size g) = true) /\ (g_cell g' = g_cell g \/ eqb N (g_cell g') (g_cell g) = true) /\
    g_min g' = g_min (setFilterLimits N g' pos) /\ g_max g' = g_max (setFilterLimits N g' pos) /\
    forall i j, 0 <= i < g_rc g -> 0 <= j < g_rc g ->
      cell (g_mean g') i j = cell (g_mean g) i j /\ cell (g_land g') i j = cell (g_land g) i j.
Proof using.
  intros Cmp [W Wr] [W0 Wr0] Em. destruct (serialise_spec seq g idx W) as (m' & E & M1 & M2 & M3 & M4 & M5 & M6). rewrite Em in E. injection E as <-.
  unfold receiveGrid. rewrite M2, M3, M4, M5.
  set (g1 := if negb (eqb N (g_size g0) (g_size g)) || negb (eqb N (g_cell g0) (g_cell g)) then g_resize N ceilc g0 (g_size g) (g_cell g) else g0).
  assert (S1 : sized N ceilc g1 /\ g_rc g1 = g_rc g /\
    (g_size g1 = g_size g \/ eqb N (g_size g1) (g_size g) = true) /\ (g_cell g1 = g_cell g \/ eqb N (g_cell g1) (g_cell g) = true)).
  { unfold g1. destruct (eqb N (g_size g0) (g_size g)) eqn:A, (eqb N (g_cell g0) (g_cell g)) eqn:B; cbn [negb orb];
    try (split; [apply sized_resize|]; split; [cbn; rewrite Wr; reflexivity|]; split; left; reflexivity).
    split; [split; assumption|]. split; [rewrite Wr0, Wr; apply Cmp; assumption|]. split; right; assumption. }
  destruct S1 as ([V Vr] & Rc & Sz & Sc).
  assert (Gen : forall l gx, well_sized N gx -> g_rc gx = g_rc g -> g_size gx = g_size g1 -> g_cell gx = g_cell g1 ->
    (forall i j, In (i, j) l -> 0 <= i < g_rc g /\ 0 <= j < g_rc g) ->
    exists gy, foldM (fun h ij => let '(i, j) := ij in
      obind (vget (gm_mean m) (g_rc g * i + j)) (fun a => obind (mset (g_mean h) i j a) (fun mean =>
      obind (vget (gm_land m) (g_rc g * i + j)) (fun l => obind (mset (g_land h) i j l) (fun land =>
      Some (g_set_land N (g_set N h mean (g_var h) (g_cnt h)) land)))))) gx l = Some gy /\
      well_sized N gy /\ g_rc gy = g_rc g /\ g_size gy = g_size g1 /\ g_cell gy = g_cell g1 /\
      (forall i j, ~ In (i, j) l -> cell (g_mean gy) i j = cell (g_mean gx) i j /\ cell (g_land gy) i j = cell (g_land gx) i j) /\
      (forall i j, In (i, j) l -> cell (g_mean gy) i j = cell (g_mean g) i j /\ cell (g_land gy) i j = cell (g_land g) i j)).
  { induction l as [|[i j] l IH]; intros gx X1 X2 X3 X4 X5.
    - exists gx. split; [reflexivity|]. repeat (split; [assumption|]). split; [split; reflexivity|]. intros i j [].
    - cbn [foldM]. destruct (X5 i j (or_introl eq_refl)) as [Hi Hj]. destruct (M6 i j Hi Hj) as (Q1 & Q2 & _). rewrite Q1, Q2. cbn [obind].
      destruct X1 as (Y1 & Y2 & Y3 & Y4 & Y5 & Y6 & Y7 & Y8). unfold mset at 1. rewrite (proj2 (inb_true (g_mean gx) i j)) by lia. cbn [obind].
      unfold mset at 1. rewrite (proj2 (inb_true (g_land gx) i j)) by lia. cbn [obind].
      set (gn := g_set_land N _ _).
      destruct (IH gn) as (gy & E & Z1 & Z2 & Z3 & Z4 & Z5 & Z6); try assumption.
      + unfold gn, well_sized. cbn. tauto.
      + intros; apply X5; right; assumption.
      + exists gy. split; [exact E|]. repeat (split; [assumption|]).
        assert (Cell : forall i' j', cell (g_mean gn) i' j' = (if (i' =? i) && (j' =? j) then cell (g_mean g) i j else cell (g_mean gx) i' j') /\
                                     cell (g_land gn) i' j' = (if (i' =? i) && (j' =? j) then cell (g_land g) i j else cell (g_land gx) i' j')) by (intros; split; reflexivity).
        assert (Dec : forall i' j', {In (i', j') l} + {~ In (i', j') l}) by (intros; apply in_dec; intros [a b] [a' b']; destruct (Z.eq_dec a a'), (Z.eq_dec b b'); [left; congruence|right; congruence..]).
        split; intros i' j' H.
        * assert (H1 : ~ In (i', j') l) by (intros F; apply H; right; exact F). destruct (Z5 i' j' H1) as [-> ->]. destruct (Cell i' j') as [-> ->].
          destruct (Z.eqb_spec i' i), (Z.eqb_spec j' j); cbn [andb]; try (split; reflexivity). exfalso; apply H; left; subst; reflexivity.
        * destruct (Dec i' j') as [D|D]; [apply Z6; exact D|]. destruct H as [H|H]; [|contradiction]. injection H as <- <-.
          destruct (Z5 i j D) as [-> ->]. destruct (Cell i j) as [-> ->]. rewrite !Z.eqb_refl. split; reflexivity. }
  destruct (Gen (loop2 (g_rc g) (g_rc g)) g1 V Rc eq_refl eq_refl) as (gy & E & Z1 & Z2 & Z3 & Z4 & _ & Z6); [intros; apply in_loop2; assumption|].
  rewrite E. cbn [obind]. exists (setFilterLimits N gy pos). split; [reflexivity|].
  split. { split; [apply well_sized_limits; exact Z1|]. cbn [setFilterLimits g_rc g_size g_cell]. rewrite Z2, Z3, Z4, <- Rc. exact Vr. }
  cbn [setFilterLimits g_rc g_size g_cell g_min g_max g_mean g_land]. rewrite Z3, Z4.
  split; [exact Z2|]. split; [exact Sz|]. split; [exact Sc|]. split; [reflexivity|]. split; [reflexivity|].
  intros i j Hi Hj. apply Z6. apply in_loop2. split; assumption.
Qed.
End Transport.
Lemma size_compat_R : size_compat Rn Rceil.
Proof. intros a a' b b' A B. rn. apply R_eqb_true in A, B. subst. reflexivity. Qed.
Lemma size_compat_F32 : size_compat F32 f32_ceil.
Proof.
  intros a a' b b' A B. cbn in A, B. unfold f32_eqb in A, B.
  assert (Eq : forall x y : f32, match Bcompare x y with Some Eq => true | _ => false end = true -> x = y \/ (exists s t, x = B754_zero s /\ y = B754_zero t)).
  { intros x y H. destruct x as [s|s| |s m e P], y as [t|t| |t m' e' P']; try (right; eauto; fail); left;
    cbn in H; try (destruct s; discriminate); try (destruct t; discriminate); try discriminate.
    - destruct s, t; try discriminate; reflexivity.
    - destruct s, t; try discriminate.
      + destruct (Z.compare_spec e e'); cbn in H; try discriminate. subst e'. destruct (Pos.compare_cont Eq m m') eqn:C; cbn in H; try discriminate.
        apply Pos.compare_eq in C. subst m'. f_equal. apply eqbool_irrelevance.
      + destruct (Z.compare_spec e e'); cbn in H; try discriminate. subst e'. destruct (Pos.compare_cont Eq m m') eqn:C; cbn in H; try discriminate.
        apply Pos.compare_eq in C. subst m'. f_equal. apply eqbool_irrelevance. }
  destruct (Eq _ _ A) as [->|(s & t & -> & ->)], (Eq _ _ B) as [->|(s' & t' & -> & ->)]; try reflexivity.
  - destruct a' as [u|u| |u m e P]; cbn; try reflexivity; destruct u, s', t'; reflexivity.
  - destruct b' as [u|u| |u m e P]; cbn; try reflexivity; destruct u, s, t; reflexivity.
Qed.
