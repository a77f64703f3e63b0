(** Proofs about generateNewHistogram (C25), ageing of remembered points over cycles (C24), finiteness (C23). *)
From Coq Require Import ZArith Reals List Bool Lia.
From Flocq Require Import Core BinarySingleNaN.
From Verif Require Import Num Mat CommonModel CommonProofs HistModel HistProofs PfModel PfSpec PfProofs.
Import ListNotations.
Local Open Scope Z_scope.

Lemma exists_last_or_nil {A} (l : list A) : l = [] \/ exists l' x, l = l' ++ [x].
Proof. destruct l as [|a l]; [auto|]. right. destruct (@exists_last _ (a :: l)) as (l' & x & ->); [discriminate|eauto]. Qed.

(** accepted measurements are finite (in binary32) *)
Definition big (x : f32) : Prop := x = B754_nan \/ x = B754_infinity false.
Definition nneg (x : f32) : Prop := big x \/ (is_finite x = true /\ Bsign x = false).
Lemma sq_nneg (a : f32) : nneg (Bmult mode_NE a a : f32).
Proof.
  destruct a as [s|s| |s m e H].
  - right. destruct s; split; reflexivity.
  - left. right. destruct s; reflexivity.
  - left; left; reflexivity.
  - set (x := B754_finite s m e H : f32).
    pose proof (Bmult_correct 24 128 _ _ mode_NE x x) as HB.
    destruct (Rlt_bool _ _) in HB.
    + destruct HB as (_ & HF & HS). right. split; [exact HF|].
      destruct (Bmult mode_NE x x : f32) eqn:E; try discriminate; rewrite HS by reflexivity; apply xorb_nilpotent.
    + left. right.
      rewrite xorb_nilpotent in HB. destruct (Bmult mode_NE x x : f32) as [|[]| |] eqn:E; cbn in HB; try discriminate. reflexivity.
Qed.
Lemma nneg_add (a b : f32) : nneg a -> nneg b -> nneg (Bplus mode_NE a b : f32) /\ (big a \/ big b -> big (Bplus mode_NE a b : f32)).
Proof.
  intros [[Ha|Ha]|[Fa Sa]] [[Hb|Hb]|[Fb Sb]]; subst;
    try (assert (big (Bplus mode_NE B754_nan b : f32)) by (left; destruct b; reflexivity); split; [now left|auto]; fail).
  all: try (split; [left; left; reflexivity|intros _; left; reflexivity]; fail).
  - split; [left; right; reflexivity|intros _; right; reflexivity].
  - assert (B : big (Bplus mode_NE (B754_infinity false) b : f32)) by (destruct b; try discriminate; right; reflexivity).
    split; [now left|auto].
  - assert (B : big (Bplus mode_NE a B754_nan : f32)) by (left; destruct a; reflexivity). split; [now left|auto].
  - assert (B : big (Bplus mode_NE a (B754_infinity false) : f32)) by (destruct a; try discriminate; right; reflexivity).
    split; [now left|auto].
  - split.
    + pose proof (Bplus_correct 24 128 _ _ mode_NE a b Fa Fb) as HB. destruct (Rlt_bool _ _) in HB.
      * destruct HB as (_ & HF & HS). right. split; [exact HF|]. rewrite HS, Sa, Sb.
        assert (P : forall x : f32, is_finite x = true -> Bsign x = false -> (0 <= B2R x)%R).
        { intros [s|s| |s m e H] F S; try discriminate; cbn in *; [apply Rle_refl|]. subst s. apply F2R_ge_0. cbn. lia. }
        specialize (P a Fa Sa) as Pa. specialize (P b Fb Sb) as Pb.
        destruct (Rcompare_spec (B2R a + B2R b) 0); try reflexivity. exfalso. lra.
      * destruct HB as (HB & _). rewrite Sa in HB. left. right.
        destruct (Bplus mode_NE a b : f32) as [|[]| |] eqn:E; cbn in HB; try discriminate. reflexivity.
    + intros [[->| ->]|[->| ->]]; discriminate.
Qed.
Lemma sub_nonfinite (a b : f32) : is_finite b = false -> is_finite (Bminus mode_NE a b : f32) = false.
Proof. destruct b as [|sb| |]; try discriminate; destruct a as [|sa| |]; cbn; try reflexivity. intros _. destruct sa, sb; reflexivity. Qed.
Lemma sq_big (a : f32) : is_finite a = false -> big (Bmult mode_NE a a : f32).
Proof. destruct a as [|[]| |]; try discriminate; cbn; unfold big; auto. Qed.
Lemma accepted_finite (position p : vec3 F32) (lo hi : F32) : accepted F32 position lo hi p = true ->
  is_finite (vx p : f32) = true /\ is_finite (vy p : f32) = true /\ is_finite (vz p : f32) = true.
Proof.
  intros H. unfold accepted in H. rewrite !andb_true_iff in H. destruct H as (_ & H).
  assert (Hb : ~ big (distSq F32 position p : f32)).
  { intros [E|E]; rewrite E in H; cbn in H.
    - discriminate.
    - unfold f32_ltb in H. destruct (Bmult mode_NE hi hi : f32) as [|[]| |]; discriminate. }
  unfold distSq, v3sqnorm, v3sub in Hb. cbn [vx vy vz add sub mul F32] in Hb.
  set (dx := Bminus mode_NE (vx position) (vx p) : f32) in *.
  set (dy := Bminus mode_NE (vy position) (vy p) : f32) in *.
  set (dz := Bminus mode_NE (vz position) (vz p) : f32) in *.
  pose proof (sq_nneg dx) as Nx. pose proof (sq_nneg dy) as Ny. pose proof (sq_nneg dz) as Nz.
  destruct (nneg_add _ _ Nx Ny) as (Nxy & Bxy). destruct (nneg_add _ _ Nxy Nz) as (_ & Bxyz).
  repeat split.
  - destruct (is_finite (vx p : f32)) eqn:E; [reflexivity|]. exfalso. apply Hb, Bxyz. left. apply Bxy. left. apply sq_big, sub_nonfinite, E.
  - destruct (is_finite (vy p : f32)) eqn:E; [reflexivity|]. exfalso. apply Hb, Bxyz. left. apply Bxy. right. apply sq_big, sub_nonfinite, E.
  - destruct (is_finite (vz p : f32)) eqn:E; [reflexivity|]. exfalso. apply Hb, Bxyz. right. apply sq_big, sub_nonfinite, E.
Qed.

(* ----------------------------------------------------------- ageing over cycles *)
Section Cycles.
Context (N : num) (G : trig N) (cast : N -> Z) (max_age : N).
Notation cycle := (cycle N).
Notation cycle_step := (cycle_step N G cast max_age).
Notation accumulated := (accumulated N).
Notation traced := (traced N G max_age).
Arguments cy_clouds {N} _. Arguments cy_fovs {N} _. Arguments cy_yaw {N} _. Arguments cy_pitch {N} _. Arguments cy_position {N} _.
Arguments cy_min {N} _. Arguments cy_max {N} _. Arguments cy_elapsed {N} _. Arguments cy_num {N} _.
Lemma traced_snoc cs out c out' : cy_clouds c <> [] -> (forall q, In q out -> traced cs q) ->
  cycle_step out c = Some out' -> forall q, In q out' -> traced (cs ++ [c]) q.
Proof.
  intros Hne Ht E q Hq. unfold cycle_step in E.
  destruct (processPointcloud_spec N G cast (cy_position c) (cy_min c) (cy_max c) (cy_num c) (cy_fovs c) (cy_yaw c) (cy_pitch c) max_age (cy_elapsed c) out (cy_clouds c) Hne)
    as (fr & rem & E' & _ & F & _ & K & _).
  rewrite E' in E. injection E as E. subst out'. apply in_app_or in Hq. destruct Hq as [Hq|Hq].
  - destruct (F q Hq) as (A1 & A2 & A3 & _). exists cs, c, []. repeat split; auto; cbn.
    + intros. destruct post1; discriminate.
    + destruct post1; discriminate.
    + destruct post1; discriminate.
  - destruct (K q Hq) as (o & Ho & (K1 & K2 & K3 & _) & Ep & Ea).
    destruct (Ht o Ho) as (pre & c0 & post & -> & T1 & T2 & T3 & T4).
    exists pre, c0, (post ++ [c]). split; [now rewrite <- app_assoc|]. rewrite Ep.
    split; [auto|]. split; [auto|]. split.
    + rewrite Ea, T3. unfold accumulated. rewrite fold_left_app. reflexivity.
    + intros post1 d post2 Eq. destruct (@exists_last_or_nil _ post2) as [->|(l & x & ->)].
      * apply app_inj_tail in Eq. destruct Eq as (-> & ->). rewrite <- T3. auto.
      * assert (Eq' : post ++ [c] = (post1 ++ d :: l) ++ [x]) by now rewrite <- app_assoc.
        apply app_inj_tail in Eq'. destruct Eq' as (-> & _). eapply T4; reflexivity.
Qed.
End Cycles.

(* ----------------------------------------------------------- generateNewHistogram *)
Lemma in_grid_idx r c e z : In (e, z) (grid_idx r c) <-> 0 <= e < r /\ 0 <= z < c.
Proof.
  unfold grid_idx. rewrite in_flat_map. split.
  - intros (x & Hx & H). apply in_map_iff in H. destruct H as (y & [= <- <-] & Hy). apply in_zrange in Hx, Hy. auto.
  - intros (H1 & H2). exists e. split; [now apply in_zrange|]. apply in_map_iff. exists z. split; [reflexivity|now apply in_zrange].
Qed.
Lemma NoDup_flat_map_pairs (l : list Z) c : NoDup l -> NoDup (flat_map (fun e => map (fun z => (e, z)) (zrange c)) l).
Proof.
  induction l as [|a l IH]; intros H; cbn; [constructor|]. inversion H; subst. apply NoDup_app.
  - apply FinFun.Injective_map_NoDup; [intros x y [= E]; exact E|apply NoDup_zrange].
  - auto.
  - intros [x y] H1 H4. apply in_map_iff in H1. destruct H1 as (z & [= <- <-] & _).
    apply in_flat_map in H4. destruct H4 as (b & Hb & H4). apply in_map_iff in H4. destruct H4 as (z' & [= <- <-] & _). auto.
Qed.
Lemma NoDup_grid_idx r c : NoDup (grid_idx r c).
Proof. apply NoDup_flat_map_pairs, NoDup_zrange. Qed.

Section Gh.
Context (N : num) (G : trig N) (cast : N -> Z) (position : vec3 N).
Notation coarse := (coarse N G cast position).
Notation dist_of := (dist_of N G position).
Notation in_cell := (in_cell N G cast position).
Notation sum_from := (sum_from N G position).
Definition ghist (h : hist N) : Prop := h_wf N h /\ h_res h = 6.
Lemma ghist_dims h : ghist h -> rows (h_dist h) = 30 /\ cols (h_dist h) = 60 /\ h_edim h = 30 /\ h_zdim h = 60.
Proof. intros ((H1 & H2 & H3 & H4 & H5) & R). rewrite R in *. change (360 / 6) with 60 in *. change (180 / 6) with 30 in *. repeat split; congruence. Qed.
Lemma ghist_get h e z : ghist h -> 0 <= e < 30 -> 0 <= z < 60 -> h_get N h e z = Some (cell (h_dist h) e z).
Proof. intros (W & R) He Hz. apply get_in; try rewrite R; auto; lia. Qed.
Lemma ghist_set h e z v : ghist h -> 0 <= e < 30 -> 0 <= z < 60 ->
  exists h', h_set N h e z v = Some h' /\ ghist h' /\ cell (h_dist h') e z = v /\
   forall e' z', (e', z') <> (e, z) -> cell (h_dist h') e' z' = cell (h_dist h) e' z'.
Proof using Type. clear G cast position.
  intros Hg He Hz. destruct (ghist_dims h Hg) as (D1 & D2 & _). destruct Hg as (W & R).
  unfold h_set. destruct (mset_some (h_dist h) e z v) as (m & E); try lia. rewrite E.
  eexists. split; [reflexivity|]. pose proof (mset_inv _ _ _ _ _ E) as (_ & _ & R' & C' & A & O). cbn [h_dist h_res].
  split; [|split; [exact A|]].
  - destruct W as (W1 & W2 & W3 & W4 & W5). split; [|exact R]. repeat split; cbn [h_res h_zdim h_edim h_dist]; congruence.
  - intros e' z' Hn. apply O. destruct (Z.eq_dec e' e); [|auto]. destruct (Z.eq_dec z' z); [congruence|auto].
Qed.
Lemma coarse_range p : 0 <= fst (coarse p) < 60 /\ 0 <= snd (coarse p) < 30.
Proof.
  destruct (coarse p) as [x y] eqn:E. unfold coarse in E.
  apply polarToHistogramIndex_range in E; [|cbv; intuition congruence].
  change (360 / ALPHA_RES) with 60 in E. change (180 / ALPHA_RES) with 30 in E. cbn. lia.
Qed.

Lemma gh_fold h0 pts : ghist h0 -> forall seen m h,
  rows m = 30 -> cols m = 60 -> ghist h ->
  (forall e z, 0 <= e < 30 -> 0 <= z < 60 -> cell m e z = Z.of_nat (length (in_cell e z seen)) /\
     cell (h_dist h) e z = sum_from (cell (h_dist h0) e z) (in_cell e z seen)) ->
  exists m' h', foldM (gh_step N G cast position) (m, h) pts = Some (m', h') /\ rows m' = 30 /\ cols m' = 60 /\ ghist h' /\
  (forall e z, 0 <= e < 30 -> 0 <= z < 60 -> cell m' e z = Z.of_nat (length (in_cell e z (seen ++ pts))) /\
     cell (h_dist h') e z = sum_from (cell (h_dist h0) e z) (in_cell e z (seen ++ pts))).
Proof.
  intros G0. induction pts as [|q pts IH]; intros seen m h Dr Dc Hg Hinv.
  - exists m, h. rewrite app_nil_r. auto.
  - cbn [foldM]. unfold gh_step at 1. fold (coarse (pt q)). fold (dist_of (pt q)).
    destruct (coarse_range (pt q)) as (Rx & Ry). destruct (coarse (pt q)) as [ix iy] eqn:Ec. cbn [fst snd] in Rx, Ry.
    rewrite mget_some by lia. destruct (mset_some m iy ix (cell m iy ix + 1)) as (m1 & E1); try lia. rewrite E1.
    rewrite (ghist_get h iy ix Hg Ry Rx).
    destruct (ghist_set h iy ix (add N (cell (h_dist h) iy ix) (dist_of (pt q))) Hg Ry Rx) as (h1 & E2 & G1 & A1 & O1).
    rewrite E2. apply mset_inv in E1. destruct E1 as (_ & _ & R1 & C1 & A2 & O2).
    replace (seen ++ q :: pts) with ((seen ++ [q]) ++ pts) by now rewrite <- app_assoc.
    apply (IH (seen ++ [q]) m1 h1); try congruence.
    intros e z He Hz. unfold in_cell. rewrite filter_app. cbn [filter]. rewrite Ec.
    destruct (Hinv e z He Hz) as (I1 & I2).
    destruct (same_cell (ix, iy) (z, e)) eqn:S.
    + apply same_cell_true in S. injection S as -> ->. rewrite A1, A2. rewrite app_length. cbn [length].
      rewrite I1, I2. split; [unfold in_cell; lia|]. unfold sum_from. rewrite fold_left_app. reflexivity.
    + assert (Hn : (e, z) <> (iy, ix)) by (intros [= -> ->]; rewrite same_cell_refl in S; discriminate).
      rewrite app_nil_r. rewrite O1 by exact Hn. rewrite O2; [auto|].
      destruct (Z.eq_dec e iy); [|auto]. destruct (Z.eq_dec z ix); [congruence|auto].
Qed.

Lemma gh_norm m (h0 : hist N) l : rows m = 30 -> cols m = 60 -> NoDup l ->
  (forall e z, In (e, z) l -> 0 <= e < 30 /\ 0 <= z < 60) -> forall h, ghist h ->
  exists h', foldM (gh_norm_step N m) h l = Some h' /\ ghist h' /\
   forall e z, 0 <= e < 30 -> 0 <= z < 60 -> cell (h_dist h') e z =
     if existsb (same_cell (e, z)) l then
       (if 0 <? cell m e z then div N (cell (h_dist h) e z) (ofZ N (cell m e z)) else ofZ N 0)
     else cell (h_dist h) e z.
Proof.
  intros Dr Dc ND Hin. induction l as [|[e0 z0] l IH]; intros h Hg.
  - exists h. cbn. auto.
  - inversion ND as [|? ? Hni ND']; subst. destruct (Hin e0 z0 (or_introl eq_refl)) as (He0 & Hz0).
    cbn [foldM]. unfold gh_norm_step at 1. rewrite mget_some by lia.
    assert (HS : exists h1, (if 0 <? cell m e0 z0 then match h_get N h e0 z0 with Some d => h_set N h e0 z0 (div N d (ofZ N (cell m e0 z0))) | None => None end else h_set N h e0 z0 (ofZ N 0)) = Some h1 /\ ghist h1 /\
       cell (h_dist h1) e0 z0 = (if 0 <? cell m e0 z0 then div N (cell (h_dist h) e0 z0) (ofZ N (cell m e0 z0)) else ofZ N 0) /\
       forall e' z', (e', z') <> (e0, z0) -> cell (h_dist h1) e' z' = cell (h_dist h) e' z').
    { rewrite (ghist_get h e0 z0 Hg He0 Hz0). destruct (0 <? cell m e0 z0); apply ghist_set; assumption. }
    destruct HS as (h1 & -> & G1 & A1 & O1).
    destruct (IH ND' (fun e z H => Hin e z (or_intror H)) h1 G1) as (h' & E' & G' & I').
    exists h'. split; [exact E'|]. split; [exact G'|]. intros e z He Hz. rewrite (I' e z He Hz). cbn [existsb].
    destruct (same_cell (e, z) (e0, z0)) eqn:S; cbn [orb].
    + apply same_cell_true in S. injection S as -> ->.
      destruct (existsb (same_cell (e0, z0)) l) eqn:X; [|exact A1].
      apply existsb_exists in X. destruct X as (x & Hx & Sx). apply same_cell_true in Sx. subst x. contradiction.
    + rewrite O1; [reflexivity|]. intros X. rewrite X, same_cell_refl in S. discriminate.
Qed.

Lemma generateNewHistogram_spec h0 cloud : ghist h0 ->
  exists h, generateNewHistogram N G cast h0 cloud position = Some h /\ ghist h /\
  forall e z, 0 <= e < 30 -> 0 <= z < 60 ->
    h_get N h e z = Some (match in_cell e z cloud with
                          | [] => ofZ N 0
                          | l => div N (sum_from (cell (h_dist h0) e z) l) (ofZ N (Z.of_nat (length l))) end).
Proof.
  intros Hg. unfold generateNewHistogram.
  destruct (gh_fold h0 cloud Hg [] (Mat GRID_LENGTH_E GRID_LENGTH_Z (fun _ _ => 0)) h0) as (m & h1 & E & Dr & Dc & G1 & I);
    [reflexivity|reflexivity|exact Hg|intros e z _ _; split; reflexivity|].
  rewrite E. cbn [app] in I.
  destruct (gh_norm m h0 (grid_idx GRID_LENGTH_E GRID_LENGTH_Z) Dr Dc (NoDup_grid_idx _ _) (fun e z H => proj1 (in_grid_idx _ _ e z) H) h1 G1) as (h & E' & G' & I').
  exists h. split; [exact E'|]. split; [exact G'|]. intros e z He Hz. rewrite (ghist_get h e z G' He Hz). f_equal.
  rewrite I' by assumption.
  replace (existsb (same_cell (e, z)) (grid_idx GRID_LENGTH_E GRID_LENGTH_Z)) with true.
  2:{ symmetry. apply existsb_exists. exists (e, z). split; [apply in_grid_idx; unfold GRID_LENGTH_E, GRID_LENGTH_Z; lia|apply same_cell_refl]. }
  destruct (I e z He Hz) as (I1 & I2). rewrite I1, I2. destruct (in_cell e z cloud) as [|q l]; [reflexivity|].
  cbn [length]. destruct (Z.ltb_spec 0 (Z.of_nat (S (length l)))); [reflexivity|lia].
Qed.
Lemma reachable_ghist h : reachable N h -> h_res h = ALPHA_RES -> ghist h.
Proof. intros H R. split; [now apply reachable_wf|exact R]. Qed.
End Gh.
