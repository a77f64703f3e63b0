(** Proofs about LocalPlanner and the trajectory simulator (C26, C34, C35, C65-C67). *)
From Coq Require Import ZArith Reals List Bool Lia Lra Psatz.
From Flocq Require Import Core BinarySingleNaN.
From Verif Require Import Num Mat CommonModel CommonSpec CommonProofs HistModel HistProofs PfModel PfSpec PfProofs PfProofs2 PfProofs3 PfCost PfExtra StarModel StarSpec StarProofs StarProofs2 LpModel.
Import ListNotations.
Local Open Scope Z_scope.

(* ------------------------------------------------------------------- list building *)
Lemma push_fold {A B} (f : A -> option B) l : (forall a, In a l -> f a <> None) -> forall acc,
  exists r, foldM (fun acc i => option_map (fun x => acc ++ [x]) (f i)) acc l = Some (acc ++ r) /\ length r = length l /\
  forall k a, nth_error l k = Some a -> nth_error r k = f a.
Proof.
  induction l as [|a l IH]; intros H acc; cbn [foldM].
  - exists []. rewrite app_nil_r. repeat split. intros [|k] a; discriminate.
  - destruct (f a) as [b|] eqn:E; [|exfalso; apply (H a); [now left|exact E]]. cbn [option_map].
    destruct (IH (fun x Hx => H x (or_intror Hx)) (acc ++ [b])) as (r & E' & L & I).
    exists (b :: r). rewrite E', <- app_assoc. split; [reflexivity|]. split; [cbn; lia|].
    intros [|k] x Hx; cbn in *; [injection Hx as <-; now rewrite E|eauto].
Qed.
Lemma foldM_ext' {A S} (f g : S -> A -> option S) : (forall s a, f s a = g s a) -> forall l s, foldM f s l = foldM g s l.
Proof. intros H. induction l as [|a l IH]; intros s; cbn [foldM]; [reflexivity|]. rewrite H. destruct (g s a); [apply IH|reflexivity]. Qed.
Lemma foldM_nested {A B S} (g : A -> S -> B -> option S) (l2 : list B) l1 : forall s,
  foldM (fun s a => foldM (g a) s l2) s l1 = foldM (fun s ab => g (fst ab) s (snd ab)) s (flat_map (fun a => map (fun b => (a, b)) l2) l1).
Proof.
  induction l1 as [|a l1 IH]; intros s; cbn [foldM flat_map]; [reflexivity|].
  rewrite foldM_app.
  assert (E : forall s, foldM (g a) s l2 = foldM (fun s ab => g (fst ab) s (snd ab)) s (map (fun b => (a, b)) l2)).
  { clear. induction l2 as [|b l2 IH]; intros s; cbn [foldM map]; [reflexivity|]. cbn [fst snd]. destruct (g a s b); [apply IH|reflexivity]. }
  rewrite <- E. destruct (foldM (g a) s l2); [apply IH|reflexivity].
Qed.
Lemma nth_zrange n : forall k, nth_error (zrange n) k = if (Z.of_nat k <? n) then Some (Z.of_nat k) else None.
Proof.
  intros k. unfold zrange. destruct (Z.ltb_spec (Z.of_nat k) n).
  - rewrite nth_error_map. assert (Hk : (k < Z.to_nat n)%nat) by lia.
    rewrite (nth_error_nth' _ 0%nat) by (rewrite seq_length; exact Hk). rewrite seq_nth by exact Hk. reflexivity.
  - apply nth_error_None. rewrite map_length, seq_length. lia.
Qed.

(* ------------------------------------------------------------------- scan *)
Section Scan.
Context (N : num) (G : trig N).
Lemma scan_entry_spec h fovs position yaw mn mx i : ghist N h -> 0 <= i < 60 ->
  exists j d, 0 <= j < 60 /\ (j - i) mod 60 = 30 /\ h_get N h 0 j = Some d /\
    scanEntry N G h fovs position yaw mn mx i =
      Some (if histogramIndexYawInsideFOVs N G fovs j position yaw then (if ltb N mn d then d else add N mx (cst N 1 100)) else nanv N).
Proof.
  intros Hg Hi. unfold scanEntry. change (GRID_LENGTH_Z / 2) with 30. change GRID_LENGTH_Z with 60.
  set (j := Z.rem (i + 30) 60).
  assert (Hj : j = if i <? 30 then i + 30 else i - 30).
  { unfold j. rewrite Z.rem_mod_nonneg by lia. destruct (Z.ltb_spec i 30); [apply Z.mod_small; lia|].
    symmetry. apply Z.mod_unique with (q := 1); lia. }
  assert (Hr : 0 <= j < 60) by (rewrite Hj; destruct (Z.ltb_spec i 30); lia).
  exists j, (cell (h_dist h) 0 j). split; [exact Hr|]. split.
  { rewrite Hj. destruct (Z.ltb_spec i 30); [replace (i + 30 - i) with 30 by lia; reflexivity|replace (i - 30 - i) with (-30) by lia; reflexivity]. }
  rewrite (ghist_get N h 0 j Hg) by lia. split; reflexivity.
Qed.
Lemma scan_spec h fovs position yaw mn mx : ghist N h ->
  exists l, updateObstacleDistanceMsg N G h fovs position yaw mn mx = Some l /\ length l = 60%nat /\
  forall i, 0 <= i < 60 -> exists j d, 0 <= j < 60 /\ (j - i) mod 60 = 30 /\ h_get N h 0 j = Some d /\
    nth_error l (Z.to_nat i) =
      Some (if histogramIndexYawInsideFOVs N G fovs j position yaw then (if ltb N mn d then d else add N mx (cst N 1 100)) else nanv N).
Proof.
  intros Hg. unfold updateObstacleDistanceMsg.
  destruct (push_fold (scanEntry N G h fovs position yaw mn mx) (zrange GRID_LENGTH_Z)) with (acc := @nil N) as (r & E & L & I).
  { intros i Hi. apply in_zrange in Hi. destruct (scan_entry_spec h fovs position yaw mn mx i Hg Hi) as (j & d & _ & _ & _ & E). congruence. }
  exists r. split; [exact E|]. split; [rewrite L; apply length_zrange|]. intros i Hi.
  destruct (scan_entry_spec h fovs position yaw mn mx i Hg Hi) as (j & d & H1 & H2 & H3 & E'). exists j, d. split; [exact H1|]. split; [exact H2|]. split; [exact H3|].
  rewrite (I (Z.to_nat i) i); [exact E'|]. rewrite nth_zrange, Z2Nat.id by lia. destruct (Z.ltb_spec i GRID_LENGTH_Z); [reflexivity|unfold GRID_LENGTH_Z in *; lia].
Qed.
(** histogram image *)
Lemma hist_image_spec (cast : N -> Z) mx h : ghist N h ->
  exists img, generateHistogramImage N cast mx h = Some img /\ length img = 1800%nat /\
  forall e z, 0 <= e < 30 -> 0 <= z < 60 -> nth_error img (Z.to_nat ((29 - e) * 60 + z)) = Some (imageByte N cast mx (cell (h_dist h) e z)).
Proof.
  intros Hg. unfold generateHistogramImage. rewrite foldM_nested. cbn [fst snd].
  set (l := flat_map (fun a => map (fun b => (a, b)) (zrange GRID_LENGTH_Z)) (rev (zrange GRID_LENGTH_E))).
  assert (Hl : forall e z, 0 <= e < 30 -> 0 <= z < 60 -> nth_error l (Z.to_nat ((29 - e) * 60 + z)) = Some (e, z)).
  { intros e z He Hz. unfold l. change (rev (zrange GRID_LENGTH_E)) with (map (fun k => 29 - Z.of_nat k) (seq 0 30)).
    assert (G1 : forall (es : list Z) k x, nth_error es k = Some x ->
       nth_error (flat_map (fun a => map (fun b => (a, b)) (zrange GRID_LENGTH_Z)) es) (60 * k + Z.to_nat z) = Some (x, z)).
    { induction es as [|y es IH]; intros k x Hk; [destruct k; discriminate|]. cbn [flat_map].
      assert (L60 : length (map (fun b => (y, b)) (zrange GRID_LENGTH_Z)) = 60%nat) by (rewrite map_length; apply length_zrange).
      destruct k as [|k]; cbn in Hk.
      - injection Hk as ->. rewrite nth_error_app1 by (rewrite L60; lia). rewrite nth_error_map, nth_zrange.
        replace (Z.of_nat (60 * 0 + Z.to_nat z)) with z by lia. destruct (Z.ltb_spec z GRID_LENGTH_Z); [reflexivity|unfold GRID_LENGTH_Z in *; lia].
      - rewrite nth_error_app2 by (rewrite L60; lia). rewrite L60. replace (60 * S k + Z.to_nat z - 60)%nat with (60 * k + Z.to_nat z)%nat by lia. apply IH. exact Hk. }
    replace (Z.to_nat ((29 - e) * 60 + z)) with (60 * Z.to_nat (29 - e) + Z.to_nat z)%nat by lia. apply G1.
    rewrite nth_error_map, (nth_error_nth' _ 0%nat) by (rewrite seq_length; lia). rewrite seq_nth by lia. cbn [option_map]. f_equal. rewrite Nat.add_0_l, Z2Nat.id by lia. lia. }
  assert (Hin : forall ez, In ez l -> 0 <= fst ez < 30 /\ 0 <= snd ez < 60).
  { intros (e, z) H. unfold l in H. apply in_flat_map in H. destruct H as (a & Ha & H). apply in_rev, in_zrange in Ha. apply in_map_iff in H.
    destruct H as (b & [= <- <-] & Hb). apply in_zrange in Hb. exact (conj Ha Hb). }
  assert (Hf : forall ez, In ez l -> option_map (imageByte N cast mx) (h_get N h (fst ez) (snd ez)) = Some (imageByte N cast mx (cell (h_dist h) (fst ez) (snd ez)))).
  { intros ez H. destruct (Hin ez H). now rewrite ghist_get. }
  destruct (push_fold (fun ez => option_map (imageByte N cast mx) (h_get N h (fst ez) (snd ez))) l) with (acc := @nil Z) as (r & E & L & I).
  { intros ez H. rewrite (Hf ez H). discriminate. }
  exists r. split; [|split].
  - etransitivity; [|exact E]. apply foldM_ext'. intros acc a. destruct (h_get N h (fst a) (snd a)); reflexivity.
  - rewrite L. unfold l. reflexivity.
  - intros e z He Hz. rewrite (I _ (e, z)) by (now apply Hl). rewrite Hf; [reflexivity|]. eapply nth_error_In. apply Hl; assumption.
Qed.
End Scan.

(** which azimuth sector counts as covered, over the reals *)
Section Cover.
Local Open Scope R_scope.
Lemma wrapPolar_flat (e z r : R) : -90 <= e <= 90 -> wrapPolar Rn (Pol e z r : polar Rn) = Pol e (wrapAngleToPlusMinus180 Rn z) r.
Proof.
  intros He. unfold wrapPolar. cbn [pe pz pr]. rewrite (wrap180_id e) by lra. rn. rcases; try reflexivity; lra.
Qed.
Lemma pointInsideFOVs_ex (N : num) fs p : pointInsideFOVs N fs p = true <-> exists f, In f fs /\ pointInsideFOV N f p = true.
Proof.
  induction fs as [|f fs IH]; cbn [pointInsideFOVs]; [split; [discriminate|intros (f & [] & _)]|].
  destruct (pointInsideFOV N f p) eqn:E.
  - split; [intros _; exists f; split; [now left|exact E]|reflexivity].
  - rewrite IH. split; intros (g & Hg & Eg); [exists g; split; [now right|exact Eg]|]. destruct Hg as [->|Hg]; [congruence|eauto].
Qed.
Lemma cover_spec (fs : list (fov Rn)) (j : Z) position (yaw : R) : (0 <= j < 60)%Z ->
  histogramIndexYawInsideFOVs Rn Rtrig fs j position yaw = true <->
  exists f edge, In f fs /\ (edge = 3 \/ edge = -3) /\
    pointInsideFOV Rn f (Pol (-3) (wrapAngleToPlusMinus180 Rn (90 - IZR (6 * j + 3 - 180) + edge - yaw)) 1 : polar Rn) = true.
Proof.
  intros Hj. unfold histogramIndexYawInsideFOVs, histogramIndexYawInsideFOV.
  change (GRID_LENGTH_E / 2)%Z with 15%Z. change ALPHA_RES with 6%Z.
  unfold cartesianToPolarFCU.
  assert (E1 : histogramIndexToPolar Rn 15 j 6 (ofZ Rn 1) = Pol (3:Rn) (IZR (6 * j + 3 - 180)) (1:Rn)).
  { unfold histogramIndexToPolar. rn. change (15 * 6 + 6 / 2 - 90)%Z with 3%Z. change (6 / 2)%Z with 3%Z. do 2 f_equal. lia. }
  rewrite E1.
  destruct (Z.eq_dec j 60) as [|_]; [lia|].
  assert (Hb : -180 < IZR (6 * j + 3 - 180) <= 180).
  { split; [replace (-180) with (IZR (-180)) by reflexivity; apply IZR_lt; lia|replace 180 with (IZR 180) by reflexivity; apply IZR_le; lia]. }
  rewrite polar_cart_polar by (cbn [pe pz pr]; first [exact Hb|slra]).
  cbn [pe pz pr]. rn. set (a := IZR (6 * j + 3 - 180)) in *. assert (E2 : wrapPolar Rn (@Pol R (- (3)) (- a + 90) 1) = @Pol R (- (3)) (wrapAngleToPlusMinus180 Rn (- a + 90)) 1) by (apply wrapPolar_flat; lra). tR. rewrite E2. cbn [pe pz pr].
  assert (X : forall edge : R, wrapPolar Rn (@Pol R (- (3)) (wrapAngleToPlusMinus180 Rn (- a + 90) - yaw + edge) 1)
     = @Pol R (-3) (wrapAngleToPlusMinus180 Rn (90 - a + edge - yaw)) 1).
  { intros edge. rewrite wrapPolar_flat by lra. f_equal. apply wrap180_unique. destruct (wrap180_congr (- a + 90)) as (k & Ek). exists k. rewrite Ek. ring. }
  replace (wrapAngleToPlusMinus180 Rn (- a + 90) - yaw - 6 / 2) with (wrapAngleToPlusMinus180 Rn (- a + 90) - yaw + (-3)) by lra.
  replace (wrapAngleToPlusMinus180 Rn (- a + 90) - yaw + 6 / 2) with (wrapAngleToPlusMinus180 Rn (- a + 90) - yaw + 3) by lra.
  rewrite !X, orb_true_iff, !pointInsideFOVs_ex. split.
  - intros [(f & H1 & H2)|(f & H1 & H2)]; exists f; eexists; (split; [exact H1|]); split; [left; reflexivity|exact H2|right; reflexivity|exact H2].
  - intros (f & edge & H1 & [->| ->] & H2); [left|right]; eauto.
Qed.
End Cover.
