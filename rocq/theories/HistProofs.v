From Coq Require Import ZArith Reals List Bool Lia Lra.
From Verif Require Import Num Mat CommonModel HistModel.
Import ListNotations.
Local Open Scope Z_scope.
Ltac Zify.zify_post_hook ::= Z.to_euclidean_division_equations.

Section Any.
Variable N : num.
Implicit Types h : hist N.

(** dimensions agree with the resolution *)
Definition h_wf h : Prop :=
  0 < h_res h /\ h_zdim h = 360 / h_res h /\ h_edim h = 180 / h_res h /\
  rows (h_dist h) = h_edim h /\ cols (h_dist h) = h_zdim h.
Definition reachable h : Prop := exists res h0 os, 0 < res /\ h_new N res = Some h0 /\ h_run N h0 os = Some h.

Lemma h_new_wf res h : 0 < res -> h_new N res = Some h -> h_wf h /\ h_res h = res /\ (forall i j, cell (h_dist h) i j = ofZ N 0).
Proof.
  unfold h_new. intros Hr. destruct (Z.eqb_spec res 0); [discriminate|].
  destruct (_ || _); [discriminate|]. intros [= <-]. unfold h_wf. cbn.
  rewrite !Z.quot_div_nonneg by lia. repeat split; try lia.
Qed.
Lemma h_new_some res : 0 < res -> exists h, h_new N res = Some h.
Proof.
  intros Hr. unfold h_new. destruct (Z.eqb_spec res 0); [lia|].
  rewrite !Z.quot_div_nonneg by lia.
  pose proof (Z.div_pos 360 res). pose proof (Z.div_pos 180 res).
  destruct (Z.ltb_spec (360 / res) 0); [lia|]. destruct (Z.ltb_spec (180 / res) 0); [lia|]. cbn. eauto.
Qed.

Lemma up_ok h : h_wf h -> h_res h = 12 -> exists h', h_upsample N h = Some (Ok h') /\ h_wf h' /\ h_res h' = 6 /\
  forall i j, 0 <= i < 30 -> 0 <= j < 60 -> cell (h_dist h') i j = cell (h_dist h) (i / 2) (j / 2).
Proof.
  intros (H1 & H2 & H3 & H4 & H5) Hr. unfold h_upsample. rewrite Hr in *.
  change (360 / 12) with 30 in H2. change (180 / 12) with 15 in H3. rewrite H2, H3 in *.
  cbn [negb ALPHA_RES Z.mul Z.eqb Pos.eqb Pos.mul].
  rewrite mbuild_some.
  - eexists. split; [reflexivity|]. unfold h_wf. cbn. repeat split; try lia.
    intros i j Hi Hj. rewrite !Z.quot_div_nonneg by lia. rewrite mget_some; [reflexivity| |]; rewrite ?H4, ?H5; lia.
  - intros i j Hi Hj. rewrite mget_some; [discriminate| |]; rewrite ?H4, ?H5; lia.
Qed.
Lemma down_ok h : h_wf h -> h_res h = 6 -> exists h', h_downsample N h = Some (Ok h') /\ h_wf h' /\ h_res h' = 12 /\
  forall i j, 0 <= i < 15 -> 0 <= j < 30 ->
    cell (h_dist h') i j =
    div N (add N (add N (add N (cell (h_dist h) (2 * i) (2 * j)) (cell (h_dist h) (2 * i + 1) (2 * j)))
            (cell (h_dist h) (2 * i) (2 * j + 1))) (cell (h_dist h) (2 * i + 1) (2 * j + 1))) (ofZ N 4).
Proof.
  intros (H1 & H2 & H3 & H4 & H5) Hr. unfold h_downsample. rewrite Hr in *.
  change (360 / 6) with 60 in H2. change (180 / 6) with 30 in H3. rewrite H2, H3 in *.
  cbn [negb ALPHA_RES Z.eqb Pos.eqb]. change (Z.quot 30 2) with 15. change (Z.quot 60 2) with 30.
  rewrite mbuild_some.
  - eexists. split; [reflexivity|]. unfold h_wf. cbn [h_res h_zdim h_edim h_dist rows cols cell].
    repeat split; try reflexivity; try lia.
    intros i j Hi Hj. unfold block_mean. rewrite !mget_some; try reflexivity; rewrite ?H4, ?H5; lia.
  - intros i j Hi Hj. unfold block_mean. rewrite !mget_some; try discriminate; rewrite ?H4, ?H5; lia.
Qed.
Lemma up_throw h : h_upsample N h = Some Throw <-> h_res h <> 12.
Proof.
  unfold h_upsample. change (ALPHA_RES * 2) with 12. destruct (Z.eqb_spec (h_res h) 12) as [E|E]; cbn [negb].
  - split; [|intros; contradiction]. intros H. exfalso. destruct (mbuild _ _ _ _); discriminate.
  - tauto.
Qed.
Lemma down_throw h : h_downsample N h = Some Throw <-> h_res h <> 6.
Proof.
  unfold h_downsample. change ALPHA_RES with 6. destruct (Z.eqb_spec (h_res h) 6) as [E|E]; cbn [negb].
  - split; [|intros; contradiction]. intros H. exfalso. destruct (mbuild _ _ _ _); discriminate.
  - tauto.
Qed.
Lemma set_wf h x y v h' : h_wf h -> h_set N h x y v = Some h' -> h_wf h' /\ h_res h' = h_res h.
Proof.
  intros H. unfold h_set. destruct (mset _ _ _ _) as [m|] eqn:E; [|discriminate]. intros [= <-].
  apply mset_inv in E. unfold h_wf in *. cbn. intuition congruence.
Qed.
Lemma step_wf h o h' : h_wf h -> h_step N h o = Some (Ok h') -> h_wf h'.
Proof.
  intros H. destruct o; cbn.
  - destruct (h_set _ _ _ _ _) eqn:E; [|discriminate]. intros [= <-]. eapply set_wf; eauto.
  - intros [= <-]. exact H.
  - intros E. destruct (Z.eq_dec (h_res h) 12) as [R|R].
    + destruct (up_ok h H R) as (h2 & E2 & W & _). rewrite E2 in E. congruence.
    + apply up_throw in R. congruence.
  - intros E. destruct (Z.eq_dec (h_res h) 6) as [R|R].
    + destruct (down_ok h H R) as (h2 & E2 & W & _). rewrite E2 in E. congruence.
    + apply down_throw in R. congruence.
Qed.
Lemma run_wf os : forall h h', h_wf h -> h_run N h os = Some h' -> h_wf h'.
Proof.
  induction os as [|o os IH]; cbn; intros h h' H E; [congruence|].
  destruct (h_step N h o) as [[h2|]|] eqn:S; [|eauto|discriminate].
  eapply IH; [eapply step_wf; eauto|exact E].
Qed.
Lemma reachable_wf h : reachable h -> h_wf h.
Proof. intros (res & h0 & os & Hr & E & R). eapply run_wf; [|exact R]. eapply h_new_wf; eauto. Qed.

(** no operation other than a write outside the matrix is undefined *)
Lemma step_defined h o : reachable h ->
  h_step N h o = None -> exists x y v, o = HSet x y v /\ ~ (0 <= x < 180 / h_res h /\ 0 <= y < 360 / h_res h).
Proof.
  intros HR. pose proof (reachable_wf h HR) as H. destruct o; cbn.
  - unfold h_set, mset. destruct (inb _ x y) eqn:E; [discriminate|]. intros _. exists x, y, v. split; [reflexivity|].
    intros Hxy. destruct H as (H1 & H2 & H3 & H4 & H5). rewrite <- not_true_iff_false in E. apply E. apply inb_true. rewrite H4, H5, H2, H3. exact Hxy.
  - discriminate.
  - intros E. destruct (Z.eq_dec (h_res h) 12) as [R|R].
    + destruct (up_ok h H R) as (h2 & E2 & W & _). congruence.
    + apply up_throw in R. congruence.
  - intros E. destruct (Z.eq_dec (h_res h) 6) as [R|R].
    + destruct (down_ok h H R) as (h2 & E2 & W & _). congruence.
    + apply down_throw in R. congruence.
Qed.

(** wrapIndex is the mathematical modulo *)
Lemma wrap_mod h x y : 0 < h_edim h -> 0 < h_zdim h -> wrapIndex N h x y = Some (x mod h_edim h, y mod h_zdim h).
Proof.
  intros He Hz. unfold wrapIndex.
  destruct (Z.eqb_spec (h_edim h) 0); [lia|]. destruct (Z.eqb_spec (h_zdim h) 0); [lia|]. cbn [orb].
  assert (W : forall a d, 0 < d -> (if Z.rem a d <? 0 then Z.rem a d + d else Z.rem a d) = a mod d).
  { intros a d Hd. destruct (Z.ltb_spec (Z.rem a d) 0) as [L|L].
    - pose proof (Z.rem_bound_abs a d ltac:(lia)). pose proof (Z.quot_rem' a d).
      apply Z.mod_unique_pos with (q := Z.quot a d - 1); nia.
    - pose proof (Z.rem_bound_abs a d ltac:(lia)). pose proof (Z.quot_rem' a d).
      apply Z.mod_unique_pos with (q := Z.quot a d); nia. }
  rewrite !W by assumption. reflexivity.
Qed.
Lemma dims_pos h : h_wf h -> h_res h <= 180 -> 0 < h_edim h /\ 0 < h_zdim h.
Proof.
  intros (H1 & H2 & H3 & _) H. rewrite H2, H3.
  split; apply Z.div_str_pos; lia.
Qed.
Lemma get_mod h x y : h_wf h -> h_res h <= 180 ->
  h_get N h x y = Some (cell (h_dist h) (x mod (180 / h_res h)) (y mod (360 / h_res h))).
Proof.
  intros W Hr. destruct (dims_pos h W Hr) as (He & Hz). unfold h_get. rewrite wrap_mod by assumption.
  destruct W as (H1 & H2 & H3 & H4 & H5).
  rewrite mget_some; [rewrite H2, H3; reflexivity| |]; rewrite ?H4, ?H5; apply Z.mod_pos_bound; assumption.
Qed.
Lemma get_in h x y : h_wf h -> h_res h <= 180 -> 0 <= x < 180 / h_res h -> 0 <= y < 360 / h_res h ->
  h_get N h x y = Some (cell (h_dist h) x y).
Proof. intros W Hr Hx Hy. rewrite get_mod by assumption. now rewrite !Z.mod_small by assumption. Qed.

Lemma get_periodic h x y k l : reachable h -> h_res h <= 180 ->
  h_get N h (x + k * (180 / h_res h)) (y + l * (360 / h_res h)) = h_get N h x y /\ h_get N h x y <> None.
Proof.
  intros HR Hr. pose proof (reachable_wf h HR) as W. destruct (dims_pos h W Hr) as (He & Hz).
  destruct W as (H1 & H2 & H3 & H4 & H5). rewrite H3 in He. rewrite H2 in Hz.
  rewrite !get_mod; try (unfold h_wf; tauto). rewrite !Z.mod_add by lia. split; [reflexivity|discriminate].
Qed.
Lemma read_after_write h x y v h' : reachable h -> h_res h <= 180 -> h_set N h x y v = Some h' ->
  h_get N h' x y = Some v /\
  forall x' y', (x' mod (180 / h_res h), y' mod (360 / h_res h)) <> (x, y) -> h_get N h' x' y' = h_get N h x' y'.
Proof.
  intros HR Hr E. pose proof (reachable_wf h HR) as W. destruct (set_wf h x y v h' W E) as (W' & R').
  rewrite <- R'. assert (Hr' : h_res h' <= 180) by congruence. revert E. unfold h_set.
  destruct (mset _ _ _ _) as [m|] eqn:M; [|discriminate]. intros E. injection E as E'.
  apply mset_inv in M. destruct M as (M1 & M2 & M3 & M4 & M5 & M6).
  assert (D : h_dist h' = m) by now rewrite <- E'.
  destruct W as (H1 & H2 & H3 & H4 & H5). rewrite H4, H3 in M1. rewrite H5, H2 in M2. rewrite <- R' in M1, M2.
  split.
  - rewrite get_in by assumption. now rewrite D, M5.
  - intros x' y' Hne. rewrite !get_mod; try (unfold h_wf; tauto). rewrite D, R'. f_equal. apply M6. rewrite R' in Hne.
    destruct (Z.eq_dec (x' mod (180 / h_res h)) x); [|tauto]. right. intros F. apply Hne. congruence.
Qed.
Lemma write_defined h x y v : reachable h ->
  (exists h', h_set N h x y v = Some h') <-> 0 <= x < 180 / h_res h /\ 0 <= y < 360 / h_res h.
Proof.
  intros HR. pose proof (reachable_wf h HR) as (H1 & H2 & H3 & H4 & H5).
  unfold h_set, mset. destruct (inb _ x y) eqn:E.
  - apply inb_true in E. rewrite H4, H5, H2, H3 in E. split; eauto.
  - split; [intros (h' & F); discriminate|]. intros Hxy. exfalso. rewrite <- not_true_iff_false in E. apply E.
    apply inb_true. now rewrite H4, H5, H2, H3.
Qed.

Lemma isEmpty_wf h : h_wf h ->
  exists b, h_isEmpty N h = Some b /\
  (b = true <-> forall x y, 0 <= x < 180 / h_res h -> 0 <= y < 360 / h_res h ->
     ltb N (flt_min N) (cell (h_dist h) x y) = false).
Proof.
  intros (H1 & H2 & H3 & H4 & H5). unfold h_isEmpty.
  rewrite <- H2, <- H3. set (P := fun x y => ltb N (flt_min N) (cell (h_dist h) x y) = false).
  assert (Inner : forall e, 0 <= e < h_edim h -> forall l c, (forall z, In z l -> 0 <= z < h_zdim h) -> 0 <= c ->
    exists c', foldM (fun (c : Z) z => if c =? 0 then match mget (h_dist h) e z with
                        | Some d => Some (if ltb N (flt_min N) d then c + 1 else c) | None => None end
         else Some c) c l = Some c' /\ 0 <= c' /\ (c' = 0 <-> c = 0 /\ forall z, In z l -> P e z)).
  { intros e He. induction l as [|z l IH]; intros c Hl Hc; cbn.
    - exists c. repeat split; try tauto; intros ? [].
    - destruct (Z.eqb_spec c 0) as [->|Hn].
      + rewrite mget_some; [|rewrite H4; lia|rewrite H5; apply Hl; left; reflexivity].
        destruct (ltb N (flt_min N) (cell (h_dist h) e z)) eqn:E.
        * destruct (IH (0 + 1) (fun z' Hz => Hl z' (or_intror Hz)) ltac:(lia)) as (c' & -> & Hc' & Hi).
          exists c'. split; [reflexivity|]. split; [assumption|]. split; [lia|]. intros (_ & F). specialize (F z (or_introl eq_refl)). unfold P in F. congruence.
        * destruct (IH 0 (fun z' Hz => Hl z' (or_intror Hz)) ltac:(lia)) as (c' & -> & Hc' & Hi).
          exists c'. split; [reflexivity|]. split; [assumption|]. rewrite Hi. split; intros (_ & F); (split; [reflexivity|]).
          -- intros z' [<-|Hz]; [exact E|auto].
          -- intros z' Hz; apply F; now right.
      + destruct (IH c (fun z' Hz => Hl z' (or_intror Hz)) Hc) as (c' & -> & Hc' & Hi).
        exists c'. split; [reflexivity|]. split; [assumption|]. rewrite Hi. split; [tauto|]. intros (F & _). contradiction. }
  assert (Outer : forall l c, (forall e, In e l -> 0 <= e < h_edim h) -> 0 <= c ->
    exists c', foldM (fun (c : Z) e => if c =? 0 then
       foldM (fun (c : Z) z => if c =? 0 then match mget (h_dist h) e z with
                        | Some d => Some (if ltb N (flt_min N) d then c + 1 else c) | None => None end
         else Some c) c (zrange (h_zdim h)) else Some c) c l = Some c' /\ 0 <= c' /\
      (c' = 0 <-> c = 0 /\ forall e, In e l -> forall z, In z (zrange (h_zdim h)) -> P e z)).
  { induction l as [|e l IH]; intros c Hl Hc; cbn.
    - exists c. repeat split; try tauto; intros ? [].
    - destruct (Z.eqb_spec c 0) as [->|Hn].
      + destruct (Inner e (Hl e (or_introl eq_refl)) (zrange (h_zdim h)) 0) as (c1 & -> & Hc1 & Hi1); [intros; now apply in_zrange|lia|].
        destruct (IH c1 (fun z' Hz => Hl z' (or_intror Hz)) Hc1) as (c' & -> & Hc' & Hi).
        exists c'. split; [reflexivity|]. split; [assumption|]. rewrite Hi, Hi1. split.
        * intros ((_ & F1) & F2). split; [reflexivity|]. intros e' [<-|He']; auto.
        * intros (_ & F). split; [split; [reflexivity|]|]; intros; apply F; auto; solve [now left|now right].
      + destruct (IH c (fun z' Hz => Hl z' (or_intror Hz)) Hc) as (c' & -> & Hc' & Hi).
        exists c'. split; [reflexivity|]. split; [assumption|]. rewrite Hi. split; [tauto|]. intros (F & _). contradiction. }
  destruct (Outer (zrange (h_edim h)) 0) as (c & -> & Hc & Hi); [intros; now apply in_zrange|lia|].
  eexists. split; [reflexivity|]. rewrite Z.eqb_eq, Hi. split.
  - intros (_ & F) x y Hx Hy. apply F; now apply in_zrange.
  - intros F. split; [reflexivity|]. intros e He z Hz. apply in_zrange in He, Hz. apply F; assumption.
Qed.

Lemma isEmpty_spec h : reachable h ->
  exists b, h_isEmpty N h = Some b /\
  (b = true <-> forall x y, 0 <= x < 180 / h_res h -> 0 <= y < 360 / h_res h ->
     ltb N (flt_min N) (cell (h_dist h) x y) = false).
Proof. intros HR. exact (isEmpty_wf h (reachable_wf h HR)). Qed.
Lemma isEmpty_get h : reachable h ->
  exists b, h_isEmpty N h = Some b /\
  (b = true <-> forall x y v, h_get N h x y = Some v -> ltb N (flt_min N) v = false).
Proof.
  intros HR. destruct (isEmpty_spec h HR) as (b & E & I). exists b. split; [exact E|]. rewrite I.
  pose proof (reachable_wf h HR) as W. destruct W as (H1 & H2 & H3 & H4 & H5). split.
  - intros F x y v. unfold h_get. destruct (wrapIndex N h x y) as [(x', y')|]; [|discriminate].
    intros G. apply mget_inv in G. destruct G as (G1 & G2 & <-). rewrite H4, H3 in G1. rewrite H5, H2 in G2. auto.
  - intros F x y Hx Hy. apply (F x y). apply get_in; try assumption.
    + unfold h_wf; tauto.
    + destruct (Z.le_gt_cases (h_res h) 180); [assumption|]. rewrite Z.div_small in Hx; lia.
Qed.

(** get-level statements of the resampling *)
Lemma up_get h : reachable h -> h_res h = 12 ->
  exists h', h_upsample N h = Some (Ok h') /\ h_res h' = 6 /\
  forall i j, 0 <= i < 30 -> 0 <= j < 60 -> h_get N h' i j = h_get N h (i / 2) (j / 2).
Proof.
  intros HR Hr. pose proof (reachable_wf h HR) as W. destruct (up_ok h W Hr) as (h' & E & W' & R' & C).
  exists h'. repeat split; try assumption. intros i j Hi Hj.
  rewrite !get_in; rewrite ?R', ?Hr; try lia; try assumption.
  now rewrite C by assumption.
Qed.
Lemma down_get h : reachable h -> h_res h = 6 ->
  exists h', h_downsample N h = Some (Ok h') /\ h_res h' = 12 /\
  forall i j, 0 <= i < 15 -> 0 <= j < 30 -> exists a b c d,
    h_get N h (2 * i) (2 * j) = Some a /\ h_get N h (2 * i + 1) (2 * j) = Some b /\
    h_get N h (2 * i) (2 * j + 1) = Some c /\ h_get N h (2 * i + 1) (2 * j + 1) = Some d /\
    h_get N h' i j = Some (div N (add N (add N (add N a b) c) d) (ofZ N 4)).
Proof.
  intros HR Hr. pose proof (reachable_wf h HR) as W. destruct (down_ok h W Hr) as (h' & E & W' & R' & C).
  exists h'. repeat split; try assumption. intros i j Hi Hj. do 4 eexists.
  rewrite !get_in; rewrite ?R', ?Hr; try assumption; try (change (180 / 6) with 30); try (change (360 / 6) with 60); try (change (180 / 12) with 15); try (change (360 / 12) with 30); try lia.
  rewrite C by assumption. repeat split.
Qed.
Lemma step_reachable h o h' : reachable h -> h_step N h o = Some (Ok h') -> reachable h'.
Proof.
  intros (res & h0 & os & Hr & E & R) S. exists res, h0, (os ++ [o]). repeat split; try assumption.
  clear E. revert h0 R. induction os as [|o' os IH]; cbn; intros h0 R.
  - injection R as ->. now rewrite S.
  - destruct (h_step N h0 o') as [[h2|]|]; [auto|auto|discriminate].
Qed.
(** generic round trip, given that averaging four copies gives back the value *)
Lemma up_down_gen h : (forall i j v, h_get N h i j = Some v -> div N (add N (add N (add N v v) v) v) (ofZ N 4) = v) ->
  reachable h -> h_res h = 12 ->
  exists h1 h2, h_upsample N h = Some (Ok h1) /\ h_downsample N h1 = Some (Ok h2) /\ h_res h2 = 12 /\
    forall i j, h_get N h2 i j = h_get N h i j.
Proof.
  intros Hm HR Hr. destruct (up_get h HR Hr) as (h1 & E1 & R1 & C1).
  assert (HR1 : reachable h1) by (eapply (step_reachable h HUp); eauto).
  destruct (down_get h1 HR1 R1) as (h2 & E2 & R2 & C2).
  assert (HR2 : reachable h2) by (eapply (step_reachable h1 HDown); eauto).
  exists h1, h2. repeat split; try assumption.
  assert (In : forall i j, 0 <= i < 15 -> 0 <= j < 30 -> h_get N h2 i j = h_get N h i j).
  { intros i j Hi Hj. destruct (C2 i j Hi Hj) as (a & b & c & d & Ga & Gb & Gc & Gd & ->).
    rewrite C1 in Ga, Gb, Gc, Gd by lia.
    assert (D : forall k, (2 * k) / 2 = k /\ (2 * k + 1) / 2 = k).
    { intros k. split; [rewrite Z.mul_comm; apply Z.div_mul; lia|]. replace (2 * k + 1) with (1 + k * 2) by lia. rewrite Z.div_add by lia. reflexivity. }
    destruct (D i) as (Di & Di'), (D j) as (Dj & Dj'). rewrite ?Di, ?Di', ?Dj, ?Dj' in *.
    rewrite Ga in Gb, Gc, Gd. injection Gb as <-. injection Gc as <-. injection Gd as <-.
    rewrite Ga. f_equal. eapply Hm; eauto. }
  intros i j. pose proof (reachable_wf h HR) as W. pose proof (reachable_wf h2 HR2) as W2.
  specialize (In (i mod 15) (j mod 30) ltac:(apply Z.mod_pos_bound; lia) ltac:(apply Z.mod_pos_bound; lia)).
  rewrite !get_mod in In by (assumption || lia). rewrite !get_mod by (assumption || lia). rewrite R2, Hr in *.
  change (180 / 12) with 15 in *. change (360 / 12) with 30 in *. now rewrite !Z.mod_mod in In by lia.
Qed.
End Any.

Local Open Scope R_scope.
Lemma up_down_R (h : hist Rn) : reachable Rn h -> h_res h = 12%Z ->
  exists h1 h2, h_upsample Rn h = Some (Ok h1) /\ h_downsample Rn h1 = Some (Ok h2) /\ h_res h2 = 12%Z /\
    forall i j, h_get Rn h2 i j = h_get Rn h i j.
Proof. apply up_down_gen. intros i j v _. rn. tR. field. Qed.
