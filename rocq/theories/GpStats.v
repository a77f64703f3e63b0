(** Path statistics of the global planner over the reals (C92), and the model of pathKineticEnergy. *)
From Coq Require Import ZArith Reals List Bool Lia Lra Psatz.
From Verif Require Import Num CommonModel CommonSpec LpProofs2 GpModel GpSpec GpProofs.
Import ListNotations.
Local Open Scope R_scope.

Section Kin.
Context (N : num).
(** common_ros.h:114-134: the velocities (differences of consecutive positions) and the changes of their squared components *)
Fixpoint velocities (l : list (gpose N)) : list (vec3 N) :=
  match l with a :: ((b :: _) as l') => v3sub N (gp_pos b) (gp_pos a) :: velocities l' | _ => [] end.
Definition sqdiff (a b : N) : N := absv N (sub N (mul N b b) (mul N a a)).
Fixpoint kinetic_from (total : N) (v : list (vec3 N)) : N :=
  match v with
  | a :: ((b :: _) as v') => kinetic_from (add N (add N (add N total (sqdiff (vx a) (vx b))) (sqdiff (vy a) (vy b))) (sqdiff (vz a) (vz b))) v'
  | _ => total
  end.
Definition pathKineticEnergy (l : list (gpose N)) : N := if (length l <? 3)%nat then ofZ N 0 else kinetic_from (ofZ N 0) (velocities l).
(** common_ros.h:44-51; red, green, blue *)
Definition spectralColor (hue : N) : vec3 N :=
  V3 (maxv N (ofZ N 0) (sub N (mul N (ofZ N 2) hue) (ofZ N 1)))
     (sub N (ofZ N 1) (mul N (ofZ N 2) (absv N (sub N hue (cst N 1 2)))))
     (maxv N (ofZ N 0) (sub N (ofZ N 1) (mul N (ofZ N 2) hue))).
End Kin.

(** specification: Euclidean distance, length of a polygon, total climb *)
Definition edist (a b : vec3 Rn) : R := sqrt ((vx b - vx a) ^ 2 + (vy b - vy a) ^ 2 + (vz b - vz a) ^ 2).
Fixpoint polyline (l : list (vec3 Rn)) : R := match l with a :: ((b :: _) as l') => edist a b + polyline l' | _ => 0 end.
Fixpoint climb (l : list (vec3 Rn)) : R := match l with a :: ((b :: _) as l') => Rmax 0 (vz b - vz a) + climb l' | _ => 0 end.

Lemma gdist_edist (a b : vec3 Rn) : gdistance Rn a b = edist a b.
Proof. unfold gdistance, gnorm, edist, v3sub. cbn [vx vy vz]. rn. tR. f_equal. ring. Qed.
Lemma length_from l : forall t, path_length_from Rn t l = t + polyline (map gp_pos l).
Proof.
  induction l as [|a l IH]; intros t; [cbn; tR; lra|]. destruct l as [|b l]; [cbn; tR; lra|].
  change (path_length_from Rn (t + gdistance Rn (gp_pos a) (gp_pos b)) (b :: l) = t + (edist (gp_pos a) (gp_pos b) + polyline (map gp_pos (b :: l)))).
  rewrite IH, gdist_edist. tR. lra.
Qed.
Lemma energy_from up l : 0 <= up -> forall t, path_energy_from Rn up t l = t + polyline (map gp_pos l) + up * climb (map gp_pos l).
Proof.
  intros Hu. induction l as [|a l IH]; intros t; [cbn; tR; lra|]. destruct l as [|b l]; [cbn; tR; lra|].
  change (path_energy_from Rn up (t + gdistance Rn (gp_pos a) (gp_pos b) + maxv Rn 0 (up * (vz (gp_pos b) - vz (gp_pos a)))) (b :: l) =
     t + (edist (gp_pos a) (gp_pos b) + polyline (map gp_pos (b :: l))) + up * (Rmax 0 (vz (gp_pos b) - vz (gp_pos a)) + climb (map gp_pos (b :: l)))).
  rewrite IH, gdist_edist, maxv_Rn.
  assert (E : Rmax 0 (up * (vz (gp_pos b) - vz (gp_pos a))) = up * Rmax 0 (vz (gp_pos b) - vz (gp_pos a))).
  { unfold Rmax. destruct (Rle_dec 0 (up * _)), (Rle_dec 0 (vz (gp_pos b) - vz (gp_pos a))); tR; nra. }
  tR. rewrite E. lra.
Qed.
Lemma edist_nonneg a b : 0 <= edist a b.
Proof. apply sqrt_pos. Qed.
Lemma edist_norm (a b : vec3 Rn) : edist a b = v3norm Rn (V3 (vx b - vx a) (vy b - vy a) (vz b - vz a) : vec3 Rn).
Proof. unfold edist, v3norm, v3sqnorm. cbn [vx vy vz]. rn. tR. f_equal. ring. Qed.
Lemma edist_triangle a b c : edist a c <= edist a b + edist b c.
Proof.
  rewrite !edist_norm. pose proof (norm_triangle (V3 (vx b - vx a) (vy b - vy a) (vz b - vz a) : vec3 Rn) (V3 (vx c - vx b) (vy c - vy b) (vz c - vz b) : vec3 Rn) 1 ltac:(lra)) as H.
  cbn [vx vy vz] in H. rewrite (Rmult_1_l (v3norm Rn (V3 _ _ _))) in H.
  eapply Rle_trans; [|exact H]. right. f_equal. f_equal; tR; ring.
Qed.
Lemma edist_refl a : edist a a = 0.
Proof. unfold edist. replace ((vx a - vx a) ^ 2 + (vy a - vy a) ^ 2 + (vz a - vz a) ^ 2) with 0 by ring. apply sqrt_0. Qed.
Lemma polyline_straight l : forall a, edist a (last l a) <= polyline (a :: l).
Proof.
  induction l as [|b l IH]; intros a; [cbn; rewrite edist_refl; lra|].
  rewrite last_cons_eq. change (polyline (a :: b :: l)) with (edist a b + polyline (b :: l)). eapply Rle_trans; [apply (edist_triangle a b)|].
  specialize (IH b). lra.
Qed.
Lemma polyline_nonneg l : 0 <= polyline l.
Proof. induction l as [|a [|b l] IH]; cbn; [lra|lra|]. cbn in IH. pose proof (edist_nonneg a b). lra. Qed.
Lemma climb_nonneg l : 0 <= climb l.
Proof. induction l as [|a [|b l] IH]; cbn; [lra|lra|]. cbn in IH. pose proof (Rmax_l 0 (vz b - vz a)). lra. Qed.

(** a lies on the way from q towards b, at k times the distance a-b from q *)
Definition behind (k : R) (q a b : vec3 Rn) : Prop :=
  0 <= k /\ vx a - vx q = k * (vx b - vx a) /\ vy a - vy q = k * (vy b - vy a) /\ vz a - vz q = k * (vz b - vz a).
Lemma edist_scale k (a b q : vec3 Rn) : 0 <= k -> vx b - vx q = k * (vx b - vx a) -> vy b - vy q = k * (vy b - vy a) -> vz b - vz q = k * (vz b - vz a) ->
  edist q b = k * edist a b.
Proof.
  intros Hk H1 H2 H3. unfold edist. rewrite H1, H2, H3.
  replace ((k * (vx b - vx a)) ^ 2 + (k * (vy b - vy a)) ^ 2 + (k * (vz b - vz a)) ^ 2) with (k * k * ((vx b - vx a) ^ 2 + (vy b - vy a) ^ 2 + (vz b - vz a) ^ 2)) by ring.
  rewrite sqrt_mult; [rewrite sqrt_square by exact Hk; reflexivity|nra|]. pose proof (pow2_ge_0 (vx b - vx a)). pose proof (pow2_ge_0 (vy b - vy a)). pose proof (pow2_ge_0 (vz b - vz a)). lra.
Qed.
Lemma behind_dist k q a b : behind k q a b -> edist q b = edist q a + edist a b.
Proof.
  intros (Hk & H1 & H2 & H3). rewrite (edist_scale (k + 1) a b q); [|lra|lra|lra|lra].
  assert (E : edist q a = k * edist a b).
  { unfold edist. rewrite H1, H2, H3.
    replace ((k * (vx b - vx a)) ^ 2 + (k * (vy b - vy a)) ^ 2 + (k * (vz b - vz a)) ^ 2) with (k * k * ((vx b - vx a) ^ 2 + (vy b - vy a) ^ 2 + (vz b - vz a) ^ 2)) by ring.
    rewrite sqrt_mult; [rewrite sqrt_square by exact Hk; reflexivity|nra|]. pose proof (pow2_ge_0 (vx b - vx a)). pose proof (pow2_ge_0 (vy b - vy a)). pose proof (pow2_ge_0 (vz b - vz a)). lra. }
  rewrite E. lra.
Qed.
Lemma corners_length l : forall (q : vec3 Rn) (a b : gpose Rn) k, behind k q (gp_pos a) (gp_pos b) ->
  polyline (q :: map gp_pos (corner_poses Rn (a :: b :: l)) ++ [gp_pos (last (b :: l) a)]) = edist q (gp_pos a) + polyline (map gp_pos (a :: b :: l)).
Proof.
  induction l as [|c l IH]; intros q a b k H.
  - cbn. rewrite (behind_dist _ _ _ _ H). lra.
  - change (corner_poses Rn (a :: b :: c :: l)) with
      ((if same_dir Rn (vx (gp_pos a)) (vx (gp_pos b)) (vx (gp_pos c)) && same_dir Rn (vy (gp_pos a)) (vy (gp_pos b)) (vy (gp_pos c)) &&
           same_dir Rn (vz (gp_pos a)) (vz (gp_pos b)) (vz (gp_pos c)) then [] else [b]) ++ corner_poses Rn (b :: c :: l)).
    change (polyline (map gp_pos (a :: b :: c :: l))) with (edist (gp_pos a) (gp_pos b) + polyline (map gp_pos (b :: c :: l))).
    rewrite last_cons_eq.
    assert (EL : last (c :: l) b = last (c :: l) a) by (rewrite !last_cons_eq; reflexivity).
    destruct (_ && _) eqn:S.
    + cbn [app]. apply andb_true_iff in S. destruct S as (S & S3). apply andb_true_iff in S. destruct S as (S1 & S2).
      unfold same_dir in *. rn. apply R_eqb_true in S1, S2, S3. destruct H as (Hk & H1 & H2 & H3).
      assert (HB : behind (k + 1) q (gp_pos b) (gp_pos c)). { tR. split; [lra|]. split; [transitivity ((k + 1) * (vx (gp_pos b) - vx (gp_pos a))); [lra|f_equal; symmetry; exact S1]|]. split; [transitivity ((k + 1) * (vy (gp_pos b) - vy (gp_pos a))); [lra|f_equal; symmetry; exact S2]|transitivity ((k + 1) * (vz (gp_pos b) - vz (gp_pos a))); [lra|f_equal; symmetry; exact S3]]. }
      rewrite (IH q b c (k + 1) HB).
      rewrite (behind_dist k q (gp_pos a) (gp_pos b)) by (repeat split; assumption). cbn [map]. lra.
    + cbn [app map]. match goal with |- polyline (q :: gp_pos b :: ?r) = _ => change (polyline (q :: gp_pos b :: r)) with (edist q (gp_pos b) + polyline (gp_pos b :: r)) end.
      rewrite (IH (gp_pos b) b c 0); [|repeat split; tR; lra]. rewrite edist_refl, (behind_dist _ _ _ _ H). cbn [map]. ring.
Qed.
(** only inner poses are dropped *)
Lemma corners_subseq {N : num} l : forall (a : gpose N), exists m, corner_poses N (a :: l) = m /\ subseq (m ++ (if l then [] else [last l a])) l.
Proof.
  induction l as [|b l IH]; intros a; [exists []; split; [reflexivity|constructor]|].
  eexists. split; [reflexivity|]. destruct l as [|c l]; [cbn; repeat constructor|].
  destruct (IH b) as (m & Hm & S). cbn [corner_poses] in Hm |- *. rewrite Hm. rewrite last_cons_eq.
  assert (E : last (c :: l) b = last (c :: l) a) by (rewrite !last_cons_eq; reflexivity).
  destruct (_ && _); cbn [app]; [apply ss_drop|apply ss_keep]; exact S.
Qed.
Lemma kinetic_from_R v : forall t, kinetic_from Rn t v = t + kinetic_from Rn 0 v.
Proof.
  induction v as [|a v IH]; intros t; [cbn; tR; lra|]. destruct v as [|b v]; [cbn; tR; lra|].
  change (kinetic_from Rn (t + sqdiff Rn (vx a) (vx b) + sqdiff Rn (vy a) (vy b) + sqdiff Rn (vz a) (vz b)) (b :: v) =
          t + kinetic_from Rn (0 + sqdiff Rn (vx a) (vx b) + sqdiff Rn (vy a) (vy b) + sqdiff Rn (vz a) (vz b)) (b :: v)).
  rewrite IH. rewrite (IH (0 + _ + _ + _)). tR. lra.
Qed.
(** same speed in each axis *)
Definition same_speeds (a b : vec3 Rn) : Prop := Rabs (vx a) = Rabs (vx b) /\ Rabs (vy a) = Rabs (vy b) /\ Rabs (vz a) = Rabs (vz b).
Lemma sqdiff_nonneg (a b : R) : 0 <= sqdiff Rn a b.
Proof. unfold sqdiff. rn. tR. apply Rabs_pos. Qed.
Lemma sqdiff_0 (a b : R) : sqdiff Rn a b = 0 <-> Rabs a = Rabs b.
Proof.
  unfold sqdiff. rn. tR. split; intros H.
  - destruct (Req_dec (b * b - a * a) 0) as [E|E]; [|exfalso; revert H; apply Rabs_no_R0; exact E]. apply Rsqr_eq_abs_0. unfold Rsqr. lra.
  - replace (b * b - a * a) with 0; [apply Rabs_R0|]. rewrite <- (Rabs_right (b * b)), <- (Rabs_right (a * a)) by nra. rewrite !Rabs_mult, H. ring.
Qed.
Lemma kinetic_R v : 0 <= kinetic_from Rn 0 v /\ (kinetic_from Rn 0 v = 0 <-> linked same_speeds v).
Proof.
  induction v as [|a v IH]; [cbn; split; [lra|tauto]|]. destruct v as [|b v]; [cbn; split; [lra|tauto]|].
  destruct IH as (IH1 & IH2).
  assert (E : kinetic_from Rn 0 (a :: b :: v) = sqdiff Rn (vx a) (vx b) + sqdiff Rn (vy a) (vy b) + sqdiff Rn (vz a) (vz b) + kinetic_from Rn 0 (b :: v)).
  { change (kinetic_from Rn (0 + sqdiff Rn (vx a) (vx b) + sqdiff Rn (vy a) (vy b) + sqdiff Rn (vz a) (vz b)) (b :: v) =
      sqdiff Rn (vx a) (vx b) + sqdiff Rn (vy a) (vy b) + sqdiff Rn (vz a) (vz b) + kinetic_from Rn 0 (b :: v)). rewrite kinetic_from_R. tR. lra. }
  pose proof (sqdiff_nonneg (vx a) (vx b)). pose proof (sqdiff_nonneg (vy a) (vy b)). pose proof (sqdiff_nonneg (vz a) (vz b)).
  split.
  - tR. rewrite E. lra.
  - change (linked same_speeds (a :: b :: v)) with (same_speeds a b /\ linked same_speeds (b :: v)). rewrite <- IH2. unfold same_speeds. rewrite <- !sqdiff_0. tR. rewrite E. split.
    + intros X. repeat split; lra.
    + intros ((X1 & X2 & X3) & X4). lra.
Qed.
