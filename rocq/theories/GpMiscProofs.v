(** Proofs about Bezier curves, priors, path messages and path simplification of the global planner. *)
From Coq Require Import ZArith Reals List Bool Lia Lra.
From Flocq Require Import Core.
From Verif Require Import Num CommonModel CommonSpec GpModel GpSearch GpPlan GpSpec GpPlanSpec GpProofs GpCellProofs.
Import ListNotations.
Local Open Scope R_scope.

(* ---------------------------------------------------------------- Bezier *)
Lemma bezier_R (a b c t : R) : quadraticBezier Rn a b c t = (1 - t) ^ 2 * a + 2 * ((1 - t) * t) * b + t ^ 2 * c.
Proof. unfold quadraticBezier. rn. tR. ring. Qed.
Lemma bezier_hull (a b c t lo hi : R) : 0 <= t <= 1 -> lo <= a <= hi -> lo <= b <= hi -> lo <= c <= hi ->
  lo <= quadraticBezier Rn a b c t <= hi.
Proof.
  intros Ht Ha Hb Hc. rewrite bezier_R.
  assert (W1 : 0 <= (1 - t) ^ 2) by nra. assert (W2 : 0 <= 2 * ((1 - t) * t)) by nra. assert (W3 : 0 <= t ^ 2) by nra.
  assert (E : (1 - t) ^ 2 + 2 * ((1 - t) * t) + t ^ 2 = 1) by ring.
  split.
  - replace lo with ((1 - t) ^ 2 * lo + 2 * ((1 - t) * t) * lo + t ^ 2 * lo) by (transitivity (((1 - t) ^ 2 + 2 * ((1 - t) * t) + t ^ 2) * lo); [ring|rewrite E; ring]).
    repeat apply Rplus_le_compat; apply Rmult_le_compat_l; lra.
  - replace hi with ((1 - t) ^ 2 * hi + 2 * ((1 - t) * t) * hi + t ^ 2 * hi) by (transitivity (((1 - t) ^ 2 + 2 * ((1 - t) * t) + t ^ 2) * hi); [ring|rewrite E; ring]).
    repeat apply Rplus_le_compat; apply Rmult_le_compat_l; lra.
Qed.
Lemma in_ints lo hi i : In i (ints lo hi) -> (lo <= i <= hi)%Z.
Proof. unfold ints. rewrite in_map_iff. intros (k & <- & H). apply in_seq in H. lia. Qed.
Lemma ints_length lo hi : length (ints lo hi) = Z.to_nat (hi - lo + 1).
Proof. unfold ints. rewrite map_length, seq_length. reflexivity. Qed.
Lemma ints_hd lo hi : (lo <= hi)%Z -> ints lo hi = lo :: ints (lo + 1) hi.
Proof.
  intros H. unfold ints. replace (Z.to_nat (hi - lo + 1)) with (S (Z.to_nat (hi - (lo + 1) + 1))) by lia.
  cbn [seq map]. f_equal; [lia|]. rewrite <- seq_shift, map_map. apply map_ext. intros. lia.
Qed.
Lemma ints_last lo hi d : (lo <= hi)%Z -> last (ints lo hi) d = hi.
Proof.
  intros H. unfold ints. replace (Z.to_nat (hi - lo + 1)) with (S (Z.to_nat (hi - lo))) by lia.
  rewrite seq_S, map_app. cbn [map]. rewrite last_last. lia.
Qed.

Lemma last_nth_map {A B} (f : A -> B) l d d' : l <> [] -> last (map f l) d' = f (last l d).
Proof. induction l as [|a [|b l] IH]; cbn in *; intros H; [congruence|reflexivity|]. apply IH. discriminate. Qed.
Lemma three_spec (p0 p1 p2 : vec3 Rn) n : (1 <= n)%Z ->
  length (threePointBezier Rn p0 p1 p2 n) = Z.to_nat (n + 1) /\
  hd p1 (threePointBezier Rn p0 p1 p2 n) = p0 /\ last (threePointBezier Rn p0 p1 p2 n) p1 = p2 /\
  (forall lo hi, in_box lo hi p0 -> in_box lo hi p1 -> in_box lo hi p2 -> forall q, In q (threePointBezier Rn p0 p1 p2 n) -> in_box lo hi q).
Proof.
  intros Hn. unfold threePointBezier. assert (Hr : 1 <= IZR n) by (apply IZR_le in Hn; exact Hn).
  split; [rewrite map_length, ints_length; f_equal; lia|]. split; [|split].
  - rewrite ints_hd by lia. cbn [map hd]. rewrite !bezier_R. rn. destruct p0 as [x y z]. cbn [vx vy vz]. tR.
    replace (0 / IZR n) with 0 by (field; lra). f_equal; ring.
  - rewrite (last_nth_map _ _ 0%Z) by (rewrite ints_hd by lia; discriminate). rewrite ints_last by lia. rewrite !bezier_R. rn.
    destruct p2 as [x y z]. cbn [vx vy vz]. tR. replace (IZR n / IZR n) with 1 by (field; lra). f_equal; ring.
  - intros lo hi A B C q Hq. apply in_map_iff in Hq. destruct Hq as (i & <- & Hi). apply in_ints in Hi.
    assert (Ht : 0 <= IZR i / IZR n <= 1).
    { destruct Hi as (I0 & I1). apply IZR_le in I0, I1. split.
      - apply Rmult_le_pos; [lra|]. left. apply Rinv_0_lt_compat. lra.
      - apply Rmult_le_reg_r with (IZR n); [lra|]. replace (IZR i / IZR n * IZR n) with (IZR i) by (field; lra). lra. }
    unfold in_box in *. cbn [vx vy vz]. rn. split; [|split]; (apply bezier_hull; [exact Ht|tauto|tauto|tauto]).
Qed.
Lemma middle_box lo hi p q : in_box lo hi p -> in_box lo hi q -> in_box lo hi (middlePoint Rn p q).
Proof.
  unfold in_box, middlePoint, interpolate, interp1, cst. cbn [vx vy vz]. rn. tR. intros (A1 & A2 & A3) (B1 & B2 & B3). lra.
Qed.
Lemma smooth_turns_box front lo hi l : (forall p, In p l -> in_box lo hi (gp_pos p)) ->
  forall q, In q (smooth_turns Rn front l) -> in_box lo hi (gp_pos q) /\ gp_yaw q = gp_yaw front.
Proof.
  induction l as [|a l IH]; [cbn; tauto|]. intros H q Hq. destruct l as [|b [|c l]]; [destruct Hq|destruct Hq|].
  cbn [smooth_turns] in Hq. apply in_app_iff in Hq. destruct Hq as [Hq|Hq].
  - apply in_map_iff in Hq. destruct Hq as (p & <- & Hp). cbn [gp_pos gp_yaw]. split; [|reflexivity].
    destruct (three_spec (middlePoint Rn (gp_pos a) (gp_pos b)) (gp_pos b) (middlePoint Rn (gp_pos b) (gp_pos c)) 10) as (_ & _ & _ & X); [lia|].
    apply (X lo hi); auto; try apply middle_box; apply H; cbn; tauto.
  - apply IH; [intros; apply H; right; auto|exact Hq].
Qed.
Lemma smoothPath_spec l d :
  hd d (smoothPath Rn l) = hd d l /\ last (smoothPath Rn l) d = last l d /\
  (forall lo hi, (forall p, In p l -> in_box lo hi (gp_pos p)) -> forall q, In q (smoothPath Rn l) -> in_box lo hi (gp_pos q)).
Proof.
  destruct l as [|a [|b [|c l]]]; try (split; [reflexivity|split; [reflexivity|auto]]).
  unfold smoothPath. split; [reflexivity|]. split.
  - rewrite app_comm_cons, last_last, !last_cons_eq. reflexivity.
  - intros lo hi H q [<-|Hq]; [apply H; left; auto|]. apply in_app_iff in Hq. destruct Hq as [Hq|[<-|[]]].
    + eapply smooth_turns_box; eauto.
    + apply H. rewrite last_cons_eq. clear. generalize (b :: c :: l). intros m. revert a. induction m as [|e m IH]; intros a; [left; reflexivity|].
      rewrite last_cons_eq. right. apply IH.
Qed.

(* ---------------------------------------------------------------- posterior, prior *)
Lemma posterior_R (p q : R) : posterior Rn p q = (p * q) / (p * q + (1 - p) * (1 - q) + / 10000).
Proof. unfold posterior, cst. rn. tR. f_equal. unfold Rdiv. rewrite Rmult_1_l. reflexivity. Qed.
Lemma posterior_range (p q : R) : 0 <= p <= 1 -> 0 <= q <= 1 -> 0 <= posterior Rn p q < 1.
Proof.
  intros Hp Hq. rewrite posterior_R. assert (0 <= p * q) by nra. assert (0 <= (1 - p) * (1 - q)) by nra.
  assert (D : 0 < p * q + (1 - p) * (1 - q) + / 10000) by lra. split.
  - apply Rmult_le_pos; [lra|]. left. apply Rinv_0_lt_compat. lra.
  - apply Rmult_lt_reg_r with (p * q + (1 - p) * (1 - q) + / 10000); [lra|].
    unfold Rdiv. rewrite Rmult_assoc, Rinv_l by lra. lra.
Qed.
Lemma frac_mono (a b c d : R) : 0 <= a -> 0 <= c -> 0 < b -> 0 < d -> a * d <= c * b -> a / (a + b) <= c / (c + d).
Proof.
  intros. apply Rmult_le_reg_r with (a + b); [lra|]. apply Rmult_le_reg_r with (c + d); [lra|].
  replace (a / (a + b) * (a + b) * (c + d)) with (a * (c + d)) by (field; lra).
  replace (c / (c + d) * (a + b) * (c + d)) with (c * (a + b)) by (field; lra). lra.
Qed.
Lemma posterior_mono (p q p' q' : R) : 0 <= p -> p <= p' -> p' <= 1 -> 0 <= q -> q <= q' -> q' <= 1 ->
  posterior Rn p q <= posterior Rn p' q'.
Proof.
  intros. rewrite !posterior_R, !Rplus_assoc.
  assert (0 <= p * q) by nra. assert (0 <= p' * q') by nra.
  assert (0 <= (1 - p) * (1 - q)) by nra. assert (0 <= (1 - p') * (1 - q')) by nra.
  apply frac_mono; try lra.
  assert (p * q <= p' * q') by nra. assert ((1 - p') * (1 - q') <= (1 - p) * (1 - q)) by nra. nra.
Qed.

(* ---------------------------------------------------------------- path messages *)
Section Msg.
Context (N : num) (G : trig N) (sc : N).
Lemma path_poses_spec p : forall y, map gp_pos (path_poses N G sc y p) = map (centre N sc) p.
Proof using Type.
  induction p as [|c [|d p] IH]; intros y; [reflexivity|reflexivity|]. 
  change (path_poses N G sc y (c :: d :: p)) with (createPoseMsg N sc c (cellYaw N G c d y) :: path_poses N G sc (cellYaw N G c d y) (d :: p)).
  cbn [map]. rewrite IH. reflexivity.
Qed.
Lemma path_poses_yaw p : forall y i c d (z : gpose N),
  nth_error p i = Some c -> nth_error p (S i) = Some d -> (cx c <> cx d \/ cy c <> cy d)%Z ->
  match nth_error (path_poses N G sc y p) i with Some q => gp_yaw q = t_atan2 G (ofZ N (cy d - cy c)) (ofZ N (cx d - cx c)) | None => False end.
Proof using Type.
  induction p as [|a [|b p] IH]; intros y i c d z Hc Hd NE.
  - destruct i; discriminate.
  - destruct i; discriminate.
  - change (path_poses N G sc y (a :: b :: p)) with (createPoseMsg N sc a (cellYaw N G a b y) :: path_poses N G sc (cellYaw N G a b y) (b :: p)).
    destruct i as [|i].
    + cbn in Hc, Hd. injection Hc as ->. injection Hd as ->. cbn [nth_error]. unfold createPoseMsg. cbn [gp_yaw]. unfold cellYaw.
      destruct (Z.eqb_spec (cx d - cx c) 0), (Z.eqb_spec (cy d - cy c) 0); try reflexivity. lia.
    + cbn [nth_error] in Hc, Hd |- *. eapply IH; eauto.
Qed.
End Msg.

(* ---------------------------------------------------------------- simplification *)
Section Simp.
Context (N : num) (edgeCost : gnode -> gnode -> option N).
Lemma subseq_refl {A} (l : list A) : subseq l l.
Proof using Type. induction l; constructor; auto. Qed.
Lemma subseq_trans {A} (a b c : list A) : subseq a b -> subseq b c -> subseq a c.
Proof using Type.
  intros H K. revert a H. induction K as [m|x l m K IH|x l m K IH]; intros a H.
  - inversion H. constructor.
  - inversion H; subst; [constructor|constructor; apply IH; auto|apply ss_drop; apply IH; auto].
  - apply ss_drop. apply IH. exact H.
Qed.
Lemma subseq_in {A} (a b : list A) x : subseq a b -> In x a -> In x b.
Proof using Type. induction 1; cbn; [tauto| |]; intuition. Qed.
Lemma subseq_length {A} (a b : list A) : subseq a b -> (length a <= length b)%nat.
Proof using Type. induction 1; cbn; lia. Qed.
Lemma loop_subseq m : forall n l, (length l <= n)%nat -> forall a b, subseq (simplify_loop N edgeCost m a b l) l /\
  (forall z, last (simplify_loop N edgeCost m a b l) z = last l z).
Proof using Type.
  induction n as [|n IH]; intros l Hl a b.
  { destruct l; [|cbn in Hl; lia]. split; [constructor|reflexivity]. }
  destruct l as [|c [|d l]]; [split; [constructor|reflexivity]|split; [apply subseq_refl|reflexivity]|].
  cbn [simplify_loop]. destruct (IH l ltac:(cbn in Hl; lia) c d) as (S1 & L1).
  destruct (keep_middle N edgeCost m a b c d); cbn [app]; split; try (intros z; rewrite !last_cons_eq; apply L1).
  - constructor. constructor. exact S1.
  - apply ss_drop. constructor. exact S1.
Qed.
Lemma once_spec (m : N) (p : list gcell) : subseq (simplify_once N edgeCost m p) p /\ (forall z, last (simplify_once N edgeCost m p) z = last p z) /\ firstn 2 (simplify_once N edgeCost m p) = firstn 2 p.
Proof using Type.
  destruct p as [|a [|b l]]; try (split; [apply subseq_refl|split; reflexivity]).
  cbn [simplify_once]. destruct (loop_subseq m (length l) l (le_n _) a b) as (S1 & L1).
  split; [constructor; constructor; exact S1|]. split; [intros z; rewrite !last_cons_eq; apply L1|reflexivity].
Qed.
Lemma iter_spec f (m mi : N) : forall j (p : list gcell), subseq (simplify_iter N edgeCost f m mi j p) p /\ (forall z, last (simplify_iter N edgeCost f m mi j p) z = last p z) /\ firstn 2 (simplify_iter N edgeCost f m mi j p) = firstn 2 p.
Proof using Type.
  induction f as [|f IH]; intros j p; cbn [simplify_iter]; [split; [apply subseq_refl|split; reflexivity]|].
  destruct (ltb N (ofZ N j) mi); [|split; [apply subseq_refl|split; reflexivity]].
  destruct (Nat.eqb _ _); [split; [apply subseq_refl|split; reflexivity]|].
  destruct (IH (j + 1)%Z (simplify_once N edgeCost m p)) as (A & B & D). destruct (once_spec m p) as (A' & B' & D').
  split; [eapply subseq_trans; eauto|]. split; [intros z; rewrite B; apply B'|congruence].
Qed.
(** the bound [length p] on the number of passes is never reached: more fuel gives the same result *)
Lemma iter_fuel m mi f : forall j p, (length p <= f)%nat -> forall k,
  simplify_iter N edgeCost (f + k) m mi j p = simplify_iter N edgeCost f m mi j p.
Proof using Type.
  induction f as [|f IH]; intros j p Hp k.
  - destruct p; [|cbn in Hp; lia]. destruct k; [reflexivity|]. cbn. destruct (ltb N (ofZ N j) mi); reflexivity.
  - cbn [simplify_iter Nat.add]. destruct (ltb N (ofZ N j) mi); [|reflexivity].
    destruct (Nat.eqb_spec (length (simplify_once N edgeCost m p)) (length p)); [reflexivity|].
    apply IH. pose proof (subseq_length _ _ (proj1 (once_spec m p))). lia.
Qed.
End Simp.
