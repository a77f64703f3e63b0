(** Proofs about the display of the local planner. *)
From Coq Require Import ZArith Reals List Bool Lia Lra.
From Flocq Require Import Core.
From Verif Require Import Num Mat CommonModel CommonSpec CommonProofs CommonProofs2 HistModel PfModel PfMisc StarModel StarProofs LpModel LvModel.
Import ListNotations.

(* ---------------------------------------------------------------- images *)
Lemma paint_some l i : (0 <= i < Z.of_nat (length l))%Z ->
  exists l', paint (Some l) i = Some l' /\ Z.of_nat (length l') = Z.of_nat (length l) /\
    forall k, nth_error l' (Z.to_nat k) = if (Z.to_nat k =? Z.to_nat i)%nat then Some 255%Z else nth_error l (Z.to_nat k).
Proof.
  intros H. unfold paint, obind. destruct (Z.leb_spec 0 i); [|lia]. destruct (Z.ltb_spec i (Z.of_nat (length l))); [|lia]. cbn [andb].
  eexists. split; [reflexivity|]. split; [now rewrite length_set_nth|]. intros k. rewrite nth_set_nth.
  destruct (Z.to_nat k =? Z.to_nat i)%nat; [|reflexivity]. destruct (Nat.ltb_spec (Z.to_nat i) (length l)); [reflexivity|lia].
Qed.
Lemma index_range e z c : (0 <= e < 30)%Z -> (0 <= z < 60)%Z -> (0 <= c < 3)%Z -> (0 <= colorImageIndex e z c < 5400)%Z.
Proof. unfold colorImageIndex, GRID_LENGTH_E, GRID_LENGTH_Z. lia. Qed.
Lemma same_index e z c e' z' c' : (0 <= e < 30)%Z -> (0 <= z < 60)%Z -> (0 <= c < 3)%Z -> (0 <= e' < 30)%Z -> (0 <= z' < 60)%Z -> (0 <= c' < 3)%Z ->
  (Z.to_nat (colorImageIndex e z c) =? Z.to_nat (colorImageIndex e' z' c'))%nat = ((e =? e') && (z =? z') && (c =? c'))%Z.
Proof.
  intros H1 H2 H3 H4 H5 H6. pose proof (index_range e z c H1 H2 H3). pose proof (index_range e' z' c' H4 H5 H6).
  destruct (Nat.eqb_spec (Z.to_nat (colorImageIndex e z c)) (Z.to_nat (colorImageIndex e' z' c'))) as [E|E].
  - destruct (colorIndex_inj e z c e' z' c') as (-> & -> & ->); [lia|lia|lia|lia|lia|]. now rewrite !Z.eqb_refl.
  - destruct (Z.eqb_spec e e'); [|reflexivity]. destruct (Z.eqb_spec z z'); [|reflexivity]. destruct (Z.eqb_spec c c'); [|reflexivity].
    subst. congruence.
Qed.

Section Gen.
Context (N : num) (G : trig N) (cast : N -> Z).
Lemma index6_range p x y : polarToHistogramIndex N cast p ALPHA_RES = (x, y) -> (0 <= x < 60)%Z /\ (0 <= y < 30)%Z.
Proof. intros E. apply polarToHistogramIndex_range in E; [exact E|cbv; intuition congruence]. Qed.

Lemma cost_display img wp awp pos q : Z.of_nat (length img) = 5400%Z ->
  let '(hz, he) := headingIndex N G cast q in
  let '(wz, we) := waypointIndex N G cast wp pos in
  let '(az, ae) := waypointIndex N G cast awp pos in
  (0 <= hz < 60)%Z /\ (0 <= he < 30)%Z /\ (0 <= wz < 60)%Z /\ (0 <= we < 30)%Z /\ (0 <= az < 60)%Z /\ (0 <= ae < 30)%Z /\
  exists out, costDisplay N G cast img wp awp pos q = Some (Img 30 60 180 out) /\ Z.of_nat (length out) = 5400%Z /\
  forall e z c, (0 <= e < 30)%Z -> (0 <= z < 60)%Z -> (0 <= c < 3)%Z ->
  nth_error out (Z.to_nat (colorImageIndex e z c)) =
    if ((e =? ae) && (z =? az) && (0 <? c) || (e =? we) && (z =? wz) || (e =? he) && (z =? hz) && (c =? 2))%Z
    then Some 255%Z else nth_error img (Z.to_nat (colorImageIndex e z c)).
Proof.
  intros L. unfold costDisplay. destruct (headingIndex N G cast q) as [hz he] eqn:Eh. destruct (waypointIndex N G cast wp pos) as [wz we] eqn:Ew.
  destruct (waypointIndex N G cast awp pos) as [az ae] eqn:Ea.
  unfold headingIndex in Eh. unfold waypointIndex in Ew, Ea. apply index6_range in Eh, Ew, Ea.
  destruct Eh as (H1 & H2), Ew as (H3 & H4), Ea as (H5 & H6).
  do 6 (split; [assumption|]). rewrite L. change (5400 =? 3 * GRID_LENGTH_E * GRID_LENGTH_Z)%Z with true. cbv iota zeta.
  destruct (paint_some img (colorImageIndex he hz 2)) as (l1 & -> & L1 & P1); [rewrite L; apply index_range; lia|]. rewrite L in L1.
  destruct (paint_some l1 (colorImageIndex we wz 0)) as (l2 & -> & L2 & P2); [rewrite L1; apply index_range; lia|]. rewrite L1 in L2.
  destruct (paint_some l2 (colorImageIndex we wz 1)) as (l3 & -> & L3 & P3); [rewrite L2; apply index_range; lia|]. rewrite L2 in L3.
  destruct (paint_some l3 (colorImageIndex we wz 2)) as (l4 & -> & L4 & P4); [rewrite L3; apply index_range; lia|]. rewrite L3 in L4.
  destruct (paint_some l4 (colorImageIndex ae az 1)) as (l5 & -> & L5 & P5); [rewrite L4; apply index_range; lia|]. rewrite L4 in L5.
  destruct (paint_some l5 (colorImageIndex ae az 2)) as (l6 & -> & L6 & P6); [rewrite L5; apply index_range; lia|]. rewrite L5 in L6.
  exists l6. split; [reflexivity|]. split; [exact L6|]. intros e z c He Hz Hc. rewrite P6, P5, P4, P3, P2, P1. rewrite !same_index by lia.
  assert (C : c = 0%Z \/ c = 1%Z \/ c = 2%Z) by lia.
  destruct (e =? ae)%Z, (z =? az)%Z, (e =? we)%Z, (z =? wz)%Z, (e =? he)%Z, (z =? hz)%Z; destruct C as [->|[->| ->]]; reflexivity.
Qed.
Lemma cost_display_other img wp awp pos q : Z.of_nat (length img) <> 5400%Z -> costDisplay N G cast img wp awp pos q = Some (Img 30 60 180 img).
Proof.
  intros L. unfold costDisplay. destruct (headingIndex N G cast q), (waypointIndex N G cast wp pos), (waypointIndex N G cast awp pos).
  change (3 * GRID_LENGTH_E * GRID_LENGTH_Z)%Z with 5400%Z. destruct (Z.eqb_spec (Z.of_nat (length img)) 5400); [lia|]. reflexivity.
Qed.

(* ---------------------------------------------------------------- tree *)
Definition tree_ok (tree : list (tnode N)) (closed : list nat) : Prop :=
  forall i, In i closed -> exists n o, nth_error tree i = Some n /\ nth_error tree (n_origin n) = Some o /\
    (i = 0%nat -> n_origin n = 0%nat) /\ ((0 < i)%nat -> (n_origin n < i)%nat /\ In (n_origin n) closed).
Lemma tree_lines_acc (tree : list (tnode N)) : forall closed (acc : list (vec3 N)), (forall i, In i closed -> exists n o, nth_error tree i = Some n /\ nth_error tree (n_origin n) = Some o) ->
  exists pts, foldM (fun (acc : list (vec3 N)) i => obind (nth_error tree i) (fun n => obind (nth_error tree (n_origin n)) (fun o => Some (acc ++ [n_pos n; n_pos o])))) acc closed = Some (acc ++ pts) /\
    length pts = (2 * length closed)%nat /\
    forall k i, nth_error closed k = Some i -> exists n o, nth_error tree i = Some n /\ nth_error tree (n_origin n) = Some o /\
      nth_error pts (2 * k) = Some (n_pos n) /\ nth_error pts (2 * k + 1) = Some (n_pos o).
Proof.
  induction closed as [|i closed IH]; intros acc H.
  - exists []. rewrite app_nil_r. split; [reflexivity|]. split; [reflexivity|]. intros [|k] i E; discriminate.
  - destruct (H i (or_introl eq_refl)) as (n & o & En & Eo). cbn [foldM]. rewrite En. cbn [obind]. rewrite Eo. cbn [obind].
    destruct (IH (acc ++ [n_pos n; n_pos o])) as (pts & -> & Lp & P); [intros j Hj; apply H; now right|].
    exists (n_pos n :: n_pos o :: pts). rewrite <- app_assoc. split; [reflexivity|]. split; [cbn [length]; lia|].
    intros [|k] j Ej; cbn in Ej.
    + injection Ej as <-. exists n, o. auto.
    + destruct (P k j Ej) as (n' & o' & Q1 & Q2 & Q3 & Q4). exists n', o'. split; [exact Q1|]. split; [exact Q2|].
      replace (2 * S k)%nat with (S (S (2 * k))) by lia. split; [exact Q3|]. exact Q4.
Qed.
Lemma path_lines : forall path, length (pathLines N path) = (2 * (length path - 1))%nat /\
  forall k p q, nth_error path k = Some p -> nth_error path (S k) = Some q ->
    nth_error (pathLines N path) (2 * k) = Some p /\ nth_error (pathLines N path) (2 * k + 1) = Some q.
Proof.
  induction path as [|p [|q r] IH].
  - split; [reflexivity|]. intros [|k] x y E; discriminate.
  - split; [reflexivity|]. intros [|k] x y E E'; [discriminate|]. destruct k; discriminate.
  - destruct IH as (L & P). change (pathLines N (p :: q :: r)) with (p :: q :: pathLines N (q :: r)). split; [cbn [length] in *; lia|].
    intros [|k] x y E E'; cbn in E, E'; [injection E as <-; injection E' as <-; split; reflexivity|].
    destruct (P k x y E E') as (Q1 & Q2). replace (2 * S k)%nat with (S (S (2 * k))) by lia. split; [exact Q1|exact Q2].
Qed.
Lemma build_tree_ok huge cands P r : (0 <= children_per_node P)%Z -> buildLookAheadTree N G huge cands P = Some r -> tree_ok (r_tree r) (r_closed r).
Proof.
  intros Hc E. destruct (build_inv N G huge cands P r Hc E) as (_ & I & _). intros i Hi.
  pose proof (ti_bound _ _ _ _ _ _ _ _ _ I i Hi) as Hl. destruct (nth_error (r_tree r) i) as [n|] eqn:En; [|apply nth_error_None in En; lia].
  exists n. destruct i as [|i].
  - pose proof (ti_rooto _ _ _ _ _ _ _ _ _ I n En) as Ho. exists n. rewrite Ho. split; [reflexivity|]. split; [exact En|]. split; [reflexivity|lia].
  - destruct (ti_par _ _ _ _ _ _ _ _ _ I (S i) n ltac:(lia) En) as (H1 & H2 & o & H3 & _). exists o. split; [reflexivity|]. split; [exact H3|].
    split; [discriminate|]. intros _. split; [exact H1|exact H2].
Qed.
End Gen.

(* ---------------------------------------------------------------- angles *)
Local Open Scope R_scope.
Lemma index_of_direction (a b d : R) (z e : Z) : (0 <= z < 60)%Z -> (0 <= e < 30)%Z ->
  IZR (6 * z - 180) <= a < IZR (6 * z - 174) -> IZR (6 * e - 90) <= b < IZR (6 * e - 84) ->
  polarToHistogramIndex Rn (Ztrunc : Rn -> Z) (Pol (b : Rn) (a : Rn) (d : Rn)) ALPHA_RES = (z, e).
Proof.
  intros Hz He Ha Hb.
  assert (Za : (-180 <= 6 * z - 180 /\ 6 * z - 174 <= 180)%Z) by lia. assert (Zb : (-90 <= 6 * e - 90 /\ 6 * e - 84 <= 90)%Z) by lia.
  destruct Za as (A1 & A2), Zb as (B1 & B2). apply IZR_le in A1, A2, B1, B2.
  assert (W : wrapPolar Rn (Pol (b : Rn) (a : Rn) (d : Rn)) = Pol (b : Rn) (a : Rn) (d : Rn)).
  { unfold wrapPolar. cbn [pe pz pr]. rewrite !wrap180_id by lra. rn.
    destruct (R_ltb_spec 90 b); [lra|]. destruct (R_ltb_spec b (-90)); [lra|]. reflexivity. }
  unfold polarToHistogramIndex. rewrite W. cbn [pe pz]. change ALPHA_RES with 6%Z. rn. unfold Rfloor. rewrite !Ztrunc_IZR'.
  assert (F1 : Zfloor (a / 6 + 180 / 6) = z).
  { apply Zfloor_imp. rewrite plus_IZR, !minus_IZR, mult_IZR in *. lra. }
  assert (F2 : Zfloor (b / 6 + 90 / 6) = e).
  { apply Zfloor_imp. rewrite plus_IZR, !minus_IZR, mult_IZR in *. lra. }
  tR. rewrite F1, F2. unfold clampIndex. change (360 / 6)%Z with 60%Z. change (180 / 6)%Z with 30%Z.
  destruct (Z.leb_spec 60 z); [lia|]. destruct (Z.ltb_spec z 0); [lia|]. destruct (Z.leb_spec 30 e); [lia|]. destruct (Z.ltb_spec e 0); [lia|]. reflexivity.
Qed.
