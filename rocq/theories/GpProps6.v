(** Properties C94 (continued) and C96: the cells looked at when a move is judged, and how turns are counted. *)
From Coq Require Import ZArith Reals List Bool Lia Lra.
From Flocq Require Import Core.
From Verif Require Import Num Num64 CommonModel CommonSpec CommonProofs GpModel GpSearch GpSpec GpPlan GpPlanSpec GpProofs GpCellProofs GpCross GpProps1.
Import ListNotations.
Local Open Scope R_scope.

(* ---------------------------------------------------------------------------------------------- C94 *)
(** C94. Every cell looked at contains a point that is, at the same height, 10 cm in x and 10 cm in y off a point of the straight way of the move. *)
Theorem C94_cells_near_way :
  forall (sc : R) n d, 0 < sc -> In d (getCells Rn Rfl sc n) ->
  exists t q, 0 < t <= 1 /\ in_cube sc d q /\
    let w := on_way sc (n_par n) (n_cell n) t in Rabs (vx q - vx w) = / 10 /\ Rabs (vy q - vy w) = / 10 /\ vz q = vz w.
Proof. exact cells_near. Qed.
Print Assumptions C94_cells_near_way.

(** ... and every cell that contains a point of the way is looked at, except the one the move starts from, if the move is level, or vertical, or along one
    of the two horizontal axes and not steeper than 45 degrees. *)
Theorem C94_plain_moves_complete :
  forall (sc t : R) n d, / 5 < sc -> plain_move (n_par n) (n_cell n) -> 0 <= t <= 1 ->
  in_cube sc d (on_way sc (n_par n) (n_cell n) t) -> d = n_par n \/ In d (getCells Rn Rfl sc n).
Proof. exact cells_complete. Qed.
Print Assumptions C94_plain_moves_complete.
Example C94_plain_example : plain_move (C3 0 0 3) (C3 5 2 3) /\ in_cube 1 (C3 1 0 3) (on_way 1 (C3 0 0 3) (C3 5 2 3) (/ 5)) /\ C3 1 0 3 <> C3 0 0 3.
Proof. split; [left; reflexivity|]. split; [|discriminate]. unfold in_cube, on_way. cbn. lra. Qed.

(** Refuted for steep moves: descending from cell (0,0,3) to (2,0,0) the way passes through cell (0,0,2), which is not looked at: an obstacle there goes
    unnoticed. The search offers this move after a move from (-2,0,5). *)
Theorem C94_steep_move_refuted :
  (exists t, 0 <= t <= 1 /\ in_cube 1 (C3 0 0 2) (on_way 1 (C3 0 0 3) (C3 2 0 0) t)) /\
  ~ In (C3 0 0 2) (getCells Rn Rfl (1 : R) (Nd KSpeed (C3 2 0 0) (C3 0 0 3))) /\
  ~ In (C3 0 0 2) (getCells F64 f64_fl (g64 1 1) (Nd KSpeed (C3 2 0 0) (C3 0 0 3))) /\
  existsb (fun n => ceq (n_cell n) (C3 2 0 0) && ceq (n_par n) (C3 0 0 3)) (getNeighbors F64 (g64 1 1) (g64 5 1) (Nd KSpeed (C3 0 0 3) (C3 (-2) 0 5))) = true.
Proof.
  split; [|split; [|split; [|vm_compute; reflexivity]]].
  - exists (/ 5). split; [lra|]. unfold in_cube, on_way. cbn. lra.
  - intros H. apply getCells_In in H; [|lra]. destruct H as (i & Hi & Hx & _ & Hz). cbn in Hi. unfold half, span in Hx, Hz. cbn in Hx, Hz.
    assert (Hi' : (i = 1 \/ 2 <= i)%Z) by lia. destruct Hi' as [-> |Hi'].
    + assert (F : Zfloor (3 + / 2 + -3 * 1 / 6) = 3%Z) by (apply Zfloor_imp; cbn; lra). rewrite F in Hz. discriminate.
    + apply IZR_le in Hi'.
      assert (F : forall x, 1 <= x -> 0%Z = Zfloor x -> False).
      { intros x X Y. pose proof (Zfloor_ub x). rewrite <- Y in H. lra. }
      destruct Hx as [Hx|Hx]; (apply F in Hx; [exact Hx|lra]).
  - intros H. assert (E : existsb (ceq (C3 0 0 2)) (getCells F64 f64_fl (g64 1 1) (Nd KSpeed (C3 2 0 0) (C3 0 0 3))) = false) by (vm_compute; reflexivity).
    assert (E2 : existsb (ceq (C3 0 0 2)) (getCells F64 f64_fl (g64 1 1) (Nd KSpeed (C3 2 0 0) (C3 0 0 3))) = true).
    { apply existsb_exists. exists (C3 0 0 2). split; [exact H|apply ceq_spec; reflexivity]. }
    rewrite E in E2. discriminate.
Qed.
Print Assumptions C94_steep_move_refuted.

(* ---------------------------------------------------------------------------------------------- C96 *)
(** C96. The penalty for turning between two moves that both go sideways is their angle in eighths of a circle, between 0 and 4, plus one half if exactly
    one of them changes height; unless the first has no y part while the second has no x part. *)
Definition xmove (n : gnode) : R := IZR (cx (n_cell n) - cx (n_par n)).
Definition ymove (n : gnode) : R := IZR (cy (n_cell n) - cy (n_par n)).
Definition sideways (n : gnode) : Prop := xmove n <> 0 \/ ymove n <> 0.
Definition changes_height (n : gnode) : bool := negb (cz (n_cell n) =? cz (n_par n))%Z.
Definition level_change (u v : gnode) : R := if xorb (changes_height u) (changes_height v) then / 2 else 0.
Definition hlen (n : gnode) : R := sqrt (xmove n * xmove n + ymove n * ymove n).

Lemma angleToRange_R (a : R) : exists k : Z, angleToRange Rn a = a - 2 * PI * IZR k /\ - PI <= angleToRange Rn a <= PI.
Proof.
  pose proof PI_RGT_0 as HP. unfold angleToRange. rn. tR. unfold Rfloor. set (q := (a + PI) / (2 * PI)). exists (Zfloor q).
  pose proof (Zfloor_lb q) as L. pose proof (Zfloor_ub q) as U.
  assert (Eq : q * (2 * PI) = a + PI) by (unfold q; field; lra).
  assert (E1 : IZR (Zfloor q) * (2 * PI) <= a + PI) by (rewrite <- Eq; apply Rmult_le_compat_r; lra).
  assert (E2 : a + PI < (IZR (Zfloor q) + 1) * (2 * PI)) by (rewrite <- Eq; apply Rmult_lt_compat_r; lra).
  set (z := IZR (Zfloor q)) in *. split; [ring|]. split; nra.
Qed.
Lemma cos_2kPI x k : cos (x - 2 * PI * IZR k) = cos x.
Proof.
  assert (P : forall (n : nat) y, cos (y + 2 * INR n * PI) = cos y) by (intros; apply cos_period).
  destruct (Z_le_gt_dec 0 k) as [H|H].
  - rewrite <- (P (Z.to_nat k) (x - 2 * PI * IZR k)). f_equal. rewrite INR_IZR_INZ, Z2Nat.id by lia. ring.
  - rewrite <- (P (Z.to_nat (- k)) x). f_equal. rewrite INR_IZR_INZ, Z2Nat.id by lia. rewrite opp_IZR. ring.
Qed.
Theorem C96_turns :
  forall u v, n_kind u <> KNoSmooth -> sideways u -> sideways v -> ~ (ymove u = 0 /\ xmove v = 0) ->
  exists k : R, getRotation Rn Rtrig u v = level_change u v + k /\ 0 <= k <= 4 /\
    hlen u * hlen v * cos (k * (PI / 4)) = xmove u * xmove v + ymove u * ymove v.
Proof.
  intros u v Hk Hu Hv Hg. pose proof PI_RGT_0 as HP.
  exists (getXYRotation Rn Rtrig u v). split.
  { unfold getRotation, level_change, changes_height.
    assert (Z0 : forall a b, (a - b =? 0)%Z = (a =? b)%Z). { intros a b. destruct (Z.eqb_spec (a - b) 0), (Z.eqb_spec a b); try reflexivity; lia. }
    rewrite !Z0. destruct (n_kind u); try tauto; destruct (_ =? _)%Z, (_ =? _)%Z; cbn [xorb negb]; rewrite ?cst_Rn; rn; tR; lra. }
  unfold sideways, xmove, ymove in Hu, Hv, Hg.
  unfold getXYRotation, csub. cbn [cx cy].
  set (ux := (cx (n_cell u) - cx (n_par u))%Z) in *. set (uy := (cy (n_cell u) - cy (n_par u))%Z) in *.
  set (wx := (cx (n_cell v) - cx (n_par v))%Z) in *. set (wy := (cy (n_cell v) - cy (n_par v))%Z) in *.
  assert (E : ((ux =? 0) && (uy =? 0) || (wx =? 0) && (uy =? 0))%Z = false).
  { destruct (Z.eqb_spec ux 0) as [A|A], (Z.eqb_spec uy 0) as [B|B], (Z.eqb_spec wx 0) as [C|C]; cbn; try reflexivity; exfalso;
      rewrite ?A, ?B, ?C in *; tauto. }
  rewrite E. unfold cangle. cbn [cx cy t_atan2 Rtrig]. rn. tR.
  set (au := Ratan2 (IZR uy) (IZR ux)). set (av := Ratan2 (IZR wy) (IZR wx)).
  destruct (angleToRange_R (av - au)) as (z & Z1 & Z2). set (w := angleToRange Rn (av - au)) in *.
  assert (Aw : 0 <= Rabs w <= PI) by (split; [apply Rabs_pos|apply Rabs_le; lra]).
  assert (Ek : Rabs w / (PI / 4) * (PI / 4) = Rabs w) by (field; lra).
  split.
  { split; [apply Rmult_le_reg_r with (PI / 4); [lra|rewrite Ek; lra]|apply Rmult_le_reg_r with (PI / 4); [lra|rewrite Ek; lra]]. }
  rewrite Ek.
  assert (CA : cos (Rabs w) = cos w) by (unfold Rabs; destruct (Rcase_abs w); [apply cos_neg|reflexivity]).
  rewrite CA, Z1, cos_2kPI, cos_minus.
  destruct (Ratan2_spec (IZR ux) (IZR uy) Hu) as (U1 & U2). destruct (Ratan2_spec (IZR wx) (IZR wy) Hv) as (V1 & V2).
  fold au in U1, U2. fold av in V1, V2. rewrite U1, U2, V1, V2.
  unfold hlen, xmove, ymove. fold ux uy wx wy.
  assert (Q : forall a b : R, a <> 0 \/ b <> 0 -> 0 < sqrt (a * a + b * b)).
  { intros a b [H|H]; apply sqrt_lt_R0; pose proof (Rsqr_pos_lt _ H); unfold Rsqr in *; nra. }
  pose proof (Q _ _ Hu) as Q1. pose proof (Q _ _ Hv) as Q2.
  field. lra.
Qed.
Print Assumptions C96_turns.
Definition mv (x y z : Z) : gnode := Nd KNode (C3 x y z) (C3 0 0 0).
Example C96_example : n_kind (mv 0 1 0) <> KNoSmooth /\ sideways (mv 0 1 0) /\ sideways (mv 1 0 0) /\ ~ (ymove (mv 0 1 0) = 0 /\ xmove (mv 1 0 0) = 0).
Proof. unfold sideways, xmove, ymove. cbn. repeat split; try discriminate; lra. Qed.

(** Refuted: a quarter turn from flying along x to flying along y counts as no turn, although the quarter turn back counts two; and climbing straight up
    counts two turns more after flying along y than after flying along x. *)
Theorem C96_quarter_turn_refuted :
  getRotation Rn Rtrig (mv 1 0 0) (mv 0 1 0) = 0 /\ getRotation Rn Rtrig (mv 0 1 0) (mv 1 0 0) = 2 /\
  getRotation Rn Rtrig (mv 1 0 0) (mv 0 0 1) = / 2 /\ getRotation Rn Rtrig (mv 0 1 0) (mv 0 0 1) = 2 + / 2.
Proof.
  pose proof PI_RGT_0 as HP.
  assert (A : Rabs (angleToRange Rn (Ratan2 0 0 - Ratan2 1 0)) = PI / 2 /\ Rabs (angleToRange Rn (Ratan2 0 1 - Ratan2 1 0)) = PI / 2).
  { assert (E : angleToRange Rn (0 - PI / 2) = - (PI / 2)).
    { destruct (angleToRange_R (0 - PI / 2)) as (k & K1 & K2). rewrite K1 in K2 |- *.
      assert (IZR k < IZR 1) by nra. assert (IZR (-1) < IZR k) by nra. apply lt_IZR in H, H0. replace k with 0%Z by lia. tR. lra. }
    assert (E1 : Ratan2 0 0 = 0). { unfold Ratan2. destruct (Rlt_dec 0 0); [lra|reflexivity]. }
    assert (E2 : Ratan2 1 0 = PI / 2). { unfold Ratan2. destruct (Rlt_dec 0 0); [lra|]. destruct (Rlt_dec 0 1); [reflexivity|lra]. }
    assert (E3 : Ratan2 0 1 = 0). { unfold Ratan2. destruct (Rlt_dec 0 1); [|lra]. unfold Rdiv. rewrite Rmult_0_l. apply atan_0. }
    rewrite E1, E2, E3, E, Rabs_Ropp, Rabs_pos_eq by lra. auto. }
  destruct A as [A1 A2].
  assert (S : forall a b : R, a / b = a / b) by reflexivity. clear S.
  unfold getRotation, getXYRotation, csub, mv, cangle. cbn [n_kind n_cell n_par cx cy cz Z.sub Z.add Z.opp Z.eqb Pos.eqb andb orb xorb t_atan2 Rtrig]. rewrite ?cst_Rn. rn. tR.
  rewrite A1, A2. split; [lra|]. split; [field; lra|]. split; [lra|field; lra].
Qed.
Print Assumptions C96_quarter_turn_refuted.
