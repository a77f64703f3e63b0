(** Proofs about cells and nodes of the global planner. *)
From Coq Require Import ZArith Reals List Bool Lia Lra.
From Flocq Require Import Core.
From Verif Require Import Num CommonModel CommonSpec GpModel GpSearch GpSpec GpProofs.
Import ListNotations.
Local Open Scope R_scope.

Lemma pos1_R (sc : R) i : pos1 Rn sc i = sc * (IZR i + / 2).
Proof. unfold pos1, cst. rn. tR. f_equal. lra. Qed.

Lemma floor_cell (sc x : R) : 0 < sc ->
  pos1 Rn sc (Rfl (x / sc)) - sc / 2 <= x < pos1 Rn sc (Rfl (x / sc)) + sc / 2.
Proof.
  intros Hs. rewrite pos1_R. unfold Rfl.
  pose proof (Zfloor_lb (x / sc)) as A. pose proof (Zfloor_ub (x / sc)) as B.
  assert (E : x = sc * (x / sc)) by (field; lra).
  split.
  - apply Rmult_le_compat_l with (r := sc) in A; [|lra]. rewrite <- E in A. lra.
  - apply Rmult_lt_compat_l with (r := sc) in B; [|lra]. rewrite <- E in B. lra.
Qed.
Lemma floor_cell_unique (sc x : R) i : 0 < sc ->
  pos1 Rn sc i - sc / 2 <= x < pos1 Rn sc i + sc / 2 -> Rfl (x / sc) = i.
Proof.
  intros Hs. rewrite pos1_R. intros [A B]. unfold Rfl. apply Zfloor_imp. rewrite plus_IZR. split.
  - apply Rmult_le_reg_l with sc; [lra|]. replace (sc * (x / sc)) with x by (field; lra). lra.
  - apply Rmult_lt_reg_l with sc; [lra|]. replace (sc * (x / sc)) with x by (field; lra). lra.
Qed.
Lemma cell_centre (sc : R) c : 0 < sc -> cell_of Rn Rfl sc (centre Rn sc c) = c.
Proof.
  intros Hs. destruct c as [x y z]. unfold cell_of, centre. cbn [vx vy vz cx cy cz]. rn.
  f_equal; apply floor_cell_unique; auto; lra.
Qed.

Lemma adjacent_sym a b : adjacent a b -> adjacent b a.
Proof. unfold adjacent. intros (A & B). split; [congruence|]. lia. Qed.
Lemma neighbors_NoDup a : NoDup (cell_neighbors a) /\ length (cell_neighbors a) = 10%nat.
Proof.
  split; [|reflexivity]. destruct a as [x y z]. unfold cell_neighbors. cbn [cx cy cz].
  repeat constructor; cbn [In]; intros H; repeat destruct H as [H|H]; try contradiction; injection H; lia.
Qed.

(** order and hash *)
Lemma ceq_refl a : ceq a a = true. Proof. apply ceq_spec; reflexivity. Qed.
Lemma clt_spec a b : clt a b = true <->
  (cx a < cx b \/ cx a = cx b /\ (cy a < cy b \/ cy a = cy b /\ cz a < cz b))%Z.
Proof.
  unfold clt. rewrite !orb_true_iff, !andb_true_iff, !orb_true_iff, !andb_true_iff, !Z.ltb_lt, !Z.eqb_eq. tauto.
Qed.
Lemma clt_irrefl a : clt a a = false.
Proof. apply not_true_iff_false. rewrite clt_spec. lia. Qed.
Lemma clt_trans a b c : clt a b = true -> clt b c = true -> clt a c = true.
Proof. rewrite !clt_spec. lia. Qed.
Lemma clt_total a b : clt a b = true \/ a = b \/ clt b a = true.
Proof. rewrite !clt_spec. destruct a as [x y z], b as [x' y' z']. cbn.
  destruct (Z.lt_total x x') as [|[|]]; destruct (Z.lt_total y y') as [|[|]]; destruct (Z.lt_total z z') as [|[|]]; subst; try lia;
  right; left; reflexivity. Qed.
Lemma isEqual_spec a b : n_kind a = n_kind b ->
  (isEqual a b = true <-> n_cell a = n_cell b /\ (n_kind a <> KNoSmooth -> n_par a = n_par b)).
Proof.
  intros _. unfold isEqual. destruct (n_kind a); rewrite ?andb_true_iff, !ceq_spec; split.
  - intros (A & B). auto.
  - intros (A & B). split; [exact A|apply B; discriminate].
  - intros A. split; [exact A|intros X; congruence].
  - intros (A & _). exact A.
  - intros (A & B). auto.
  - intros (A & B). split; [exact A|apply B; discriminate].
Qed.
Lemma isEqual_hash a b : n_kind a = n_kind b -> isEqual a b = true -> node_hash a = node_hash b.
Proof.
  intros K H. pose proof (proj1 (isEqual_spec a b K) H) as (A & B). unfold node_hash. rewrite <- K, A.
  destruct (n_kind a); try reflexivity; rewrite B by discriminate; reflexivity.
Qed.

(** distances *)
Lemma distance2D_R (sc : R) a b : 0 <= sc ->
  distance2D Rn sc a b = sc * sqrt (IZR (cx a - cx b) ^ 2 + IZR (cy a - cy b) ^ 2).
Proof.
  intros Hs. unfold distance2D, sq. rewrite !pos1_R. rn. tR.
  match goal with |- sqrt ?e = _ => replace e with ((sc * sc) * (IZR (cx a - cx b) ^ 2 + IZR (cy a - cy b) ^ 2)) by (rewrite !minus_IZR; ring) end.
  rewrite sqrt_mult; [|nra|nra]. rewrite sqrt_square by exact Hs. reflexivity.
Qed.
Lemma distance3D_nonneg (sc : R) a b : 0 <= distance3D Rn sc a b.
Proof. unfold distance3D. rn. apply sqrt_pos. Qed.
Lemma distance2D_nonneg (sc : R) a b : 0 <= distance2D Rn sc a b.
Proof. unfold distance2D. rn. apply sqrt_pos. Qed.
