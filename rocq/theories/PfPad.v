(** Proofs: polar padding (C28), smoothing (C63), image addressing (C62). *)
From Coq Require Import ZArith Reals List Bool Lia.
From Verif Require Import Num Mat CommonModel CommonSpec CommonProofs HistModel HistProofs PfModel PfSpec PfProofs PfProofs2.
Import ListNotations.
Local Open Scope Z_scope.

Lemma bcond4 a b c d : ((a && b && c && d) = true) <-> a = true /\ b = true /\ c = true /\ d = true.
Proof. rewrite !andb_true_iff. tauto. Qed.
Lemma set_block_some {A} (m b : mat A) i j : 0 <= i -> 0 <= j -> i + rows b <= rows m -> j + cols b <= cols m ->
  mset_block m i j b = Some (Mat (rows m) (cols m) (fun r c =>
         if ((i <=? r) && (r <? i + rows b) && (j <=? c) && (c <? j + cols b))%Z
         then cell b (r - i)%Z (c - j)%Z else cell m r c)).
Proof.
  intros. unfold mset_block.
  destruct (_ && _ && _ && _) eqn:E; [reflexivity|]. rewrite <- not_true_iff_false in E. exfalso. apply E.
  apply bcond4. rewrite !Z.leb_le. auto.
Qed.
Lemma block_some {A} (m : mat A) i j h w : 0 <= i -> 0 <= j -> 0 <= h -> 0 <= w -> i + h <= rows m -> j + w <= cols m ->
  mblock m i j h w = Some (Mat h w (fun r c => cell m (i + r)%Z (j + c)%Z)).
Proof.
  intros. unfold mblock. destruct (_ && _ && _ && _ && _ && _) eqn:E; [reflexivity|].
  rewrite <- not_true_iff_false in E. exfalso. apply E. rewrite !andb_true_iff, !Z.leb_le. auto 8.
Qed.
(** decide every comparison in the goal by lia *)
Ltac zd := repeat (match goal with
  | |- context [?a <=? ?b] => first [ rewrite (proj2 (Z.leb_le a b)) by lia | rewrite (proj2 (Z.leb_gt a b)) by lia ]
  | |- context [?a <? ?b] => first [ rewrite (proj2 (Z.ltb_lt a b)) by lia | rewrite (proj2 (Z.ltb_ge a b)) by lia ]
  end; cbn [andb]).

Lemma mod_shift_small a m : 0 <= a < m -> a mod m = a. Proof. intros; apply Z.mod_small; lia. Qed.

Section Pad.
Context (N : num).
Lemma pad_spec (m : mat N) n : 0 <= n <= rows m -> n <= cols m -> cols m mod 2 = 0 -> 0 < cols m ->
  exists p, padPolarMatrix N m n = Some p /\ rows p = rows m + 2 * n /\ cols p = cols m + 2 * n /\
  forall i j, 0 <= i < rows p -> 0 <= j < cols p ->
    cell p i j = let (r, c) := sphere_cell (rows m) (cols m) (i - n) (j - n) in cell m r c.
Proof.
  intros Hn Hnc Hev HC. set (R := rows m) in *. set (C := cols m) in *.
  assert (HM : exists M, C = 2 * M /\ 0 < M). { exists (C / 2). pose proof (Z.div_mod C 2). lia. }
  destruct HM as (M & EC & HM).
  assert (Hmid : Z.quot C 2 = M) by (rewrite EC, Z.mul_comm, Z.quot_mul; lia).
  assert (Hdiv : C / 2 = M) by (rewrite EC, Z.mul_comm, Z.div_mul; lia).
  unfold padPolarMatrix. fold R. fold C. rewrite Hmid.
  unfold mcopy, obind.
  rewrite set_block_some by (cbn [rows cols]; fold R; fold C; lia). cbn [rows cols]. fold R C.
  rewrite block_some by (fold R C; lia). cbn [option_map]. unfold mrev at 1. cbn [rows cols cell].
  rewrite set_block_some by (cbn [rows cols]; lia). cbn [rows cols].
  rewrite block_some by (fold R C; lia). cbn [option_map]. unfold mrev at 1. cbn [rows cols cell].
  rewrite set_block_some by (cbn [rows cols]; lia). cbn [rows cols].
  rewrite block_some by (fold R C; lia). cbn [option_map]. unfold mrev at 1. cbn [rows cols cell].
  rewrite set_block_some by (cbn [rows cols]; lia). cbn [rows cols].
  rewrite block_some by (fold R C; lia). cbn [option_map]. unfold mrev at 1. cbn [rows cols cell].
  rewrite set_block_some by (cbn [rows cols]; lia). cbn [rows cols].
  rewrite block_some by (cbn [rows cols]; lia). cbn [rows cols].
  rewrite set_block_some by (cbn [rows cols]; lia). cbn [rows cols].
  rewrite block_some by (cbn [rows cols]; lia). cbn [rows cols].
  rewrite set_block_some by (cbn [rows cols]; lia). cbn [rows cols].
  eexists. split; [reflexivity|]. cbn [rows cols]. split; [reflexivity|]. split; [reflexivity|].
  intros i j Hi Hj. cbn [cell]. clearbody R C.
  (* all border rows in terms of the column c in [0,C) *)
  set (F := fun (r c : Z) => if (r <? 0) then cell m (-1 - r) (if c <? M then c + M else c - M)
           else if r <? R then cell m r c else cell m (2 * R - 1 - r) (if c <? M then c + M else c - M)).
  assert (HS : forall c k, 0 <= c < C -> j - n = c + k * C ->
     (let (r, c0) := sphere_cell R C (i - n) (j - n) in cell m r c0) = F (i - n) c).
  { intros c k Hc E. unfold sphere_cell, F. rewrite Hdiv.
    assert (E1 : (j - n) mod C = c) by (rewrite E, Z.mod_add by lia; apply Z.mod_small; lia).
    assert (E2 : (j - n + M) mod C = if c <? M then c + M else c - M).
    { destruct (Z.ltb_spec c M).
      - replace (j - n + M) with (c + M + k * C) by lia. rewrite Z.mod_add by lia. apply Z.mod_small. lia.
      - replace (j - n + M) with (c - M + (k + 1) * C) by lia. rewrite Z.mod_add by lia. apply Z.mod_small. lia. }
    rewrite E1, E2. destruct (i - n <? 0); [reflexivity|]. destruct (i - n <? R); reflexivity. }
  assert (Hi3 : i - n < 0 \/ 0 <= i - n < R \/ R <= i - n) by lia.
  destruct (Z_lt_le_dec j n) as [Lj|Lj]; [|destruct (Z_lt_le_dec j (n + C)) as [Lj'|Lj']].
  - rewrite (HS (j - n + C) (-1)) by lia. unfold F. clear HS Hev Hmid Hdiv.
    destruct (Z_lt_le_dec (j - n + C) M) as [Lc|Lc]; destruct Hi3 as [Li|[Li|Li]]; zd; f_equal; lia.
  - rewrite (HS (j - n) 0) by lia. unfold F. clear HS Hev Hmid Hdiv.
    destruct (Z_lt_le_dec (j - n) M) as [Lc|Lc]; destruct Hi3 as [Li|[Li|Li]]; zd; f_equal; lia.
  - rewrite (HS (j - n - C) 1) by lia. unfold F. clear HS Hev Hmid Hdiv.
    destruct (Z_lt_le_dec (j - n - C) M) as [Lc|Lc]; destruct Hi3 as [Li|[Li|Li]]; zd; f_equal; lia.
Qed.
End Pad.
