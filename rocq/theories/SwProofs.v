(** Proofs about the landing state machine, the patch evaluation and the exploration. *)
From Coq Require Import ZArith Reals List Bool Lia Lra Permutation.
From Flocq Require Import Core BinarySingleNaN.
From Verif Require Import Num Mat CommonModel PfModel PfSpec StarModel LpModel UsmModel SlModel SlSpec SlProofs SlProofs2 SlProofs3 SwModel SwSpec.
Import ListNotations.
Local Open Scope Z_scope.

(* ------------------------------------------------------------------ masks and patches *)
Lemma fold_add_acc l a : fold_left Z.add l a = a + fold_left Z.add l 0.
Proof. revert a. induction l as [|x l IH]; intros a; cbn; [lia|]. rewrite IH, (IH x). lia. Qed.
Lemma sum_eq_iff l f g : (forall x : Z * Z, In x l -> f x <= g x) ->
  (fold_left Z.add (map f l) 0 =? fold_left Z.add (map g l) 0) = true <-> forall x, In x l -> f x = g x.
Proof.
  rewrite Z.eqb_eq. induction l as [|x l IH]; intros H; cbn [map fold_left].
  - split; [intros _ y []|reflexivity].
  - rewrite !Z.add_0_l, (fold_add_acc _ (f x)), (fold_add_acc _ (g x)).
    assert (Hx : f x <= g x) by (apply H; left; reflexivity).
    assert (Hl : fold_left Z.add (map f l) 0 <= fold_left Z.add (map g l) 0).
    { clear IH. assert (Hl : forall y, In y l -> f y <= g y) by (intros; apply H; right; assumption). clear H Hx. induction l as [|y l IH]; cbn [map fold_left]; [lia|].
      rewrite !Z.add_0_l, (fold_add_acc _ (f y)), (fold_add_acc _ (g y)). specialize (Hl y (or_introl eq_refl)) as H1.
      assert (fold_left Z.add (map f l) 0 <= fold_left Z.add (map g l) 0) by (apply IH; intros; apply Hl; right; assumption). lia. }
    assert (IH' := IH (fun y I => H y (or_intror I))). split.
    + intros E y [<-|I]; [lia|]. apply IH'; [lia|exact I].
    + intros E. rewrite (E x (or_introl eq_refl)). f_equal. apply IH'. intros y I. apply E. right; exact I.
Qed.
Lemma disc_iff s di dj : 0 <= s -> disc s di dj <-> 4 * (di * di + dj * dj) < (2 * s + 1) * (2 * s + 1).
Proof.
  intros Hs. unfold disc. assert (Hp : (0 <= IZR (di * di + dj * dj))%R) by (apply IZR_le; nia).
  assert (Hq : (0 < IZR s + 1 / 2)%R) by (apply IZR_le in Hs; lra).
  rewrite <- (sqrt_square (IZR s + 1 / 2)) by lra. split.
  - intros H. apply sqrt_lt_0_alt in H. apply lt_IZR. rewrite !mult_IZR, !plus_IZR, !mult_IZR in *. lra.
  - intros H. apply sqrt_lt_1; [assumption|nra|]. apply IZR_lt in H. rewrite !mult_IZR, !plus_IZR, !mult_IZR in *. lra.
Qed.
Definition bit_matrix (m : mat Z) : Prop := forall i j, cell m i j = 0 \/ cell m i j = 1.
Lemma mask_bit s : bit_matrix (initMask s).
Proof. intros i j. unfold initMask. cbn [cell]. destruct (_ <? _); auto. Qed.
(** the patch test is "every masked cell passed" *)
Lemma evaluatePatch_spec res s r0 c0 : 0 <= s -> bit_matrix res ->
  0 <= r0 -> 0 <= c0 -> r0 + (2 * s + 1) <= rows res -> c0 + (2 * s + 1) <= cols res ->
  exists b, evaluatePatch res (initMask s) r0 c0 = Some b /\ (b = true <-> patch_landable res s (r0 + s) (c0 + s)).
Proof.
  intros Hs Hb H1 H2 H3 H4. unfold evaluatePatch. cbn [rows cols initMask].
  destruct (Z.leb_spec 0 r0), (Z.leb_spec 0 c0), (Z.leb_spec (r0 + (2 * s + 1)) (rows res)), (Z.leb_spec (c0 + (2 * s + 1)) (cols res)); try lia. cbn [andb].
  eexists; split; [reflexivity|]. unfold msum. rewrite sum_eq_iff.
  - split.
    + intros E di dj Hi Hj D. specialize (E (di + s, dj + s)). cbn [fst snd] in E.
      assert (I : In (di + s, dj + s) (loop2 (2 * s + 1) (2 * s + 1))) by (apply in_loop2; lia). specialize (E I).
      assert (M : cell (initMask s) (di + s) (dj + s) = 1).
      { unfold initMask. cbn [cell]. apply (disc_iff s di dj Hs) in D. destruct (Z.ltb_spec (4 * ((di + s - s) * (di + s - s) + (dj + s - s) * (dj + s - s))) ((2 * s + 1) * (2 * s + 1))); [reflexivity|].
        rewrite !Z.add_simpl_r in *. lia. }
      rewrite M in E. replace (r0 + s + di) with (r0 + (di + s)) by lia. replace (c0 + s + dj) with (c0 + (dj + s)) by lia. lia.
    + intros P [i j] I. apply in_loop2 in I. cbn [fst snd]. destruct (mask_bit s i j) as [M|M]; rewrite M; [lia|].
      assert (D : disc s (i - s) (j - s)).
      { apply disc_iff; [exact Hs|]. unfold initMask in M. cbn [cell] in M. destruct (Z.ltb_spec (4 * ((i - s) * (i - s) + (j - s) * (j - s))) ((2 * s + 1) * (2 * s + 1))); lia. }
      specialize (P (i - s) (j - s)). replace (r0 + s + (i - s)) with (r0 + i) in P by lia. replace (c0 + s + (j - s)) with (c0 + j) in P by lia.
      rewrite P by (try exact D; lia). reflexivity.
  - intros [i j] I. cbn [fst snd]. destruct (mask_bit s i j) as [M|M]; rewrite M; [lia|]. destruct (Hb (r0 + i) (c0 + j)) as [->| ->]; lia.
Qed.
Lemma candidates_iff r s d : 0 <= s -> 2 * s + 1 <= r -> In d (candidates r s) <-> tried_offset r s d.
Proof.
  intros Hs Hr. unfold candidates, tried_offset. rewrite in_flat_map.
  assert (Q : Z.quot (1 + (r - (2 * s + 1))) 2 = (r - 2 * s) / 2).
  { rewrite Z.quot_div_nonneg by lia. f_equal. lia. }
  rewrite Q. split.
  - intros (k & I & M). apply in_zfromto in I. apply in_map_iff in M as (e & <- & J). exists k, e. split; [exact J|]. split; [lia|]. split; [lia|].
    f_equal; lia.
  - intros (k & e & J & H1 & H2 & ->). exists k. split; [apply in_zfromto; lia|]. apply in_map_iff. exists e. split; [f_equal; lia|exact J].
Qed.
Lemma tried_inside r s d : 0 <= s -> 2 * s + 1 <= r -> tried_offset r s d \/ d = (0, 0) ->
  0 <= r / 2 + fst d - s /\ 0 <= r / 2 + snd d - s /\ r / 2 + fst d - s + (2 * s + 1) <= r /\ r / 2 + snd d - s + (2 * s + 1) <= r.
Proof.
  intros Hs Hr H. pose proof (Z.div_mod r 2 ltac:(lia)). pose proof (Z.mod_pos_bound r 2 ltac:(lia)).
  destruct H as [(k & e & J & K1 & K2 & ->)| ->].
  - pose proof (Z.div_mod (r - 2 * s) 2 ltac:(lia)). pose proof (Z.mod_pos_bound (r - 2 * s) 2 ltac:(lia)).
    cbn [fst snd]. cbn [In] in J. repeat (destruct J as [<-|J]; [cbn [fst snd]; lia|]). destruct J.
  - cbn [fst snd]. lia.
Qed.
(** the search over patches: the first landable one, in order of the list *)
Lemma findPatch_spec res r s l : 0 <= s -> 2 * s + 1 <= r -> bit_matrix res -> rows res = r -> cols res = r ->
  (forall d, In d l -> tried_offset r s d) ->
  exists o, findPatch res (initMask s) (r / 2) (r / 2) s l = Some o /\
    match o with
    | Some d => In d l /\ patch_landable res s (r / 2 + fst d) (r / 2 + snd d)
    | None => forall d, In d l -> ~ patch_landable res s (r / 2 + fst d) (r / 2 + snd d)
    end.
Proof.
  intros Hs Hr Hb R C. induction l as [|d l IH]; intros Ht; cbn [findPatch].
  - exists None. split; [reflexivity|]. intros d [].
  - assert (In1 := tried_inside r s d Hs Hr (or_introl (Ht d (or_introl eq_refl)))).
    destruct (evaluatePatch_spec res s (r / 2 + fst d - s) (r / 2 + snd d - s)) as (b & E & B); try assumption; try lia.
    rewrite E. cbn [obind]. replace (r / 2 + fst d - s + s) with (r / 2 + fst d) in B by lia. replace (r / 2 + snd d - s + s) with (r / 2 + snd d) in B by lia.
    destruct b.
    + exists (Some d). split; [reflexivity|]. split; [left; reflexivity|]. apply B. reflexivity.
    + destruct IH as (o & E' & H). { intros e I. apply Ht. right. exact I. }
      exists o. split; [exact E'|]. destruct o as [e|].
      * destruct H as [H1 H2]. split; [right; exact H1|exact H2].
      * intros e [<-|I]; [|apply H; exact I]. intros P. apply B in P. discriminate.
Qed.
