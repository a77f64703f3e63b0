(** Proofs about the landing planner's display. *)
From Coq Require Import ZArith Reals List Bool Lia Lra Psatz.
From Flocq Require Import Core.
From Verif Require Import Num Mat CommonModel PfModel StarModel LpModel SlModel SlSpec SlProofs SlProofs2 SlProofs3 SlvModel.
Import ListNotations.

Section Draw.
Context (N : num).
Local Open Scope Z_scope.
Lemma draw_spec (g : grid N) content (f : Z * Z -> N * colour N * N) :
  (forall i j, 0 <= i < g_rc g -> 0 <= j < g_rc g -> content i j = Some (f (i, j))) ->
  exists ms, draw N g content = Some ms /\ length ms = (Z.to_nat (g_rc g) * Z.to_nat (g_rc g))%nat /\
    forall i j, 0 <= i < g_rc g -> 0 <= j < g_rc g ->
      vget ms (g_rc g * i + j) = Some (Mk (g_rc g * i + j) (V3 (fst (marker_xy N g i j)) (snd (marker_xy N g i j)) (fst (fst (f (i, j))))) (snd (fst (f (i, j)))) (snd (f (i, j)))).
Proof.
  intros H. unfold draw.
  set (mk := fun id (ij : Z * Z) => Mk (N := N) id (V3 (fst (marker_xy N g (fst ij) (snd ij))) (snd (marker_xy N g (fst ij) (snd ij))) (fst (fst (f ij)))) (snd (fst (f ij))) (snd (f ij))).
  assert (G : forall cells ms id, (forall i j, In (i, j) cells -> 0 <= i < g_rc g /\ 0 <= j < g_rc g) ->
    foldM (fun acc ij => let '(ms, id) := acc in let '(i, j) := ij in
      obind (content i j) (fun zch => let '(z, c, h) := zch in
      Some (ms ++ [Mk id (V3 (fst (marker_xy N g i j)) (snd (marker_xy N g i j)) z) c h], id + 1))) (ms, id) cells =
    Some (ms ++ map (fun k => mk (id + Z.of_nat (fst k)) (snd k)) (List.combine (seq 0 (length cells)) cells), id + Z.of_nat (length cells))).
  { induction cells as [|[i j] cells IH]; intros ms id Hc; cbn [foldM length seq List.combine map]; [rewrite app_nil_r; f_equal; f_equal; lia|].
    destruct (Hc i j (or_introl eq_refl)). rewrite H by assumption. cbn [obind]. destruct (f (i, j)) as [[z c] h] eqn:F.
    rewrite IH by (intros; apply Hc; right; assumption). rewrite <- app_assoc. cbn [app fst snd]. f_equal. f_equal; [|lia]. f_equal.
    unfold mk at 2. cbn [fst snd]. rewrite F. cbn [fst snd]. f_equal; [f_equal; lia|]. rewrite <- seq_shift.
    clear. generalize (seq 0 (length cells)). intros l. revert cells. induction l as [|a l IHl]; intros cells; [reflexivity|]. destruct cells as [|c cells]; [reflexivity|].
    cbn [map List.combine fst snd]. rewrite IHl. f_equal. f_equal. lia. }
  rewrite G.
  2:{ intros i j I. unfold loop2 in I. apply in_prod_iff in I. rewrite !in_zrange in I. exact I. }
  cbn [obind fst app]. eexists. split; [reflexivity|].
  assert (L : length (loop2 (g_rc g) (g_rc g)) = (Z.to_nat (g_rc g) * Z.to_nat (g_rc g))%nat) by (unfold loop2; rewrite prod_length, !length_zrange; reflexivity).
  split. { rewrite map_length, combine_length, seq_length, L. lia. }
  intros i j Hi Hj. pose proof (vget_loop (fun x => x) (g_rc g) i j Hi Hj) as V. rewrite map_id in V. unfold vget in *.
  destruct (Z.ltb_spec (g_rc g * i + j) 0); [discriminate|]. rewrite nth_error_map.
  set (k := Z.to_nat (g_rc g * i + j)) in *.
  assert (Kl : (k < length (loop2 (g_rc g) (g_rc g)))%nat) by (apply nth_error_Some; rewrite V; discriminate).
  assert (C : nth_error (List.combine (seq 0 (length (loop2 (g_rc g) (g_rc g)))) (loop2 (g_rc g) (g_rc g))) k = Some (k, (i, j))).
  { clear G L. generalize (loop2 (g_rc g) (g_rc g)) V Kl. clearbody k. clear. intros l V K.
    replace (Some (k, (i, j))) with (Some (0 + k, (i, j)))%nat by reflexivity. generalize 0%nat. revert k V K. induction l as [|a l IH]; intros k V K m; [destruct k; discriminate|].
    destruct k as [|k]; cbn in *; [injection V as ->; do 2 f_equal; lia|]. rewrite (IH k V ltac:(lia) (S m)). do 2 f_equal. lia. }
  rewrite C. cbn [option_map fst snd]. unfold mk. cbn [fst snd]. f_equal. f_equal. unfold k. lia.
Qed.
End Draw.

Section Colours.
Local Open Scope R_scope.
(** The rainbow: red, yellow, green, cyan, blue, magenta at 0, 60, 120, 180, 240, 300 degrees, linear in between. *)
Definition clamp01 (x : R) : R := Rmax 0 (Rmin 1 x).
Definition rainbow (h : R) : colour Rn :=
  Col (N := Rn) (clamp01 (Rabs (h / 60 - 3) - 1)) (clamp01 (2 - Rabs (h / 60 - 2))) (clamp01 (2 - Rabs (h / 60 - 4))).
Lemma clamp_lo x : x <= 0 -> clamp01 x = 0.
Proof. intros. unfold clamp01. rewrite Rmin_right by lra. apply Rmax_left. lra. Qed.
Lemma clamp_hi x : 1 <= x -> clamp01 x = 1.
Proof. intros. unfold clamp01. rewrite Rmin_left by lra. apply Rmax_right. lra. Qed.
Lemma clamp_mid x : 0 <= x <= 1 -> clamp01 x = x.
Proof. intros. unfold clamp01. rewrite Rmin_right by lra. apply Rmax_right. lra. Qed.
Lemma fmod_range x y k : 0 < y -> (0 <= k)%Z -> IZR k * y <= x < IZR (k + 1) * y -> Rfmod x y = x - y * IZR k.
Proof.
  intros Hy Hk H. unfold Rfmod. assert (E : Ztrunc (x / y) = k).
  { assert (0 <= IZR k) by (apply IZR_le; exact Hk). assert (D : x / y * y = x) by (field; lra). rewrite Ztrunc_floor.
    - apply (index_floor y x k Hy). exact H.
    - nra. }
  rewrite E. reflexivity.
Qed.
Lemma fmod_neg x y k : 0 < y -> (0 <= k)%Z -> IZR k * y <= - x < IZR (k + 1) * y -> Rfmod x y = x + y * IZR k.
Proof.
  intros Hy Hk H. unfold Rfmod. assert (E : Ztrunc (x / y) = (- k)%Z).
  { rewrite <- (Ropp_involutive x). unfold Rdiv. rewrite Ropp_mult_distr_l_reverse. rewrite Ztrunc_opp. f_equal.
    assert (0 <= IZR k) by (apply IZR_le; exact Hk). assert (D : - x / y * y = - x) by (field; lra). change (- x * / y) with (- x / y). rewrite Ztrunc_floor.
    - apply (index_floor y (- x) k Hy). exact H.
    - nra. }
  rewrite E, opp_IZR. lra.
Qed.
Lemma hsv_black_neg h : h < 0 -> (forall k : Z, h <> IZR k * 360) -> hsvToRgb Rn h 1 1 = black Rn.
Proof.
  intros Hh Hk. unfold hsvToRgb, black. rn. tR.
  assert (X : exists k, (0 <= k)%Z /\ IZR k * 6 <= - (h / 60) < IZR (k + 1) * 6).
  { exists (Zfloor (- (h / 60) / 6)). split; [apply Zfloor_lub; cbn; lra|]. apply index_floor; [lra|reflexivity]. }
  destruct X as (k & K0 & K). rewrite (fmod_neg (h / 60) 6 k) by (assumption || lra).
  assert (Ne : h / 60 + 6 * IZR k <> 0). { intros Z0. apply (Hk (- k)%Z). rewrite opp_IZR. lra. }
  assert (Ng : h / 60 + 6 * IZR k < 0) by lra.
  repeat match goal with |- context [R_leb ?a ?b] => destruct (R_leb_spec a b); [lra|]; cbn [andb] end.
  cbn [c_r c_g c_b]. f_equal; lra.
Qed.
Lemma hsv_rainbow h : 0 <= h < 360 -> hsvToRgb Rn h 1 1 = rainbow h.
Proof.
  intros Hh. unfold hsvToRgb, rainbow. rn. tR. rewrite (fmod_range (h / 60) 6 0) by (cbn; lra || lia). set (x := h / 60).
  assert (Hx : 0 <= x < 6) by (unfold x; lra). clearbody x. clear h Hh. cbn [IZR]. replace (x - 6 * 0) with x by ring.
  destruct (Rlt_or_le x 1).
  { rewrite (fmod_range x 2 0) by (cbn; lra || lia). destruct (R_leb_spec 0 x); [|lra]. destruct (R_ltb_spec x 1); [|lra]. cbn [andb c_r c_g c_b].
    rewrite (Rabs_left (x - 2 * 0 - 1)), (Rabs_left (x - 3)), (Rabs_left (x - 2)), (Rabs_left (x - 4)) by lra.
    f_equal; [rewrite clamp_hi by lra|rewrite clamp_mid by lra|rewrite clamp_lo by lra]; lra. }
  destruct (R_ltb_spec x 1); [lra|]. rewrite andb_false_r. destruct (R_leb_spec 1 x); [|lra].
  destruct (Rlt_or_le x 2).
  { rewrite (fmod_range x 2 0) by (cbn; lra || lia). destruct (R_ltb_spec x 2); [|lra]. cbn [andb c_r c_g c_b].
    rewrite (Rabs_right (x - 2 * 0 - 1)), (Rabs_left (x - 3)), (Rabs_left (x - 2)), (Rabs_left (x - 4)) by lra.
    f_equal; [rewrite clamp_mid by lra|rewrite clamp_hi by lra|rewrite clamp_lo by lra]; lra. }
  destruct (R_ltb_spec x 2); [lra|]. rewrite andb_false_r. destruct (R_leb_spec 2 x); [|lra].
  destruct (Rlt_or_le x 3).
  { rewrite (fmod_range x 2 1) by (cbn; lra || lia). destruct (R_ltb_spec x 3); [|lra]. cbn [andb c_r c_g c_b].
    rewrite (Rabs_left (x - 2 * 1 - 1)), (Rabs_left (x - 3)), (Rabs_right (x - 2)), (Rabs_left (x - 4)) by lra.
    f_equal; [rewrite clamp_lo by lra|rewrite clamp_hi by lra|rewrite clamp_mid by lra]; lra. }
  destruct (R_ltb_spec x 3); [lra|]. rewrite andb_false_r. destruct (R_leb_spec 3 x); [|lra].
  destruct (Rlt_or_le x 4).
  { rewrite (fmod_range x 2 1) by (cbn; lra || lia). destruct (R_ltb_spec x 4); [|lra]. cbn [andb c_r c_g c_b].
    rewrite (Rabs_right (x - 2 * 1 - 1)), (Rabs_right (x - 3)), (Rabs_right (x - 2)), (Rabs_left (x - 4)) by lra.
    f_equal; [rewrite clamp_lo by lra|rewrite clamp_mid by lra|rewrite clamp_hi by lra]; lra. }
  destruct (R_ltb_spec x 4); [lra|]. rewrite andb_false_r. destruct (R_leb_spec 4 x); [|lra].
  destruct (Rlt_or_le x 5).
  { rewrite (fmod_range x 2 2) by (cbn; lra || lia). destruct (R_ltb_spec x 5); [|lra]. cbn [andb c_r c_g c_b].
    rewrite (Rabs_left (x - 2 * 2 - 1)), (Rabs_right (x - 3)), (Rabs_right (x - 2)), (Rabs_right (x - 4)) by lra.
    f_equal; [rewrite clamp_mid by lra|rewrite clamp_lo by lra|rewrite clamp_hi by lra]; lra. }
  destruct (R_ltb_spec x 5); [lra|]. rewrite andb_false_r. destruct (R_leb_spec 5 x); [|lra].
  rewrite (fmod_range x 2 2) by (cbn; lra || lia). destruct (R_ltb_spec x 6); [|lra]. cbn [andb c_r c_g c_b].
  rewrite (Rabs_right (x - 2 * 2 - 1)), (Rabs_right (x - 3)), (Rabs_right (x - 2)), (Rabs_right (x - 4)) by lra.
  f_equal; [rewrite clamp_hi by lra|rewrite clamp_lo by lra|rewrite clamp_mid by lra]; lra.
Qed.
Lemma hsv_red k : (0 <= k)%Z -> hsvToRgb Rn (IZR k * 360) 1 1 = red Rn /\ hsvToRgb Rn (- (IZR k * 360)) 1 1 = red Rn.
Proof.
  intros Hk. split; unfold hsvToRgb, red; rn; tR.
  - rewrite (fmod_range (IZR k * 360 / 60) 6 k) by (rewrite ?plus_IZR; lra || assumption).
    replace (IZR k * 360 / 60 - 6 * IZR k) with 0 by field. rewrite (fmod_range 0 2 0) by (cbn; lra || lia).
    destruct (R_leb_spec 0 0); [|lra]. destruct (R_ltb_spec 0 1); [|lra]. cbn [andb c_r c_g c_b]. rewrite Rabs_left by lra. f_equal; lra.
  - rewrite (fmod_neg (- (IZR k * 360) / 60) 6 k) by (rewrite ?plus_IZR; lra || assumption).
    replace (- (IZR k * 360) / 60 + 6 * IZR k) with 0 by field. rewrite (fmod_range 0 2 0) by (cbn; lra || lia).
    destruct (R_leb_spec 0 0); [|lra]. destruct (R_ltb_spec 0 1); [|lra]. cbn [andb c_r c_g c_b]. rewrite Rabs_left by lra. f_equal; lra.
Qed.
(** no hue is black, and different hues look different *)
Lemma rainbow_max h : 0 <= h <= 360 -> Rmax (c_r (rainbow h)) (Rmax (c_g (rainbow h)) (c_b (rainbow h))) = 1.
Proof.
  intros Hh. unfold rainbow. cbn [c_r c_g c_b]. assert (B : forall x, clamp01 x <= 1) by (intros; unfold clamp01; apply Rmax_lub; [lra|apply Rmin_l]).
  set (x := h / 60). assert (Hx : 0 <= x <= 6) by (unfold x; lra). clearbody x.
  apply Rle_antisym; [apply Rmax_lub; [apply B|apply Rmax_lub; apply B]|].
  destruct (Rle_or_lt 2 (Rabs (x - 3))) as [A|A].
  - rewrite (clamp_hi (Rabs (x - 3) - 1)) by lra. apply Rmax_l.
  - apply Rabs_def2 in A. destruct (Rle_or_lt x 3).
    + rewrite (clamp_hi (2 - Rabs (x - 2))); [eapply Rle_trans; [apply Rmax_l|apply Rmax_r]|]. unfold Rabs. destruct (Rcase_abs (x - 2)); lra.
    + rewrite (clamp_hi (2 - Rabs (x - 4))); [eapply Rle_trans; [apply Rmax_r|apply Rmax_r]|]. unfold Rabs. destruct (Rcase_abs (x - 4)); lra.
Qed.
Lemma sextants x : 0 <= x < 6 ->
  let r := clamp01 (Rabs (x - 3) - 1) in let g := clamp01 (2 - Rabs (x - 2)) in let b := clamp01 (2 - Rabs (x - 4)) in
  (0 <= x < 1 /\ r = 1 /\ g = x /\ b = 0) \/ (1 <= x < 2 /\ r = 2 - x /\ g = 1 /\ b = 0) \/ (2 <= x < 3 /\ r = 0 /\ g = 1 /\ b = x - 2) \/
  (3 <= x < 4 /\ r = 0 /\ g = 4 - x /\ b = 1) \/ (4 <= x < 5 /\ r = x - 4 /\ g = 0 /\ b = 1) \/ (5 <= x < 6 /\ r = 1 /\ g = 0 /\ b = 6 - x).
Proof.
  intros H. cbv zeta. destruct (Rlt_or_le x 1).
  { left. rewrite (Rabs_left (x - 3)), (Rabs_left (x - 2)), (Rabs_left (x - 4)) by lra. rewrite clamp_hi, clamp_mid, clamp_lo by lra. lra. }
  right. destruct (Rlt_or_le x 2).
  { left. rewrite (Rabs_left (x - 3)), (Rabs_left (x - 2)), (Rabs_left (x - 4)) by lra. rewrite (clamp_mid (- (x - 3) - 1)), clamp_hi, clamp_lo by lra. lra. }
  right. destruct (Rlt_or_le x 3).
  { left. rewrite (Rabs_left (x - 3)), (Rabs_right (x - 2)), (Rabs_left (x - 4)) by lra. rewrite clamp_lo, clamp_hi, clamp_mid by lra. lra. }
  right. destruct (Rlt_or_le x 4).
  { left. rewrite (Rabs_right (x - 3)), (Rabs_right (x - 2)), (Rabs_left (x - 4)) by lra. rewrite clamp_lo, (clamp_mid (2 - (x - 2))), clamp_hi by lra. lra. }
  right. destruct (Rlt_or_le x 5).
  { left. rewrite (Rabs_right (x - 3)), (Rabs_right (x - 2)), (Rabs_right (x - 4)) by lra. rewrite (clamp_mid (x - 3 - 1)), clamp_lo, clamp_hi by lra. lra. }
  right. rewrite (Rabs_right (x - 3)), (Rabs_right (x - 2)), (Rabs_right (x - 4)) by lra. rewrite clamp_hi, clamp_lo, clamp_mid by lra. lra.
Qed.
Lemma rainbow_inj h h' : 0 <= h < 360 -> 0 <= h' < 360 -> rainbow h = rainbow h' -> h = h'.
Proof.
  intros Hh Hh' E. unfold rainbow in E. injection E as Er Eg Eb. cut (h / 60 = h' / 60); [lra|].
  pose proof (sextants (h / 60)) as S1. pose proof (sextants (h' / 60)) as S2. cbv zeta in S1, S2.
  set (x := h / 60) in *. set (y := h' / 60) in *. specialize (S1 ltac:(unfold x; lra)). specialize (S2 ltac:(unfold y; lra)). clearbody x y. clear h h' Hh Hh'.
  rewrite Er, Eg, Eb in S1. clear Er Eg Eb.
  destruct S1 as [(? & A & B & C)|[(? & A & B & C)|[(? & A & B & C)|[(? & A & B & C)|[(? & A & B & C)|(? & A & B & C)]]]]]; rewrite A, B, C in S2; clear A B C;
    destruct S2 as [?|[?|[?|[?|[?|?]]]]]; lra.
Qed.
End Colours.
