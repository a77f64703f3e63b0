(** Proofs: ordered number systems, compressHistogramElevation (C26), candidate selection (C27). *)
From Coq Require Import ZArith Reals List Bool Lia Permutation Sorting.Sorted.
From Flocq Require Import Core BinarySingleNaN.
From Verif Require Import Num Mat CommonModel CommonSpec CommonProofs HistModel HistProofs PfModel PfSpec PfProofs PfProofs2.
Import ListNotations.
Local Open Scope Z_scope.

Lemma ordered_Rn : ordered_num Rn.
Proof.
  split; rn; intros; repeat match goal with
   | H : R_ltb _ _ = true |- _ => apply R_ltb_true in H | H : R_ltb _ _ = false |- _ => apply R_ltb_false in H end;
   try apply R_ltb_false; try apply R_ltb_true; try lra.
  - destruct (R_eqb_spec y x); [exfalso; lra|reflexivity].
  - now apply R_eqb_true.
Qed.
Lemma isnan_F32 (x : f32) : isnanb F32 x = is_nan x.
Proof.
  unfold isnanb; cbn [eqb F32]. destruct (is_nan x) eqn:E.
  - destruct x; try discriminate. reflexivity.
  - replace (f32_eqb x x) with true; [reflexivity|]. symmetry. now apply f32_eqb_true.
Qed.
Lemma ordered_F32 : ordered_num F32.
Proof.
  split; cbn [T ltb eqb F32 ofZ]; intros.
  - apply f32_ltb_irrefl.
  - apply f32_ltb_true in H, H0. apply f32_ltb_true. destruct H as (? & ? & ?), H0 as (? & ? & ?). repeat split; auto. lra.
  - rewrite isnan_F32 in *. destruct (f32_ltb x z) eqn:E; [|reflexivity]. exfalso.
    apply f32_ltb_true in E. destruct E as (_ & _ & E).
    assert (~ (f32_ext x < f32_ext y)%R). { intros L. rewrite (proj2 (f32_ltb_true x y)) in H2; [discriminate|auto]. }
    assert (~ (f32_ext y < f32_ext z)%R). { intros L. rewrite (proj2 (f32_ltb_true y z)) in H3; [discriminate|auto]. }
    lra.
  - destruct (f32_eqb y x) eqn:E; [|reflexivity]. exfalso. apply f32_eqb_true in E. apply f32_ltb_true in H.
    destruct E as (_ & _ & E), H as (_ & _ & H). lra.
  - vm_compute. reflexivity.
Qed.

(* ------------------------------------------------------------------ compressHistogramElevation *)
Section Ce.
Context (N : num) (O : ordered_num N) (G : trig N) (cast : N -> Z) (position : vec3 N) (inp : hist N).
Notation level_obstacle := (level_obstacle N G position inp).
Notation nearest_level := (nearest_level N G position inp).
Definition done_near (done : list (Z * Z)) (z : Z) (v : N) : Prop :=
  (v = ofZ N 0 /\ forall e d, In (e, z) done -> ~ level_obstacle e z d) \/
  (exists e, In (e, z) done /\ level_obstacle e z v) /\ (forall e d, In (e, z) done -> level_obstacle e z d -> ltb N d v = false).

Lemma ce_step_spec h done e z : ghist N h -> ghist N inp -> 0 <= z < 60 ->
  (forall z', 0 <= z' < 60 -> done_near done z' (cell (h_dist h) 0 z')) ->
  exists h', ce_step N G inp position h (e, z) = Some h' /\ ghist N h' /\
  (forall z', 0 <= z' < 60 -> done_near (done ++ [(e, z)]) z' (cell (h_dist h') 0 z')) /\
  (forall e' z', e' <> 0 -> cell (h_dist h') e' z' = cell (h_dist h) e' z').
Proof.
  intros Hg Gi Hz Hinv. unfold ce_step.
  assert (Hget : exists d, h_get N inp e z = Some d).
  { destruct Gi as (W & R). rewrite (get_mod N inp e z W) by (rewrite R; lia). eauto. }
  destruct Hget as (d & Ed). rewrite Ed.
  assert (Hkeep : (~ level_obstacle e z d \/ exists v, v = cell (h_dist h) 0 z /\ (exists e', In (e', z) done /\ level_obstacle e' z v) /\ ltb N d v = false) ->
     forall z', 0 <= z' < 60 -> done_near (done ++ [(e, z)]) z' (cell (h_dist h) 0 z')).
  { intros Hk z' Hz'. destruct (Hinv z' Hz') as [(E0 & Hn)|((e1 & He1 & Hl1) & Hm)].
    - destruct Hk as [Hk|(v & Ev & (e' & He' & Hl') & Hlt)].
      + left. split; [exact E0|]. intros e2 d2 Hin Hl. apply in_app_or in Hin. destruct Hin as [Hin|[[= <- <-]|[]]]; [eapply Hn; eauto|].
        destruct Hl as (L1 & L2). rewrite Ed in L1. injection L1 as <-. apply Hk. split; auto.
      + left. split; [exact E0|]. intros e2 d2 Hin Hl. apply in_app_or in Hin. destruct Hin as [Hin|[[= <- <-]|[]]]; [eapply Hn; eauto|].
        eapply Hn; eauto.
    - right. split; [exists e1; split; [apply in_or_app; auto|auto]|].
      intros e2 d2 Hin Hl. apply in_app_or in Hin. destruct Hin as [Hin|[[= <- <-]|[]]]; [eapply Hm; eauto|].
      assert (d2 = d) as -> by (destruct Hl as (L1 & _); congruence).
      destruct Hk as [Hk|(v & Ev & _ & Hlt)]; [contradiction|]. subst v. exact Hlt. }
  destruct (ltb N (ofZ N 0) d) eqn:Hpos.
  2:{ exists h. repeat split; auto; try apply Hg. apply Hkeep. left. intros (_ & L & _). congruence. }
  rewrite (ghist_get N h 0 z Hg) by lia.
  destruct (ltb N (absv N _) (ofZ N 1)) eqn:Hh; cbn [andb].
  2:{ exists h. repeat split; auto; try apply Hg. apply Hkeep. left. intros (_ & _ & L). congruence. }
  assert (Hl : level_obstacle e z d) by (repeat split; assumption).
  destruct (ltb N d (cell (h_dist h) 0 z) || eqb N (cell (h_dist h) 0 z) (ofZ N 0)) eqn:B.
  - destruct (ghist_set N h 0 z d Hg) as (h' & E & G' & A & Oth); try lia. exists h'. split; [exact E|]. split; [exact G'|].
    split; [|intros e' z' Hne; apply Oth; congruence].
    intros z' Hz'. destruct (Z.eq_dec z' z) as [->|Hne].
    + rewrite A. right. split; [exists e; split; [apply in_or_app; right; now left|exact Hl]|].
      intros e2 d2 Hin Hl2. apply in_app_or in Hin. destruct Hin as [Hin|[[= <-]|[]]].
      * destruct (Hinv z Hz) as [(E0 & Hn)|((e1 & He1 & Hl1) & Hm)]; [exfalso; eapply Hn; eauto|].
        pose proof (Hm e2 d2 Hin Hl2) as Hlt. destruct (ltb N d2 d) eqn:X; [|reflexivity].
        apply orb_true_iff in B. destruct B as [B|B].
        -- rewrite (on_trans N O _ _ _ X B) in Hlt. discriminate.
        -- destruct Hl1 as (_ & L2 & _). rewrite (on_neq N O _ _ L2) in B. discriminate.
      * assert (d2 = d) as -> by (destruct Hl2 as (L1 & _); congruence). apply (on_irrefl N O).
    + rewrite Oth by congruence. destruct (Hinv z' Hz') as [(E0 & Hn)|((e1 & He1 & Hl1) & Hm)].
      * left. split; [exact E0|]. intros e2 d2 Hin. apply in_app_or in Hin. destruct Hin as [Hin|[[= <- <-]|[]]]; [auto|congruence].
      * right. split; [exists e1; split; [apply in_or_app; auto|auto]|].
        intros e2 d2 Hin. apply in_app_or in Hin. destruct Hin as [Hin|[[= <- <-]|[]]]; [eauto|congruence].
  - apply orb_false_iff in B. destruct B as [B1 B2]. exists h. repeat split; auto; try apply Hg. apply Hkeep. right.
    destruct (Hinv z Hz) as [(E0 & Hn)|((e1 & He1 & Hl1) & Hm)].
    + rewrite E0, (on_zero N O) in B2. discriminate.
    + eauto 8.
Qed.

Lemma ce_fold l : ghist N inp -> (forall e z, In (e, z) l -> 0 <= z < 60) -> forall done h, ghist N h ->
  (forall z', 0 <= z' < 60 -> done_near done z' (cell (h_dist h) 0 z')) ->
  exists h', foldM (ce_step N G inp position) h l = Some h' /\ ghist N h' /\
  (forall z', 0 <= z' < 60 -> done_near (done ++ l) z' (cell (h_dist h') 0 z')) /\
  (forall e' z', e' <> 0 -> cell (h_dist h') e' z' = cell (h_dist h) e' z').
Proof.
  intros Gi. induction l as [|[e z] l IH]; intros Hin done h Hg Hinv.
  - exists h. rewrite app_nil_r. auto.
  - destruct (ce_step_spec h done e z Hg Gi (Hin e z (or_introl eq_refl)) Hinv) as (h1 & E & G1 & I1 & O1).
    cbn [foldM]. rewrite E. destruct (IH (fun e z H => Hin e z (or_intror H)) _ h1 G1 I1) as (h' & E' & G' & I' & O').
    exists h'. rewrite <- app_assoc in I'. repeat split; auto; try apply G'. intros e' z' Hne. rewrite O', O1; auto.
Qed.

(** Nearest level obstacle per azimuth, over the rows e0..e1 the elevation band [-10, 10] maps to. *)
Lemma compress_spec h0 e0 e1 : ghist N inp -> ghist N h0 -> (forall z, 0 <= z < 60 -> cell (h_dist h0) 0 z = ofZ N 0) ->
  snd (polarToHistogramIndex N cast (Pol (div N (mul N (ofZ N (-1)) (ofZ N 20)) (ofZ N 2)) (ofZ N 0) (ofZ N 0)) ALPHA_RES) = e0 ->
  snd (polarToHistogramIndex N cast (Pol (div N (ofZ N 20) (ofZ N 2)) (ofZ N 0) (ofZ N 0)) ALPHA_RES) = e1 ->
  exists h, compressHistogramElevation N G cast h0 inp position = Some h /\ ghist N h /\
  forall z, 0 <= z < 60 -> exists v, h_get N h 0 z = Some v /\ nearest_level (map (fun k => e0 + k) (zrange (e1 - e0 + 1))) z v.
Proof.
  intros Gi G0 Hz0 E0 E1. unfold compressHistogramElevation. rewrite E0, E1.
  set (es := map (fun k => e0 + k) (zrange (e1 - e0 + 1))).
  destruct (ce_fold (flat_map (fun e => map (fun z => (e, z)) (zrange GRID_LENGTH_Z)) es) Gi) with (done := @nil (Z * Z)) (h := h0)
    as (h & E & Gh & I & _).
  - intros e z H. apply in_flat_map in H. destruct H as (x & _ & H). apply in_map_iff in H. destruct H as (y & [= <- <-] & Hy).
    apply in_zrange in Hy. exact Hy.
  - exact G0.
  - intros z Hz. left. split; [now apply Hz0|]. intros e d [].
  - exists h. split; [exact E|]. split; [exact Gh|]. intros z Hz. eexists. split; [apply ghist_get; [exact Gh|lia|exact Hz]|].
    cbn [app] in I. assert (Hiff : forall e, In (e, z) (flat_map (fun e => map (fun z => (e, z)) (zrange GRID_LENGTH_Z)) es) <-> In e es).
    { intros e. rewrite in_flat_map. split.
      - intros (x & Hx & H). apply in_map_iff in H. destruct H as (y & [= <- <-] & _). exact Hx.
      - intros H. exists e. split; [exact H|]. apply in_map_iff. exists z. split; [reflexivity|now apply in_zrange]. }
    destruct (I z Hz) as [(V0 & Hn)|((e & He & Hl) & Hm)].
    + left. split; [exact V0|]. intros e d He. apply Hn. now apply Hiff.
    + right. split; [exists e; split; [now apply Hiff|exact Hl]|]. intros e' d' He'. apply Hm. now apply Hiff.
Qed.
End Ce.

Lemma band_F32 :
  snd (polarToHistogramIndex F32 (f32_cast : F32 -> Z) (Pol (div F32 (mul F32 (ofZ F32 (-1)) (ofZ F32 20)) (ofZ F32 2)) (ofZ F32 0) (ofZ F32 0)) ALPHA_RES) = 13 /\
  snd (polarToHistogramIndex F32 (f32_cast : F32 -> Z) (Pol (div F32 (ofZ F32 20) (ofZ F32 2)) (ofZ F32 0) (ofZ F32 0)) ALPHA_RES) = 16.
Proof. split; vm_compute; reflexivity. Qed.

(* ------------------------------------------------------------------------- candidate selection *)
Section Best.
Context (N : num) (O : ordered_num N).
Variable top : list (candidate N) -> option (candidate N * list (candidate N)).
Hypothesis PQ : is_priority_queue N top.
Notation cand := (candidate N).
Definition no_nan (l : list cand) : Prop := forall c, In c l -> isnanb N (c_cost c) = false.
Notation not_cheaper a b := (ltb N (c_cost a) (c_cost b) = false).

Definition best_inv (n : Z) (seen q : list cand) : Prop :=
  exists rest, Permutation seen (q ++ rest) /\ Z.of_nat (length q) = Z.min n (Z.of_nat (length seen)) /\
    forall r c, In r rest -> In c q -> not_cheaper r c.

Lemma best_step_inv n seen q c : 1 <= n -> no_nan seen -> isnanb N (c_cost c) = false -> best_inv n seen q ->
  exists q', best_step N top n q c = Some q' /\ best_inv n (seen ++ [c]) q'.
Proof.
  intros Hn Hs Hc (rest & P & L & M). unfold best_step.
  assert (Hlen : length seen = (length q + length rest)%nat) by (rewrite (Permutation_length P), app_length; reflexivity).
  assert (Hq : no_nan q). { intros x Hx. apply Hs. eapply Permutation_in; [symmetry; exact P|]. apply in_or_app; auto. }
  assert (Hr : no_nan rest). { intros x Hx. apply Hs. eapply Permutation_in; [symmetry; exact P|]. apply in_or_app; auto. }
  destruct (Z.ltb_spec (Z.of_nat (length q)) n) as [Hlt|Hge].
  - eexists. split; [reflexivity|]. assert (rest = []) as -> by (destruct rest; [reflexivity|cbn in Hlen; lia]).
    exists []. rewrite app_nil_r in *. split; [|split].
    + etransitivity; [symmetry; apply Permutation_cons_append|]. now constructor.
    + rewrite app_length. cbn [length]. lia.
    + intros r c' [].
  - assert (Hne : q <> []) by (intros ->; cbn in Hge; lia). destruct PQ as (_ & PQ2).
    destruct (PQ2 q Hne Hq) as (t & r0 & Et & Pt & Mt). rewrite Et.
    assert (Ht : In t q). { eapply Permutation_in; [symmetry; exact Pt|now left]. }
    destruct (ltb N (c_cost c) (c_cost t)) eqn:Lt.
    + destruct (PQ2 (c :: q)) as (t' & q' & Et' & Pt' & Mt'); [discriminate|intros x [<-|Hx]; auto|].
      rewrite Et'. exists q'. split; [reflexivity|]. exists (t' :: rest). split; [|split].
      * etransitivity; [symmetry; apply Permutation_cons_append|]. etransitivity; [apply perm_skip, P|].
        change (c :: q ++ rest) with ((c :: q) ++ rest). rewrite Pt'.
        etransitivity; [|apply Permutation_middle]. reflexivity.
      * apply Permutation_length in Pt'. cbn [length] in Pt'. rewrite app_length. cbn [length]. lia.
      * intros r c' [<-|Hr'] Hc'.
        -- apply Mt'. eapply Permutation_in; [symmetry; exact Pt'|now right].
        -- assert (Hin : In c' (c :: q)) by (eapply Permutation_in; [symmetry; exact Pt'|now right]).
           destruct Hin as [<-|Hin]; [|auto]. destruct (ltb N (c_cost r) (c_cost c)) eqn:X; [|reflexivity].
           pose proof (on_trans N O _ _ _ X Lt) as Y. rewrite (M r t Hr' Ht) in Y. discriminate.
    + exists q. split; [reflexivity|]. exists (c :: rest). split; [|split].
      * etransitivity; [symmetry; apply Permutation_cons_append|]. etransitivity; [apply perm_skip, P|]. apply Permutation_middle.
      * rewrite app_length. cbn [length]. lia.
      * intros r c' [<-|Hr'] Hc'; [|auto]. eapply (on_weak N O); [| | |exact Lt|apply Mt, Hc']; auto.
Qed.
Lemma best_fold_inv n l : 1 <= n -> forall seen q, no_nan (seen ++ l) -> best_inv n seen q ->
  exists q', foldM (best_step N top n) q l = Some q' /\ best_inv n (seen ++ l) q'.
Proof.
  intros Hn. induction l as [|c l IH]; intros seen q Hs H.
  - exists q. rewrite app_nil_r. auto.
  - destruct (best_step_inv n seen q c Hn) as (q1 & E & H1); auto.
    + intros x Hx. apply Hs. apply in_or_app; auto.
    + apply Hs. apply in_or_app; right; now left.
    + cbn [foldM]. rewrite E. replace (seen ++ c :: l) with ((seen ++ [c]) ++ l) in * by now rewrite <- app_assoc.
      apply IH; auto.
Qed.
Lemma drain_spec n : forall q, length q = n -> no_nan q ->
  Permutation (drain N top n q) q /\ StronglySorted (fun a b => not_cheaper a b) (drain N top n q).
Proof.
  induction n as [|n IH]; intros q L Hq.
  - destruct q; [|discriminate]. split; constructor.
  - destruct PQ as (_ & PQ2). destruct (PQ2 q) as (t & r & Et & Pt & Mt); [intros ->; discriminate|exact Hq|].
    cbn [drain]. rewrite Et.
    assert (L' : length r = n) by (apply Permutation_length in Pt; cbn in Pt; lia).
    assert (Hr : no_nan r) by (intros x Hx; apply Hq; eapply Permutation_in; [symmetry; exact Pt|now right]).
    destruct (IH r L' Hr) as (P & S). split.
    + rewrite P. now symmetry.
    + constructor; [exact S|]. apply Forall_forall. intros x Hx. apply Mt.
      eapply Permutation_in; [symmetry; exact Pt|]. right. eapply Permutation_in; eassumption.
Qed.
Lemma SS_snoc {A} (R : A -> A -> Prop) l x : StronglySorted R l -> Forall (fun a => R a x) l -> StronglySorted R (l ++ [x]).
Proof.
  induction l as [|a l IH]; intros H F; cbn; [repeat constructor|].
  inversion H; subst. inversion F; subst. constructor; [auto|]. apply Forall_app; auto.
Qed.
Lemma SS_rev {A} (R : A -> A -> Prop) l : StronglySorted R l -> StronglySorted (fun a b => R b a) (rev l).
Proof.
  induction 1 as [|a l S IH F]; cbn; [constructor|]. apply SS_snoc; [exact IH|].
  rewrite Forall_forall in *. intros x Hx. apply F. now apply in_rev.
Qed.

Lemma getBest_spec (m : mat N) n : 1 <= n -> no_nan (candidates N m) ->
  exists out rest, getBestCandidatesFromCostMatrix N top m n = Some out /\
    Permutation (candidates N m) (out ++ rest) /\
    Z.of_nat (length out) = Z.min n (Z.of_nat (length (candidates N m))) /\
    StronglySorted (fun a b => not_cheaper b a) out /\
    (forall r c, In r rest -> In c out -> not_cheaper r c).
Proof.
  intros Hn Hs. unfold getBestCandidatesFromCostMatrix.
  destruct (best_fold_inv n (candidates N m) Hn [] []) as (q & E & (rest & P & L & M)); [exact Hs| |].
  { exists []. split; [constructor|]. split; [cbn; lia|intros r c []]. }
  rewrite E. cbn [app] in *.
  assert (Hq : no_nan q). { intros x Hx. apply Hs. eapply Permutation_in; [symmetry; exact P|]. apply in_or_app; auto. }
  destruct (drain_spec (length q) q eq_refl Hq) as (Pd & Sd).
  assert (Pr : Permutation (rev (drain N top (length q) q)) q) by (etransitivity; [symmetry; apply Permutation_rev|exact Pd]).
  exists (rev (drain N top (length q) q)), rest. split; [reflexivity|]. split; [|split; [|split]].
  - rewrite P. apply Permutation_app_tail. now symmetry.
  - rewrite (Permutation_length Pr). exact L.
  - apply SS_rev. exact Sd.
  - intros r c Hr Hc. apply M; [exact Hr|]. eapply Permutation_in; eassumption.
Qed.
Lemma getBest_zero (m : mat N) : candidates N m <> [] -> getBestCandidatesFromCostMatrix N top m 0 = None.
Proof.
  intros H. unfold getBestCandidatesFromCostMatrix. destruct (candidates N m) as [|c l]; [congruence|].
  cbn [foldM]. unfold best_step at 1. cbn [length]. cbn. destruct PQ as (-> & _). reflexivity.
Qed.
End Best.
Lemma length_grid_idx r c : length (grid_idx r c) = (Z.to_nat r * Z.to_nat c)%nat.
Proof.
  unfold grid_idx. rewrite <- (length_zrange r). induction (zrange r) as [|a l IH]; cbn; [reflexivity|].
  rewrite app_length, map_length, length_zrange, IH. reflexivity.
Qed.
(** a priority queue exists: linear scan for a maximal element *)
Section Scan.
Variable N : num.
Fixpoint scan_max (c : candidate N) (l : list (candidate N)) : candidate N * list (candidate N) :=
  match l with
  | [] => (c, [])
  | d :: l' => let (t, r) := scan_max (if ltb N (c_cost c) (c_cost d) then d else c) l' in
               (t, (if ltb N (c_cost c) (c_cost d) then c else d) :: r)
  end.
Definition scan_top (l : list (candidate N)) : option (candidate N * list (candidate N)) :=
  match l with [] => None | c :: l' => Some (scan_max c l') end.
Lemma scan_max_spec (O : ordered_num N) l : forall c t r, (forall x, In x (c :: l) -> isnanb N (c_cost x) = false) ->
  scan_max c l = (t, r) -> Permutation (c :: l) (t :: r) /\ forall x, In x (c :: l) -> ltb N (c_cost t) (c_cost x) = false.
Proof.
  induction l as [|d l IH]; intros c t r Hn E; cbn in E.
  - injection E as <- <-. split; [reflexivity|]. intros x [<-|[]]. apply (on_irrefl N O).
  - destruct (scan_max _ l) as [t' r'] eqn:E'. injection E as <- <-.
    destruct (ltb N (c_cost c) (c_cost d)) eqn:L.
    + destruct (IH d t' r') as (P & M); [intros x Hx; apply Hn; right; exact Hx|exact E'|]. split.
      * etransitivity; [apply perm_swap|]. etransitivity; [|apply perm_swap]. etransitivity; [apply perm_swap|]. now apply perm_skip.
      * intros x [<-|Hx]; [|auto]. eapply (on_weak N O) with (y := c_cost d); [| | |apply M; now left|].
        -- assert (Hin : In t' (c :: d :: l)); [|apply Hn, Hin]. right. eapply Permutation_in; [symmetry; exact P|now left].
        -- apply Hn. right; now left.
        -- apply Hn. now left.
        -- destruct (ltb N (c_cost d) (c_cost c)) eqn:X; [|reflexivity].
           pose proof (on_trans N O _ _ _ L X) as Y. rewrite (on_irrefl N O) in Y. discriminate.
    + destruct (IH c t' r') as (P & M); [intros x [<-|Hx]; apply Hn; [now left|right; right; exact Hx]|exact E'|]. split.
      * etransitivity; [apply perm_swap|]. etransitivity; [|apply perm_swap]. now apply perm_skip.
      * intros x [<-|[<-|Hx]]; [apply M; now left| |apply M; now right].
        eapply (on_weak N O) with (y := c_cost c); [| | |apply M; now left|exact L].
        -- assert (Hin : In t' (c :: l)) by (eapply Permutation_in; [symmetry; exact P|now left]).
           apply Hn. destruct Hin as [<-|Hin]; [now left|right; right; exact Hin].
        -- apply Hn; now left.
        -- apply Hn; right; now left.
Qed.
Lemma scan_top_pq (O : ordered_num N) : is_priority_queue N scan_top.
Proof.
  split; [reflexivity|]. intros [|c l] Hne Hn; [congruence|]. cbn. destruct (scan_max c l) as [t r] eqn:E.
  destruct (scan_max_spec O l c t r Hn E) as (P & M). eauto.
Qed.
End Scan.
