(** More proofs about the global planner (trail, way back, risk cache), for every number system. *)
From Coq Require Import ZArith List Bool Lia.
From Verif Require Import Num CommonModel GpModel GpSearch GpPlan GpNode GpSpec GpNodeSpec GpProofs GpNodeProofs.
Import ListNotations.

Lemma linked_snoc {A} (r : A -> A -> Prop) (l : list A) (x : A) :
  linked r l -> (match rev l with [] => True | b :: _ => r b x end) -> linked r (l ++ [x]).
Proof.
  induction l as [|a [|b l] IH]; intros H Hx; [exact I|cbn in *; auto|].
  cbn [app linked] in *. destruct H as (H1 & H2). split; [exact H1|]. apply IH; [exact H2|].
  cbn [rev] in *. destruct (rev l) as [|z q]; cbn in *; exact Hx.
Qed.
Lemma linked_firstn {A} (r : A -> A -> Prop) n : forall l : list A, linked r l -> linked r (firstn n l).
Proof.
  induction n as [|n IH]; intros l H; [exact I|]. destruct l as [|a [|b l]]; [exact I|destruct n; exact I|].
  destruct H as (H1 & H2). specialize (IH (b :: l) H2). destruct n; [exact I|]. cbn [firstn linked] in *. auto.
Qed.
Lemma linked_rev {A} (r : A -> A -> Prop) (l : list A) : linked r l -> linked (fun a b => r b a) (rev l).
Proof.
  induction l as [|a [|b l] IH]; intros H; [exact I|exact I|]. destruct H as (H1 & H2). specialize (IH H2).
  change (rev (a :: b :: l)) with (rev (b :: l) ++ [a]). apply linked_snoc; [exact IH|]. rewrite rev_involutive. exact H1.
Qed.

Section TrailP.
Context (N : num) (G : trig N) (fl cl rnd : N -> Z) (prob : N -> N) (ltinf : N -> bool)
        (popS : list (ptr * N) -> option ((ptr * N) * list (ptr * N)))
        (popO : list (gcell * N) -> option ((gcell * N) * list (gcell * N))) (C : ncfg N).
Notation P := (nc_gp C).
Notation step := (nstep N G fl cl rnd prob ltinf popS popO C).
Notation run := (nrun N G fl cl rnd prob ltinf popS popO C).
Notation cell p := (cell_of N fl (cell_scale P) (gp_pos p)).

Lemma position_trail s p : trail (positionCallback N fl C s p) =
  if negb (g_going_back (ns_pl s)) && match rev (trail s) with [] => true | b :: _ => negb (ceq (cell p) b) end
  then trail s ++ [cell p] else trail s.
Proof using Type.
  unfold positionCallback. cbn [ns_path]. unfold trail.
  destruct (ns_path s); [reflexivity|]. destruct (_ && yawOk _ _ _); reflexivity.
Qed.
Lemma position_last s p : g_going_back (ns_pl s) = false -> exists l, trail (positionCallback N fl C s p) = l ++ [cell p].
Proof using Type.
  intros H. rewrite position_trail, H. cbn [negb andb]. destruct (rev (trail s)) as [|b r] eqn:E.
  - eauto.
  - destruct (ceq (cell p) b) eqn:Q; cbn [negb]; [|eauto]. apply ceq_spec in Q. subst b.
    exists (rev r). rewrite <- (rev_involutive (trail s)), E. reflexivity.
Qed.
Lemma step_trail fuel s e s' o : step fuel s e = Some (s', o) ->
  trail s' = trail s \/ exists p, e = EPose p /\ trail s' = trail s ++ [cell p] /\ match rev (trail s) with [] => True | b :: _ => b <> cell p end.
Proof using Type.
  intros E. pose proof (step_frame _ _ _ _ _ _ _ _ _ _ _ _ _ _ _ E) as Fr.
  destruct e; try (left; apply Fr); try (left; apply (proj2 Fr)).
  - cbn [nstep] in E. injection E as <- <-. rewrite position_trail.
    destruct (negb _ && _) eqn:B; [|left; reflexivity]. right. exists p. split; [reflexivity|]. split; [reflexivity|].
    apply andb_true_iff in B. destruct B as (_ & B). destruct (rev (trail s)); [exact I|].
    intros ->. rewrite negb_true_iff in B. assert (ceq (cell p) (cell p) = true) by (apply ceq_spec; reflexivity). congruence.
  - left. cbn [nstep] in E. apply plannerLoop_goals in E. destruct E as (a & _ & _ & T & _). exact T.
Qed.
Lemma run_trail fuel es : forall s s' o, run fuel s es = Some (s', o) -> linked (fun a b => a <> b) (trail s) ->
  linked (fun a b => a <> b) (trail s') /\
  exists l, trail s' = trail s ++ l /\ subseq l (map (fun p => cell p) (poses_of es)).
Proof using Type.
  induction es as [|e es IH]; intros s s' o E L; cbn [nrun] in E.
  - injection E as <- <-. split; [exact L|]. exists []. rewrite app_nil_r. split; [reflexivity|constructor].
  - destruct (step fuel s e) as [[s1 o1]|] eqn:E1; [|discriminate]. destruct (run fuel s1 es) as [[s2 o2]|] eqn:E2; [|discriminate].
    injection E as <- <-. apply step_trail in E1. destruct E1 as [T|(p & -> & T & B)].
    + rewrite <- T in L. destruct (IH _ _ _ E2 L) as (A & l & D & S). split; [exact A|]. exists l. rewrite D, T. split; [reflexivity|].
      destruct e; cbn [poses_of]; try exact S. cbn [map]. apply ss_drop. exact S.
    + assert (L1 : linked (fun a b => a <> b) (trail s1)). { rewrite T. apply linked_snoc; [exact L|]. destruct (rev (trail s)); auto. }
      destruct (IH _ _ _ E2 L1) as (A & l & D & S). split; [exact A|]. exists (cell p :: l). rewrite D, T, <- app_assoc. split; [reflexivity|].
      cbn [poses_of map]. constructor. exact S.
Qed.

(** going back *)
Lemma back_index_bound risk i l k : back_index N risk i l = Some k -> (i <= k)%Z /\ (k - i < Z.of_nat (length l) - 1)%Z /\ (5 < k)%Z /\
  exists c, nth_error l (Z.to_nat (k - i)) = Some c /\ ltb N (risk c) (cst N 1 2) = true.
Proof using Type.
  revert i. induction l as [|c l IH]; intros i H; [discriminate|]. cbn [back_index] in H. destruct l as [|d l]; [discriminate|].
  destruct ((5 <? i)%Z && ltb N (risk c) (cst N 1 2)) eqn:B.
  - injection H as <-. apply andb_true_iff in B. destruct B as (B1 & B2). apply Z.ltb_lt in B1. cbn [length].
    repeat split; try lia. exists c. rewrite Z.sub_diag. auto.
  - apply IH in H. destruct H as (H1 & H2 & H3 & c' & H4 & H5). cbn [length] in *. repeat split; try lia.
    exists c'. split; [|exact H5]. replace (Z.to_nat (k - i)) with (S (Z.to_nat (k - (i + 1)))) by lia. exact H4.
Qed.
Lemma goBack_spec (g : gplanner N) : g_back g <> [] ->
  exists g', goBack N cl rnd prob P g = Some g' /\ g_going_back g' = true /\
    (exists n, g_path g' = firstn n (rev (g_back g)) /\ g_path g' <> [] /\ gc_cell (g_goal g') = last (g_path g') (C3 0 0 0) /\
       ((n = length (g_back g) /\ g_back g' = g_back g) \/
        ((7 <= n < length (g_back g))%nat /\ g_back g' = firstn (length (g_back g) - n - 1) (g_back g) /\
         ltb N (g_risk N cl rnd prob P g (gc_cell (g_goal g'))) (cst N 1 2) = true))).
Proof using Type.
  intros NE. unfold goBack. destruct (rev (g_back g)) as [|c0 rest] eqn:ER.
  { apply (f_equal (@rev gcell)) in ER. rewrite rev_involutive in ER. cbn in ER. congruence. }
  assert (LEN : length (g_back g) = S (length rest)) by (rewrite <- rev_length, ER; reflexivity).
  destruct (back_index N (g_risk N cl rnd prob P g) 1 rest) as [i|] eqn:EB.
  - apply back_index_bound in EB. destruct EB as (B1 & B2 & B3 & c & B4 & B5).
    destruct (Z.ltb_spec (Z.of_nat (length (g_back g)) - i - 2) 0) as [L|L]; [lia|].
    eexists. split; [reflexivity|]. cbn [g_going_back g_path g_goal gc_cell g_back]. split; [reflexivity|].
    exists (Z.to_nat (i + 1)). split; [reflexivity|]. rewrite LEN.
    replace (Z.to_nat (i + 1)) with (S (Z.to_nat i)) by lia. cbn [firstn].
    split; [discriminate|]. split; [rewrite !last_cons_eq; reflexivity|]. right. split; [lia|]. split; [f_equal; lia|].
    assert (LC : last (c0 :: firstn (Z.to_nat i) rest) c0 = c).
    { rewrite last_cons_eq. clear - B1 B4. replace (Z.to_nat i) with (S (Z.to_nat (i - 1))) by lia. revert B4. generalize (Z.to_nat (i - 1)). intros n.
      revert rest c0. induction n as [|n IH]; intros [|d rest] c0 H; try discriminate; cbn in H.
      - injection H as ->. reflexivity.
      - cbn [firstn]. rewrite last_cons_eq. apply (IH rest d H). }
    rewrite LC. exact B5.
  - eexists. split; [reflexivity|]. cbn [g_going_back g_path g_goal gc_cell g_back]. split; [reflexivity|].
    exists (length (g_back g)). split; [rewrite LEN; cbn [firstn]; rewrite firstn_all; reflexivity|].
    split; [discriminate|]. split; [rewrite !last_cons_eq; reflexivity|]. left. auto.
Qed.

(** the risk cache *)
Notation getR m k c := (getRiskC N cl rnd prob P m k c).
Notation eff m k c := (effRisk N cl rnd prob P m k c).
Lemma getRiskC_transparent m k c r k' : getR m k c = Some (r, k') -> forall d, getR m k' d = match getR m k d with Some (x, _) => Some (x, match cache_find N k' d with Some _ => k' | None => (d, x) :: k' end) | None => None end.
Proof using Type.
  unfold getRiskC. destruct (cache_find N k c) as [x|] eqn:E.
  - intros [= <- <-] d. destruct (cache_find N k d); [reflexivity|]. destruct (freshRisk _ _ _ _ _ _ d); reflexivity.
  - destruct (freshRisk N cl rnd prob P m c) as [x|] eqn:F; [|discriminate]. intros [= <- <-] d. cbn [cache_find].
    destruct (ceq c d) eqn:Q.
    + apply ceq_spec in Q. subst d. rewrite E, F. reflexivity.
    + destruct (cache_find N k d); [reflexivity|]. destruct (freshRisk _ _ _ _ _ _ d); reflexivity.
Qed.
Lemma eff_getRiskC m k c r k' d : getR m k c = Some (r, k') -> eff m k' d = eff m k d.
Proof using Type.
  intros H. unfold effRisk. rewrite (getRiskC_transparent m k c r k' H d). destruct (getR m k d) as [[x q]|]; reflexivity.
Qed.
Lemma eff_touch g cells d : g_risk N cl rnd prob P (touch N cl rnd prob C g cells) d = g_risk N cl rnd prob P g d.
Proof using Type.
  unfold g_risk, touch. cbn [g_map g_cache]. generalize (g_cache g). induction cells as [|c l IH]; intros k; [reflexivity|].
  cbn [fold_left]. rewrite IH. destruct (getR (g_map g) k c) as [[r k']|] eqn:E; [|reflexivity]. eapply eff_getRiskC; eauto.
Qed.
End TrailP.
