(** Proofs about GlobalPlanner::findPath and getGlobalPath, over the reals. *)
From Coq Require Import ZArith Reals List Bool Lia Lra.
From Flocq Require Import Core.
From Verif Require Import Num CommonModel CommonSpec GpModel GpSearch GpPlan GpSpec GpPlanSpec GpProofs GpArith GpProofs2 GpCellProofs GpMiscProofs GpCostProofs.
Import ListNotations.
Local Open Scope R_scope.

Section Plan.
Context (N : num) (ltinf : N -> bool) (A : arith N ltinf).
Context (G : trig N) (fl cl rnd : N -> Z) (prob : N -> N)
        (popS : list (ptr * N) -> option ((ptr * N) * list (ptr * N)))
        (popO : list (gcell * N) -> option ((gcell * N) * list (gcell * N))).
Hypothesis Hprob : prob_ok prob.
Hypothesis HS : is_pop popS.
Hypothesis HO : is_pop popO.
Context (P : gcfg N).
Hypothesis HP : sane P.
Notation sc := (cell_scale P).
Notation risk g := (g_risk N cl rnd prob P g).
Notation legal g := (isLegal N fl P (risk g)).
Notation search g over k s t mi :=
  (findSmoothPath N sc (speednode_radius P) (legal g) (getEdgeCost N G fl P (risk g) (g_pos g) (g_vel g))
     (getHeuristic N G rnd P (risk g) over (gc_cell t)) ltinf popS (Nd k (fst s) (snd s)) t mi).

Lemma risk_nonneg g : cache_nonneg (g_cache g) -> forall c, nneg (risk g c).
Proof using A HP Hprob. intros H c. eapply effRisk_nonneg; eauto. Qed.

Lemma search_spec g over k s par t mi : cache_nonneg (g_cache g) ->
  exists found it path, search g over k (s, par) t mi = Some (found, it, path) /\ (0 <= it <= Z.max 0 mi)%Z /\
    (found = false -> path = []) /\
    (found = true -> exists l, path = par :: s :: l /\
        flyable N sc (speednode_radius P) (legal g) k par s l /\ withinPlanRadius N sc t (last l s) = true).
Proof using A HP Hprob HS.
  intros Hc.
  destruct (findSmoothPath_spec N sc (speednode_radius P) (legal g) (getEdgeCost N G fl P (risk g) (g_pos g) (g_vel g))
     (getHeuristic N G rnd P (risk g) over (gc_cell t)) ltinf popS (ok A) (val A) (ar_ltb N ltinf A) (ar_ltinf N ltinf A) (ar_zero N ltinf A))
     with (s := Nd k s par) (t := t) (mi := mi)
     as (found & it & path & X & B & C & D); auto.
  { intros d u v c Hd H0 _ Hv Ho. apply (ar_step N ltinf A); auto. eapply (edgeCost_nonneg N ltinf A); eauto. apply risk_nonneg. exact Hc. }
  exists found, it, path. cbn [fst snd]. rewrite X. auto.
Qed.

Notation good_path := (good_path N fl cl rnd prob P).
Lemma loop_good fuel g s par : cache_nonneg (g_cache g) -> forall over left last found p b q o,
  (found = true -> good_path g s par p) -> (found = false -> p = []) ->
  findPath_loop N G fl cl rnd prob ltinf popS fuel P g s par over left last found p = Some (b, q, o) ->
  (b = true -> good_path g s par q) /\ (b = false -> q = []).
Proof using A HP Hprob HS.
  intros Hc. induction fuel as [|f IH]; intros over left last found p b q o H1 H2 E; [discriminate|].
  cbn [findPath_loop] in E. destruct (leb N (min_overestimate P) over && (last <? left)%Z).
  2: { injection E as <- <- <-. auto. }
  set (k := if ltb N (cst N 3 2) over then KNoSmooth else node_type P) in E.
  destruct (search_spec g over k s par (g_goal g) left Hc) as (fo & it & np & X0 & _ & B & D). cbn [fst snd] in X0. rewrite X0 in E.
  destruct fo.
  - eapply IH in E; [exact E| |discriminate]. intros _. destruct (D eq_refl) as (l & X & Y & Z). exists k, l. auto.
  - injection E as <- <- <-. auto.
Qed.

(** the fallback *)
Notation ostep g d3 t := (open_step (risk g) (risk_factor P) (max_cell_risk P) (min_altitude P) (max_altitude P) d3 t).
Notation above := (above N fl P).
Notation fallback_path := (fallback_path N fl cl rnd prob P).
Lemma last_indep {X} (a : X) l d : last (a :: l) d = last (a :: l) a.
Proof using Type. rewrite !last_cons_eq. reflexivity. Qed.
Lemma fallback_spec g s par over mi : cache_nonneg (g_cache g) ->
  exists b p, find2DPath N sc (risk g) ltinf (up_cost P) (down_cost P) (risk_factor P) (max_cell_risk P) over (min_altitude P)
                (max_altitude P) popO fl mi s (gc_cell (g_goal g)) par (max_altitude P) = Some (b, p) /\
    (b = true -> fallback_path g s p) /\ (b = false -> p = []).
Proof using A HP Hprob HO.
  intros Hc. unfold find2DPath. fold (above s) (above (gc_cell (g_goal g))).
  change (cell_of N fl sc (V3 (ofZ N (cx s)) (ofZ N (cy s)) (ofZ N (max_altitude P)))) with (above s).
  set (t := gc_cell (g_goal g)) in *.
  change (cell_of N fl sc (V3 (ofZ N (cx t)) (ofZ N (cy t)) (ofZ N (max_altitude P)))) with (above t).
  pose proof (findPathOld_spec N ltinf A sc (risk g) (up_cost P) (down_cost P) (risk_factor P) (max_cell_risk P) over (min_altitude P) (max_altitude P) popO
    (risk_nonneg g Hc) (sane_up P HP) (sane_down P HP) (sane_risk P HP) HO mi) as F.
  destruct (F s (above s) s true) as (b1 & p1 & -> & _ & D1).
  destruct (F (above t) t (above t) true) as (b2 & p2 & -> & _ & D2).
  destruct (F (above s) (above t) (above s) false) as (b3 & p3 & -> & _ & D3).
  destruct (b1 && b3 && b2) eqn:E.
  - apply andb_true_iff in E. destruct E as (E & E2). apply andb_true_iff in E. destruct E as (E1 & E3).
    destruct (D1 E1) as (l1 & -> & L1 & K1). destruct (D2 E2) as (l2 & -> & L2 & K2). destruct (D3 E3) as (l3 & -> & L3 & K3).
    eexists true, _. split; [reflexivity|]. split; [|discriminate]. intros _. exists l1, l3, l2.
    split; [reflexivity|]. split; [exact K1|]. split; [exact L1|]. split; [exact K3|]. split; [rewrite last_indep; exact L3|].
    split; [exact K2|]. rewrite last_indep; exact L2.
  - eexists false, _. split; [reflexivity|]. split; [discriminate|reflexivity].
Qed.

Notation start_cell := (start_cell N fl P).
Notation behind_cell := (behind_cell N fl P).
Lemma findPath_spec fuel g b p g' : cache_nonneg (g_cache g) ->
  findPath N G fl cl rnd prob ltinf popS popO fuel P g = Some (b, p, g') ->
  (b = true -> good_path g (start_cell g) (behind_cell g) p \/ fallback_path g (start_cell g) p) /\ (b = false -> p = []) /\
  g_path g' = g_path g /\ g_goal g' = g_goal g /\ g_cache g' = g_cache g /\ g_map g' = g_map g /\ g_back g' = g_back g /\ g_pos g' = g_pos g /\ g_vel g' = g_vel g
  /\ (g_max_iter g' = g_max_iter g \/ g_max_iter g' = 5000%Z).
Proof using A HP Hprob HS HO.
  intros Hc. unfold findPath. fold (start_cell g) (behind_cell g).
  destruct (findPath_loop _ _ _ _ _ _ _ _ fuel P g (start_cell g) (behind_cell g) _ _ _ _ _) as [[[fo q] o]|] eqn:E; [|discriminate].
  eapply loop_good in E; eauto; [|discriminate]. destruct E as (E1 & E2). destruct fo.
  - intros [= <- <- <-]. cbn. split; [auto|]. split; [discriminate|]. repeat split; auto.
  - destruct (fallback_spec g (start_cell g) (behind_cell g) o 5000 Hc) as (b2 & p2 & -> & F1 & F2).
    intros [= <- <- <-]. cbn. destruct b2; (split; [auto|]; try discriminate); (split; [auto; discriminate|]); repeat split; auto.
Qed.
End Plan.

Lemma path_cost_dist G P risk pos vel k : sane P -> (forall c, nneg (risk c)) -> forall l p c x,
  path_cost G P risk pos vel k p c l = Some x -> path_dist P c l <= x.
Proof.
  intros HP Hr. induction l as [|d l IH]; intros p c x; cbn [path_cost path_dist].
  - intros H. apply some_inj in H. lra.
  - destruct (getEdgeCost _ _ _ _ _ _ _ _ _) eqn:E; [|discriminate]. destruct (path_cost G P risk pos vel k c d l) eqn:F; [|discriminate].
    intros H. apply some_inj in H. apply IH in F. apply (edgeCost_parts Rn anyinf arithR) in E; auto. destruct E as (ri & sm & Hri & Hsm & ->). apply nneg_R in Hri, Hsm. rewrite <- H. cbn [n_cell]. rn. tR. lra.
Qed.

Section Global.
Context (N : num) (ltinf : N -> bool) (A : arith N ltinf).
Context (G : trig N) (fl cl rnd : N -> Z) (prob : N -> N)
        (popS : list (ptr * N) -> option ((ptr * N) * list (ptr * N)))
        (popO : list (gcell * N) -> option ((gcell * N) * list (gcell * N))).
Hypothesis Hprob : prob_ok prob.
Hypothesis HS : is_pop popS.
Hypothesis HO : is_pop popO.
Context (P : gcfg N).
Hypothesis HP : sane P.
Lemma getGlobalPath_spec fuel g b g' : cache_nonneg (g_cache g) ->
  getGlobalPath N G fl cl rnd prob ltinf popS popO fuel P g = Some (b, g') ->
  (b = true -> (good_path N fl cl rnd prob P g (start_cell N fl P g) (behind_cell N fl P g) (g_path g') \/ fallback_path N fl cl rnd prob P g (start_cell N fl P g) (g_path g')) /\
     isOccupied N rnd prob P (g_map g) (cell_of N fl (cell_scale P) (g_pos g)) = false /\
     (goal_must_be_free P = true -> ltb N (max_cell_risk P) (g_risk N cl rnd prob P g (gc_cell (g_goal g))) = false) /\
     g_goal_blocked g' = g_goal_blocked g) /\
  (b = false -> g_path g' = g_path g) /\
  g_goal g' = g_goal g /\ g_map g' = g_map g /\ g_cache g' = g_cache g /\ g_back g' = g_back g /\ g_pos g' = g_pos g.
Proof using A HP Hprob HS HO.
  intros Hc. unfold getGlobalPath. cbv zeta.
  destruct (goal_must_be_free P && _); [discriminate|].
  destruct (goal_must_be_free P && ltb N (max_cell_risk P) _) eqn:EG.
  { intros [= <- <-]. split; [discriminate|]. split; [reflexivity|]. repeat split; reflexivity. }
  destruct (isOccupied _ _ _ _ _ _) eqn:EO.
  { intros [= <- <-]. split; [discriminate|]. split; [reflexivity|]. repeat split; reflexivity. }
  destruct (findPath _ _ _ _ _ _ _ _ _ fuel P g) as [[[fb p] g1]|] eqn:EF; [|discriminate].
  eapply findPath_spec in EF; eauto. destruct EF as (F1 & F2 & F3 & F4 & F5 & F6 & F7 & F8 & _).
  destruct fb; intros [= <- <-]; cbn.
  - split; [|split; [discriminate|repeat split; assumption]]. intros _. split; [apply F1; reflexivity|]. split; [reflexivity|].
    split; [|reflexivity]. intros X. rewrite X in EG. cbn [andb] in EG. exact EG.
  - split; [discriminate|]. split; [auto|repeat split; assumption].
Qed.
End Global.

(* ---------------------------------------------------------------- termination *)
Section Term.
Context (N : num) (ltinf : N -> bool) (A : arith N ltinf).
Context (G : trig N) (fl cl rnd : N -> Z) (prob : N -> N)
        (popS : list (ptr * N) -> option ((ptr * N) * list (ptr * N))) (popO : list (gcell * N) -> option ((gcell * N) * list (gcell * N))).
Hypothesis Hprob : prob_ok prob.
Hypothesis HS : is_pop popS.
Hypothesis HO : is_pop popO.
Context (P : gcfg N).
Hypothesis HP : sane P.
Notation sc := (cell_scale P).
Notation risk g := (g_risk N cl rnd prob P g).
Notation legal g := (isLegal N fl P (risk g)).
Notation search g over k s t mi :=
  (findSmoothPath N sc (speednode_radius P) (legal g) (getEdgeCost N G fl P (risk g) (g_pos g) (g_vel g))
     (getHeuristic N G rnd P (risk g) over (gc_cell t)) ltinf popS (Nd k (fst s) (snd s)) t mi).
(** the next overestimation factor *)
Definition lower (over : N) : N := add N (div N (sub N over (ofZ N 1)) (ofZ N 4)) (ofZ N 1).
(** [small n over]: after at most n reductions the factor is below the minimum *)
Fixpoint small (n : nat) (over : N) : Prop :=
  leb N (min_overestimate P) over = false \/ match n with O => False | S n' => small n' (lower over) end.
Lemma loop_total g s par : cache_nonneg (g_cache g) -> forall n over left last found p, small n over ->
  findPath_loop N G fl cl rnd prob ltinf popS (S n) P g s par over left last found p <> None.
Proof using A HP Hprob HS.
  intros Hc. induction n as [|n IH]; intros over left last found p Hn E.
  - cbn [findPath_loop] in E. destruct Hn as [L|[]]. rewrite L in E. discriminate.
  - remember (S n) as m. cbn [findPath_loop] in E. destruct (leb N (min_overestimate P) over) eqn:L; [|discriminate].
    destruct ((last <? left)%Z); [|discriminate]. cbn [andb] in E.
    set (k := if ltb N (cst N 3 2) over then KNoSmooth else node_type P) in E.
    destruct (search_spec N ltinf A G fl cl rnd prob popS Hprob HS P HP g over k s par (g_goal g) left Hc) as (fo & it & np & X & _ & B & D). cbn [fst snd] in X. rewrite X in E.
    destruct fo; [|discriminate]. subst m. cbn [small] in Hn. destruct Hn as [Hn|Hn]; [congruence|]. eapply IH; [|exact E]. exact Hn.
Qed.
Lemma findPath_total g n : cache_nonneg (g_cache g) -> small n (max_overestimate P) ->
  findPath N G fl cl rnd prob ltinf popS popO (S n) P g <> None.
Proof using A HP Hprob HS HO.
  intros Hc Hn. unfold findPath. cbv zeta.
  destruct (findPath_loop _ _ _ _ _ _ _ _ _ _ _ _ _ _ _ _ _ _) as [[[b p] o]|] eqn:E.
  2: { exfalso. revert E. apply loop_total; assumption. }
  destruct b; [discriminate|].
  match goal with |- context [find2DPath _ _ _ _ _ _ _ _ ?o _ _ _ _ ?mi ?s _ ?par _] =>
    destruct (fallback_spec N ltinf A fl cl rnd prob popO Hprob HO P HP g s par o mi Hc) as (b & q & X & _) end.
  rewrite X. discriminate.
Qed.

(** The search goes on for ever if the start is already inside the goal and the factor is never small enough. *)
Lemma smooth_at_goal k s par t mi g over : (0 < mi)%Z -> withinPlanRadius N sc t s = true ->
  search g over k (s, par) t mi = Some (true, 0%Z, [par; s]).
Proof using HS.
  intros Hm Hw. unfold findSmoothPath. cbn [fst snd].
  replace (Z.to_nat (12 * Z.max 0 mi + 2)) with (S (Z.to_nat (12 * Z.max 0 mi + 1))) by lia.
  cbn [astar a_init a_iter a_pq a_seen]. replace (0 <? mi)%Z with true by (symmetry; apply Z.ltb_lt; exact Hm).
  destruct (popS [(Ptr (Nd k s par) true, ofZ N 0)]) as [[[u pr] q]|] eqn:E.
  - destruct HS as (_ & PS). apply PS in E. apply Permutation.Permutation_length_1_inv in E. injection E as -> -> ->.
    cbn [existsb a_seen]. cbn [p_node n_cell]. rewrite Hw. cbn [a_par length walk p_start map app rev a_iter n_par]. reflexivity.
  - destruct HS as (PN & _). apply PN in E. discriminate.
Qed.
Lemma loop_diverges (I : N -> Prop) g s par : (0 < g_max_iter g)%Z -> withinPlanRadius N sc (g_goal g) s = true ->
  (forall over, I over -> leb N (min_overestimate P) over = true /\ I (lower over)) ->
  forall fuel over found p, I over ->
  findPath_loop N G fl cl rnd prob ltinf popS fuel P g s par over (g_max_iter g) 0 found p = None.
Proof using HS.
  intros Hm Hw H1. induction fuel as [|f IH]; intros over found p Ho; [reflexivity|].
  cbn [findPath_loop]. destruct (H1 over Ho) as (L & Hl).
  rewrite L. replace (0 <? g_max_iter g)%Z with true by (symmetry; apply Z.ltb_lt; exact Hm). cbn [andb].
  set (k := if ltb N (cst N 3 2) over then KNoSmooth else node_type P).
  pose proof (smooth_at_goal k s par (g_goal g) (g_max_iter g) g over Hm Hw) as X. cbn [fst snd] in X. rewrite X.
  rewrite Z.sub_0_r. apply IH. exact Hl.
Qed.
End Term.

(** over the reals *)
Lemma small_R (P : gcfg Rn) : forall n over, over - 1 < 4 ^ n * (min_overestimate P - 1) -> small Rn P n over.
Proof.
  induction n as [|n IH]; intros over H; cbn [small pow] in *.
  - left. rn. apply R_leb_false. tR. lra.
  - right. apply IH. unfold lower. rn. tR. lra.
Qed.
Lemma pow4_unbounded (x e : R) : 0 < e -> exists n, x < 4 ^ n * e.
Proof.
  intros He. destruct (Pow_x_infinity 4 ltac:(rewrite Rabs_pos_eq; lra) (x / e + 1)) as (n & Hn).
  exists n. specialize (Hn n (le_n _)). rewrite Rabs_pos_eq in Hn by (apply pow_le; lra).
  assert (x / e < 4 ^ n) by lra. apply Rmult_lt_compat_r with (r := e) in H; [|lra].
  replace (x / e * e) with x in H by (field; lra). exact H.
Qed.
