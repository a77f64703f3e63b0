(** Proofs about the searches. *)
From Coq Require Import ZArith Reals List Bool Lia Permutation.
From Flocq Require Import Core BinarySingleNaN.
From Verif Require Import Num Num64 CommonModel CommonSpec GpModel GpSearch GpAstar GpSpec.
Import ListNotations.
Local Open Scope Z_scope.

Lemma neighbors_adjacent a b : In b (cell_neighbors a) <-> adjacent a b.
Proof.
  destruct a as [x y z], b as [x' y' z']. unfold cell_neighbors, adjacent. cbn [cx cy cz In]. split.
  - intros H. repeat destruct H as [H|H]; try contradiction; injection H as <- <- <-;
      (split; [intros [=]; lia|]); lia.
  - intros (NE & [(A & B & C)|(A & B & C)]).
    + assert (x' = x - 1 \/ x' = x \/ x' = x + 1)%Z as [-> | [-> | ->]] by lia;
      assert (y' = y - 1 \/ y' = y \/ y' = y + 1)%Z as [-> | [-> | ->]] by lia; subst z'; try tauto.
    + subst. assert (z' = z - 1 \/ z' = z \/ z' = z + 1)%Z as [-> | [-> | ->]] by lia; tauto.
Qed.
Lemma offered_spec (N : num) (sc rad : N) k p c d :
  In (Nd k d c) (getNeighbors N sc rad (Nd k c p)) <-> offered N sc rad k p c d.
Proof.
  unfold getNeighbors, offered, nextNode. cbn [n_kind n_cell n_par].
  assert (M : forall l, In (Nd k d c) (map (fun x => Nd k x c) l) <-> In d l).
  { intros l. rewrite in_map_iff. split; [intros (x & [= ->] & H); exact H|intros H; exists d; auto]. }
  destruct k; try (rewrite M; apply neighbors_adjacent).
  replace (cadd (csub c p) c) with (C3 (2 * cx c - cx p) (2 * cy c - cy p) (2 * cz c - cz p)).
  2:{ unfold cadd, csub. cbn [cx cy cz]. f_equal; lia. }
  cbn [In]. rewrite M, filter_In, andb_true_iff, neighbors_adjacent.
  split; (intros [H|H]; [left|right; exact H]); [injection H as H; symmetry; exact H|rewrite H; reflexivity].
Qed.

Lemma ceq_spec a b : ceq a b = true <-> a = b.
Proof.
  destruct a as [a1 a2 a3], b as [b1 b2 b3]. unfold ceq. cbn [cx cy cz].
  rewrite !andb_true_iff, !Z.eqb_eq. split; [intros ((-> & ->) & ->); auto|intros [= -> -> ->]; auto].
Qed.
Lemma filter_length_le {A} (f : A -> bool) l : (length (filter f l) <= length l)%nat.
Proof. induction l as [|a l IH]; cbn; auto. destruct (f a); cbn; lia. Qed.
Lemma last_cons_eq {A} (l : list A) c d : last (c :: l) d = last l c.
Proof. revert c d. induction l as [|a l IH]; intros; [reflexivity|]. change (last (a :: l) d = last (a :: l) c). rewrite !IH. reflexivity. Qed.
Lemma is_pop_min {K} (N : num) : is_pop (@pop_min K N).
Proof.
  split.
  - intros [|x q]; cbn; auto. destruct (pop_min N q) as [[y r]|]; [destruct (ltb N (snd y) (snd x))|]; discriminate.
  - induction q as [|x q IH]; cbn; intros y q' H; [discriminate|].
    destruct (pop_min N q) as [[z r]|] eqn:E.
    + destruct (ltb N (snd z) (snd x)); injection H as <- <-; [|reflexivity].
      rewrite (IH _ _ eq_refl). apply perm_swap.
    + injection H as <- <-. reflexivity.
Qed.

Section SmoothProofs.
Context (N : num) (sc rad : N) (legal : gnode -> bool) (edgeCost : gnode -> gnode -> option N)
        (heur : list gcell -> gnode -> N) (ltinf : N -> bool) (pop : list (ptr * N) -> option ((ptr * N) * list (ptr * N))).
Context (ok : N -> Prop) (val : N -> R).
Hypothesis ltb_val : forall a b : N, ltb N a b = true <-> ok a /\ ok b /\ (val a < val b)%R.
Hypothesis ltinf_ok : forall a, ltinf a = true -> ok a.
Hypothesis zero_ok : ok (ofZ N 0) /\ val (ofZ N 0) = 0%R.
Hypothesis add_mono : forall d u v c, ok d -> (0 <= val d)%R -> legal v = true -> edgeCost u v = Some c -> ok (add N d c) ->
  (val d <= val (add N d c))%R.
Hypothesis popH : is_pop pop.
Context (s : gnode) (t : goalcell N).

Definition sdom (p : ptr) : Prop := n_kind (p_node p) = n_kind s.
Definition srep (p : ptr) : gcell * option gcell :=
  (n_cell (p_node p), match n_kind s with KNoSmooth => None | _ => Some (n_par (p_node p)) end).
Lemma s_keq a b : sdom a -> sdom b -> (ptr_eq a b = true <-> srep a = srep b).
Proof using Type.
  unfold sdom, ptr_eq, srep, isEqual. intros A B. rewrite A. destruct (n_kind s).
  - rewrite andb_true_iff, !ceq_spec. split; [intros (-> & ->); auto|intros [= -> ->]; auto].
  - rewrite ceq_spec. split; [intros ->; auto|intros [= ->]; auto].
  - rewrite andb_true_iff, !ceq_spec. split; [intros (-> & ->); auto|intros [= -> ->]; auto].
Qed.
Lemma neigh_kind (u v : gnode) : In v (getNeighbors N sc rad u) -> n_kind v = n_kind u /\ n_par v = n_cell u.
Proof using Type.
  unfold getNeighbors. destruct (n_kind u) eqn:E; intros H.
  - apply in_map_iff in H. destruct H as (c & <- & _). cbn. auto.
  - apply in_map_iff in H. destruct H as (c & <- & _). cbn. auto.
  - destruct H as [<-|H]; [cbn; auto|]. apply in_map_iff in H. destruct H as (c & <- & _). cbn. auto.
Qed.
Lemma smooth_next_spec u v : In v (smooth_next N sc rad legal u) <->
  In (p_node v) (getNeighbors N sc rad (p_node u)) /\ legal (p_node v) = true /\ p_start v = false.
Proof using Type.
  clear zero_ok.
  unfold smooth_next. rewrite in_map_iff. split.
  - intros (x & <- & H). apply filter_In in H. cbn. tauto.
  - intros (A & B & C). exists (p_node v). split; [destruct v; cbn in *; subst; reflexivity|]. apply filter_In. auto.
Qed.
Lemma s_dom_next u v : sdom u -> In v (smooth_next N sc rad legal u) -> sdom v.
Proof using Type. unfold sdom. intros A B. apply smooth_next_spec in B. destruct B as (B & _). apply neigh_kind in B. destruct B. congruence. Qed.
Lemma s_len u : (length (smooth_next N sc rad legal u) <= 11)%nat.
Proof using Type.
  unfold smooth_next. rewrite map_length. etransitivity; [apply filter_length_le|].
  unfold getNeighbors. destruct (n_kind (p_node u)); cbn [length]; rewrite ?map_length; try (cbn; lia).
  apply le_n_S. etransitivity; [apply filter_length_le|]. cbn. lia.
Qed.
Lemma s_relax_mono d u v nd : sdom u -> In v (smooth_next N sc rad legal u) -> ok d -> (0 <= val d)%R ->
  smooth_relax N edgeCost d u v = Some nd -> ok nd -> (val d <= val nd)%R.
Proof using add_mono.
  intros _ H A B C D. apply smooth_next_spec in H. unfold smooth_relax in C.
  destruct (edgeCost (p_node u) (p_node v)) eqn:E; [|discriminate]. injection C as <-. eapply add_mono; eauto. destruct H as (_ & X & _); exact X.
Qed.
Notation sp := (Ptr s true).
Notation run f mi := (astar N ptr ptr_eq (smooth_next N sc rad legal) (smooth_relax N edgeCost) (smooth_heur N heur) ltinf pop
              (fun p => withinPlanRadius N sc t (n_cell (p_node p))) false f mi (a_init N ptr sp)).
Definition sinv := inv N ptr (gcell * option gcell) ptr_eq (smooth_next N sc rad legal) sp sdom srep ok val.

Lemma dom_sp : sdom sp. Proof using Type. reflexivity. Qed.

(* pointers that are the start's are the start *)
Definition flagged (p : ptr) : Prop := p_start p = true -> p = sp.
Lemma edges_flyable u l : sdom u -> edges ptr (gcell * option gcell) (smooth_next N sc rad legal) sdom srep u l ->
  forall p, (n_kind s <> KNoSmooth -> p = n_par (p_node u)) ->
  flyable N sc rad legal (n_kind s) p (n_cell (p_node u)) (map (fun q => n_cell (p_node q)) l).
Proof using Type.
  intros Du E. induction E as [u|u v l v' Hin R Dv E IH]; intros p Hp; cbn [flyable map]; [exact I|].
  unfold sdom in Du.
  apply smooth_next_spec in Hin. destruct Hin as (Hn & Hl & _).
  destruct (neigh_kind _ _ Hn) as (Hk & Hpar).
  assert (Hc : n_cell (p_node v') = n_cell (p_node v)) by (unfold srep in R; congruence).
  assert (Hv' : p_node v' = Nd (n_kind s) (n_cell (p_node v)) (n_cell (p_node u))).
  { destruct (p_node v') as [k c q]; cbn [n_kind n_cell n_par] in *. rewrite Du in Hk. congruence. }
  rewrite Hv' in Hn, Hl. split; [|split; [exact Hl|]].
  - apply offered_spec. unfold getNeighbors in *. rewrite Du in Hn. cbn [n_kind n_cell n_par]. destruct (n_kind s) eqn:EK; cbn [nextNode n_kind n_cell] in *.
    + unfold nextNode in *. rewrite Du in Hn. exact Hn.
    + unfold nextNode in *. rewrite Du in Hn. exact Hn.
    + rewrite Hp by discriminate. unfold nextNode in *. rewrite Du in Hn. exact Hn.
  - apply IH; auto. intros NE.
    assert (n_par (p_node v') = n_par (p_node v)).
    { unfold srep in R. destruct (n_kind s); try congruence. }
    rewrite Hv' in H. exact H.
Qed.

Lemma last_map {A B} (f : A -> B) l d : last (map f l) (f d) = f (last l d).
Proof using Type. induction l as [|a [|b l] IH]; cbn in *; auto. Qed.

(* start flags: only the start pointer carries the flag, in queue and parent map *)
Lemma flag_next u v : In v (smooth_next N sc rad legal u) -> p_start v = false.
Proof using Type. clear zero_ok. intros H. apply smooth_next_spec in H. tauto. Qed.
Definition finv (a : astate N ptr) : Prop :=
  (forall k p, In (k, p) (a_pq a) -> flagged k) /\ (forall k p, In (k, p) (a_par a) -> flagged k /\ flagged p).
Lemma flag_astar f mi a r a' : finv a ->
  astar N ptr ptr_eq (smooth_next N sc rad legal) (smooth_relax N edgeCost) (smooth_heur N heur) ltinf pop
              (fun p => withinPlanRadius N sc t (n_cell (p_node p))) false f mi a = Some (r, a') ->
  finv a' /\ match r with Some g => flagged g | None => True end.
Proof using popH.
  revert a. induction f as [|f IH]; intros a F H; cbn [astar] in H; [discriminate|].
  destruct (a_iter a <? mi); [|injection H as <- <-; auto].
  destruct (pop (a_pq a)) as [[[u p] q]|] eqn:EP; [|injection H as <- <-; auto].
  destruct popH as (_ & PS). apply PS in EP.
  assert (Fu : flagged u). { destruct F as (F & _). apply (F u p). eapply Permutation_in; [symmetry; exact EP|]. left; auto. }
  assert (Fq : forall k x, In (k, x) q -> flagged k).
  { intros k x X. destruct F as (F & _). apply (F k x). eapply Permutation_in; [symmetry; exact EP|]. right; auto. }
  cbn [a_pq a_seen a_par a_dist a_vis a_iter] in H.
  destruct (existsb _ (a_seen a)).
  { eapply IH; [|exact H]. split; [exact Fq|]. apply (proj2 F). }
  match type of H with (if ?b then _ else _) = _ => destruct b end.
  { injection H as <- <-. split; [|exact Fu]. split; [exact Fq|]. apply (proj2 F). }
  eapply IH; [|exact H]. unfold expand.
  match goal with |- finv (fold_left ?g _ _) =>
    assert (GG : forall l y, finv y -> incl l (smooth_next N sc rad legal u) -> finv (fold_left g l y));
    [|apply GG; [split; [exact Fq|apply (proj2 F)]|apply incl_refl]] end.
  induction l as [|v l IHl]; intros y Fy Hl; cbn [fold_left]; [exact Fy|].
  apply IHl; [|intros w W; apply Hl; right; auto].
  assert (Fv : flagged v). { intros X. rewrite (flag_next u v) in X; [discriminate|]. apply Hl. left; auto. }
  destruct Fy as (F1 & F2). unfold relax1. destruct (smooth_relax N edgeCost _ u v); [|split; auto].
  match goal with |- context [if ?b then _ else _] => destruct b end; [|split; auto].
  split; cbn [a_pq a_par].
  - intros k x X. apply in_app_iff in X. destruct X as [X|[[= <- <-]|[]]]; eauto.
  - intros k x [[= <- <-]|X]; eauto.
Qed.

Theorem findSmoothPath_spec mi :
  exists found it path, findSmoothPath N sc rad legal edgeCost heur ltinf pop s t mi = Some (found, it, path) /\
    0 <= it <= Z.max 0 mi /\
    (found = false -> path = []) /\
    (found = true -> exists l, path = n_par s :: n_cell s :: l /\
        flyable N sc rad legal (n_kind s) (n_par s) (n_cell s) l /\ withinPlanRadius N sc t (last l (n_cell s)) = true).
Proof using ltb_val ltinf_ok zero_ok add_mono popH.
  unfold findSmoothPath.
  set (F := Z.to_nat (12 * Z.max 0 mi + 2)).
  destruct (astar_total N ptr ptr_eq (smooth_next N sc rad legal) (smooth_relax N edgeCost) (smooth_heur N heur) ltinf pop
    (fun p => withinPlanRadius N sc t (n_cell (p_node p))) false (proj2 popH) 11 F mi (a_init N ptr sp) s_len) as (r & a & E).
  { cbn [a_init a_pq a_iter length]. subst F. lia. }
  rewrite E.
  assert (Hit : 0 <= a_iter a <= Z.max 0 mi). { eapply astar_iter; [| |exact E]; cbn; lia. }
  destruct (astar_inv N ptr (gcell * option gcell) ptr_eq (smooth_next N sc rad legal) (smooth_relax N edgeCost) (smooth_heur N heur) ltinf pop
    (fun p => withinPlanRadius N sc t (n_cell (p_node p))) false sp sdom srep ok val s_keq dom_sp s_dom_next ltb_val ltinf_ok zero_ok s_relax_mono
    (proj2 popH) F mi _ r a (inv_init N ptr _ ptr_eq _ sp sdom srep ok val s_keq dom_sp zero_ok) E) as (I & Hr).
  assert (F0 : finv (a_init N ptr sp)).
  { split; cbn; [|tauto]. intros k p [[= <- <-]|[]]. intros _. reflexivity. }
  destruct (flag_astar F mi _ r a F0 E) as (Fa & Fr).
  destruct r as [g|].
  - destruct Hr as (Hg & Dg & Gs & (d & Ld) & _).
    destruct (i_chain _ _ _ _ _ _ _ _ _ _ _ I g d Dg Ld) as (n & Cn).
    (* the walk stops at the flag; a flagged pointer is the start *)
    assert (Hb : (n <= S (length (a_par a)))%nat).
    { apply Nat.le_le_succ_r. eapply chain_bound; [exact s_keq| |exact Dg|exact Cn]. intros; eapply i_dom_par; eauto. }
    assert (W : exists l, walk ptr ptr_eq (S (length (a_par a))) (a_par a) p_start g = Some l /\
        edges ptr (gcell * option gcell) (smooth_next N sc rad legal) sdom srep sp (rev l) /\ last (rev l) sp = g).
    { clear Hg E Ld. revert Hb Fr Gs. generalize (S (length (a_par a))). 
      induction Cn as [k Ek|k p n NE L C IH]; intros f Hb Fr Gs.
      - rewrite (Gs Ek). exists []. destruct f; cbn; repeat split; auto; constructor.
      - destruct f as [|f]; [lia|]. cbn [walk].
        destruct (p_start k) eqn:EF; [exfalso; apply NE; rewrite (Fr EF); reflexivity|]. rewrite L.
        assert (D' : forall k' v', In (k', v') (a_par a) -> sdom k') by (intros k' v' X; exact (proj1 (i_dom_par _ _ _ _ _ _ _ _ _ _ _ I k' v' X))).
        destruct (lookup_In ptr _ ptr_eq sdom srep s_keq (a_par a) k p D' Dg L) as (k' & Ik & Rk).
        assert (Dp : sdom p) by (exact (proj2 (i_dom_par _ _ _ _ _ _ _ _ _ _ _ I _ _ Ik))).
        assert (Ps : srep p = srep sp -> p = sp) by (eapply i_par_s; eauto).
        destruct (IH Dp f) as (l & Hw & He & Hl); [lia| |exact Ps|].
        { apply (proj2 Fa _ _ Ik). }
        rewrite Hw. exists (k :: l).
        destruct (i_par_edge _ _ _ _ _ _ _ _ _ _ _ I k p Dg L) as (k2 & I2 & R2).
        split; [reflexivity|]. cbn [rev]. split; [eapply edges_snoc; eauto|apply last_last]. }
    destruct W as (l & -> & He & Hl).
    exists true, (a_iter a), (rev (map (fun p => n_cell (p_node p)) l ++ [n_cell s; n_par s])). split; [reflexivity|].
    split; [exact Hit|]. split; [discriminate|]. intros _.
    exists (map (fun q => n_cell (p_node q)) (rev l)).
    split; [rewrite rev_app_distr, map_rev; reflexivity|].
    split; [apply (edges_flyable sp); auto; reflexivity|].
    change (n_cell s) with (n_cell (p_node sp)).
    rewrite (last_map (fun q => n_cell (p_node q))), Hl. exact Hg.
  - exists false, (a_iter a), []. split; [reflexivity|]. split; [exact Hit|]. split; [auto|discriminate].
Qed.

(** reachability on the level of cells *)
Hypothesis cost_total : forall d u v, legal v = true -> In v (getNeighbors N sc rad u) -> ok d -> (0 <= val d)%R ->
  exists c, edgeCost u v = Some c /\ ltinf (add N d c) = true.
Lemma flyable_reach l : forall u, sdom u ->
  reachable ptr (smooth_next N sc rad legal) sp u ->
  flyable N sc rad legal (n_kind s) (n_par (p_node u)) (n_cell (p_node u)) l ->
  exists v, reachable ptr (smooth_next N sc rad legal) sp v /\ n_cell (p_node v) = last l (n_cell (p_node u)).
Proof using Type.
  induction l as [|c l IH]; intros u Du Ru H.
  - exists u. auto.
  - cbn [flyable] in H. destruct H as (A & B & C). apply offered_spec in A.
    set (v := Ptr (Nd (n_kind s) c (n_cell (p_node u))) false).
    assert (Hv : In v (smooth_next N sc rad legal u)).
    { apply smooth_next_spec. subst v. cbn. split; [|auto].
      replace (p_node u) with (Nd (n_kind s) (n_cell (p_node u)) (n_par (p_node u))); [exact A|].
      rewrite <- Du. destruct (p_node u); reflexivity. }
    destruct (IH v) as (w & Rw & Ew).
    + reflexivity.
    + eapply re_step; eauto.
    + exact C.
    + exists w. split; auto. rewrite Ew. symmetry. apply last_cons_eq.
Qed.
Theorem findSmoothPath_complete mi it path :
  findSmoothPath N sc rad legal edgeCost heur ltinf pop s t mi = Some (false, it, path) -> it < mi ->
  forall l, flyable N sc rad legal (n_kind s) (n_par s) (n_cell s) l -> withinPlanRadius N sc t (last l (n_cell s)) = false.
Proof using ltb_val ltinf_ok zero_ok add_mono popH cost_total.
  unfold findSmoothPath.
  destruct (astar _ _ _ _ _ _ _ _ _ _ _ _) as [[[g|] a]|] eqn:E; try discriminate.
  { destruct (walk _ _ _ _ _ _); discriminate. }
  intros [= <- <-] Hit l Hl.
  assert (Hd : exists v, reachable ptr (smooth_next N sc rad legal) sp v /\ n_cell (p_node v) = last l (n_cell s)).
  { apply (flyable_reach l sp); [reflexivity|constructor|exact Hl]. }
  destruct Hd as (v & Rv & <-).
  refine (astar_exhausted N ptr (gcell * option gcell) ptr_eq (smooth_next N sc rad legal) (smooth_relax N edgeCost) (smooth_heur N heur) ltinf pop
    (fun p => withinPlanRadius N sc t (n_cell (p_node p))) false sp sdom srep ok val s_keq dom_sp s_dom_next ltb_val ltinf_ok zero_ok s_relax_mono
    (proj1 popH) (proj2 popH) _ _ _ _ mi a E Hit v Rv).
  - intros d u w Du Hw A B. apply smooth_next_spec in Hw. destruct Hw as (W1 & W2 & _).
    destruct (cost_total d (p_node u) (p_node w) W2 W1 A B) as (c & E1 & E2). unfold smooth_relax. rewrite E1. eauto.
  - intros u u' w Du Du' R Hw. apply smooth_next_spec in Hw. destruct Hw as (W1 & W2 & W3).
    destruct (neigh_kind _ _ W1) as (Wk & Wp).
    exists (Ptr (p_node w) false). split.
    + apply smooth_next_spec. cbn. split; [|auto]. unfold sdom in Du, Du'. unfold srep in R.
      unfold getNeighbors, nextNode in *. rewrite Du' in *. rewrite Du in W1.
      destruct (n_kind s); injection R as R1; try (rewrite <- R1; try rewrite <- H; exact W1).
    + reflexivity.
  - intros u u' Du Du' R. unfold srep in R. injection R as R1 _. cbn. rewrite R1. reflexivity.
Qed.
End SmoothProofs.
