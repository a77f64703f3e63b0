(** Proofs about the fallback search. *)
From Coq Require Import ZArith Reals List Bool Lia Permutation.
From Flocq Require Import Core.
From Verif Require Import Num CommonModel CommonSpec GpModel GpSearch GpPlan GpAstar GpSpec GpProofs GpArith.
Import ListNotations.
Local Open Scope Z_scope.

Section OldR.
Context (N : num) (ltinf : N -> bool) (A : arith N ltinf).
Context (sc : N) (risk : gcell -> N) (up_cost down_cost factor limit overest : N) (min_alt max_alt : Z)
        (pop : list (gcell * N) -> option ((gcell * N) * list (gcell * N))).
Hypothesis Hrisk : forall c, nneg (risk c).
Hypothesis Hup : nneg up_cost.
Hypothesis Hdown : nneg down_cost.
Hypothesis Hfac : nneg factor.
Hypothesis popH : is_pop pop.

Notation nbrs := (getOpenNeighbors N up_cost down_cost min_alt max_alt).
Notation next t d3 := (old_next N risk up_cost down_cost factor limit min_alt max_alt t d3).
Notation relax d3 := (old_relax N risk up_cost down_cost factor min_alt max_alt d3).

Lemma nbrs_len c d3 : (length (nbrs c d3) <= 10)%nat.
Proof using Type. unfold getOpenNeighbors. rewrite !app_length. cbn [length]. destruct (d3 && _), (d3 && _); cbn; lia. Qed.
Lemma nbrs_spec c d3 v : In v (map fst (nbrs c d3)) ->
  adjacent c v /\ (cz v <> cz c -> d3 = true /\ (cz c < cz v -> cz c < max_alt)%Z /\ (cz v < cz c -> min_alt < cz c)%Z).
Proof using Type.
  unfold getOpenNeighbors. rewrite !map_app, !in_app_iff. unfold adjacent.
  destruct c as [x y z]. cbn [cx cy cz].
  intros [H|[H|H]].
  - cbn [map fst In] in H. repeat destruct H as [<-|H]; try contradiction; cbn [cx cy cz];
      (split; [split; [intros [=]; lia|left; lia]|lia]).
  - destruct d3; cbn [andb] in H; [|destruct H]. destruct (z <? max_alt) eqn:E; [|destruct H].
    destruct H as [<-|[]]. apply Z.ltb_lt in E. cbn [cx cy cz fst]. split; [split; [intros [=]; lia|right; lia]|].
    intros _. split; auto. split; lia.
  - destruct d3; cbn [andb] in H; [|destruct H]. destruct (min_alt <? z) eqn:E; [|destruct H].
    destruct H as [<-|[]]. apply Z.ltb_lt in E. cbn [cx cy cz fst]. split; [split; [intros [=]; lia|right; lia]|].
    intros _. split; auto. split; lia.
Qed.
Lemma nbrs_cost c d3 v k : assoc_cost N (nbrs c d3) v = Some k -> nneg k.
Proof using Hup Hdown A.
  assert (H : forall p, In p (nbrs c d3) -> nneg (snd p)).
  { unfold getOpenNeighbors. intros p. rewrite !in_app_iff. intros [H|[H|H]].
    - destruct (nn_ofZ N ltinf A) as (_ & Z1 & _ & Z2). cbn [In] in H. repeat destruct H as [<-|H]; try contradiction; cbn [snd]; assumption.
    - destruct (d3 && _); [|destruct H]. destruct H as [<-|[]]. exact Hup.
    - destruct (d3 && _); [|destruct H]. destruct H as [<-|[]]. exact Hdown. }
  revert H. generalize (nbrs c d3). induction l as [|[c' k'] l IH]; cbn; intros H; [discriminate|].
  destruct (ceq c' v); [intros [= <-]; apply (H (c', k')); auto|]. apply IH. intros; apply H; auto.
Qed.
Lemma next_spec t d3 u v : In v (next t d3 u) -> open_step risk factor limit min_alt max_alt d3 t u v.
Proof using Type.
  unfold old_next. rewrite filter_In. intros (A0 & B). apply nbrs_spec in A0. destruct A0 as (A1 & A2).
  split; [exact A1|]. split; [exact A2|].
  rewrite negb_true_iff, andb_false_iff, negb_false_iff, ceq_spec in B. destruct B as [B|B]; [|left; auto].
  right. exact B.
Qed.
Lemma next_len t d3 u : (length (next t d3 u) <= 11)%nat.
Proof using Type.
  unfold old_next. etransitivity; [apply filter_length_le|]. rewrite map_length. pose proof (nbrs_len u d3). lia.
Qed.
Lemma relax_mono d3 (d : N) u v nd : ok A d -> (0 <= val A d)%R -> relax d3 d u v = Some nd -> ok A nd -> (val A d <= val A nd)%R.
Proof using Hup Hdown Hrisk Hfac.
  unfold old_relax. intros Ho Hd H On. destruct (assoc_cost N (nbrs u d3) v) eqn:E; [|discriminate].
  injection H as <-. apply nbrs_cost in E.
  assert (O1 : ok A (add N d t)) by (eapply ar_ok_l; exact On).
  pose proof (ar_step N ltinf A d t Ho Hd E O1) as S1.
  eapply Rle_trans; [exact S1|]. apply (ar_step N ltinf A); auto; [eapply Rle_trans; eauto|]. apply (nn_mul N ltinf A); auto.
Qed.

Lemma edges_linked t d3 u l : edges gcell gcell (next t d3) (fun _ => True) (fun c => c) u l ->
  linked (open_step risk factor limit min_alt max_alt d3 t) (u :: l).
Proof using Type.
  induction 1 as [u|u v l v' Hin E _ Hl IH]; [exact I|]. cbn [linked]. subst. split; [apply next_spec; auto|exact IH].
Qed.

Theorem findPathOld_spec mi s t sp d3 :
  exists found path, findPathOld N sc risk ltinf up_cost down_cost factor limit overest min_alt max_alt pop mi s t sp d3 = Some (found, path) /\
    (found = false -> path = []) /\
    (found = true -> exists l, path = sp :: s :: l /\ last (s :: l) s = t /\
        linked (open_step risk factor limit min_alt max_alt d3 t) (s :: l)).
Proof using A Hrisk Hup Hdown Hfac popH.
  unfold findPathOld. set (F := Z.to_nat (12 * Z.max 0 mi + 2)).
  assert (KE : forall a b, True -> True -> (ceq a b = true <-> a = b)) by (intros; apply ceq_spec).
  destruct (astar_total N gcell ceq (next t d3) (relax d3) (old_heur N sc up_cost overest t) ltinf pop (fun u => ceq u t) true (proj2 popH)
     11 F mi (a_init N gcell s) (next_len t d3)) as (r & a & E).
  { cbn [a_init a_pq a_iter length]. subst F. lia. }
  rewrite E.
  destruct (astar_inv N gcell gcell ceq (next t d3) (relax d3) (old_heur N sc up_cost overest t) ltinf pop (fun u => ceq u t) true
     s (fun _ => True) (fun c => c) (ok A) (val A) KE I ltac:(auto) (ar_ltb N ltinf A) (ar_ltinf N ltinf A) (ar_zero N ltinf A)) with (4 := E)
     as (Iv & Hr).
  { intros d u v nd _ _ O B C D. eapply relax_mono; eauto. }
  { apply (proj2 popH). }
  { apply inv_init; auto. apply (ar_zero N ltinf A). }
  destruct (existsb (fun k => ceq k t) (a_seen a)) eqn:ES.
  - apply existsb_exists in ES. destruct ES as (k & Ik & Ek). apply ceq_spec in Ek. subst k.
    destruct (i_seen_dist _ _ _ _ _ _ _ _ _ _ _ Iv t Ik) as (d & Ld).
    destruct (i_chain _ _ _ _ _ _ _ _ _ _ _ Iv t d I Ld) as (n & Cn).
    destruct (walk_ok N gcell gcell ceq (next t d3) s (fun _ => True) (fun c => c) (ok A) (val A) KE a (fun w => ceq w s) Iv)
      with (n := n) (f := S (length (a_par a))) (k := t) as (l & Hw & He & Hl & _); auto.
    { intros k H. apply ceq_spec; auto. }
    { apply ceq_spec; auto. }
    { apply Nat.le_le_succ_r. eapply (chain_bound gcell gcell ceq s (fun _ => True) (fun c => c)); eauto. }
    rewrite Hw. exists true, (rev (l ++ [s; sp])). split; [reflexivity|]. split; [discriminate|]. intros _.
    exists (rev l). split; [rewrite rev_app_distr; reflexivity|]. split; [rewrite last_cons_eq; exact Hl|apply edges_linked; exact He].
  - exists false, []. split; [reflexivity|]. split; [auto|discriminate].
Qed.
End OldR.
