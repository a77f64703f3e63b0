(** Invariants of the A* loop of [GpSearch]. *)
From Coq Require Import ZArith Reals List Bool Lia Permutation.
From Verif Require Import Num CommonModel GpModel GpSearch.
Import ListNotations.
Local Open Scope Z_scope.

Section Core.
Context (N : num) (K Q : Type) (keq : K -> K -> bool) (next : K -> list K) (relax : N -> K -> K -> option N)
        (heur : list K -> K -> N) (ltinf : N -> bool)
        (pop : list (K * N) -> option ((K * N) * list (K * N))) (goal : K -> bool) (cg : bool).
Context (s : K) (dom : K -> Prop) (rep : K -> Q) (ok : N -> Prop) (val : N -> R).
Hypothesis keq_rep : forall a b, dom a -> dom b -> (keq a b = true <-> rep a = rep b).
Hypothesis dom_s : dom s.
Hypothesis dom_next : forall u v, dom u -> In v (next u) -> dom v.
Hypothesis ltb_val : forall a b : N, ltb N a b = true <-> ok a /\ ok b /\ (val a < val b)%R.
Hypothesis ltinf_ok : forall a, ltinf a = true -> ok a.
Hypothesis zero_ok : ok (ofZ N 0) /\ val (ofZ N 0) = 0%R.
Hypothesis relax_mono : forall d u v nd, dom u -> In v (next u) -> ok d -> (0 <= val d)%R -> relax d u v = Some nd -> ok nd ->
  (val d <= val nd)%R.
Hypothesis pop_none : forall q, pop q = None -> q = [].
Hypothesis pop_some : forall q x q', pop q = Some (x, q') -> Permutation q (x :: q').

Notation lookup := (lookup K keq).
Notation st := (astate N K).

(** chain par k n: following the parent map from k reaches the start in n steps *)
Inductive chain (par : list (K * K)) : K -> nat -> Prop :=
| ch0 k : rep k = rep s -> chain par k 0
| chS k p n : rep k <> rep s -> lookup par k = Some p -> chain par p n -> chain par k (S n).

Record inv (a : st) : Prop := {
  i_dom_pq : forall k p, In (k, p) (a_pq a) -> dom k;
  i_dom_seen : forall k, In k (a_seen a) -> dom k;
  i_dom_par : forall k p, In (k, p) (a_par a) -> dom k /\ dom p;
  i_dom_dist : forall k d, In (k, d) (a_dist a) -> dom k;
  i_dist_ok : forall k d, lookup (a_dist a) k = Some d -> dom k -> ok d /\ (0 <= val d)%R;
  i_dist_s : lookup (a_dist a) s = Some (ofZ N 0);
  i_par_dist : forall k p, dom k -> lookup (a_par a) k = Some p ->
     rep k <> rep s /\
     exists dp dk, lookup (a_dist a) p = Some dp /\ lookup (a_dist a) k = Some dk /\ (val dp <= val dk)%R;
  i_par_edge : forall k p, dom k -> lookup (a_par a) k = Some p -> exists k', In k' (next p) /\ rep k' = rep k;
  i_chain : forall k d, dom k -> lookup (a_dist a) k = Some d -> exists n, chain (a_par a) k n;
  i_pq_dist : forall k p, In (k, p) (a_pq a) -> exists d, lookup (a_dist a) k = Some d;
  i_pq_s : forall k p, In (k, p) (a_pq a) -> rep k = rep s -> k = s;
  i_par_s : forall k p, In (k, p) (a_par a) -> rep p = rep s -> p = s;
  i_seen_dist : forall k, In k (a_seen a) -> exists d, lookup (a_dist a) k = Some d }.

Lemma lookup_In {V} (m : list (K * V)) k v :
  (forall k' v', In (k', v') m -> dom k') -> dom k -> lookup m k = Some v -> exists k', In (k', v) m /\ rep k' = rep k.
Proof using keq_rep.
  induction m as [|[k' v'] m IH]; cbn; intros D Dk H; [discriminate|].
  destruct (keq k' k) eqn:E.
  - injection H as <-. exists k'. split; [auto|]. apply keq_rep; auto. eapply D. left; reflexivity.
  - destruct IH as (k2 & I & R); auto. { intros; eapply D; right; eauto. } exists k2; auto.
Qed.
Lemma lookup_rep {V} (m : list (K * V)) k k2 :
  (forall k' v', In (k', v') m -> dom k') -> dom k -> dom k2 -> rep k = rep k2 -> lookup m k = lookup m k2.
Proof using keq_rep.
  induction m as [|[k' v'] m IH]; cbn; intros D Dk Dk2 E; [reflexivity|].
  assert (dom k') by (eapply D; left; reflexivity).
  rewrite IH; auto. 2:{ intros; eapply D; right; eauto. }
  replace (keq k' k) with (keq k' k2); [reflexivity|].
  apply Bool.eq_iff_eq_true. rewrite !keq_rep by auto. rewrite E. reflexivity.
Qed.
Lemma lookup_cons_eq {V} (m : list (K * V)) k v k2 : dom k -> dom k2 -> rep k = rep k2 -> lookup ((k, v) :: m) k2 = Some v.
Proof using keq_rep. intros. cbn. replace (keq k k2) with true; auto. symmetry. apply keq_rep; auto. Qed.
Lemma lookup_cons_ne {V} (m : list (K * V)) k v k2 : dom k -> dom k2 -> rep k <> rep k2 -> lookup ((k, v) :: m) k2 = lookup m k2.
Proof using keq_rep.
  intros. cbn. destruct (keq k k2) eqn:E; auto. apply keq_rep in E; auto. contradiction.
Qed.

Lemma chain_fun par k n : (forall k' v', In (k', v') par -> dom k' /\ dom v') -> dom k -> chain par k n ->
  forall k2 m, dom k2 -> rep k = rep k2 -> chain par k2 m -> n = m.
Proof using keq_rep.
  intros D Dk H. induction H as [k E|k p n NE L C IH]; intros k2 m Dk2 R H2.
  - inversion H2; subst; auto. congruence.
  - inversion H2 as [k3 E3|k3 p3 n3 NE3 L3 C3]; subst; [congruence|]. f_equal.
    assert (D' : forall k' v', In (k', v') par -> dom k') by (intros k' v' I; apply (D k' v' I)).
    rewrite (lookup_rep par k k2 D' Dk Dk2 R) in L. rewrite L in L3. injection L3 as <-.
    assert (dom p). { destruct (lookup_In par k2 p D' Dk2 L) as (k' & I & _). eapply D; eauto. }
    eapply IH; eauto.
Qed.

Lemma par_dom a k p : inv a -> dom k -> lookup (a_par a) k = Some p -> dom p.
Proof using keq_rep.
  intros I Dk L. destruct (lookup_In (a_par a) k p) as (k' & In' & _); [intros k1 v1 X; exact (proj1 (i_dom_par a I k1 v1 X))|assumption|assumption|].
  exact (proj2 (i_dom_par a I _ _ In')).
Qed.
(* every key along a chain has distance at most that of its origin; used to show a chain avoids a key *)
Lemma chain_avoid a u v dv du nd : inv a -> dom u -> dom v ->
  lookup (a_dist a) u = Some du -> (val du <= val nd)%R ->
  lookup (a_dist a) v = Some dv -> (val nd < val dv)%R ->
  forall n k dk, dom k -> lookup (a_dist a) k = Some dk -> (val dk <= val du)%R -> chain (a_par a) k n -> 
  chain ((v, u) :: a_par a) k n.
Proof using keq_rep.
  intros I Du Dv Lu Hn Lv Hlt n k dk Dk Lk Hk C. revert dk Lk Hk.
  induction C as [k E|k p n NE L C IH]; intros dk Lk Hk; [constructor; auto|].
  assert (rep v <> rep k).
  { intros E. assert (lookup (a_dist a) k = lookup (a_dist a) v).
    { apply lookup_rep; auto. intros; eapply i_dom_dist; eauto. }
    assert (dk = dv) by congruence. subst. lra. }
  destruct (i_par_dist a I k p Dk L) as (_ & dp & dk' & Lp & Lk' & Hle).
  assert (dk' = dk) by congruence. subst dk'.
  assert (dom p).
  { eapply par_dom; eauto. }
  apply chS with p; [assumption|rewrite lookup_cons_ne; auto|]. eapply IH; eauto. lra.
Qed.
Lemma chain_redirect a u v n0 : inv a -> dom u -> dom v -> rep v <> rep s -> chain ((v, u) :: a_par a) u n0 ->
  forall n k, dom k -> chain (a_par a) k n -> exists m, chain ((v, u) :: a_par a) k m.
Proof using keq_rep Q.
  intros I Du Dv NEv Cu n k Dk C. induction C as [k E|k p n NE L C IH].
  - exists 0%nat. constructor; auto.
  - assert (dom p).
    { eapply par_dom; eauto. }
    destruct IH as (m & Cm); auto.
    destruct (keq v k) eqn:E.
    + exists (S n0). apply chS with u; auto. apply lookup_cons_eq; auto. apply keq_rep; auto.
    + exists (S m). apply chS with p; auto. rewrite lookup_cons_ne; auto. intros X. apply keq_rep in X; auto. congruence.
Qed.

Lemma inv_init : inv (a_init N K s).
Proof using keq_rep dom_s zero_ok.
  clear goal.
  assert (R : keq s s = true) by (apply keq_rep; auto).
  unfold a_init. split; cbn; intros; try tauto.
  - destruct H as [[= <- <-]|[]]; auto.
  - destruct H as [[= <- <-]|[]]; auto.
  - destruct (keq s k); [|discriminate]. injection H as <-. destruct zero_ok as (A & B). split; auto. rewrite B. lra.
  - rewrite R. reflexivity.
  - discriminate.
  - discriminate.
  - destruct (keq s k) eqn:E; [|discriminate]. exists 0%nat. constructor. symmetry. apply keq_rep; auto.
  - destruct H as [[= <- <-]|[]]. rewrite R. eauto.
  - destruct H as [[= <- <-]|[]]. reflexivity.
Qed.

Lemma inv_relax1 a u v : inv a -> dom u -> (rep u = rep s -> u = s) -> (exists d, lookup (a_dist a) u = Some d) ->
  In v (next u) -> inv (relax1 N K keq relax heur ltinf u a v).
Proof using keq_rep dom_next ltb_val ltinf_ok zero_ok relax_mono dom_s.
  intros I Du Us (du & Lu) Hin.
  assert (Dv : dom v) by eauto.
  destruct (i_dist_ok a I u du Lu Du) as (okd & du0).
  unfold relax1. rewrite Lu. destruct (relax du u v) as [nd|] eqn:ER; [|assumption].
  match goal with |- context [if ?c then _ else _] => destruct c eqn:EC end; [|assumption].
  assert (Hnd : ok nd /\ (forall dv, lookup (a_dist a) v = Some dv -> (val nd < val dv)%R)).
  { destruct (lookup (a_dist a) v) as [od|] eqn:E.
    - apply ltb_val in EC. destruct EC as (A & B & C). split; auto. intros dv [= <-]; auto.
    - split; [auto|discriminate]. }
  destruct Hnd as (okn & Hlt).
  assert (Hle : (val du <= val nd)%R) by eauto.
  assert (NEv : rep v <> rep s).
  { intros E. assert (lookup (a_dist a) v = lookup (a_dist a) s).
    { apply lookup_rep; auto. intros; eapply i_dom_dist; eauto. }
    rewrite (i_dist_s a I) in H. apply Hlt in H. destruct zero_ok as (_ & Z0). lra. }
  (* a chain of u that survives the update *)
  destruct (i_chain a I u du Du Lu) as (n0 & Cu).
  assert (Cu' : exists m, chain ((v, u) :: a_par a) u m).
  { destruct (lookup (a_dist a) v) as [dv|] eqn:E.
    - exists n0. eapply chain_avoid; eauto. apply Rle_refl.
    - (* v has no distance, so no key of the chain is v *)
      exists n0. clear - I Du Lu Cu E keq_rep Dv.
      assert (forall n k dk, dom k -> lookup (a_dist a) k = Some dk -> chain (a_par a) k n -> chain ((v, u) :: a_par a) k n).
      { intros n k dk Dk Lk C. revert dk Lk. induction C as [k X|k p n NE L C IH]; intros; [constructor; auto|].
        destruct (i_par_dist a I k p Dk L) as (_ & dp & dk' & Lp & Lk' & _).
        assert (dom p).
        { eapply par_dom; eauto. }
        apply chS with p; auto; [|eapply IH; eauto].
        rewrite lookup_cons_ne; auto. intros X.
        rewrite (lookup_rep (a_dist a) v k) in E; auto; [congruence|]. intros; eapply i_dom_dist; eauto. }
      eauto. }
  destruct Cu' as (m0 & Cu').
  split; cbn [a_pq a_seen a_par a_dist a_vis a_iter].
  - intros k p H. apply in_app_iff in H. destruct H as [H|[[= <- <-]|[]]]; auto. eapply i_dom_pq; eauto.
  - apply (i_dom_seen a I).
  - intros k p [[= <- <-]|H]; [split; auto|]. eapply i_dom_par; eauto.
  - intros k d [[= <- <-]|H]; auto. eapply i_dom_dist; eauto.
  - intros k d H Dk. destruct (keq v k) eqn:E.
    + rewrite lookup_cons_eq in H; auto; [|apply keq_rep; auto]. injection H as <-. split; auto. lra.
    + rewrite lookup_cons_ne in H; auto. 2:{ intros X. apply keq_rep in X; auto. congruence. } eapply i_dist_ok; eauto.
  - rewrite lookup_cons_ne; auto. apply (i_dist_s a I).
  - intros k p Dk H. destruct (keq v k) eqn:E.
    + assert (RE : rep v = rep k) by (apply keq_rep; auto).
      rewrite lookup_cons_eq in H; auto. injection H as <-. split; [congruence|].
      exists du, nd. rewrite (lookup_cons_eq (a_dist a) v nd k) by auto. split; [|split; auto].
      destruct (keq v u) eqn:E2.
      * exfalso. apply keq_rep in E2; auto.
        rewrite (lookup_rep (a_dist a) u v) in Lu; auto; [|intros; eapply i_dom_dist; eauto]. apply Hlt in Lu. lra.
      * rewrite lookup_cons_ne; auto. intros X. apply keq_rep in X; auto. congruence.
    + assert (RE : rep v <> rep k) by (intros X; apply keq_rep in X; auto; congruence).
      rewrite lookup_cons_ne in H; auto. destruct (i_par_dist a I k p Dk H) as (A & dp & dk & B & C & D). split; auto.
      rewrite (lookup_cons_ne (a_dist a) v nd k) by auto.
      destruct (keq v p) eqn:E2.
      * exists nd, dk. assert (dom p).
        { eapply par_dom; eauto. }
        apply keq_rep in E2; auto. rewrite lookup_cons_eq by auto. split; [|split]; auto.
        assert (lookup (a_dist a) v = Some dp). { rewrite <- B. apply lookup_rep; auto. intros; eapply i_dom_dist; eauto. }
        apply Hlt in H1. lra.
      * exists dp, dk. split; auto.
        assert (dom p).
        { eapply par_dom; eauto. }
        rewrite lookup_cons_ne; auto. intros X. apply keq_rep in X; auto. congruence.
  - intros k p Dk H. destruct (keq v k) eqn:E.
    + assert (RE : rep v = rep k) by (apply keq_rep; auto).
      rewrite lookup_cons_eq in H; auto. injection H as <-. exists v. auto.
    + rewrite lookup_cons_ne in H; auto. 2:{ intros X. apply keq_rep in X; auto. congruence. } eapply i_par_edge; eauto.
  - intros k d Dk H. destruct (keq v k) eqn:E.
    + exists (S m0). apply chS with u; auto. { apply keq_rep in E; auto. congruence. } apply lookup_cons_eq; auto. apply keq_rep; auto.
    + rewrite lookup_cons_ne in H; auto. 2:{ intros X. apply keq_rep in X; auto. congruence. }
      destruct (i_chain a I k d Dk H) as (n & Cn). eapply chain_redirect; eauto.
  - intros k p H. apply in_app_iff in H. destruct H as [H|[[= <- <-]|[]]].
    + destruct (keq v k) eqn:E.
      * exists nd. assert (dom k) by (eapply i_dom_pq; eauto). apply lookup_cons_eq; auto. apply keq_rep; auto.
      * assert (dom k) by (eapply i_dom_pq; eauto). rewrite lookup_cons_ne; auto. 
        2:{ intros X. apply keq_rep in X; auto. congruence. } eapply i_pq_dist; eauto.
    + exists nd. apply lookup_cons_eq; auto.
  - intros k p H R. apply in_app_iff in H. destruct H as [H|[[= <- <-]|[]]]; [eapply i_pq_s; eauto|contradiction].
  - intros k p [[= <- <-]|H]; auto. eapply i_par_s; eauto.
  - intros k H. destruct (keq v k) eqn:E; assert (dom k) by (eapply i_dom_seen; eauto).
    + exists nd. apply lookup_cons_eq; auto. apply keq_rep; auto.
    + rewrite lookup_cons_ne; auto. 2:{ intros X. apply keq_rep in X; auto. congruence. } eapply i_seen_dist; eauto.
Qed.

Lemma relax1_grow a u v k : inv a -> dom u -> In v (next u) -> (exists d, lookup (a_dist a) u = Some d) ->
  dom k -> (exists d, lookup (a_dist a) k = Some d) -> exists d, lookup (a_dist (relax1 N K keq relax heur ltinf u a v)) k = Some d.
Proof using keq_rep dom_next.
  intros I Du Hin (du & Lu) Dk (d & L). unfold relax1. rewrite Lu. destruct (relax du u v); [|eauto].
  match goal with |- context [if ?c then _ else _] => destruct c eqn:EC end; [|eauto].
  cbn [a_dist]. assert (dom v) by eauto. destruct (keq v k) eqn:E.
  - exists t. apply lookup_cons_eq; auto. apply keq_rep; auto.
  - rewrite lookup_cons_ne; eauto. intros X. apply keq_rep in X; auto. congruence.
Qed.
Lemma relax1_same a u v : a_seen (relax1 N K keq relax heur ltinf u a v) = a_seen a /\
  a_iter (relax1 N K keq relax heur ltinf u a v) = a_iter a.
Proof using Type.
  unfold relax1. destruct (relax _ u v); [|auto].
  match goal with |- context [if ?c then _ else _] => destruct c end; auto.
Qed.

Lemma inv_expand a u l : inv a -> dom u -> (rep u = rep s -> u = s) -> (exists d, lookup (a_dist a) u = Some d) ->
  incl l (next u) -> inv (fold_left (relax1 N K keq relax heur ltinf u) l a).
Proof using keq_rep dom_next ltb_val ltinf_ok zero_ok relax_mono dom_s.
  revert a. induction l as [|v l IH]; intros a I Du Us Lu Hi; cbn; [assumption|].
  assert (In v (next u)) by (apply Hi; left; reflexivity).
  apply IH; auto.
  - apply inv_relax1; auto.
  - apply relax1_grow; auto.
  - intros x Hx; apply Hi; right; auto.
Qed.

Lemma inv_pop a u p q : inv a -> pop (a_pq a) = Some ((u, p), q) ->
  inv (AS q (a_seen a) (a_par a) (a_dist a) (a_vis a) (a_iter a)) /\
  dom u /\ (rep u = rep s -> u = s) /\ exists d, lookup (a_dist a) u = Some d.
Proof using pop_some.
  intros I H. apply pop_some in H.
  assert (Hq : forall x, In x q -> In x (a_pq a)).
  { intros x Hx. eapply Permutation_in; [symmetry; eassumption|]. right; auto. }
  assert (Hu : In (u, p) (a_pq a)).
  { eapply Permutation_in; [symmetry; eassumption|]. left; auto. }
  split; [|split; [eapply i_dom_pq; eauto|split; [intros; eapply i_pq_s; eauto|eapply i_pq_dist; eauto]]].
  destruct I. split; cbn [a_pq a_seen a_par a_dist a_vis a_iter]; eauto.
Qed.
Lemma inv_see a u q it : inv a -> dom u -> (exists d, lookup (a_dist a) u = Some d) -> q = a_pq a ->
  inv (AS q (u :: a_seen a) (a_par a) (a_dist a) (a_vis a) it).
Proof using Type.
  intros I Du Lu ->. destruct I. split; cbn [a_pq a_seen a_par a_dist a_vis a_iter]; eauto.
  - intros k [<-|H]; auto.
  - intros k [<-|H]; auto.
Qed.

(** Properties of the final state *)
Theorem astar_inv fuel mi a r a' : inv a -> astar N K keq next relax heur ltinf pop goal cg fuel mi a = Some (r, a') ->
  inv a' /\ match r with
            | Some g => goal g = true /\ dom g /\ (rep g = rep s -> g = s) /\ (exists d, lookup (a_dist a') g = Some d) /\ In g (a_seen a')
            | None => True end.
Proof using keq_rep dom_next ltb_val ltinf_ok zero_ok relax_mono pop_some dom_s.
  revert a. induction fuel as [|f IH]; intros a I H; cbn [astar] in H; [discriminate|].
  destruct (a_iter a <? mi); [|injection H as <- <-; auto].
  destruct (pop (a_pq a)) as [[[u p] q]|] eqn:EP; [|injection H as <- <-; auto].
  destruct (inv_pop a u p q I EP) as (I1 & Du & Us & Lu).
  cbn [a_pq a_seen a_par a_dist a_vis a_iter] in H.
  destruct (existsb _ (a_seen a)); [eapply IH; eauto|].
  destruct (goal u) eqn:EG.
  - injection H as <- <-. split.
    + apply (inv_see (AS q (a_seen a) (a_par a) (a_dist a) (a_vis a) (a_iter a))); auto.
    + cbn. repeat split; auto.
  - eapply IH; [|exact H]. unfold expand. apply inv_expand; auto; [|apply incl_refl].
    apply (inv_see (AS q (a_seen a) (a_par a) (a_dist a) (a_vis a) (a_iter a))); auto.
Qed.

(* ------------------------------------------------------------------------- walking back *)
Lemma chain_keys par k n : (forall k' v', In (k', v') par -> dom k' /\ dom v') -> dom k -> chain par k n ->
  exists l, length l = n /\ NoDup l /\ (forall x, In x l -> In x (map (fun kp => rep (fst kp)) par)) /\
            (forall x, In x l -> exists k2 m, dom k2 /\ rep k2 = x /\ chain par k2 m /\ (m <= n)%nat).
Proof using keq_rep.
  intros D Dk C. induction C as [k E|k p n NE L C IH].
  - exists []. split; [reflexivity|]. split; [constructor|]. split; intros ? [].
  - assert (D' : forall k' v', In (k', v') par -> dom k') by (intros k' v' X; apply (D k' v' X)).
    destruct (lookup_In par k p D' Dk L) as (k' & Ik & Rk).
    assert (Dp : dom p) by (eapply D; eauto).
    destruct (IH Dp) as (l & Hl & ND & Hk & Hc).
    exists (rep k :: l). split; [cbn; congruence|]. split; [|split].
    + constructor; auto. intros X. apply Hc in X. destruct X as (k2 & m & Dk2 & R2 & C2 & Hm).
      assert (S n = m). { eapply (chain_fun par k (S n) D Dk); eauto. econstructor; eauto. } lia.
    + intros x [<-|X]; auto. apply in_map_iff. exists (k', p). auto.
    + intros x [<-|X].
      * exists k, (S n). repeat split; auto. econstructor; eauto.
      * destruct (Hc x X) as (k2 & m & A & B & C2 & E). exists k2, m. repeat split; auto.
Qed.
Lemma chain_bound par k n : (forall k' v', In (k', v') par -> dom k' /\ dom v') -> dom k -> chain par k n -> (n <= length par)%nat.
Proof using keq_rep.
  intros D Dk C. destruct (chain_keys par k n D Dk C) as (l & <- & ND & Hk & _).
  rewrite <- (map_length (fun kp => rep (fst kp)) par). apply NoDup_incl_length; auto.
Qed.

(** The walk from w succeeds; the nodes walked over, last one first, form a chain of edges starting at s. *)
Inductive edges : K -> list K -> Prop :=
| ed_nil u : edges u []
| ed_cons u v l v' : In v' (next u) -> rep v' = rep v -> dom v -> edges v l -> edges u (v :: l).

Lemma edges_snoc u l w v v' : edges u l -> last l u = w -> In v' (next w) -> rep v' = rep v -> dom v -> edges u (l ++ [v]).
Proof using Type.
  intros E. revert w. induction E as [u|u x l x' Hin R D E IH]; cbn [last app]; intros w Hw I1 R1 D1.
  - subst. econstructor; eauto. constructor.
  - econstructor; eauto. apply (IH w); auto.
    destruct l; [cbn in *; congruence|]. cbn [last] in *. rewrite <- Hw. clear. revert k. induction l; intros; cbn; auto.
Qed.

Theorem walk_ok a stop : inv a -> (forall k, stop k = true -> rep k = rep s) -> (stop s = true) ->
  forall n f k, dom k -> (rep k = rep s -> k = s) -> chain (a_par a) k n -> (n <= f)%nat ->
  exists l, walk K keq f (a_par a) stop k = Some l /\ edges s (rev l) /\ last (rev l) s = k /\ length l = n /\
            (forall x, In x l -> rep x <> rep s).
Proof using keq_rep.
  intros I Hs Hss n f k Dk Ks C. revert f Ks. induction C as [k E|k p n NE L C IH]; intros f Ks Hf.
  - rewrite (Ks E). exists []. destruct f; cbn; rewrite Hss; repeat split; auto; try constructor; intros ? [].
  - destruct f as [|f]; [lia|]. cbn.
    destruct (stop k) eqn:ES; [apply Hs in ES; contradiction|]. rewrite L.
    assert (D' : forall k' v', In (k', v') (a_par a) -> dom k') by (intros k' v' X; exact (proj1 (i_dom_par a I k' v' X))).
    destruct (lookup_In (a_par a) k p D' Dk L) as (k' & Ik & Rk).
    assert (Dp : dom p) by (exact (proj2 (i_dom_par a I _ _ Ik))).
    assert (Ps : rep p = rep s -> p = s) by (eapply i_par_s; eauto).
    destruct (IH Dp f Ps) as (l & Hw & He & Hl & Hn & Hx); [lia|]. rewrite Hw. exists (k :: l).
    destruct (i_par_edge a I k p Dk L) as (k2 & I2 & R2).
    split; [reflexivity|]. split; [|split; [|split]].
    + cbn. eapply edges_snoc; eauto.
    + cbn. rewrite last_last. reflexivity.
    + cbn. congruence.
    + intros x [<-|X]; auto.
Qed.

(* ------------------------------------------------------------------------- termination *)
Lemma expand_pq a u l : (length (a_pq (fold_left (relax1 N K keq relax heur ltinf u) l a)) <= length (a_pq a) + length l)%nat /\
  a_iter (fold_left (relax1 N K keq relax heur ltinf u) l a) = a_iter a /\
  a_seen (fold_left (relax1 N K keq relax heur ltinf u) l a) = a_seen a.
Proof using Type.
  revert a. induction l as [|v l IH]; intros a; cbn [fold_left length]; [lia || (repeat split; auto; lia)|].
  destruct (IH (relax1 N K keq relax heur ltinf u a v)) as (A & B & C). destruct (relax1_same a u v) as (D & E).
  rewrite B, C, D, E. split; [|auto].
  assert ((length (a_pq (relax1 N K keq relax heur ltinf u a v)) <= S (length (a_pq a)))%nat); [|lia].
  unfold relax1. destruct (relax _ u v); [|lia].
  match goal with |- context [if ?c then _ else _] => destruct c end; cbn; [rewrite app_length; cbn; lia|lia].
Qed.

Theorem astar_total b fuel mi a : (forall u, (length (next u) <= b)%nat) ->
  (Z.of_nat (length (a_pq a)) + Z.of_nat (S b) * Z.max 0 (mi - a_iter a) + 1 <= Z.of_nat fuel) ->
  exists r a', astar N K keq next relax heur ltinf pop goal cg fuel mi a = Some (r, a').
Proof using pop_some.
  intros Hb. revert a. induction fuel as [|f IH]; intros a Hf; [exfalso; assert (0 <= Z.of_nat (S b) * Z.max 0 (mi - a_iter a)) by (apply Z.mul_nonneg_nonneg; lia); lia|]. cbn [astar].
  destruct (a_iter a <? mi) eqn:EI; [|eauto]. apply Z.ltb_lt in EI.
  destruct (pop (a_pq a)) as [[[u p] q]|] eqn:EP; [|eauto].
  assert (Hl : length (a_pq a) = S (length q)). { apply pop_some in EP. apply Permutation_length in EP. rewrite EP. reflexivity. }
  cbn [a_pq a_seen a_par a_dist a_vis a_iter].
  destruct (existsb _ (a_seen a)); [apply IH; cbn [a_pq a_iter]; lia|].
  destruct (goal u); [eauto|]. unfold expand. apply IH.
  match goal with |- context [fold_left _ _ ?x] => destruct (expand_pq x u (next u)) as (A & B & _) end.
  rewrite B. cbn [a_iter a_pq] in *. specialize (Hb u). nia.
Qed.

(** the iteration counter never exceeds the bound *)
Theorem astar_iter fuel mi a r a' : a_iter a <= Z.max 0 mi -> 0 <= a_iter a ->
  astar N K keq next relax heur ltinf pop goal cg fuel mi a = Some (r, a') -> 0 <= a_iter a' <= Z.max 0 mi.
Proof using Type.
  revert a. induction fuel as [|f IH]; intros a H0 H1 H; cbn [astar] in H; [discriminate|].
  destruct (a_iter a <? mi) eqn:EI; [|injection H as <- <-; auto]. apply Z.ltb_lt in EI.
  destruct (pop (a_pq a)) as [[[u p] q]|]; [|injection H as <- <-; auto].
  cbn [a_pq a_seen a_par a_dist a_vis a_iter] in H.
  destruct (existsb _ (a_seen a)); [eapply IH; [| |eassumption]; cbn; lia|].
  destruct (goal u).
  - injection H as <- <-. cbn. destruct cg; lia.
  - eapply IH; [| |eassumption]; unfold expand; match goal with |- context [fold_left _ _ ?x] => destruct (expand_pq x u (next u)) as (_ & B & _) end;
      rewrite B; cbn; lia.
Qed.

(* ------------------------------------------------------------------------- completeness *)
Hypothesis relax_total : forall d u v, dom u -> In v (next u) -> ok d -> (0 <= val d)%R ->
  exists nd, relax d u v = Some nd /\ ltinf nd = true.
Hypothesis next_rep : forall u u' v, dom u -> dom u' -> rep u = rep u' -> In v (next u) -> exists v', In v' (next u') /\ rep v' = rep v.
Hypothesis goal_rep : forall u u', dom u -> dom u' -> rep u = rep u' -> goal u = goal u'.

Definition has_dist (a : st) (k : K) : Prop := exists d, lookup (a_dist a) k = Some d.
Record cinv (a : st) : Prop := {
  c_open : forall k, dom k -> has_dist a k -> (exists k' p, In (k', p) (a_pq a) /\ rep k' = rep k) \/
                                              (exists k', In k' (a_seen a) /\ rep k' = rep k);
  c_closed : forall u v, In u (a_seen a) -> In v (next u) -> has_dist a v;
  c_nogoal : forall u, In u (a_seen a) -> goal u = false }.

Lemma relax1_pq a u v : exists l, a_pq (relax1 N K keq relax heur ltinf u a v) = a_pq a ++ l.
Proof using Type.
  unfold relax1. destruct (relax _ u v); [|exists []; symmetry; apply app_nil_r].
  match goal with |- context [if ?c then _ else _] => destruct c end; cbn; [eauto|exists []; symmetry; apply app_nil_r].
Qed.
Lemma relax1_has a u v : inv a -> dom u -> has_dist a u -> In v (next u) ->
  has_dist (relax1 N K keq relax heur ltinf u a v) v.
Proof using keq_rep dom_next relax_total.
  intros I Du (du & Lu) Hin. assert (Dv : dom v) by eauto.
  destruct (i_dist_ok a I u du Lu Du) as (A & B). destruct (relax_total du u v Du Hin A B) as (nd & E & F).
  unfold relax1. rewrite Lu, E. destruct (lookup (a_dist a) v) as [od|] eqn:EL.
  - destruct (ltb N nd od); [|exists od; auto]. exists nd. cbn [a_dist]. apply lookup_cons_eq; auto.
  - rewrite F. exists nd. cbn [a_dist]. apply lookup_cons_eq; auto.
Qed.
Lemma relax1_open a u v k : inv a -> dom u -> has_dist a u -> In v (next u) -> dom k ->
  has_dist (relax1 N K keq relax heur ltinf u a v) k ->
  has_dist a k \/ exists k' p, In (k', p) (a_pq (relax1 N K keq relax heur ltinf u a v)) /\ rep k' = rep k.
Proof using keq_rep dom_next.
  intros I Du (du & Lu) Hin Dk. assert (Dv : dom v) by eauto.
  unfold relax1. rewrite Lu. destruct (relax du u v) as [nd|]; [|auto].
  match goal with |- context [if ?c then _ else _] => destruct c end; [|auto].
  cbn [a_dist a_pq]. intros (d & L). destruct (keq v k) eqn:E.
  - right. exists v. eexists. split; [apply in_app_iff; right; left; reflexivity|]. apply keq_rep; auto.
  - left. exists d. cbn [a_dist] in L. rewrite lookup_cons_ne in L; auto. intros X. apply keq_rep in X; auto. congruence.
Qed.

(* during an expansion of u (already in seen), [done] successors have been handled *)
Lemma expand_c u l a : inv a -> dom u -> (rep u = rep s -> u = s) -> has_dist a u -> incl l (next u) ->
  (forall k, dom k -> has_dist a k -> (exists k' p, In (k', p) (a_pq a) /\ rep k' = rep k) \/ (exists k', In k' (a_seen a) /\ rep k' = rep k)) ->
  let a' := fold_left (relax1 N K keq relax heur ltinf u) l a in
  (forall k, dom k -> has_dist a' k -> (exists k' p, In (k', p) (a_pq a') /\ rep k' = rep k) \/ (exists k', In k' (a_seen a') /\ rep k' = rep k)) /\
  (forall k, dom k -> has_dist a k -> has_dist a' k) /\
  (forall v, In v l -> has_dist a' v).
Proof using keq_rep dom_next ltb_val ltinf_ok zero_ok relax_mono dom_s relax_total.
  revert a. induction l as [|v l IH]; intros a I Du Us Lu Hi Ho; cbn [fold_left].
  - split; [auto|]. split; [auto|]. intros v [].
  - assert (Hv : In v (next u)) by (apply Hi; left; reflexivity).
    assert (Hl : incl l (next u)) by (intros x X; apply Hi; right; auto).
    pose proof (inv_relax1 a u v I Du Us Lu Hv) as I1.
    assert (Lu1 : has_dist (relax1 N K keq relax heur ltinf u a v) u) by (apply relax1_grow; auto).
    destruct (IH (relax1 N K keq relax heur ltinf u a v) I1 Du Us Lu1 Hl) as (A & B & C).
    { intros k Dk Hk. destruct (relax1_open a u v k I Du Lu Hv Dk Hk) as [Hk'|]; [|left; auto].
      destruct (Ho k Dk Hk') as [(k' & p & X & Y)|X].
      - left. exists k', p. split; auto. destruct (relax1_pq a u v) as (q & ->). apply in_app_iff; auto.
      - right. destruct (relax1_same a u v) as (-> & _). auto. }
    split; [exact A|]. split.
    + intros k Dk Hk. apply B; auto. apply relax1_grow; auto.
    + intros x [<-|X]; [|auto]. apply B; eauto. apply relax1_has; auto.
Qed.

Theorem astar_complete fuel mi a r a' : inv a -> cinv a ->
  astar N K keq next relax heur ltinf pop goal cg fuel mi a = Some (r, a') ->
  match r with None => cinv a' /\ (a_iter a' < mi -> a_pq a' = []) | Some _ => True end.
Proof using keq_rep dom_next ltb_val ltinf_ok zero_ok relax_mono pop_some pop_none dom_s relax_total goal_rep.
  revert a. induction fuel as [|f IH]; intros a I C H; cbn [astar] in H; [discriminate|].
  destruct (a_iter a <? mi) eqn:EI.
  2:{ injection H as <- <-. apply Z.ltb_ge in EI. split; auto. lia. }
  destruct (pop (a_pq a)) as [[[u p] q]|] eqn:EP; [|injection H as <- <-; split; auto].
  destruct (inv_pop a u p q I EP) as (I1 & Du & Us & Lu).
  pose proof (pop_some _ _ _ EP) as HP.
  cbn [a_pq a_seen a_par a_dist a_vis a_iter] in H.
  destruct (existsb _ (a_seen a)) eqn:ES.
  - eapply IH; [exact I1| |exact H].
    apply existsb_exists in ES. destruct ES as (k0 & Ik0 & Ek0).
    assert (Dk0 : dom k0) by (eapply i_dom_seen; eauto). apply keq_rep in Ek0; auto.
    destruct C as [c1 c2 c3]. split; cbn [a_pq a_seen a_par a_dist a_vis a_iter]; auto.
    intros k Dk Hk. destruct (c1 k Dk Hk) as [(k' & p' & X & Y)|X]; [|right; auto].
    eapply Permutation_in in X; [|exact HP]. destruct X as [[= <- <-]|X]; [right; exists k0; split; auto; congruence|].
    left; eauto.
  - destruct (goal u) eqn:EG; [injection H as <- <-; exact Logic.I|].
    assert (I2 : inv (AS q (u :: a_seen a) (a_par a) (a_dist a) (a_vis a) (a_iter a + 1))).
    { apply (inv_see (AS q (a_seen a) (a_par a) (a_dist a) (a_vis a) (a_iter a))); auto. }
    destruct C as [c1 c2 c3].
    unfold expand in H.
    destruct (expand_c u (next u) _ I2 Du Us Lu (incl_refl _)) as (A & B & D).
    { cbn [a_pq a_seen a_par a_dist a_vis a_iter]. intros k Dk Hk.
      destruct (c1 k Dk Hk) as [(k' & p' & X & Y)|(k' & X & Y)]; [|right; exists k'; split; [right|]; auto].
      eapply Permutation_in in X; [|exact HP]. destruct X as [[= <- <-]|X]; [right; exists u; split; auto; left; auto|].
      left; eauto. }
    eapply IH; [| |exact H].
    + apply inv_expand; auto. apply incl_refl.
    + destruct (expand_pq (AS q (u :: a_seen a) (a_par a) (a_dist a) (a_vis a) (a_iter a + 1)) u (next u)) as (_ & _ & Es).
      split; [exact A| |]; rewrite Es; cbn [a_seen].
      * intros x v [<-|X] Hv; [auto|].
        assert (dom v) by (apply (dom_next x v); [exact (i_dom_seen a I x X)|exact Hv]).
        apply B; [assumption|]. exact (c2 x v X Hv).
      * intros x [<-|X]; auto.
Qed.

Inductive reachable : K -> Prop :=
| re_s : reachable s
| re_step u v : reachable u -> In v (next u) -> reachable v.
Lemma reachable_dom k : reachable k -> dom k.
Proof using dom_s dom_next. induction 1; eauto. Qed.

Lemma cinv_init : cinv (a_init N K s).
Proof using keq_rep dom_s.
  split; cbn; [|intros ? ? []|intros ? []].
  intros k Dk (d & L). left. cbn in L. destruct (keq s k) eqn:E; [|discriminate].
  exists s, (ofZ N 0). split; auto. apply keq_rep; auto.
Qed.
(** If the queue ran empty, every reachable node was examined and none is a goal. *)
Theorem astar_exhausted fuel mi a' :
  astar N K keq next relax heur ltinf pop goal cg fuel mi (a_init N K s) = Some (None, a') -> a_iter a' < mi ->
  forall k, reachable k -> goal k = false.
Proof using keq_rep dom_next ltb_val ltinf_ok zero_ok relax_mono pop_some pop_none dom_s relax_total next_rep goal_rep.
  intros H Hi. destruct (astar_complete _ _ _ _ _ inv_init cinv_init H) as (C & Hq). specialize (Hq Hi).
  destruct (astar_inv _ _ _ _ _ inv_init H) as (I & _).
  assert (P : forall k, reachable k -> exists k', In k' (a_seen a') /\ rep k' = rep k).
  { intros k Rk. induction Rk as [|u v Ru IH Hv].
    - destruct (c_open a' C s dom_s) as [(k' & p & X & _)|X]; auto.
      + exists (ofZ N 0). apply (i_dist_s a' I).
      + rewrite Hq in X. destruct X.
    - destruct IH as (u' & Iu & Eu). assert (Du : dom u) by (apply reachable_dom; auto).
      assert (Du' : dom u') by (eapply i_dom_seen; eauto).
      destruct (next_rep u u' v Du Du' (eq_sym Eu) Hv) as (v' & Iv & Ev).
      assert (Dv' : dom v') by eauto.
      destruct (c_open a' C v' Dv') as [(k' & p & X & _)|(k' & X & Y)].
      + eapply c_closed; eauto.
      + rewrite Hq in X. destruct X.
      + exists k'. split; auto. congruence. }
  intros k Rk. destruct (P k Rk) as (k' & Ik & Ek).
  rewrite <- (goal_rep k' k); auto.
  - eapply c_nogoal; eauto.
  - eapply i_dom_seen; eauto.
  - apply reachable_dom; auto.
Qed.
End Core.
