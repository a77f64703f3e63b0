(** Proofs about the time a cloud takes through the node (NwModel.v). *)
From Coq Require Import ZArith List Bool Lia.
From Verif Require Import NwModel NwSpec.
Import ListNotations.
Open Scope Z_scope.

Section N.
Variable n : nat.
Hypothesis n_pos : (0 < n)%nat.

Definition some {X} (o : option X) : bool := match o with Some _ => true | None => false end.
Lemma upd_same {X} (f : nat -> X) i v : upd f i v i = v.
Proof. unfold upd. rewrite Nat.eqb_refl. reflexivity. Qed.
Lemma upd_other {X} (f : nat -> X) i v j : j <> i -> upd f i v j = f j.
Proof. intros Nj. unfold upd. apply Nat.eqb_neq in Nj. rewrite Nj. reflexivity. Qed.
Lemma since_id b old t : b = some old -> since b old t = old.
Proof. intros ->. destruct old; reflexivity. Qed.
Lemma since_some b old t : some (since b old t) = b.
Proof. destruct b, old; reflexivity. Qed.
Lemma in_cams i : In i (cams n) <-> (i < n)%nat.
Proof. unfold cams. rewrite in_seq. lia. Qed.

(** a transform thread, given the time and the waiting cloud *)
Definition inv_x (t : Z) (pe : option (Z * Z)) (p : xpc) : Prop :=
  (match p with XWait dl => t <= dl | XTfPark | XTfWait _ => False | _ => True end) /\
  match pe with
  | None => True
  | Some (_, a) => a <= t /\ match p with XWait dl => dl <= a + 5000 | XPark => a = t | _ => t <= a + 5000 end
  end.
(** the planning thread, given the time and since when all clouds have been transformed *)
Definition inv_w (t : Z) (sa : option Z) (p : wpc) : Prop :=
  (match p with WWait dl => t <= dl | WSleep u => t <= u <= t + 100 | _ => True end) /\
  match sa with
  | None => True
  | Some b => b <= t /\ match p with WWait dl => dl <= b + 5000 | WPark => b = t | WCount _ false => b = t | WSleep u => u <= b + 5000 | _ => t <= b + 5000 end
  end.
Definition inv_r (s : nw) : Prop :=
  match since_ready s with
  | None => True
  | Some r => r <= now s /\ (forall i, (i < n)%nat -> dn s i = false -> exists st a, pend s i = Some (st, a) /\ a <= r) /\
              match since_all s with Some b => b <= r + 5000 | None => True end
  end.
Definition inv (s : nw) : Prop :=
  w_begin s <= now s /\ (forall i, (i < n)%nat -> inv_x (now s) (pend s i) (x s i)) /\ inv_w (now s) (since_all s) (w s) /\ inv_r s /\
  some (since_all s) = all_done n s /\ some (since_ready s) = all_ready n s.

Lemma inv_init : inv (nw_init n).
Proof.
  unfold inv. split; [cbn; lia|]. split; [intros i _; split; cbn; auto|].
  assert (A : all_done n (Nw 0 (fun _ => None) (fun _ => false) (fun _ => XCheck) WStart 0 (fun _ => 0) None None []) = false).
  { unfold all_done, cams. destruct n; [lia|]. reflexivity. }
  assert (B : all_ready n (Nw 0 (fun _ => None) (fun _ => false) (fun _ => XCheck) WStart 0 (fun _ => 0) None None []) = false).
  { unfold all_ready, cams. destruct n; [lia|]. reflexivity. }
  unfold nw_init, observe. rewrite A, B. cbn [since].
  split; [split; cbn; auto|]. split; [exact I|]. cbn [since_all since_ready some]. split; [symmetry; exact A|symmetry; exact B].
Qed.

Lemma all_done_true s i : all_done n s = true -> (i < n)%nat -> dn s i = true.
Proof. intros A L. unfold all_done in A. rewrite forallb_forall in A. apply A. apply in_cams. exact L. Qed.
Lemma all_done_false s : all_done n s = false -> exists i, (i < n)%nat /\ dn s i = false.
Proof.
  intros A. unfold all_done in A. assert (G : forall l, forallb (dn s) l = false -> exists i, In i l /\ dn s i = false).
  { induction l as [|y l IH]; [discriminate|]. cbn. intros F. apply andb_false_iff in F as [F|F]; [exists y; split; [left; reflexivity|exact F]|].
    destruct (IH F) as (i & I & D). exists i. split; [right; exact I|exact D]. }
  destruct (G _ A) as (i & I & D). exists i. split; [apply in_cams; exact I|exact D].
Qed.

Definition keeps_r (t : Z) (pe : nat -> option (Z * Z)) (d : nat -> bool) (sa' : option Z) (r : Z) : Prop :=
  r <= t /\ (forall i, (i < n)%nat -> d i = false -> exists st a, pe i = Some (st, a) /\ a <= r) /\ match sa' with Some b => b <= r + 5000 | None => True end.
Lemma inv_observe t pe d xs wp wb lc sa sr pl (s1 := Nw t pe d xs wp wb lc sa sr pl) (sa' := since (all_done n s1) sa t) :
  wb <= t -> (forall i, (i < n)%nat -> inv_x t (pe i) (xs i)) -> inv_w t sa' wp -> (forall r, sr = Some r -> keeps_r t pe d sa' r) -> inv (observe n s1).
Proof.
  intros Hb Hx Hw Hr. unfold inv, observe. fold sa'. cbn [now pend dn x w w_begin last_cloud since_all since_ready plans s1].
  split; [exact Hb|split; [exact Hx|split; [exact Hw|split; [|split]]]].
  - unfold inv_r. cbn [since_ready now dn pend since_all]. destruct (all_ready n _) eqn:Eb; cbn [since]; [|exact I].
    destruct sr as [r|]; [exact (Hr r eq_refl)|]. split; [lia|]. split.
    + intros j Lj Dj. unfold all_ready in Eb. rewrite forallb_forall in Eb. specialize (Eb j (proj2 (in_cams j) Lj)). cbn in Eb. rewrite Dj in Eb. cbn in Eb.
      destruct (pe j) as [[st a]|] eqn:Epj; [|discriminate]. exists st, a. split; [reflexivity|]. specialize (Hx j Lj). rewrite Epj in Hx. destruct Hx as [_ [Hx _]]. exact Hx.
    + unfold sa' in *. destruct (since (all_done n s1) sa t) as [b|]; [|exact I]. destruct Hw as [_ [Hw _]]. lia.
  - cbn. apply since_some.
  - cbn. apply since_some.
Qed.

Lemma inv_step s l s' : inv s -> found_all l = true -> nw_step n s l = Some s' -> inv s'.
Proof.
  intros (Hb & Hx & Hw & Hr & Sa & Sr) F St. destruct s as [t pe d xs wp wb lc sa sr pl]. unfold nw_step in St.
  cbn [now pend dn x w w_begin last_cloud since_all since_ready plans] in *.
  destruct (nw_step0 n (Nw t pe d xs wp wb lc sa sr pl) l) as [s1|] eqn:E; [|discriminate]. injection St as <-.
  cbn [nw_step0] in E.
  assert (Hr' : forall r, sr = Some r -> keeps_r t pe d sa r) by (intros r ->; exact Hr). clear Hr.
  assert (Sid : forall pe' xs' wp' wb' lc' sr' pl' t', since (all_done n (Nw t' pe' d xs' wp' wb' lc' sa sr' pl')) sa t' = sa).
  { intros. apply since_id. symmetry. exact Sa. }
  destruct l as [i stamp|i found| | |].
  - (* a cloud *)
    destruct (i <? n)%nat eqn:Li; cbn [negb] in E; [|discriminate]. apply Nat.ltb_lt in Li. pose proof (Hx i Li) as Hxi.
    destruct (pe i) as [[st0 a]|] eqn:Ep.
    + destruct (stamp - st0 <? 300).
      * injection E as <-. apply inv_observe; rewrite ?Sid; assumption.
      * injection E as <-. apply inv_observe; rewrite ?Sid; try assumption.
        -- intros j Lj. destruct (Nat.eq_dec j i) as [->|Nj]; [|rewrite !upd_other by exact Nj; exact (Hx j Lj)].
           rewrite !upd_same. unfold inv_x in *. destruct (xs i); cbn in *; intuition lia.
        -- intros r Er. destruct (Hr' r Er) as (R1 & R2 & R3). split; [exact R1|]. split; [|exact R3].
           intros j Lj Dj. destruct (R2 j Lj Dj) as (st & a' & P1 & P2). destruct (Nat.eq_dec j i) as [->|Nj]; [|rewrite upd_other by exact Nj; exists st, a'; split; assumption].
           rewrite upd_same. exists stamp, a. split; [reflexivity|]. rewrite Ep in P1. injection P1 as _ ->. exact P2.
    + injection E as <-. apply inv_observe; rewrite ?Sid; try assumption.
      * intros j Lj. destruct (Nat.eq_dec j i) as [->|Nj]; [|rewrite !upd_other by exact Nj; exact (Hx j Lj)].
        rewrite !upd_same. unfold inv_x in *. destruct (xs i); cbn in *; intuition lia.
      * intros r Er. destruct (Hr' r Er) as (R1 & R2 & R3). split; [exact R1|]. split; [|exact R3].
        intros j Lj Dj. destruct (R2 j Lj Dj) as (st & a' & P1 & P2). destruct (Nat.eq_dec j i) as [->|Nj]; [congruence|].
        rewrite upd_other by exact Nj. exists st, a'. split; assumption.
  - (* a transform thread *)
    destruct (i <? n)%nat eqn:Li; cbn [negb] in E; [|discriminate]. apply Nat.ltb_lt in Li. pose proof (Hx i Li) as Hxi.
    assert (Hx' : forall p, inv_x t (pe i) p -> forall j, (j < n)%nat -> inv_x t (pe j) (upd xs i p j)).
    { intros p Hp j Lj. destruct (Nat.eq_dec j i) as [->|Nj]; [rewrite upd_same; exact Hp|rewrite upd_other by exact Nj; exact (Hx j Lj)]. }
    destruct (xs i) as [| |dl| |dl] eqn:Ex.
    + destruct (pe i) as [[st0 a]|] eqn:Ep.
      * destruct found; [|discriminate]. injection E as <-.
        set (s1 := Nw t (upd pe i None) (upd d i true) (upd xs i XPark) (wake_w wp) wb lc sa sr pl).
        assert (Hnew : forall b, since (all_done n s1) sa t = Some b -> b <= t /\ (sa = None -> b = t) /\ (forall b0, sa = Some b0 -> b = b0)).
        { intros b K. unfold since in K. destruct (all_done n s1); [|discriminate]. destruct sa as [b0|]; injection K as <-.
          - destruct Hw as [_ [Hw _]]. split; [exact Hw|]. split; [discriminate|]. intros b1 K. injection K as ->. reflexivity.
          - split; [lia|]. split; [reflexivity|discriminate]. }
        apply inv_observe; try assumption.
        -- intros j Lj. destruct (Nat.eq_dec j i) as [->|Nj]; [rewrite !upd_same; split; exact I|rewrite !upd_other by exact Nj; exact (Hx j Lj)].
        -- fold s1. destruct (since (all_done n s1) sa t) as [b|] eqn:Eb.
           ++ destruct (Hnew b eq_refl) as (B1 & B2 & B3). unfold inv_w in *. destruct sa as [b0|].
              ** specialize (B3 b0 eq_refl). subst b0. destruct wp as [|k al| |dl| |u]; cbn in *; try destruct al; intuition lia.
              ** specialize (B2 eq_refl). subst b. destruct wp as [|k al| |dl| |u]; cbn in *; try destruct al; intuition lia.
           ++ unfold inv_w in *. destruct wp as [|k al| |dl| |u]; cbn in *; intuition.
        -- intros r Er. destruct (Hr' r Er) as (R1 & R2 & R3). split; [exact R1|]. split.
           ++ intros j Lj Dj. destruct (Nat.eq_dec j i) as [->|Nj]; [rewrite upd_same in Dj; discriminate|]. rewrite upd_other in Dj by exact Nj. rewrite upd_other by exact Nj. exact (R2 j Lj Dj).
           ++ fold s1. destruct (since (all_done n s1) sa t) as [b|] eqn:Eb; [|exact I]. destruct (Hnew b eq_refl) as (B1 & B2 & B3).
              destruct sa as [b0|]; [rewrite (B3 b0 eq_refl); exact R3|]. rewrite (B2 eq_refl).
              cbn in Sa. symmetry in Sa. apply all_done_false in Sa as (j & Lj & Dj). cbn in Dj. destruct (R2 j Lj Dj) as (st & a' & P1 & P2).
              destruct (Nat.eq_dec j i) as [->|Nj].
              ** destruct Hxi as [_ [_ Hxi]]. rewrite Ep in P1. injection P1 as _ ->. lia.
              ** exfalso. unfold since in Eb. destruct (all_done n s1) eqn:Ed; [|discriminate]. pose proof (all_done_true _ j Ed Lj) as D. cbn in D.
                 rewrite upd_other in D by exact Nj. congruence.
      * injection E as <-. apply inv_observe; rewrite ?Sid; try assumption. apply Hx'. rewrite ?Ep. split; exact I.
    + injection E as <-. apply inv_observe; rewrite ?Sid; try assumption. apply Hx'. unfold inv_x in *. destruct (pe i) as [[st0 a]|]; cbn in *; intuition lia.
    + destruct (dl <=? t) eqn:El; [|discriminate]. apply Z.leb_le in El. injection E as <-. apply inv_observe; rewrite ?Sid; try assumption.
      apply Hx'. unfold inv_x in *. destruct (pe i) as [[st0 a]|]; cbn in *; intuition lia.
    + destruct Hxi as [[] _].
    + destruct Hxi as [[] _].
  - (* the planning thread *)
    destruct wp as [|k al| |dl| |u].
    + injection E as <-. apply inv_observe; rewrite ?Sid; try assumption. lia.
    + destruct (k <? n)%nat eqn:Lk; injection E as <-; apply inv_observe; rewrite ?Sid; try assumption.
      * apply Nat.ltb_lt in Lk. unfold inv_w in *. destruct sa as [b|]; cbn in *; [|intuition].
        symmetry in Sa. pose proof (all_done_true _ k Sa Lk) as D. cbn in D. rewrite D, andb_true_r. destruct al; intuition lia.
      * destruct (n =? 0)%nat eqn:E0; [apply Nat.eqb_eq in E0; lia|]. unfold inv_w in *. destruct sa as [b|]; cbn in *; destruct al; intuition lia.
    + injection E as <-. apply inv_observe; rewrite ?Sid; try assumption. unfold inv_w in *. destruct sa as [b|]; cbn in *; intuition lia.
    + destruct (dl <=? t) eqn:El; [|discriminate]. apply Z.leb_le in El. injection E as <-. apply inv_observe; rewrite ?Sid; try assumption.
      unfold inv_w in *. destruct sa as [b|]; cbn in *; intuition lia.
    + injection E as <-.
      assert (Ad : forall pe' xs' wp' wb' lc' sr' pl' t', all_done n (Nw t' pe' (fun _ => false) xs' wp' wb' lc' None sr' pl') = false).
      { intros. unfold all_done, cams. destruct n; [lia|reflexivity]. }
      apply inv_observe; rewrite ?Ad; try assumption; cbn [since].
      * unfold inv_w. destruct (wb + 100 <=? t) eqn:El; [split; exact I|]. apply Z.leb_gt in El. split; [cbn; lia|exact I].
      * discriminate.
    + destruct (u <=? t) eqn:El; [|discriminate]. apply Z.leb_le in El. injection E as <-. apply inv_observe; rewrite ?Sid; try assumption.
      unfold inv_w in *. destruct sa as [b|]; cbn in *; intuition lia.
  - (* the tf thread *)
    injection E as <-. apply inv_observe; rewrite ?Sid; try assumption.
    intros j Lj. specialize (Hx j Lj). destruct (xs j); cbn [wake_tf]; try exact Hx. destruct Hx as [[] _].
  - (* time *)
    destruct (forallb (fun i => x_waits t (xs i)) (cams n) && w_waits t wp) eqn:Ew; [|discriminate]. injection E as <-.
    apply andb_true_iff in Ew as [Ex Ew]. rewrite forallb_forall in Ex.
    apply inv_observe; rewrite ?Sid; try lia.
    + intros j Lj. specialize (Hx j Lj). specialize (Ex j (proj2 (in_cams j) Lj)). unfold inv_x in *.
      destruct (xs j) as [| |dl| |dl]; cbn in Ex; try discriminate; [|destruct Hx as [[] _]]. apply Z.ltb_lt in Ex.
      destruct (pe j) as [[st a]|]; cbn in *; intuition lia.
    + unfold inv_w in *. destruct wp as [|k al| |dl| |u]; cbn in Ew; try discriminate; apply Z.ltb_lt in Ew; destruct sa as [b|]; cbn in *; intuition lia.
    + intros r Er. destruct (Hr' r Er) as (R1 & R2 & R3). split; [lia|]. split; [exact R2|exact R3].
Qed.
Lemma inv_run ls : forall s s', inv s -> forallb found_all ls = true -> nw_run n s ls = Some s' -> inv s'.
Proof.
  induction ls as [|l ls IH]; intros s s' I F R; cbn in R; [injection R as <-; exact I|].
  cbn in F. apply andb_true_iff in F as [F1 F2]. destruct (nw_step n s l) as [s1|] eqn:E; [|discriminate].
  exact (IH s1 s' (inv_step s l s1 I F1 E) F2 R).
Qed.
Lemma inv_bounds s : inv s ->
  (forall i st a, (i < n)%nat -> pend s i = Some (st, a) -> now s <= a + 5000) /\
  (forall b, since_all s = Some b -> now s <= b + 5000) /\ (forall r, since_ready s = Some r -> now s <= r + 10000).
Proof.
  intros (Hb & Hx & Hw & Hr & Sa & Sr).
  assert (A : forall i st a, (i < n)%nat -> pend s i = Some (st, a) -> now s <= a + 5000).
  { intros i st a L P. specialize (Hx i L). rewrite P in Hx. unfold inv_x in Hx. destruct (x s i); cbn in Hx; intuition lia. }
  assert (B : forall b, since_all s = Some b -> now s <= b + 5000).
  { intros b E. rewrite E in Hw. unfold inv_w in Hw. destruct (w s) as [|k al| |dl| |u]; cbn in Hw; try destruct al; intuition lia. }
  split; [exact A|split; [exact B|]]. intros r E. unfold inv_r in Hr. rewrite E in Hr. destruct Hr as (R1 & R2 & R3).
  destruct (since_all s) as [b|] eqn:Eb; [specialize (B b eq_refl); lia|].
  cbn in Sa. symmetry in Sa. apply all_done_false in Sa as (i & Li & Di). destruct (R2 i Li Di) as (st & a & P & Q). specialize (A i st a Li P). lia.
Qed.

(** ** a camera that keeps sending *)
Variable i : nat.
Hypothesis i_lt : (i < n)%nat.
Variables period latency : Z.
Hypothesis period_pos : 0 <= period.
Notation stamped := (stamped i latency).
Notation sending := (sending i period).
Notation steady := (steady n i period latency).
Definition inv_s (s : nw) : Prop :=
  last_cloud s i <= now s /\
  match pend s i with
  | None => True
  | Some (st, a) => match x s i with XWait _ => st = a - latency /\ last_cloud s i < a + 300 | XPark => st = a - latency | _ => now s <= a + 300 + period end
  end.
Lemma inv_s_step s l s' : inv s -> inv_s s -> sending s -> stamped s l -> found_all l = true -> nw_step n s l = Some s' -> inv_s s'.
Proof.
  intros (_ & Hx & _) Hs Hq Ht F St. destruct s as [t pe d xs wp wb lc sa sr pl]. unfold nw_step in St.
  unfold inv_s, sending, stamped in *. cbn [now pend dn x w w_begin last_cloud since_all since_ready plans] in *.
  destruct (nw_step0 n (Nw t pe d xs wp wb lc sa sr pl) l) as [s1|] eqn:E; [|discriminate]. injection St as <-.
  cbn [nw_step0] in E. specialize (Hx i i_lt). unfold inv_x in Hx. destruct l as [j stamp|j found| | |].
  - destruct (j <? n)%nat eqn:Lj; cbn [negb] in E; [|discriminate].
    destruct (Nat.eq_dec i j) as [<-|Nj].
    + specialize (Ht eq_refl). subst stamp. destruct (pe i) as [[st0 a]|] eqn:Ep.
      * destruct (t - latency - st0 <? 300) eqn:Eg.
        -- apply Z.ltb_lt in Eg. injection E as <-. cbn. rewrite !upd_same, Ep. destruct (xs i) eqn:Ex; cbn in *; intuition lia.
        -- apply Z.ltb_ge in Eg. injection E as <-. cbn. rewrite !upd_same. destruct (xs i) eqn:Ex; cbn in *; intuition lia.
      * injection E as <-. cbn. rewrite !upd_same. destruct (xs i) eqn:Ex; cbn in *; intuition lia.
    + assert (G : forall s1 pe' xs', s1 = observe n (Nw t pe' d xs' wp wb (upd lc j t) sa sr pl) -> pe' i = pe i -> xs' i = xs i ->
        last_cloud s1 i <= now s1 /\ match pend s1 i with None => True | Some (st, a) =>
          match x s1 i with XWait _ => st = a - latency /\ last_cloud s1 i < a + 300 | XPark => st = a - latency | _ => now s1 <= a + 300 + period end end).
      { intros s2 pe' xs' -> E1 E2. cbn. rewrite upd_other, E1, E2 by exact Nj. exact Hs. }
      destruct (pe j) as [[st0 a]|] eqn:Ep; [destruct (stamp - st0 <? 300)|]; injection E as <-; (eapply G; [reflexivity| |]); rewrite ?upd_other by exact Nj; reflexivity.
  - destruct (j <? n)%nat eqn:Lj; cbn [negb] in E; [|discriminate].
    destruct (Nat.eq_dec i j) as [<-|Nj].
    + destruct (xs i) as [| |dl| |dl] eqn:Ex.
      * destruct (pe i) as [[st0 a]|] eqn:Ep.
        -- destruct found; [|discriminate]. injection E as <-. cbn. rewrite !upd_same. split; [apply Hs|exact I].
        -- injection E as <-. cbn. rewrite !upd_same, Ep. split; [apply Hs|exact I].
      * injection E as <-. cbn. rewrite !upd_same. destruct (pe i) as [[st0 a]|]; cbn in *; intuition lia.
      * destruct (dl <=? t) eqn:El; [|discriminate]. injection E as <-. cbn. rewrite !upd_same. destruct (pe i) as [[st0 a]|]; cbn in *; intuition lia.
      * destruct Hx as [[] _].
      * destruct Hx as [[] _].
    + assert (G : forall s1 pe' d' xs' wp', s1 = observe n (Nw t pe' d' xs' wp' wb lc sa sr pl) -> pe' i = pe i -> xs' i = xs i ->
        last_cloud s1 i <= now s1 /\ match pend s1 i with None => True | Some (st, a) =>
          match x s1 i with XWait _ => st = a - latency /\ last_cloud s1 i < a + 300 | XPark => st = a - latency | _ => now s1 <= a + 300 + period end end).
      { intros s2 pe' d' xs' wp' -> E1 E2. cbn. rewrite E1, E2. exact Hs. }
      destruct (xs j) as [| |dl| |dl]; [destruct (pe j) as [[st0 a]|]; [destruct found|]| |destruct (dl <=? t); [|discriminate]| |destruct (dl <=? t); [|discriminate]];
        injection E as <-; (eapply G; [reflexivity| |]); rewrite ?upd_other by exact Nj; reflexivity.
  - destruct wp as [|k al| |dl| |u]; [| destruct (k <? n)%nat| |destruct (dl <=? t); [|discriminate]| |destruct (u <=? t); [|discriminate]]; injection E as <-; exact Hs.
  - injection E as <-. cbn. destruct (xs i) as [| |dl| |dl]; cbn; try exact Hs; destruct Hx as [[] _].
  - destruct (forallb (fun i => x_waits t (xs i)) (cams n) && w_waits t wp) eqn:Ew; [|discriminate]. injection E as <-. cbn.
    apply andb_true_iff in Ew as [Ex _]. rewrite forallb_forall in Ex. specialize (Ex i (proj2 (in_cams i) i_lt)). cbn in Ex.
    destruct (xs i) as [| |dl| |dl]; try discriminate Ex; [|destruct Hx as [[] _]]. destruct (pe i) as [[st a]|]; cbn in *; intuition lia.
Qed.
Lemma steady_run ls : forall s s', inv s -> inv_s s -> steady s ls -> forallb found_all ls = true -> nw_run n s ls = Some s' -> inv s' /\ inv_s s' /\ sending s'.
Proof.
  induction ls as [|l ls IH]; intros s s' I J Sd F R; cbn in R.
  - injection R as <-. destruct Sd as [Sd _]. split; [exact I|split; [exact J|exact Sd]].
  - cbn in F. apply andb_true_iff in F as [F1 F2]. destruct Sd as (Sd & St & Sd'). destruct (nw_step n s l) as [s1|] eqn:E; [|discriminate].
    exact (IH s1 s' (inv_step s l s1 I F1 E) (inv_s_step s l s1 I J Sd St F1 E) Sd' F2 R).
Qed.
Lemma steady_bound s st a : inv s -> inv_s s -> sending s -> pend s i = Some (st, a) -> now s <= a + 300 + period.
Proof.
  intros (_ & Hx & _) (_ & J) Sd P. specialize (Hx i i_lt). unfold inv_x in Hx. unfold sending in Sd. rewrite P in *. destruct (x s i); cbn in *; intuition lia.
Qed.

Lemma last_le_step s l s' : last_cloud s i <= now s -> nw_step n s l = Some s' -> last_cloud s' i <= now s'.
Proof.
  intros H St. destruct s as [t pe d xs wp wb lc sa sr pl]. unfold nw_step in St. cbn [now last_cloud] in H.
  destruct (nw_step0 n (Nw t pe d xs wp wb lc sa sr pl) l) as [s1|] eqn:E; [|discriminate]. injection St as <-. cbn [nw_step0] in E.
  destruct l as [j stamp|j found| | |].
  - destruct (j <? n)%nat; cbn [negb] in E; [|discriminate].
    assert (G : upd lc j t i <= t) by (destruct (Nat.eq_dec i j) as [<-|Nj]; [rewrite upd_same; lia|rewrite upd_other by exact Nj; exact H]).
    destruct (pe j) as [[st0 a]|]; [destruct (stamp - st0 <? 300)|]; injection E as <-; exact G.
  - destruct (j <? n)%nat; cbn [negb] in E; [|discriminate].
    destruct (xs j) as [| |dl| |dl]; [destruct (pe j) as [[st0 a]|]; [destruct found|]| |destruct (dl <=? t); [|discriminate]| |destruct (dl <=? t); [|discriminate]];
      injection E as <-; exact H.
  - destruct wp as [|k al| |dl| |u]; [| destruct (k <? n)%nat| |destruct (dl <=? t); [|discriminate]| |destruct (u <=? t); [|discriminate]]; injection E as <-; exact H.
  - injection E as <-. exact H.
  - destruct (forallb _ _ && _); [|discriminate]. injection E as <-. cbn. lia.
Qed.
Lemma last_le_run ls : forall s s', last_cloud s i <= now s -> nw_run n s ls = Some s' -> last_cloud s' i <= now s'.
Proof.
  induction ls as [|l ls IH]; intros s s' H R; cbn in R; [injection R as <-; exact H|]. destruct (nw_step n s l) as [s1|] eqn:E; [|discriminate].
  exact (IH s1 s' (last_le_step s l s1 H E) R).
Qed.
End N.
