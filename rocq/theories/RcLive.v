(** Proofs about RcModel.v: who has a mutex gives it back, if no mutex is taken within another. *)
From Coq Require Import List Bool.
From Verif Require Import RcModel RcProofs.
Import ListNotations.

Section Live.
Context {var lock tid : Type} (P : system var lock tid).
Notation act := (act var lock tid). Notation code := (code var lock tid). Notation rcs := (rcs var lock tid).
(** the steps of one thread alone *)
Inductive own_steps (t : tid) : rcs -> rcs -> Prop :=
| OwnNone : forall s, own_steps t s s
| OwnMore : forall s s' s'', rc_step P s s' -> todo s t <> todo s' t -> (forall u, u <> t -> todo s' u = todo s u) -> own_steps t s' s'' -> own_steps t s s''.
(** no Guard within a Guard *)
Fixpoint flat (inside : bool) (p : code) : bool :=
  match p with
  | Seq p q | Alt p q => flat inside p && flat inside q | Star p => flat inside p
  | Guard l p => negb inside && flat true p
  | _ => true
  end.
Fixpoint fine (h : option lock) (x : list act) : Prop :=
  match x with
  | [] => h = None
  | Take l :: r => h = None /\ fine (Some l) r
  | Give l :: r => h = Some l /\ fine None r
  | _ :: r => fine h r
  end.
Definition busy (h : option lock) : bool := match h with Some _ => true | None => false end.
Lemma flat_fine p x : runs p x -> forall h r, flat (busy h) p = true -> fine h r -> fine h (x ++ r).
Proof.
  intros R. induction R as [|v|v|u|p q x y _ IHp _ IHq|p q x _ IH|p q x _ IH|p|p x y _ IHp _ IHs|l p x _ IH]; intros h r C O; cbn in C |- *; try exact O.
  - apply andb_prop in C as [C D]. rewrite <- app_assoc. apply IHp; [exact C|]. apply IHq; [exact D|exact O].
  - apply andb_prop in C as [C D]. apply IH; assumption.
  - apply andb_prop in C as [C D]. apply IH; assumption.
  - rewrite <- app_assoc. apply IHp; [exact C|]. apply IHs; [exact C|exact O].
  - destruct h as [k|]; [discriminate C|]. cbn in C. split; [reflexivity|]. rewrite <- app_assoc. apply IH; [exact C|]. cbn. split; [reflexivity|exact O].
Qed.
Definition tidy (s : rcs) : Prop := exists h : tid -> option lock, (forall t, fine (h t) (todo s t)) /\ (forall l t, holder s l = Some t <-> h t = Some l).
Hypothesis bodies : forall t, flat false (body P t) = true.
Hypothesis start : flat false (first P) = true.
Lemma tidy_plain s t r w a : tidy s -> (forall h, fine h (todo s t) -> fine h r) -> w = holder s -> tidy (Rcs (on P (todo s) t r) w a).
Proof.
  intros (h & O & W) G ->. exists h. split; [|exact W]. intros u. cbn.
  destruct (tid_dec P u t) as [->|D]; [rewrite on_same; exact (G _ (O t))|rewrite on_other by exact D; exact (O u)].
Qed.
Lemma tidy_step s s' : tidy s -> rc_step P s s' -> tidy s'.
Proof.
  intros R St. destruct St as [s t l r E F|s t l r E F|s t v r E|s t v r E|s t u r E|s t c E A C].
  - destruct R as (h & O & W). pose proof (O t) as Ot. rewrite E in Ot. destruct Ot as [Hn Ot]. exists (on P h t (Some l)). cbn. split.
    + intros u. destruct (tid_dec P u t) as [->|D]; [rewrite !on_same; exact Ot|rewrite !on_other by exact D; exact (O u)].
    + intros k u. destruct (lock_dec P k l) as [->|Dk].
      * rewrite upd_same. destruct (tid_dec P u t) as [->|D]; [rewrite on_same; split; reflexivity|].
        rewrite on_other by exact D. split; [congruence|]. intros I. apply W in I. congruence.
      * rewrite upd_other by exact Dk. destruct (tid_dec P u t) as [->|D]; [|rewrite on_other by exact D; exact (W k u)].
        rewrite on_same. rewrite (W k t). split; congruence.
  - destruct R as (h & O & W). pose proof (O t) as Ot. rewrite E in Ot. destruct Ot as [Hn Ot]. exists (on P h t None). cbn. split.
    + intros u. destruct (tid_dec P u t) as [->|D]; [rewrite !on_same; exact Ot|rewrite !on_other by exact D; exact (O u)].
    + intros k u. destruct (lock_dec P k l) as [->|Dk].
      * rewrite upd_same. split; [discriminate|]. intros I. exfalso. destruct (tid_dec P u t) as [->|D]; [rewrite on_same in I; discriminate I|].
        rewrite on_other in I by exact D. apply W in I. congruence.
      * rewrite upd_other by exact Dk. destruct (tid_dec P u t) as [->|D]; [|rewrite on_other by exact D; exact (W k u)].
        rewrite on_same. rewrite (W k t). split; congruence.
  - apply tidy_plain; [exact R| |reflexivity]. intros h O. rewrite E in O. exact O.
  - apply tidy_plain; [exact R| |reflexivity]. intros h O. rewrite E in O. exact O.
  - apply tidy_plain; [exact R| |reflexivity]. intros h O. rewrite E in O. exact O.
  - apply tidy_plain; [exact R| |reflexivity]. intros h O. rewrite E in O. cbn in O. subst h. rewrite <- (app_nil_r c).
    apply (flat_fine (body P t)); [exact C|exact (bodies t)|reflexivity].
Qed.
Lemma reachable_tidy s : reachable P s -> tidy s.
Proof.
  intros R. induction R as [s I|s s' R IH St]; [|exact (tidy_step s s' IH St)].
  destruct I as [c C]. exists (fun _ => None). split; [|intros l t; cbn; split; discriminate].
  intros t. cbn. destruct (tid_dec P t (main P)) as [->|D]; [rewrite on_same|rewrite on_other by exact D; reflexivity].
  rewrite <- (app_nil_r c). apply (flat_fine (first P)); [exact C|exact start|reflexivity].
Qed.
Lemma step_on s t a r w al : todo s t = a :: r -> rc_step P s (Rcs (on P (todo s) t r) w al) ->
  forall s'', own_steps t (Rcs (on P (todo s) t r) w al) s'' -> own_steps t s s''.
Proof.
  intros E St s'' O. eapply OwnMore; [exact St| | |exact O].
  - cbn. rewrite on_same, E. intros X. apply (f_equal (@length _)) in X. cbn in X. exact (PeanoNat.Nat.neq_succ_diag_l _ X).
  - intros u D. cbn. apply on_other. exact D.
Qed.
Theorem gives_back s l u : reachable P s -> holder s l = Some u ->
  exists s', own_steps u s s' /\ holder s' l = None.
Proof.
  intros R. remember (todo s u) as x eqn:E. revert s R E. induction x as [|a r IH]; intros s R E H.
  - exfalso. destruct (reachable_tidy s R) as (h & O & W). specialize (O u). rewrite <- E in O. apply W in H. cbn in O. congruence.
  - symmetry in E. pose proof (reachable_tidy s R) as (h & O & W). pose proof (O u) as Ou. rewrite E in Ou. pose proof (proj1 (W l u) H) as Hu.
    assert (plain : forall al, rc_step P s (Rcs (on P (todo s) u r) (holder s) al) -> exists s', own_steps u s s' /\ holder s' l = None).
    { intros al St. destruct (IH _ (RMore P _ _ R St)) as (s' & Os & N); [cbn; symmetry; apply on_same|exact H|]. exists s'. split; [exact (step_on s u a r _ al E St s' Os)|exact N]. }
    destruct a as [k|k|v|v|w]; cbn in Ou.
    + destruct Ou as [Hn _]. congruence.
    + destruct Ou as [Hk _]. assert (k = l) by congruence. subst k.
      pose proof (XGive P s u l r E H) as St. exists (Rcs (on P (todo s) u r) (upd P (holder s) l None) (alive s)).
      split; [exact (step_on s u (Give l) r _ _ E St _ (OwnNone u _))|cbn; apply upd_same].
    + exact (plain _ (XRd P s u v r E)).
    + exact (plain _ (XWr P s u v r E)).
    + exact (plain _ (XFork P s u w r E)).
Qed.
(** no thread waits for a mutex that it has itself *)
Theorem no_relock s l t : reachable P s -> next_is s t (Take l) -> holder s l <> Some t.
Proof.
  intros R (r & E) H. destruct (reachable_tidy s R) as (h & O & W). specialize (O t). rewrite E in O. destruct O as [Hn _]. apply W in H. congruence.
Qed.
(** whoever waits for a mutex can have it at once, or as soon as another thread has finished what it does with it, for which that thread needs nobody *)
Theorem gets_it s l t : reachable P s -> next_is s t (Take l) ->
  exists s' s'', (s' = s \/ exists u, u <> t /\ holder s l = Some u /\ own_steps u s s') /\ rc_step P s' s'' /\ holder s'' l = Some t.
Proof.
  intros R N. pose proof N as (r & E). destruct (holder s l) as [u|] eqn:H.
  - assert (D : u <> t) by (intros ->; exact (no_relock s l t R N H)).
    destruct (gives_back s l u R H) as (s' & O & F). exists s'.
    assert (E' : todo s' t = Take l :: r).
    { rewrite <- E. clear - O D. induction O as [|s1 s2 s3 _ _ U _ IH]; [reflexivity|]. rewrite IH. apply U. congruence. }
    exists (Rcs (on P (todo s') t r) (upd P (holder s') l (Some t)) (alive s')). split; [right; exists u; auto|]. split; [exact (XTake P s' t l r E' F)|cbn; apply upd_same].
  - exists s. exists (Rcs (on P (todo s) t r) (upd P (holder s) l (Some t)) (alive s)). split; [left; reflexivity|]. split; [exact (XTake P s t l r E H)|cbn; apply upd_same].
Qed.
End Live.

(** a thread goes round its body n times, alone, each time with the accesses in c *)
Section Turns.
Context {var lock tid : Type} (P : system var lock tid).
Notation act := (act var lock tid). Notation rcs := (rcs var lock tid).
Inductive turns (t : tid) (c : list act) : nat -> rcs -> rcs -> Prop :=
| NoTurn : forall s, turns t c 0 s s
| OneTurn : forall n s s1 s2 s3, todo s t = [] -> todo s1 t = c -> runs (body P t) c -> rc_step P s s1 ->
    own_steps P t s1 s2 -> todo s2 t = [] -> turns t c n s2 s3 -> turns t c (S n) s s3.
Definition free (a : act) : bool := match a with Take _ | Give _ | Fork _ => false | _ => true end.
Lemma run_free t x : forallb free x = true -> forall s, reachable P s -> todo s t = x ->
  exists s', own_steps P t s s' /\ reachable P s' /\ todo s' t = [] /\ (forall u, u <> t -> todo s' u = todo s u) /\ holder s' = holder s /\ alive s' = alive s.
Proof.
  induction x as [|a x IH]; intros C s R E.
  - exists s. split; [apply OwnNone|]. auto.
  - cbn in C. apply andb_prop in C as [Ca C].
    assert (St : rc_step P s (Rcs (on P (todo s) t x) (holder s) (alive s))). { destruct a as [l|l|v|v|w]; try discriminate Ca; econstructor; exact E. }
    destruct (IH C _ (RMore P _ _ R St)) as (s' & O & R' & E' & U & H & A); [cbn; apply on_same|].
    exists s'. split; [exact (step_on P s t a x _ _ E St s' O)|]. split; [exact R'|split; [exact E'|split; [|split; [exact H|exact A]]]].
    intros u D. rewrite (U u D). cbn. rewrite on_other by exact D. reflexivity.
Qed.
Lemma many_turns t c : runs (body P t) c -> forallb free c = true -> forall n s, reachable P s -> todo s t = [] -> alive s t = true ->
  exists s', turns t c n s s' /\ reachable P s' /\ (forall u, u <> t -> todo s' u = todo s u) /\ holder s' = holder s.
Proof.
  intros Rn F. induction n as [|n IH]; intros s R E A.
  - exists s. split; [apply NoTurn|]. auto.
  - pose proof (XStart P s t c E A Rn) as St. destruct (run_free t c F _ (RMore P _ _ R St)) as (s2 & O & R2 & E2 & U2 & H2 & A2); [cbn; apply on_same|].
    destruct (IH s2 R2 E2 (eq_trans (f_equal (fun f => f t) A2) A)) as (s3 & T & R3 & U3 & H3).
    exists s3. split; [refine (OneTurn t c n s _ s2 s3 E _ Rn St O E2 T); cbn; apply on_same|]. split; [exact R3|split].
    + intros u D. rewrite (U3 u D), (U2 u D). cbn. rewrite on_other by exact D. reflexivity.
    + rewrite H3, H2. reflexivity.
Qed.
End Turns.
