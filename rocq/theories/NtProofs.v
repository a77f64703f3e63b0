(** Proofs about the locking of the local planner node (NtModel.v): the mutexes are taken in the order of a rank. *)
From Coq Require Import Arith List Bool Lia Relations FinFun.
From Verif Require Import NtModel.
Import ListNotations.

Definition rank (l : lock) : nat :=
  match l with Running => 0 | Waypoints => 1 | Cam _ => 2 | Tf => 3 | Cloud => 3 | Buf => 4 | Param => 4 | Wg => 4 end.
Fixpoint ok (n : nat) (H : list lock) (r : list act) : bool :=
  match r with
  | [] => match H with [] => true | _ => false end
  | Acq l :: r' => forallb (fun h => rank h <? rank l) H && ok n (l :: H) r'
  | Rel l :: r' => match H with h :: H' => if lock_eq_dec h l then ok n H' r' else false | [] => false end
  | Ext e :: r' => match e with Pose => forallb (fun h => rank h <=? 1) H | Reply => true end && ok n H r'
  | Join u :: r' => loops n u && match H with [] => true | _ => false end && ok n H r'
  end.

(** ** the scripts *)
Definition bal (n lo : nat) (b : list act) : Prop :=
  forall H c, (forall h, In h H -> rank h < lo) -> ok n H c = true -> ok n H (b ++ c) = true.
Lemma bal_nil n lo : bal n lo [].
Proof. intros H c _ K. exact K. Qed.
Lemma bal_app n lo a b : bal n lo a -> bal n lo b -> bal n lo (a ++ b).
Proof. intros A B H c L K. rewrite <- app_assoc. apply A; [exact L|]. apply B; assumption. Qed.
Lemma bal_flat_map {X} n lo (f : X -> list act) xs : (forall x, In x xs -> bal n lo (f x)) -> bal n lo (flat_map f xs).
Proof.
  induction xs as [|x xs IH]; intros B; [apply bal_nil|]. cbn. apply bal_app; [apply B; left; reflexivity|].
  apply IH. intros y I. apply B. right. exact I.
Qed.
Lemma bal_guard n lo l b : lo <= rank l -> bal n (S (rank l)) b -> bal n lo (guard l b).
Proof.
  intros E B H c L K. unfold guard. cbn. apply andb_true_iff. split.
  - apply forallb_forall. intros h I. apply Nat.ltb_lt. specialize (L h I). lia.
  - rewrite <- app_assoc. apply B.
    + intros h [<-|I]; [lia|]. specialize (L h I). lia.
    + cbn. destruct (lock_eq_dec l l) as [_|nn]; [exact K|congruence].
Qed.
Lemma bal_guard_wait n lo l : lo <= rank l -> bal n lo (guard l (wait_for l)).
Proof.
  intros E H c L K. unfold guard, wait_for. cbn [app ok].
  assert (F : forallb (fun h => rank h <? rank l) H = true).
  { apply forallb_forall. intros h I. apply Nat.ltb_lt. specialize (L h I). lia. }
  destruct (lock_eq_dec l l) as [_|nn]; [|congruence]. rewrite F. cbn [andb]. destruct (lock_eq_dec l l) as [_|nn]; [|congruence]. exact K.
Qed.
Lemma bal_replies n lo k : bal n lo (repeat (Ext Reply) k).
Proof. induction k; [apply bal_nil|]. intros H c L K. cbn. apply IHk; assumption. Qed.
Lemma bal_pose n lo : lo <= 2 -> bal n lo [Ext Pose].
Proof.
  intros E H c L K. cbn. rewrite K, andb_true_r. apply forallb_forall. intros h I. apply Nat.leb_le. specialize (L h I). lia.
Qed.
Lemma bal_join n t : loops n t = true -> bal n 0 [Join t].
Proof. intros T H c L K. cbn. rewrite T. destruct H as [|h H]; [exact K|]. specialize (L h (or_introl eq_refl)). lia. Qed.

Ltac bal_tac := repeat first
  [ apply bal_nil | apply bal_app | apply bal_guard_wait; cbn; lia | apply bal_guard; [cbn; lia|] | apply bal_flat_map; intros ? _
  | apply bal_replies | apply bal_pose; cbn; lia | apply bal_join; reflexivity ].
Lemma callback_bal n cb : callback n cb -> bal n 2 cb.
Proof. intros []; unfold cb_cloud, cb_param; try destruct first; bal_tac. Qed.
Lemma bal_le n lo lo' b : lo <= lo' -> bal n lo' b -> bal n lo b.
Proof. intros E B H c L K. apply B; [|exact K]. intros h I. specialize (L h I). lia. Qed.
Lemma script_bal n t c : script n t c -> bal n 0 c.
Proof.
  intros [ | | i ex Li | i ex Li | i ex Li | i ex Li | k | | cb Hcb | w a | | ];
    unfold worker_wait, worker_plan, num_transformed, update_info, xf_nothing, xf_missing1, xf_missing2, xf_done, xf_wait_cloud, xf_wait_tf, buf, tf_round,
      check_round, reconfigure, destructor, cmd_loop; try destruct ex; try destruct w; try destruct a; try (bal_tac; fail).
  - apply bal_le with 2; [lia|]. exact (callback_bal _ _ Hcb).
  - change [Join Worker; Join TfT] with ([Join Worker] ++ [Join TfT]). apply bal_app; [bal_tac|]. apply bal_app; [bal_tac|]. apply bal_app; [|bal_tac].
    apply bal_flat_map. intros i I. apply in_seq in I. apply bal_app; [bal_tac|]. apply bal_join. cbn. apply Nat.ltb_lt. lia.
Qed.
Lemma script_ok n t c : script n t c -> ok n [] c = true.
Proof. intros S. rewrite <- (app_nil_r c). apply (script_bal n t c S); [intros h []|reflexivity]. Qed.

Definition is_join (a : act) : bool := match a with Join _ => true | _ => false end.
Lemma no_join_app a b : existsb is_join (a ++ b) = existsb is_join a || existsb is_join b.
Proof. apply existsb_app. Qed.
Lemma no_join_flat_map {X} (f : X -> list act) xs : (forall x, existsb is_join (f x) = false) -> existsb is_join (flat_map f xs) = false.
Proof. intros F. induction xs as [|x xs IH]; [reflexivity|]. cbn. rewrite no_join_app, F, IH. reflexivity. Qed.
Lemma loop_script_no_join n t c : script n t c -> loops n t = true -> existsb is_join c = false.
Proof.
  intros S T.
  destruct S as [ | | i ex Li | i ex Li | i ex Li | i ex Li | k | | cb Hcb | w a | | ]; cbn in T; try discriminate;
    try (destruct ex; reflexivity); unfold worker_wait, worker_plan, num_transformed, update_info, tf_round, guard;
    repeat first [rewrite no_join_app | rewrite no_join_flat_map by reflexivity | progress cbn]; reflexivity.
Qed.

(** ** the invariant *)
Definition inv (n : nat) (s : nts) (held : tid -> list lock) : Prop :=
  forall t, ok n (held t) (rest s t) = true /\ (forall l, In l (held t) <-> owner s l = Some t) /\ NoDup (held t) /\
    (exited s t = true -> rest s t = [] /\ loops n t = true) /\ (loops n t = true -> existsb is_join (rest s t) = false).

Lemma upd_t_same {X} (f : tid -> X) t x : upd_t f t x t = x.
Proof. unfold upd_t. destruct (tid_eq_dec t t); congruence. Qed.
Lemma upd_t_other {X} (f : tid -> X) t x u : u <> t -> upd_t f t x u = f u.
Proof. unfold upd_t. destruct (tid_eq_dec u t); congruence. Qed.
Lemma upd_l_same {X} (f : lock -> X) t x : upd_l f t x t = x.
Proof. unfold upd_l. destruct (lock_eq_dec t t); congruence. Qed.
Lemma upd_l_other {X} (f : lock -> X) t x u : u <> t -> upd_l f t x u = f u.
Proof. unfold upd_l. destruct (lock_eq_dec u t); congruence. Qed.

Lemma inv_keep n s held t r : inv n s held -> ok n (held t) r = true -> exited s t = false -> (loops n t = true -> existsb is_join r = false) ->
  forall ex, inv n (Nts (upd_t (rest s) t r) (owner s) (exited s) ex) held.
Proof.
  intros I O E J ex u. destruct (I u) as (A & B & C & D & F). cbn. destruct (tid_eq_dec u t) as [->|n0].
  - rewrite upd_t_same. split; [exact O|split; [exact B|split; [exact C|split; [congruence|exact J]]]].
  - rewrite upd_t_other by exact n0. split; [exact A|split; [exact B|split; [exact C|split; [exact D|exact F]]]].
Qed.
Lemma tail_no_join n t a r : (loops n t = true -> existsb is_join (a :: r) = false) -> loops n t = true -> existsb is_join r = false.
Proof. intros F T. specialize (F T). cbn in F. apply orb_false_iff in F. tauto. Qed.

Lemma inv_acq n s held t l r : inv n s held -> rest s t = Acq l :: r -> owner s l = None ->
  inv n (Nts (upd_t (rest s) t r) (upd_l (owner s) l (Some t)) (exited s) (should_exit s)) (upd_t held t (l :: held t)).
Proof.
  intros I Hr Ho u. destruct (I u) as (A & B & C & D & F). cbn. destruct (tid_eq_dec u t) as [->|n0].
  - rewrite !upd_t_same. rewrite Hr in A, D, F. cbn in A. apply andb_true_iff in A as [A1 A2]. split; [exact A2|]. split; [|split; [|split]].
    + intros l'. destruct (lock_eq_dec l' l) as [->|nl].
      * rewrite upd_l_same. split; [reflexivity|left; reflexivity].
      * rewrite upd_l_other by exact nl. split; [intros [K|K]; [congruence|apply B; exact K]|intros K; right; apply B; exact K].
    + constructor; [|exact C]. intros K. apply B in K. congruence.
    + intros K. destruct (D K). discriminate.
    + exact (tail_no_join n t _ r F).
  - rewrite !upd_t_other by exact n0. split; [exact A|]. split; [|split; [exact C|split; [exact D|exact F]]].
    intros l'. destruct (lock_eq_dec l' l) as [->|nl].
    + rewrite upd_l_same. split; [intros K; apply B in K; congruence|congruence].
    + rewrite upd_l_other by exact nl. apply B.
Qed.
Lemma inv_rel n s held t l r : inv n s held -> rest s t = Rel l :: r -> owner s l = Some t ->
  inv n (Nts (upd_t (rest s) t r) (upd_l (owner s) l None) (exited s) (should_exit s)) (upd_t held t (tl (held t))).
Proof.
  intros I Hr Ho u. destruct (I u) as (A & B & C & D & F). cbn. destruct (tid_eq_dec u t) as [->|n0].
  - rewrite !upd_t_same. rewrite Hr in A, D, F. cbn in A. destruct (held t) as [|h H'] eqn:Eh; [discriminate|].
    destruct (lock_eq_dec h l) as [->|nh]; [|discriminate]. cbn [tl]. inversion C as [|? ? NI ND]; subst.
    split; [exact A|]. split; [|split; [exact ND|split]].
    + intros l'. destruct (lock_eq_dec l' l) as [->|nl].
      * rewrite upd_l_same. split; [intros K; contradiction|discriminate].
      * rewrite upd_l_other by exact nl. rewrite <- B. cbn. split; [intros K; right; exact K|intros [K|K]; [congruence|exact K]].
    + intros K. destruct (D K). discriminate.
    + exact (tail_no_join n t _ r F).
  - rewrite !upd_t_other by exact n0. split; [exact A|]. split; [|split; [exact C|split; [exact D|exact F]]].
    intros l'. destruct (lock_eq_dec l' l) as [->|nl].
    + rewrite upd_l_same. split; [intros K; apply B in K; congruence|discriminate].
    + rewrite upd_l_other by exact nl. apply B.
Qed.

Lemma not_exited n s held t a r : inv n s held -> rest s t = a :: r -> exited s t = false.
Proof. intros I R. destruct (I t) as (_ & _ & _ & D & _). destruct (exited s t); [|reflexivity]. destruct (D eq_refl). congruence. Qed.

Lemma reachable_inv n s : reachable n s -> exists held, inv n s held.
Proof.
  induction 1 as [|s s' R [held I] St|s t s' R [held I] An|s s' R [held I] Be].
  - exists (fun _ => []). intros t. cbn. split; [reflexivity|split; [|split; [constructor|split; [discriminate|reflexivity]]]]. intros l. split; [intros []|discriminate].
  - destruct St as [s t l r Hr Ho|s t l r Hr Ho|s t u r Hr Hx|s t T Hr Hx Hs].
    + eexists. apply (inv_acq n s held); assumption.
    + eexists. apply (inv_rel n s held); assumption.
    + exists held. destruct (I t) as (A & B & C & D & F). rewrite Hr in A, F. cbn in A. apply andb_true_iff in A as [A1 A2].
      apply (inv_keep n s held t r I A2 (not_exited n s held t _ r I Hr)). exact (tail_no_join n t _ r F).
    + exists held. intros u. destruct (I u) as (A & B & C & D & F). cbn. split; [exact A|split; [exact B|split; [exact C|split; [|exact F]]]].
      intros K. destruct (tid_eq_dec u t) as [->|n0]; [split; assumption|]. rewrite upd_t_other in K by exact n0. exact (D K).
  - destruct An as [s t e r Hr]. exists held. destruct (I t) as (A & B & C & D & F). rewrite Hr in A, F. cbn in A. apply andb_true_iff in A as [A1 A2].
    apply (inv_keep n s held t r I A2 (not_exited n s held t _ r I Hr)). exact (tail_no_join n t _ r F).
  - destruct Be as [s t c Hr Hx Hl Sc Nd|s Hr|s t cb r Hr Cb].
    + exists held. destruct (I t) as (A & B & C & D & F). rewrite Hr in A. cbn in A. destruct (held t) eqn:Eh; [|discriminate].
      apply (inv_keep n s held t c I); [rewrite Eh; exact (script_ok n t c Sc)|exact Hx|exact (loop_script_no_join n t c Sc)].
    + exists held. destruct (I Main) as (A & B & C & D & F). rewrite Hr in A. cbn in A. destruct (held Main) eqn:Eh; [|discriminate].
      intros u. destruct (I u) as (A' & B' & C' & D' & F'). cbn. destruct (tid_eq_dec u Main) as [->|n0].
      * rewrite upd_t_same. split; [rewrite Eh; exact (script_ok n Main _ (SDestroy n))|]. split; [exact B'|split; [exact C'|]].
        split; [|intros K; discriminate K]. intros K. destruct (D' K). discriminate.
      * rewrite upd_t_other by exact n0. split; [exact A'|split; [exact B'|split; [exact C'|split; [exact D'|exact F']]]].
    + exists held. destruct (I t) as (A & B & C & D & F). rewrite Hr in A, F. 
      apply (inv_keep n s held t _ I).
      * apply (callback_bal n cb Cb); [|exact A]. cbn in A. apply andb_true_iff in A as [A1 _]. rewrite forallb_forall in A1. intros h K.
        specialize (A1 h K). apply Nat.leb_le in A1. lia.
      * exact (not_exited n s held t _ r I Hr).
      * intros T. rewrite no_join_app, (F T), orb_false_r. destruct Cb as [i first Li| |]; [destruct first| |]; reflexivity.
Qed.

(** ** no thread waits in vain *)
Lemma holder_busy n s held l u : inv n s held -> owner s l = Some u -> rest s u <> [].
Proof.
  intros I O E. destruct (I u) as (A & B & _). apply B in O. rewrite E in A. cbn in A. destruct (held u); [contradiction|discriminate].
Qed.
Lemma holder_moves n s held : inv n s held -> forall k l u, 5 - rank l <= k -> owner s l = Some u ->
  exists v, clos_refl_trans tid (waits_for s) u v /\ (can_move n s v \/ needs_answer s v).
Proof.
  intros I. induction k as [|k IH]; intros l u K O.
  - destruct l; cbn in K; lia.
  - destruct (I u) as (A & B & C & D & F). pose proof (holder_busy n s held l u I O) as NE. pose proof O as Hin. apply B in Hin.
    destruct (rest s u) as [|[l'|l'|e|v] r] eqn:Er; [congruence| | | |]; cbn in A.
    + apply andb_true_iff in A as [A _]. rewrite forallb_forall in A. specialize (A l Hin). apply Nat.ltb_lt in A.
      destruct (owner s l') as [w|] eqn:Eo.
      * destruct (IH l' w) as (v & P & M); [lia|exact Eo|]. exists v. split; [|exact M].
        apply rt_trans with w; [|exact P]. apply rt_step. left. exists l', r. split; assumption.
      * exists u. split; [apply rt_refl|]. left. left. exists l', r. split; assumption.
    + exists u. split; [apply rt_refl|]. left. right. left. exists l', r. split; [exact Er|].
      destruct (held u) as [|h H'] eqn:Eh; [discriminate|]. destruct (lock_eq_dec h l') as [->|nh]; [|discriminate]. apply B. left. reflexivity.
    + exists u. split; [apply rt_refl|]. right. exists e, r. exact Er.
    + apply andb_true_iff in A as [A _]. apply andb_true_iff in A as [_ A]. destruct (held u); [contradiction|discriminate].
Qed.
Lemma busy_moves n s held : inv n s held -> forall t, rest s t <> [] -> existsb is_join (rest s t) = false ->
  exists v, clos_refl_trans tid (waits_for s) t v /\ (can_move n s v \/ needs_answer s v).
Proof.
  intros I t NE NJ. destruct (I t) as (A & B & C & D & F). destruct (rest s t) as [|[l|l|e|u] r] eqn:Er; [congruence| | | |].
  - destruct (owner s l) as [w|] eqn:Eo.
    + destruct (holder_moves n s held I 5 l w) as (v & P & M); [lia|exact Eo|]. exists v. split; [|exact M].
      apply rt_trans with w; [|exact P]. apply rt_step. left. exists l, r. split; assumption.
    + exists t. split; [apply rt_refl|]. left. left. exists l, r. split; assumption.
  - exists t. split; [apply rt_refl|]. left. right. left. exists l, r. split; [exact Er|]. cbn in A.
    destruct (held t) as [|h H'] eqn:Eh; [discriminate|]. destruct (lock_eq_dec h l) as [->|nh]; [|discriminate]. apply B. left. reflexivity.
  - exists t. split; [apply rt_refl|]. right. exists e, r. exact Er.
  - cbn in NJ. discriminate.
Qed.
(** the destructor joins only threads of which should_exit_ is set *)
Definition joining (s : nts) : Prop := forall t, existsb is_join (rest s t) = true -> should_exit s = true.
Lemma callback_no_join n cb : callback n cb -> existsb is_join cb = false.
Proof. intros [i first Li| |]; [destruct first| |]; reflexivity. Qed.
Lemma script_no_join n t c : script n t c -> c <> destructor n -> existsb is_join c = false.
Proof.
  intros S Nd. destruct (loops n t) eqn:T; [exact (loop_script_no_join n t c S T)|].
  destruct S as [ | | i ex Li | i ex Li | i ex Li | i ex Li | k | | cb Hcb | w a | | ]; cbn in T; try discriminate; try (apply Nat.ltb_ge in T; lia); try reflexivity.
  - exact (callback_no_join n cb Hcb).
  - destruct w, a; reflexivity.
  - congruence.
Qed.
Lemma joining_upd s t r o x f : joining s -> (existsb is_join r = true -> f = true) -> (should_exit s = true -> f = true) ->
  joining (Nts (upd_t (rest s) t r) o x f).
Proof.
  intros J A B u. cbn. destruct (tid_eq_dec u t) as [->|n0]; [rewrite upd_t_same; exact A|].
  rewrite upd_t_other by exact n0. intros K. apply B. exact (J u K).
Qed.
Lemma reachable_joining n s : reachable n s -> joining s.
Proof.
  induction 1 as [|s s' R I St|s t s' R I An|s s' R I Be].
  - intros t K. discriminate.
  - destruct St as [s t l r Hr Ho|s t l r Hr Ho|s t u r Hr Hx|s t T Hr Hx Hs];
      try (apply joining_upd; [exact I| |auto]; intros K; apply (I t); rewrite Hr; cbn; rewrite ?K; apply orb_true_r || reflexivity).
    exact I.
  - destruct An as [s t e r Hr]. apply joining_upd; [exact I| |auto]. intros K. apply (I t). rewrite Hr. exact K.
  - destruct Be as [s t c Hr Hx Hl Sc Nd|s Hr|s t cb r Hr Cb].
    + apply joining_upd; [exact I| |auto]. intros K. rewrite (script_no_join n t c Sc Nd) in K. discriminate.
    + apply joining_upd; [exact I|auto|auto].
    + apply joining_upd; [exact I| |auto]. intros K. apply (I t). rewrite Hr. rewrite no_join_app, (callback_no_join n cb Cb) in K. exact K.
Qed.

Theorem no_deadlock n s t : reachable n s -> rest s t <> [] ->
  exists v, clos_refl_trans tid (waits_for s) t v /\ (can_move n s v \/ needs_answer s v).
Proof.
  intros R NE. destruct (reachable_inv n s R) as [held I]. pose proof (reachable_joining n s R) as J.
  destruct (rest s t) as [|[l|l|e|u] r] eqn:Er; [congruence| | | |].
  4: { destruct (I t) as (A & _). rewrite Er in A. cbn in A. apply andb_true_iff in A as [A _]. apply andb_true_iff in A as [Lu _].
    destruct (exited s u) eqn:Ex.
    - exists t. split; [apply rt_refl|]. left. right. right. left. exists u, r. split; assumption.
    - assert (W : waits_for s t u) by (right; exists r; split; assumption).
      assert (Fl : should_exit s = true) by (apply (J t); rewrite Er; reflexivity).
      destruct (I u) as (A' & _ & _ & _ & F'). destruct (rest s u) as [|a r'] eqn:Eu.
      + exists u. split; [apply rt_step; exact W|]. left. right. right. right. repeat split; assumption.
      + destruct (busy_moves n s held I u) as (v & P & M); [congruence|rewrite Eu; apply F'; exact Lu|].
        exists v. split; [|exact M]. apply rt_trans with u; [apply rt_step; exact W|exact P]. }
  - destruct (owner s l) as [w|] eqn:Eo.
    + destruct (holder_moves n s held I 5 l w) as (v & P & M); [lia|exact Eo|]. exists v. split; [|exact M].
      apply rt_trans with w; [|exact P]. apply rt_step. left. exists l, r. split; assumption.
    + exists t. split; [apply rt_refl|]. left. left. exists l, r. split; assumption.
  - exists t. split; [apply rt_refl|]. left. right. left. exists l, r. split; [exact Er|]. destruct (I t) as (A & B & _). rewrite Er in A. cbn in A.
    destruct (held t) as [|h H'] eqn:Eh; [discriminate|]. destruct (lock_eq_dec h l) as [->|nh]; [|discriminate]. apply B. left. reflexivity.
  - exists t. split; [apply rt_refl|]. right. exists e, r. exact Er.
Qed.
Theorem no_self_lock n s t l r : reachable n s -> rest s t = Acq l :: r -> owner s l <> Some t.
Proof.
  intros R E O. destruct (reachable_inv n s R) as [held I]. destruct (I t) as (A & B & _). apply B in O. rewrite E in A. cbn in A.
  apply andb_true_iff in A as [A _]. rewrite forallb_forall in A. specialize (A l O). apply Nat.ltb_lt in A. lia.
Qed.
Theorem released_by_holder n s t l r : reachable n s -> rest s t = Rel l :: r -> owner s l = Some t.
Proof.
  intros R E. destruct (reachable_inv n s R) as [held I]. destruct (I t) as (A & B & _). rewrite E in A. cbn in A.
  destruct (held t) as [|h H'] eqn:Eh; [discriminate|]. destruct (lock_eq_dec h l) as [->|nh]; [|discriminate]. apply B. left. reflexivity.
Qed.
Theorem idle_holds_nothing n s t l : reachable n s -> rest s t = [] -> owner s l <> Some t.
Proof. intros R E O. destruct (reachable_inv n s R) as [held I]. exact (holder_busy n s held l t I O E). Qed.

(** ** what is under way ends *)
Definition wt (s : nts) (t : tid) : nat := length (rest s t) + (if exited s t then 0 else 1).
Lemma fold_wt_upd (f g : tid -> nat) t ts : NoDup ts -> In t ts -> (forall u, u <> t -> f u = g u) -> f t < g t ->
  fold_right (fun u a => f u + a) 0 ts < fold_right (fun u a => g u + a) 0 ts.
Proof.
  intros ND I E L. induction ts as [|x ts IH]; [contradiction|]. inversion ND as [|? ? NI ND']; subst. cbn. destruct I as [->|I].
  - assert (Q : fold_right (fun u a => f u + a) 0 ts = fold_right (fun u a => g u + a) 0 ts).
    { clear IH. induction ts as [|y ts IH']; [reflexivity|]. cbn. inversion ND'; subst. rewrite IH'; try assumption.
      - rewrite E; [reflexivity|]. intros ->. apply NI. left. reflexivity.
      - constructor; [|assumption]. intros K. apply NI. right. exact K.
      - intros K. apply NI. right. exact K. }
    lia.
  - rewrite (E x) by (intros ->; contradiction). specialize (IH ND' I). lia.
Qed.
Lemma threads_nodup n : NoDup (threads n).
Proof.
  unfold threads. repeat (constructor; [cbn; intros K; repeat (destruct K as [K|K]; [discriminate K|]); apply in_map_iff in K as (? & K & _); discriminate K|]).
  cbn. apply Injective_map_NoDup; [intros a b E; congruence|apply seq_NoDup].
Qed.
Lemma in_threads n t : In t (threads n) <-> match t with Xf i => i < n | _ => True end.
Proof.
  unfold threads. rewrite in_app_iff, in_map_iff. cbn. destruct t; split; intros H; try exact I; try tauto.
  - destruct H as [H|(j & E & K)]; [repeat (destruct H as [H|H]; [discriminate H|]); contradiction|]. injection E as <-. apply in_seq in K. lia.
  - right. exists i. split; [reflexivity|]. apply in_seq. lia.
Qed.
Definition silent (n : nat) (s : nts) : Prop := forall i, n <= i -> rest s (Xf i) = [].
Lemma silent_upd n s t r o x f : silent n s -> (In t (threads n)) -> silent n (Nts (upd_t (rest s) t r) o x f).
Proof.
  intros S I i L. cbn. rewrite upd_t_other; [exact (S i L)|]. intros <-. apply in_threads in I. lia.
Qed.
Lemma busy_in_threads n s t a r : silent n s -> rest s t = a :: r -> In t (threads n).
Proof.
  intros S E. apply in_threads. destruct t; try exact I. destruct (le_lt_dec n i) as [L|L]; [|exact L]. rewrite (S i L) in E. discriminate.
Qed.
Lemma script_in_threads n t c : script n t c -> In t (threads n).
Proof. intros []; apply in_threads; try exact I; assumption. Qed.
Lemma reachable_silent n s : reachable n s -> silent n s.
Proof.
  induction 1 as [|s s' R Si St|s t s' R Si An|s s' R Si Be].
  - intros i L. reflexivity.
  - destruct St as [s t l r Hr Ho|s t l r Hr Ho|s t u r Hr Hx|s t T Hr Hx Hs];
      try (apply silent_upd; [exact Si|exact (busy_in_threads n s t _ r Si Hr)]). exact Si.
  - destruct An as [s t e r Hr]. apply silent_upd; [exact Si|exact (busy_in_threads n s t _ r Si Hr)].
  - destruct Be as [s t c Hr Hx Hl Sc Nd|s Hr|s t cb r Hr Cb].
    + apply silent_upd; [exact Si|exact (script_in_threads n t c Sc)].
    + apply silent_upd; [exact Si|]. apply in_threads. exact I.
    + apply silent_upd; [exact Si|exact (busy_in_threads n s t _ r Si Hr)].
Qed.
Lemma goes_on_todo n s s' : reachable n s -> goes_on n s s' -> todo n s' < todo n s.
Proof.
  intros R G. pose proof (reachable_silent n s R) as Si. unfold todo. 
  assert (X : forall t r o f, In t (threads n) -> length r < length (rest s t) ->
    todo n (Nts (upd_t (rest s) t r) o (exited s) f) < todo n s).
  { intros t r o f I L. unfold todo. apply (fold_wt_upd (wt (Nts (upd_t (rest s) t r) o (exited s) f)) (wt s) t).
    - apply threads_nodup. - exact I.
    - intros u Nu. unfold wt. cbn. rewrite upd_t_other by exact Nu. reflexivity.
    - unfold wt. cbn. rewrite upd_t_same. lia. }
  destruct G as [St|[t An]].
  - destruct St as [s t l r Hr Ho|s t l r Hr Ho|s t u r Hr Hx|s t T Hr Hx Hs];
      try (apply X; [exact (busy_in_threads n s t _ r Si Hr)|rewrite Hr; cbn; lia]).
    apply (fold_wt_upd (wt (Nts (rest s) (owner s) (upd_t (exited s) t true) (should_exit s))) (wt s) t).
    + apply threads_nodup.
    + apply in_threads. destruct t; try exact I. cbn in T. apply Nat.ltb_lt. exact T.
    + intros u Nu. unfold wt. cbn. rewrite upd_t_other by exact Nu. reflexivity.
    + unfold wt. cbn. rewrite upd_t_same, Hx. lia.
  - destruct An as [s t e r Hr]. apply X; [exact (busy_in_threads n s t _ r Si Hr)|rewrite Hr; cbn; lia].
Qed.
Lemma goes_on_reachable n s s' : reachable n s -> goes_on n s s' -> reachable n s'.
Proof. intros R [St|[t An]]; [exact (RStep n s s' R St)|exact (RExt n s t s' R An)]. Qed.
Theorem ends n k s s' : reachable n s -> goes_on_for n k s s' -> k + todo n s' <= todo n s.
Proof.
  intros R G. induction G as [s|k s s' s'' G Gs IH]; [lia|].
  pose proof (goes_on_todo n s s' R G). specialize (IH (goes_on_reachable n s s' R G)). lia.
Qed.
Lemma can_move_step n s v : can_move n s v -> exists s', step n s s'.
Proof.
  intros [(l & r & E & O)|[(l & r & E & O)|[(u & r & E & O)|(E & T & X & S)]]]; eexists;
    [eapply TAcq|eapply TRel|eapply TJoin|eapply TQuit]; eassumption.
Qed.
Theorem stuck_is_done n s : reachable n s -> (forall s', ~ goes_on n s s') -> forall t, rest s t = [].
Proof.
  intros R N t. destruct (rest s t) as [|a r] eqn:E; [reflexivity|]. exfalso.
  destruct (no_deadlock n s t R) as (v & _ & [M|(e & r' & M)]); [congruence| |].
  - destruct (can_move_step n s v M) as [s' St]. apply (N s'). left. exact St.
  - eapply N. right. exists v. eapply TExt. exact M.
Qed.
Theorem can_finish n s : reachable n s -> exists k s', goes_on_for n k s s' /\ reachable n s' /\ forall t, rest s' t = [].
Proof.
  remember (todo n s) as m eqn:Em. revert s Em. induction m as [m IH] using lt_wf_ind. intros s Em R.
  assert (D : (exists t, In t (threads n) /\ rest s t <> []) \/ forall t, rest s t = []).
  { assert (D0 : (exists t, In t (threads n) /\ rest s t <> []) \/ forall t, In t (threads n) -> rest s t = []).
    { generalize (threads n). intros ts. induction ts as [|x ts IHt]; [right; intros t []|].
      destruct (rest s x) as [|a r] eqn:E.
      - destruct IHt as [(t & I & Nt)|Al]; [left; exists t; split; [right; exact I|exact Nt]|].
        right. intros t [<-|I]; [exact E|exact (Al t I)].
      - left. exists x. split; [left; reflexivity|congruence]. }
    destruct D0 as [D0|D0]; [left; exact D0|right]. intros t. destruct (rest s t) as [|a r] eqn:E; [reflexivity|].
    rewrite (D0 t) in E; [discriminate|]. exact (busy_in_threads n s t a r (reachable_silent n s R) E). }
  destruct D as [(t & _ & Nt)|D]; [|exists 0, s; split; [constructor|split; assumption]].
  destruct (no_deadlock n s t R Nt) as (v & _ & M).
  assert (G : exists s', goes_on n s s').
  { destruct M as [M|(e & r' & M)]; [destruct (can_move_step n s v M) as [s' St]; exists s'; left; exact St|].
    eexists. right. exists v. eapply TExt. exact M. }
  destruct G as [s' G]. pose proof (goes_on_todo n s s' R G) as L. pose proof (goes_on_reachable n s s' R G) as R'.
  destruct (IH (todo n s') ltac:(lia) s' eq_refl R') as (k & s'' & Gk & R'' & E). exists (S k), s''. split; [econstructor; eassumption|split; assumption].
Qed.
