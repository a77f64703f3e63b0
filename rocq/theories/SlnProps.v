(** Property theorems for the companion status of the safe landing planner (C82). *)
From Coq Require Import ZArith List Bool Lia.
From Verif Require Import NodeModel SlnModel.
Import ListNotations.
Local Open Scope Z_scope.

(** a possible timing of one cycle: the clock does not go back *)
Fixpoint ordered (a : Z) (l : list Z) (b : Z) : Prop := match l with [] => a <= b | p :: l' => a <= p /\ ordered p l' b end.
Definition plausible (s : sln) (t : tick) : Prop := sn_last s <= t_begin t /\ ordered (t_begin t) (t_polls t) (t_now t) /\ t_now t <= t_end t.
(** some wait of the cycle exceeded the termination timeout *)
Definition long_wait (c : sln_cfg) (t : tick) : Prop := exists p, In p (t_polls t) /\ to_termination c < p - t_begin t.

Lemma wait_spec c t0 polls : forall st sent, (let '(st', _, out) := waitLoop c t0 st sent polls in
  out = map (fun p => (p, TERMINATION)) (filter (fun p => to_termination c <? p - t0) polls) /\
  st' = match filter (fun p => to_termination c <? p - t0) polls with [] => st | _ => TERMINATION end).
Proof.
  induction polls as [|p ps IH]; intros st sent; cbn [waitLoop filter]; [auto|].
  destruct (to_termination c <? p - t0).
  - specialize (IH TERMINATION p). destruct (waitLoop c t0 TERMINATION p ps) as [[st' sent'] out]. destruct IH as [-> ->]. cbn [map]. split; [reflexivity|]. destruct (filter _ ps); reflexivity.
  - apply IH.
Qed.
(** C82. The status after a cycle, whatever it was before: it depends only on how long input was missing in this cycle. *)
Theorem C82_status_reflects_delay :
  forall c s t, let since := t_now t - sn_last s in let age := t_now t - sn_start s in let st := sn_status (fst (slnTick c s t)) in
  (to_termination c < since /\ to_termination c < age -> st = TERMINATION) /\
  (~ (to_termination c < since /\ to_termination c < age) -> to_critical c < since /\ to_critical c < age -> st = CRITICAL) /\
  (~ (to_termination c < since /\ to_termination c < age) -> ~ (to_critical c < since /\ to_critical c < age) -> ~ long_wait c t -> st = ACTIVE).
Proof.
  intros c s t since age st. unfold st, slnTick. pose proof (wait_spec c (t_begin t) (t_polls t) ACTIVE (sn_sent s)) as W.
  destruct (waitLoop c (t_begin t) ACTIVE (sn_sent s) (t_polls t)) as [[w sent] out]. destruct W as [_ Hw].
  assert (Q : forall a b : sln * list (Z * mav_state), sn_status (fst a) = sn_status (fst b) -> forall d : bool, sn_status (fst (if d then a else b)) = sn_status (fst b)) by (intros a b H [|]; congruence).
  rewrite Q by reflexivity. cbn [fst sn_status]. unfold slnCheckFailsafe. fold since age.
  destruct (Z.ltb_spec (to_termination c) since), (Z.ltb_spec (to_termination c) age); cbn [andb]; (split; [intros; try reflexivity; lia|]).
  1: split; intros; lia.
  all: destruct (Z.ltb_spec (to_critical c) since), (Z.ltb_spec (to_critical c) age); cbn [andb]; (split; [intros; try reflexivity; lia|]).
  all: try (intros; lia).
  all: intros _ _ L; rewrite Hw; destruct (filter _ (t_polls t)) as [|p ps] eqn:F; [reflexivity|exfalso]; apply L; exists p;
    assert (I : In p (p :: ps)) by (left; reflexivity); rewrite <- F in I; apply filter_In in I as [I1 I2]; apply Z.ltb_lt in I2; split; [exact I1|lia].
Qed.
Print Assumptions C82_status_reflects_delay.
(** A long wait in a plausible cycle of an old enough node is a long delay of the algorithm: the status stays at termination for that cycle. *)
Theorem C82_long_wait_terminates :
  forall c s t, plausible s t -> long_wait c t -> sn_status (fst (slnTick c s t)) = TERMINATION \/ t_now t - sn_start s <= to_termination c.
Proof.
  intros c s t (P1 & P2 & P3) (p & I & L). destruct (Z_le_gt_dec (t_now t - sn_start s) (to_termination c)); [right; lia|left].
  apply C82_status_reflects_delay. split; [|lia].
  assert (O : p <= t_now t). { clear -P2 I. revert P2 I. generalize (t_begin t). induction (t_polls t) as [|q l IH]; intros a P I; [destruct I|]. destruct P as [Pa Pb]. destruct I as [->|I]; [|eapply IH; eauto].
    clear -Pb. revert p Pb. induction l as [|q l IH]; intros p P; [exact P|]. destruct P as [P1 P2]. specialize (IH q P2). lia. }
  lia.
Qed.
Print Assumptions C82_long_wait_terminates.
(** Everything published while waiting is TERMINATION, at exactly those polls later than the termination timeout. *)
Theorem C82_published_while_waiting :
  forall c s t, exists rest, snd (slnTick c s t) = map (fun p => (p, TERMINATION)) (filter (fun p => to_termination c <? p - t_begin t) (t_polls t)) ++ rest /\
    (rest = [] \/ rest = [(t_end t, sn_status (fst (slnTick c s t)))]).
Proof.
  intros c s t. unfold slnTick. pose proof (wait_spec c (t_begin t) (t_polls t) ACTIVE (sn_sent s)) as W.
  destruct (waitLoop c (t_begin t) ACTIVE (sn_sent s) (t_polls t)) as [[w sent] out]. destruct W as [-> _].
  destruct (200000000 <? t_now t - sent); cbn [fst snd sn_status]; [eexists; split; [reflexivity|right; reflexivity]|exists []; rewrite app_nil_r; auto].
Qed.
Print Assumptions C82_published_while_waiting.
(** Hence CRITICAL is never published while the input is missing: during a wait shorter than the termination timeout (15 s by default) the node is silent. *)
Theorem C82_critical_during_outage_refuted :
  forall c s t, ~ long_wait c t -> snd (slnTick c s t) = [] \/ exists st, snd (slnTick c s t) = [(t_end t, st)].
Proof.
  intros c s t L. destruct (C82_published_while_waiting c s t) as (rest & -> & R).
  assert (F : filter (fun p => to_termination c <? p - t_begin t) (t_polls t) = []).
  { destruct (filter _ (t_polls t)) as [|p ps] eqn:F; [reflexivity|exfalso]. apply L. exists p.
    assert (I : In p (p :: ps)) by (left; reflexivity). rewrite <- F in I. apply filter_In in I as [I1 I2]. apply Z.ltb_lt in I2. split; [exact I1|lia]. }
  rewrite F. cbn [map app]. destruct R as [-> | ->]; [left; reflexivity|right; eauto].
Qed.
Print Assumptions C82_critical_during_outage_refuted.
(** a healthy cycle, ten seconds without clouds in the next one, and recovery after it *)
Definition ex_sec : Z := 1000000000.
Example C82_example :
  let c := SlnCfg 500000000 (15 * ex_sec) in
  let ticks := [Tick (20 * ex_sec) [] (20 * ex_sec) (20 * ex_sec); Tick (20 * ex_sec) [21 * ex_sec; 25 * ex_sec; 30 * ex_sec] (30 * ex_sec) (30 * ex_sec);
                Tick (30 * ex_sec) [] (30 * ex_sec + 400000000) (30 * ex_sec + 400000000)] in
  snd (slnRun c (Sln ACTIVE (10 * ex_sec) (20 * ex_sec - 100000000) 0) ticks) =
  [(20 * ex_sec, ACTIVE); (30 * ex_sec, CRITICAL); (30 * ex_sec + 400000000, ACTIVE)].
Proof. vm_compute. reflexivity. Qed.
