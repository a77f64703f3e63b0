(** C108: how the planner processes end. *)
From Coq Require Import Arith List Bool Lia.
From Verif Require Import ShModel.
Import ListNotations.

Lemma set_thr_same g t : set_thr g t t = true.
Proof. unfold set_thr. destruct (thr_eq_dec t t); congruence. Qed.
Lemma set_thr_mono g t u : g u = true -> set_thr g t u = true.
Proof. unfold set_thr. destruct (thr_eq_dec u t); auto. Qed.
Lemma set_thr_other g t u : u <> t -> set_thr g t u = g u.
Proof. unfold set_thr. destruct (thr_eq_dec u t); congruence. Qed.

(** what main has already done of program p *)
Lemma sh_suffix p s : sh_steps (sh_init p) s -> exists q, p = q ++ h_todo s /\
  (forall f, h_flag s f = true <-> In (ISet f) q) /\ (forall t, h_over s t = true -> h_flag s (flag_of t) = true) /\
  (forall t, h_joined s t = true -> h_over s t = true /\ In (IJoin t) q) /\
  (h_out s = Ended -> h_todo s = []).
Proof.
  intros St. assert (G : forall a b, sh_steps a b -> forall q, p = q ++ h_todo a ->
    (forall f, h_flag a f = true <-> In (ISet f) q) -> (forall t, h_over a t = true -> h_flag a (flag_of t) = true) ->
    (forall t, h_joined a t = true -> h_over a t = true /\ In (IJoin t) q) -> (h_out a = Ended -> h_todo a = []) ->
    exists q', p = q' ++ h_todo b /\ (forall f, h_flag b f = true <-> In (ISet f) q') /\
      (forall t, h_over b t = true -> h_flag b (flag_of t) = true) /\ (forall t, h_joined b t = true -> h_over b t = true /\ In (IJoin t) q') /\
      (h_out b = Ended -> h_todo b = [])).
  { clear St s. intros a b St. induction St as [a|a b c S1 S2 IH]; intros q E F O J X; [exists q; split; [exact E|split; [exact F|split; [exact O|split; [exact J|exact X]]]]|].
    destruct S1 as [f p' g o j|t p' g o j Ho|t p' g o j Hj|t p' g o j Hj|g o j|t p' g o j Hg Ho]; cbn in *.
    - apply (IH (q ++ [ISet f])); try assumption.
      + rewrite <- app_assoc. exact E.
      + intros f'. rewrite in_app_iff. unfold set_flag. destruct (flag_eq_dec f' f) as [->|Nf]; [split; [intros _; right; left; reflexivity|reflexivity]|].
        rewrite F. split; [intros K; left; exact K|intros [K|[K|[]]]; [exact K|congruence]].
      + intros t K. unfold set_flag. destruct (flag_eq_dec (flag_of t) f); [reflexivity|apply O; exact K].
      + intros t K. destruct (J t K) as [J1 J2]. split; [exact J1|]. apply in_or_app. left. exact J2.
      + discriminate.
    - apply (IH (q ++ [IJoin t])); try assumption.
      + rewrite <- app_assoc. exact E.
      + intros f'. rewrite in_app_iff, F. split; [intros K; left; exact K|intros [K|[K|[]]]; [exact K|discriminate]].
      + intros u K. destruct (thr_eq_dec u t) as [->|Nu]; [split; [exact Ho|]; apply in_or_app; right; left; reflexivity|].
        rewrite set_thr_other in K by exact Nu. destruct (J u K) as [J1 J2]. split; [exact J1|]. apply in_or_app. left. exact J2.
      + discriminate.
    - apply (IH (q ++ [IDestroy t])); try assumption.
      + rewrite <- app_assoc. exact E.
      + intros f'. rewrite in_app_iff, F. split; [intros K; left; exact K|intros [K|[K|[]]]; [exact K|discriminate]].
      + intros u K. destruct (J u K) as [J1 J2]. split; [exact J1|]. apply in_or_app. left. exact J2.
      + discriminate.
    - apply (IH (q ++ [IDestroy t])); try assumption.
      + rewrite <- app_assoc. exact E.
      + intros f'. rewrite in_app_iff, F. split; [intros K; left; exact K|intros [K|[K|[]]]; [exact K|discriminate]].
      + intros u K. destruct (J u K) as [J1 J2]. split; [exact J1|]. apply in_or_app. left. exact J2.
      + discriminate.
    - apply (IH q); try assumption. reflexivity.
    - apply (IH q); try assumption.
      + intros u K. destruct (thr_eq_dec u t) as [->|Nu]; [exact Hg|]. rewrite set_thr_other in K by exact Nu. apply O. exact K.
      + intros u K. destruct (J u K) as [J1 J2]. split; [apply set_thr_mono; exact J1|exact J2]. }
  apply (G _ _ St []); try reflexivity; cbn; try (intros; discriminate). intros f. split; [discriminate|contradiction].
Qed.
(** if the program goes past the destruction of a thread then that thread has been joined *)
Lemma sh_destroyed p s : sh_steps (sh_init p) s -> h_out s <> Aborted -> forall t q, p = q ++ h_todo s -> In (IDestroy t) q -> h_joined s t = true.
Proof.
  intros St. assert (G : forall a b, sh_steps a b -> (h_out a <> Aborted -> forall t q, p = q ++ h_todo a -> In (IDestroy t) q -> h_joined a t = true) ->
    (exists q, p = q ++ h_todo a) ->
    h_out b <> Aborted -> forall t q, p = q ++ h_todo b -> In (IDestroy t) q -> h_joined b t = true).
  { clear St s. intros a b St. induction St as [a|a b c S1 S2 IH]; intros Ha [q0 E0]; [exact Ha|]. apply IH; clear IH S2.
    - destruct S1 as [f p' g o j|t' p' g o j Ho|t' p' g o j Hj|t' p' g o j Hj|g o j|t' p' g o j Hg Ho]; cbn in *; intros NA t q E I; try (exfalso; apply NA; reflexivity).
      + apply (Ha ltac:(discriminate) t q0 E0). rewrite E in E0. rewrite (app_assoc q0 [ISet f] p' : q0 ++ ISet f :: p' = _) in E0. apply app_inv_tail in E0. subst q.
        apply in_app_or in I as [I|[I|[]]]; [exact I|discriminate].
      + rewrite E in E0. rewrite (app_assoc q0 [IJoin t'] p' : q0 ++ IJoin t' :: p' = _) in E0. apply app_inv_tail in E0. subst q.
        apply set_thr_mono. apply (Ha ltac:(discriminate) t q0); [rewrite E, <- app_assoc; reflexivity|].
        apply in_app_or in I as [I|[I|[]]]; [exact I|discriminate].
      + rewrite E in E0. rewrite (app_assoc q0 [IDestroy t'] p' : q0 ++ IDestroy t' :: p' = _) in E0. apply app_inv_tail in E0. subst q.
        apply in_app_or in I as [I|[I|[]]]; [|congruence]. apply (Ha ltac:(discriminate) t q0); [rewrite E, <- app_assoc; reflexivity|exact I].
      + apply (Ha ltac:(discriminate) t q E I).
      + apply (Ha ltac:(discriminate) t q E I).
    - destruct S1; cbn in *; try (exists q0; exact E0); eexists (q0 ++ [_]); rewrite <- app_assoc; exact E0. }
  intros NA t q E I. apply (G _ _ St) with (q := q); try assumption; [|exists []; reflexivity].
  intros _ t' q' E' I'. cbn in E'. assert (q' = []) as ->; [|contradiction]. symmetry in E'. rewrite <- (app_nil_l p) in E' at 2. exact (app_inv_tail _ _ _ E').
Qed.

(** C108. "After a shutdown request the process ends in the regular way": false for all three. The local planner and the global planner always abort
    (std::terminate), because the thread that polls the autopilot's parameters is never joined and nothing sets its flag: whatever the schedule, neither process
    ever ends regularly, and it can always be driven to the abort ... *)
Lemma never_joined p t s : sh_steps (sh_init p) s -> ~ In (IJoin t) p -> h_joined s t = false.
Proof.
  intros St N. destruct (h_joined s t) eqn:E; [|reflexivity]. exfalso. destruct (sh_suffix p s St) as (q & Ep & _ & _ & J & _).
  apply N. rewrite Ep. apply in_or_app. left. apply J. exact E.
Qed.
Lemma never_ends p t s : sh_steps (sh_init p) s -> ~ In (IJoin t) p -> In (IDestroy t) p -> h_out s <> Ended.
Proof.
  intros St N I E. destruct (sh_suffix p s St) as (q & Ep & _ & _ & _ & X). specialize (X E).
  assert (K : h_joined s t = true).
  { apply (sh_destroyed p s St) with (q := q); [congruence|exact Ep|]. rewrite X, app_nil_r in Ep. subst q. exact I. }
  rewrite (never_joined p t s St N) in K. discriminate.
Qed.
Lemma poll_not_joined n : ~ In (IJoin TPoll) (local_planner_end n).
Proof.
  unfold local_planner_end. cbn. intros [K|K]; [discriminate|]. rewrite in_app_iff in K. destruct K as [K|K].
  - apply in_map_iff in K as (i & K & _). discriminate.
  - cbn in K. destruct K as [K|[K|K]]; try discriminate. rewrite in_app_iff in K. destruct K as [K|K].
    + apply in_map_iff in K as (i & K & _). discriminate.
    + cbn in K. destruct K as [K|[K|[K|[]]]]; discriminate.
Qed.
Lemma sh_trans a b c : sh_steps a b -> sh_steps b c -> sh_steps a c.
Proof. induction 1 as [|x y z S1 S2 IH]; intros H; [exact H|]. econstructor; [exact S1|apply IH; exact H]. Qed.
(** main gets to its end, in one way or the other, if all threads that it joins have been told to end *)
Lemma main_finishes : forall p g o j, (forall t, In (IJoin t) p -> g (flag_of t) = true) -> exists s', sh_steps (Sh p g o j Ending) s' /\ h_out s' <> Ending.
Proof.
  induction p as [|i p IH]; intros g o j F.
  - eexists. split; [eapply HCons; [apply HReturn|apply HNil]|discriminate].
  - assert (F' : forall g', (forall x, g x = true -> g' x = true) -> forall t, In (IJoin t) p -> g' (flag_of t) = true).
    { intros g' M t I. apply M, F. right. exact I. }
    destruct i as [f|t|t].
    + destruct (IH (set_flag g f) o j) as (s' & A & B).
      { apply F'. intros x K. unfold set_flag. destruct (flag_eq_dec x f); auto. }
      exists s'. split; [eapply HCons; [apply HSet|exact A]|exact B].
    + destruct (o t) eqn:Eo.
      * destruct (IH g o (set_thr j t)) as (s' & A & B); [apply F'; auto|]. exists s'. split; [eapply HCons; [apply HJoin; exact Eo|exact A]|exact B].
      * destruct (IH g (set_thr o t) (set_thr j t)) as (s' & A & B); [apply F'; auto|]. exists s'. split; [|exact B].
        eapply HCons; [apply (HOver t); [apply F; left; reflexivity|exact Eo]|]. eapply HCons; [apply HJoin; apply set_thr_same|exact A].
    + destruct (j t) eqn:Ej.
      * destruct (IH g o j) as (s' & A & B); [apply F'; auto|]. exists s'. split; [eapply HCons; [apply HDestroy; exact Ej|exact A]|exact B].
      * eexists. split; [eapply HCons; [apply HTerminate; exact Ej|apply HNil]|discriminate].
Qed.
Lemma local_joins n t : In (IJoin t) (local_planner_end n) -> flag_of t = FNodelet.
Proof. destruct t; try reflexivity; intros K; [exfalso; exact (poll_not_joined n K)|]. exfalso.
  unfold local_planner_end in K. cbn in K. destruct K as [K|K]; [discriminate|]. rewrite in_app_iff in K. destruct K as [K|K].
  - apply in_map_iff in K as (i & K & _). discriminate.
  - cbn in K. destruct K as [K|[K|K]]; try discriminate. rewrite in_app_iff in K. destruct K as [K|K].
    + apply in_map_iff in K as (i & K & _). discriminate.
    + cbn in K. destruct K as [K|[K|[K|[]]]]; discriminate.
Qed.
Lemma out_final s s' : sh_steps s s' -> h_out s <> Ending -> s' = s.
Proof. intros [|a b c St _] N; [reflexivity|]. destruct St; cbn in N; congruence. Qed.
Theorem C108_local_and_global_planner_abort_refuted :
  (forall n s, sh_steps (sh_init (local_planner_end n)) s -> h_out s <> Ended /\ exists s', sh_steps s s' /\ h_out s' = Aborted) /\
  (forall s, sh_steps (sh_init global_planner_end) s -> h_out s <> Ended /\ exists s', sh_steps s s' /\ h_out s' = Aborted).
Proof.
  assert (L : forall n s, sh_steps (sh_init (local_planner_end n)) s -> h_out s <> Ended).
  { intros n s St. apply (never_ends _ TPoll s St); [apply poll_not_joined|]. unfold local_planner_end. right. rewrite !in_app_iff. right. right. right. left. left. reflexivity. }
  assert (G : forall s, sh_steps (sh_init global_planner_end) s -> h_out s <> Ended).
  { intros s St. apply (never_ends _ TPoll s St); [|left; reflexivity]. intros [K|[]]. discriminate. }
  assert (F : forall p s, sh_steps (sh_init p) s -> (forall s, sh_steps (sh_init p) s -> h_out s <> Ended) ->
    (forall t, In (IJoin t) (h_todo s) -> h_flag s (flag_of t) = true) -> exists s', sh_steps s s' /\ h_out s' = Aborted).
  { intros p s St NE J. destruct s as [td g o j out]. cbn in J. destruct out.
    - destruct (main_finishes td g o j J) as (s' & A & B). exists s'. split; [exact A|]. specialize (NE s' (sh_trans _ _ _ St A)).
      destruct (h_out s'); congruence.
    - exfalso. exact (NE _ St eq_refl).
    - eexists. split; [apply HNil|reflexivity]. }
  split.
  - intros n s St. split; [exact (L n s St)|]. destruct (sh_suffix _ s St) as (q & Ep & Fl & _). destruct q as [|i q].
    + destruct s as [td g o j out]. cbn in Ep. subst td. destruct out; [|exfalso; exact (L n _ St eq_refl)|eexists; split; [apply HNil|reflexivity]].
      assert (St' : sh_steps (sh_init (local_planner_end n)) (Sh (tl (local_planner_end n)) (set_flag g FNodelet) o j Ending)).
      { eapply sh_trans; [exact St|]. eapply HCons; [apply HSet|apply HNil]. }
      destruct (F _ _ St' (L n)) as (s' & A & B).
      { cbn [h_todo h_flag]. intros t K. rewrite (local_joins n t) by (right; exact K). reflexivity. }
      exists s'. split; [|exact B]. eapply HCons; [apply HSet|exact A].
    + apply (F _ s St (L n)). intros t K. rewrite (local_joins n t) by (rewrite Ep; apply in_or_app; right; exact K).
      apply Fl. unfold local_planner_end in Ep. injection Ep as <- _. left. reflexivity.
  - intros s St. split; [exact (G s St)|]. apply (F _ s St G). intros t K. exfalso.
    destruct (sh_suffix _ s St) as (q & Ep & _). assert (K' : In (IJoin t) global_planner_end) by (rewrite Ep; apply in_or_app; right; exact K).
    destruct K' as [K'|[]]. discriminate.
Qed.
Print Assumptions C108_local_and_global_planner_abort_refuted.

(** ... and the safe landing planner never ends at all: main waits for a thread that nobody ever tells to end. *)
Theorem C108_landing_planner_hangs_refuted :
  forall s, sh_steps (sh_init landing_planner_end) s -> s = sh_init landing_planner_end.
Proof.
  intros s St. assert (H : forall a b, sh_steps a b -> a = sh_init landing_planner_end -> b = sh_init landing_planner_end).
  { clear s St. intros a b St. induction St as [a|a b c S1 S2 IH]; [auto|]. intros ->. exfalso.
    inversion S1; subst; discriminate. }
  exact (H _ _ St eq_refl).
Qed.
Print Assumptions C108_landing_planner_hangs_refuted.

Lemma split_at_destroy a b q t r : a ++ b = q ++ IDestroy t :: r -> (forall u, ~ In (IDestroy u) a) -> exists q2, q = a ++ q2.
Proof.
  revert q. induction a as [|x a IH]; intros q E N; [exists q; reflexivity|]. destruct q as [|y q]; cbn in E; injection E as E1 E2.
  - exfalso. apply (N t). left. exact E1.
  - destruct (IH q E2) as [q2 ->]; [intros u K; apply (N u); right; exact K|]. exists q2. rewrite E1. reflexivity.
Qed.
Lemma aborted_at p s : sh_steps (sh_init p) s -> h_out s = Aborted ->
  exists q t, p = q ++ IDestroy t :: h_todo s /\ forall u, In (IJoin u) q -> h_joined s u = true.
Proof.
  intros St. assert (G : forall a b, sh_steps a b -> forall q, p = q ++ h_todo a -> h_out a = Ending -> (forall u, In (IJoin u) q -> h_joined a u = true) ->
    h_out b = Aborted -> exists q' t, p = q' ++ IDestroy t :: h_todo b /\ forall u, In (IJoin u) q' -> h_joined b u = true).
  { clear St s. intros a b St. induction St as [a|a b c S1 S2 IH]; intros q E O J Ab; [congruence|].
    destruct S1 as [f p' g o j|t' p' g o j Ho|t' p' g o j Hj|t' p' g o j Hj|g o j|t' p' g o j Hg Ho]; cbn in *.
    - apply (IH (q ++ [ISet f])); [rewrite <- app_assoc; exact E|reflexivity| |exact Ab].
      intros u K. apply in_app_or in K as [K|[K|[]]]; [exact (J u K)|discriminate].
    - apply (IH (q ++ [IJoin t'])); [rewrite <- app_assoc; exact E|reflexivity| |exact Ab].
      intros u K. apply in_app_or in K as [K|[K|[]]]; [apply set_thr_mono; exact (J u K)|]. injection K as ->. apply set_thr_same.
    - apply (IH (q ++ [IDestroy t'])); [rewrite <- app_assoc; exact E|reflexivity| |exact Ab].
      intros u K. apply in_app_or in K as [K|[K|[]]]; [exact (J u K)|discriminate].
    - apply out_final in S2 as ->; [|discriminate]. exists q, t'. split; assumption.
    - apply out_final in S2 as ->; [|discriminate]. discriminate Ab.
    - apply (IH q); assumption. }
  intros Ab. apply (G _ _ St []); try reflexivity; [intros u []|exact Ab].
Qed.

(** What does hold: the local planner's own threads are all told to end and joined before anything is destroyed: when the process
    aborts they are all gone. *)
Theorem C108_own_threads_joined :
  forall n s, sh_steps (sh_init (local_planner_end n)) s -> h_out s = Aborted ->
  (forall i, i < n -> h_joined s (TTransform i) = true) /\ h_joined s TWorker = true /\ h_joined s TTf = true.
Proof.
  intros n s St Ab. destruct (aborted_at _ s St Ab) as (q & t & Ep & J).
  unfold local_planner_end in Ep.
  change (ISet FNodelet :: map (fun i => IJoin (TTransform i)) (seq 0 n) ++ [IJoin TWorker; IJoin TTf] ++ ?b) with
    ((ISet FNodelet :: map (fun i => IJoin (TTransform i)) (seq 0 n)) ++ [IJoin TWorker; IJoin TTf] ++ b) in Ep.
  rewrite app_assoc in Ep. apply split_at_destroy in Ep as (q2 & ->).
  2: { intros u. rewrite in_app_iff. cbn. rewrite in_map_iff. intros [[K|(i & K & _)]|[K|[K|[]]]]; discriminate. }
  split; [|split].
  - intros i L. apply J. rewrite !in_app_iff. left. left. right. apply in_map_iff. exists i. split; [reflexivity|]. apply in_seq. lia.
  - apply J. rewrite !in_app_iff. left. right. left. reflexivity.
  - apply J. rewrite !in_app_iff. left. right. right. left. reflexivity.
Qed.
Print Assumptions C108_own_threads_joined.
(** Non-vacuity: with two cameras, the abort is reached with four threads running. *)
Example C108_two_cameras : exists s, sh_steps (sh_init (local_planner_end 2)) s /\ h_out s = Aborted.
Proof. destruct (proj1 C108_local_and_global_planner_abort_refuted 2 _ (HNil _)) as (_ & s' & A & B). exists s'. split; assumption. Qed.
