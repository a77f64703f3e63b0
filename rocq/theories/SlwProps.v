(** Property C97: the landing planner's point clouds. *)
From Coq Require Import ZArith List Bool Lia Sorted.
From Verif Require Import SlwModel.
Import ListNotations.

(** Nothing is under way: the worker waits for a notification and no cloud is ready for the planner. *)
Definition quiet (s : slw) : Prop := w_pc s = WWait /\ w_flag s = false.

Lemma run_app a b s : slw_run s (a ++ b) = match slw_run s a with Some s' => slw_run s' b | None => None end.
Proof. revert s. induction a as [|l a IH]; intros s; [reflexivity|]. cbn. destruct (slw_step s l); [apply IH|reflexivity]. Qed.
Lemma run_inv (P : slw -> Prop) : (forall s l s', P s -> slw_step s l = Some s' -> P s') ->
  forall ls s s', P s -> slw_run s ls = Some s' -> P s'.
Proof.
  intros H ls. induction ls as [|l ls IH]; intros s s' Hs R; cbn in R; [injection R as <-; exact Hs|].
  destruct (slw_step s l) as [s1|] eqn:E; [|discriminate]. exact (IH s1 s' (H _ _ _ Hs E) R).
Qed.
Ltac step_cases s l E :=
  destruct s as [made recv newest flag cloud pc cmd log crashed]; cbn in E; destruct crashed; [discriminate|];
  destruct l as [|ok| | |]; cbn in E;
  [ destruct made; [discriminate|injection E as <-]
  | destruct pc as [| | | |id]; [destruct made; injection E as <-|discriminate|destruct flag; injection E as <-
    | destruct ok; [destruct newest as [|newest]|]; injection E as <-|destruct ok; injection E as <-]
  | destruct pc; try discriminate; injection E as <-
  | destruct made; [|discriminate]; destruct cmd; [discriminate|]; destruct pc as [| | | |id]; try discriminate; injection E as <-
  | destruct made; [|discriminate]; destruct cmd; [destruct flag; injection E as <-|injection E as <-] ].

(* ---------------------------------------------------------------------------------------------- C97 *)
(** C97. In every interleaving: the planner only ever runs on received clouds, and never goes back to an older one. *)
Definition ordered (s : slw) : Prop :=
  w_newest s = w_recv s /\ StronglySorted le (w_log s) /\ Forall (fun i => 1 <= i <= w_recv s) (w_log s) /\
  (w_flag s = true -> 1 <= w_cloud s <= w_recv s /\ Forall (fun i => i <= w_cloud s) (w_log s)) /\
  (match w_pc s with WConv id => 1 <= id <= w_recv s /\ Forall (fun i => i <= id) (w_log s) /\ w_flag s = false | WHold => w_flag s = false | _ => True end).
Lemma Forall_S (P Q : nat -> Prop) (l : list nat) : (forall i, P i -> Q i) -> Forall P l -> Forall Q l.
Proof. intros H. apply Forall_impl. exact H. Qed.
Lemma sorted_snoc l a : StronglySorted le l -> Forall (fun i => i <= a) l -> StronglySorted le (l ++ [a]).
Proof.
  induction l as [|b l IH]; intros H F; cbn; [constructor; constructor|].
  inversion H; subst. inversion F; subst. constructor; [auto|]. apply Forall_app. split; [assumption|]. constructor; auto.
Qed.
Lemma ordered_step s l s' : ordered s -> slw_step s l = Some s' -> ordered s'.
Proof.
  intros O E. unfold ordered in *. step_cases s l E; cbn in *; destruct O as (A & B & C & D & F); subst newest || subst recv;
    try (repeat split; auto; tauto || (intros X; discriminate X)).
  - 
    split; [reflexivity|]. split; [exact B|]. split; [exact C|]. split; [exact D|]. split; [lia|]. split; [|exact F]. revert C. apply Forall_S. lia.
  - split; [reflexivity|]. split; [exact B|]. split; [revert C; apply Forall_S; lia|]. split; [|exact I]. intros X. destruct (D X). split; [lia|assumption].
  - split; [reflexivity|]. split; [exact B|]. split; [revert C; apply Forall_S; lia|]. split; [|exact I]. intros X. destruct (D X). split; [lia|assumption].
  - split; [reflexivity|]. split; [exact B|]. split; [revert C; apply Forall_S; lia|]. split; [|exact I]. intros X. destruct (D X). split; [lia|assumption].
  - split; [reflexivity|]. split; [exact B|]. split; [revert C; apply Forall_S; lia|]. split; [intros X; destruct (D X); split; [lia|assumption]|].
    destruct F as (F1 & F2 & F3). split; [lia|auto].
  - destruct (D eq_refl) as (D1 & D2). split; [reflexivity|]. split; [apply sorted_snoc; assumption|].
    split; [apply Forall_app; split; [exact C|constructor; [lia|constructor]]|]. split; [intros X; discriminate X|].
    destruct pc; auto; try (destruct F as (_ & _ & F); discriminate F).
Qed.
Theorem C97_order :
  forall ls s, slw_run slw_init ls = Some s -> StronglySorted le (w_log s) /\ Forall (fun i => 1 <= i <= w_recv s) (w_log s).
Proof.
  intros ls s R. assert (O : ordered s).
  { apply (run_inv ordered ordered_step ls slw_init s); [|exact R]. unfold ordered. cbn. split; [reflexivity|]. split; [apply SSorted_nil|]. split; [apply Forall_nil|]. split; [intros X; discriminate X|exact I]. }
  destruct O as (_ & B & C & _). auto.
Qed.
Print Assumptions C97_order.

(** If each cloud arrives only after the handling of the previous one is over and no transformation fails, then every cloud is processed, in order
    (removing immediate repetitions, the clouds processed are exactly those received). *)
Inductive calm : slw -> list lab -> slw -> Prop :=
| calm_nil s : calm s [] s
| calm_cons s l s1 ls s2 : slw_step s l = Some s1 -> (l = LRecv -> quiet s) -> l <> LWorker false -> calm s1 ls s2 -> calm s (l :: ls) s2.
Fixpoint once (l : list nat) : list nat :=
  match l with
  | a :: (b :: _) as l' => if Nat.eqb a b then once l' else a :: once l'
  | _ => l
  end.
Lemma once_snoc l a : once (l ++ [a]) = if match rev l with b :: _ => Nat.eqb b a | [] => false end then once l else once l ++ [a].
Proof.
  induction l as [|b l IH]; [reflexivity|]. destruct l as [|c l]; [cbn; destruct (Nat.eqb_spec b a); [subst|]; reflexivity|].
  change ((b :: c :: l) ++ [a]) with (b :: (c :: l) ++ [a]).
  assert (R : match rev (b :: c :: l) with x :: _ => Nat.eqb x a | [] => false end = match rev (c :: l) with x :: _ => Nat.eqb x a | [] => false end).
  { cbn [rev]. destruct (rev l ++ [c]) eqn:E; [destruct (rev l); discriminate|reflexivity]. }
  rewrite R. change (once (b :: (c :: l) ++ [a])) with (if Nat.eqb b c then once ((c :: l) ++ [a]) else b :: once ((c :: l) ++ [a])).
  change (once (b :: c :: l)) with (if Nat.eqb b c then once (c :: l) else b :: once (c :: l)).
  rewrite IH. destruct (Nat.eqb b c), (match rev (c :: l) with x :: _ => Nat.eqb x a | [] => false end); reflexivity.
Qed.
Lemma once_last l d : last (once l) d = last l d.
Proof.
  induction l as [|b l IH]; [reflexivity|]. destruct l as [|c l]; [reflexivity|].
  change (once (b :: c :: l)) with (if Nat.eqb b c then once (c :: l) else b :: once (c :: l)).
  change (last (b :: c :: l) d) with (last (c :: l) d). rewrite <- IH. destruct (Nat.eqb b c); [reflexivity|].
  assert (N : once (c :: l) <> []).
  { clear. revert c. induction l as [|x l IH]; intros c; [discriminate|]. change (once (c :: x :: l)) with (if Nat.eqb c x then once (x :: l) else c :: once (x :: l)).
    destruct (Nat.eqb c x); [apply IH|discriminate]. }
  destruct (once (c :: l)); [contradiction|reflexivity].
Qed.
Lemma rev_last (l : list nat) : match rev l with b :: _ => l <> [] /\ b = last l 0 | [] => l = [] end.
Proof.
  destruct l as [|x l] using rev_ind; [reflexivity|]. rewrite rev_app_distr. cbn. rewrite last_last. split; [destruct l; discriminate|reflexivity].
Qed.
Definition served (s : slw) : Prop :=
  w_newest s = w_recv s /\
  (once (w_log s) = seq 1 (w_recv s) \/ (1 <= w_recv s /\ once (w_log s) = seq 1 (w_recv s - 1) /\ ~ quiet s)) /\
  (w_flag s = true -> w_cloud s = w_recv s /\ 1 <= w_recv s) /\
  match w_pc s with WNew => w_recv s = 0 | WConv id => id = w_recv s /\ 1 <= w_recv s /\ w_flag s = false | WHold => w_flag s = false | _ => True end.
Lemma served_step s l s' : served s -> slw_step s l = Some s' -> (l = LRecv -> quiet s) -> l <> LWorker false -> served s'.
Proof.
  intros O E Q K. unfold served in *. step_cases s l E; cbn in *; destruct O as (A & B & C & D); subst newest || subst recv;
    try (exfalso; apply K; reflexivity);
    try (assert (X : quiet {| w_made := true; w_recv := recv; w_newest := recv; w_flag := flag; w_cloud := cloud; w_pc := WNew; w_cmd := PServe; w_log := log; w_crashed := false |}) by (apply Q; reflexivity); destruct X; discriminate);
    try (assert (X : quiet {| w_made := true; w_recv := recv; w_newest := recv; w_flag := flag; w_cloud := cloud; w_pc := WLoop; w_cmd := PServe; w_log := log; w_crashed := false |}) by (apply Q; reflexivity); destruct X; discriminate);
    try (assert (X : quiet {| w_made := true; w_recv := recv; w_newest := recv; w_flag := flag; w_cloud := cloud; w_pc := WConv id; w_cmd := PServe; w_log := log; w_crashed := false |}) by (apply Q; reflexivity); destruct X; discriminate);
    unfold quiet in *; cbn in *.
  all: try (split; [reflexivity|]; split; [destruct B as [B|(B1 & B2 & B3)]; [left; exact B|right; split; [exact B1|split; [exact B2|intuition (discriminate || congruence)]]]|];
    split; [auto; intros X; discriminate X|auto]; fail).
  - (* WNew -> WWait *) split; [reflexivity|]. split; [left; destruct B as [B|(B & _)]; [exact B|lia]|]. split; [exact C|exact I].
  - (* conv *) 
    split; [reflexivity|]. split; [destruct B as [B|(B1 & B2 & B3)]; [left; exact B|right; split; [exact B1|split; [exact B2|intros [X _]; discriminate]]]|]. split; [exact C|]. split; [reflexivity|]. split; [lia|exact D].
  - destruct D as (D1 & D2 & D3). subst id. split; [reflexivity|].
    split; [destruct B as [B|(B1 & B2 & B3)]; [left; exact B|right; split; [exact B1|split; [exact B2|intros [X _]; discriminate]]]|]. auto.
  - (* recv in WWait *) destruct (Q eq_refl) as [_ Fl]. subst flag. split; [reflexivity|]. split; [|split; [intros X; discriminate X|exact I]].
    right. split; [lia|]. destruct B as [B|(B1 & B2 & B3)]; [|exfalso; apply B3; auto]. rewrite B. split; [f_equal; lia|intros [X _]; discriminate].
  - (* planner runs *) destruct (C eq_refl) as (C1 & C2). subst cloud. split; [reflexivity|]. split; [|split; [intros X; discriminate X|]].
    + left. rewrite once_snoc. pose proof (rev_last log) as L. pose proof (once_last log 0) as OL.
      destruct B as [B|(_ & B & _)]; rewrite B in *.
      * destruct recv as [|k]; [lia|]. rewrite seq_S, last_last in OL. destruct (rev log) as [|b r]; [subst log; cbn in B; discriminate|].
        destruct L as [_ ->]. rewrite <- OL. rewrite Nat.eqb_refl. reflexivity.
      * destruct recv as [|k]; [lia|]. cbn [Nat.sub] in *. rewrite Nat.sub_0_r in *.
        assert (Nl : match rev log with b :: _ => Nat.eqb b (S k) | [] => false end = false).
        { destruct (rev log) as [|b r]; [reflexivity|]. destruct L as [L ->]. rewrite <- OL. apply Nat.eqb_neq.
          destruct k as [|k]; [cbn; lia|]. rewrite seq_S, last_last. lia. }
        rewrite Nl, seq_S. reflexivity.
    + destruct pc; auto. destruct D as (_ & _ & D). discriminate D.
Qed.
Theorem C97_calm_clouds_all_processed :
  forall ls s, calm slw_init ls s -> quiet s -> once (w_log s) = seq 1 (w_recv s).
Proof.
  intros ls s R Q. assert (S : served s).
  { assert (G : forall a l b, calm a l b -> served a -> served b).
    { intros a l b H. induction H; intros; [assumption|]. apply IHcalm. eapply served_step; eassumption. }
    apply (G _ _ _ R). unfold served. cbn. split; [reflexivity|]. split; [left; reflexivity|]. split; [intros X; discriminate X|reflexivity]. }
  destruct S as (_ & [S|(_ & _ & S)] & _); [exact S|contradiction].
Qed.
Print Assumptions C97_calm_clouds_all_processed.
Definition one_cloud : list lab := [LCmd; LRecv; LWorker true; LWorker true; LWorker true; LCmd; LWorker true; LCmd].
Example C97_example : exists s, calm slw_init (LMake :: LWorker true :: one_cloud ++ one_cloud) s /\ quiet s /\ w_log s = [1; 2].
Proof.
  exists (Slw true 2 2 false 2 WWait PCheck [1; 2] false). split; [|split; [split; reflexivity|reflexivity]].
  repeat (eapply calm_cons; [reflexivity|intros X; first [discriminate X|split; reflexivity]|discriminate|]). apply calm_nil.
Qed.

(** Refuted: a cloud can be processed more than once. The planner consumes the cloud before the worker looks at the flag again. *)
Theorem C97_repeated_refuted :
  exists ls s, slw_run slw_init ls = Some s /\ w_recv s = 1 /\ w_log s = [1; 1; 1].
Proof.
  exists [LMake; LWorker true; LCmd; LRecv; LCmd; LWorker true; LWorker true; LWorker true; LCmd; LCmd; LCmd; LWorker true; LWorker true; LWorker true; LCmd; LCmd; LCmd; LWorker true; LWorker true; LWorker true; LCmd].
  eexists. split; [reflexivity|]. split; reflexivity.
Qed.
Print Assumptions C97_repeated_refuted.
(** Refuted: a cloud that arrives while the previous one is being transformed is not processed: its notification is lost, and without another cloud
    nothing happens any more, whatever the threads do. *)
Theorem C97_cloud_lost_refuted :
  exists ls s, slw_run slw_init ls = Some s /\ quiet s /\ w_recv s = 2 /\ w_log s = [1] /\
  forall ls' s', ~ In LRecv ls' -> ~ In LSpurious ls' -> slw_run s ls' = Some s' -> quiet s' /\ w_log s' = [1].
Proof.
  exists [LMake; LWorker true; LCmd; LRecv; LCmd; LWorker true; LWorker true; LCmd; LRecv; LWorker true; LCmd; LWorker true; LCmd].
  eexists. split; [reflexivity|]. split; [split; reflexivity|]. split; [reflexivity|]. split; [reflexivity|].
  intros ls' s' H1 H2 R.
  match type of R with slw_run ?s _ = _ => set (s0 := s) in R; assert (P0 : (w_made s0 = true /\ w_crashed s0 = false) /\ quiet s0 /\ w_log s0 = [1]) by (repeat split) end.
  clearbody s0. revert s0 P0 R. induction ls' as [|l ls' IH]; intros s0 P0 R; cbn in R; [injection R as <-; tauto|].
  destruct (slw_step s0 l) as [s1|] eqn:E; [|discriminate].
  apply (IH (fun X => H1 (or_intror X)) (fun X => H2 (or_intror X)) s1); [|exact R].
  destruct P0 as ((P1 & P2) & (P3 & P4) & P5). destruct s0 as [made recv newest flag cloud pc cmd log crashed]; cbn in *. subst.
  destruct l; cbn in E; try discriminate; try (exfalso; apply H1; left; reflexivity); try (exfalso; apply H2; left; reflexivity).
  destruct cmd; injection E as <-; repeat split.
Qed.
Print Assumptions C97_cloud_lost_refuted.
(** Refuted: the worker is started before the mutexes it locks exist, so it may dereference a null pointer. It does not once they exist first. *)
Theorem C97_start_refuted :
  (exists s, slw_run slw_init [LWorker true] = Some s /\ w_crashed s = true) /\
  (forall ls s, slw_run slw_init (LMake :: ls) = Some s -> w_crashed s = false).
Proof.
  split; [eexists; split; reflexivity|]. intros ls s R. cbn in R.
  assert (P : w_made s = true /\ w_crashed s = false).
  { refine (run_inv (fun s => w_made s = true /\ w_crashed s = false) _ ls _ s _ R); [|split; reflexivity].
    intros a l b [M C] E. step_cases a l E; cbn in *; try discriminate; auto. }
  apply P.
Qed.
Print Assumptions C97_start_refuted.
