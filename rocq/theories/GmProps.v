(** Properties of the global planner's map, risk cache and obstacle set under its three threads. Model: GmModel.v. *)
From Coq Require Import ZArith List Bool Lia.
From Verif Require Import GmModel.
Import ListNotations.

(** C104: risks are always those of the map in use, and no thread reads a map that has been deleted or a container another thread is changing. *)
Definition reaches (ls : list mlab) (s : gms) : Prop := gm_run gms_init ls = Some s.
(** a thread is reading a map that has been deleted *)
Definition reads_deleted (s : gms) : Prop := exists t m w, access (m_pc s t) = Some (TheMap m, w) /\ In m (m_freed s).
(** two threads are in the same object and at least one of them is changing it *)
Definition collision (s : gms) (o : shared) : Prop :=
  exists t u w1 w2, t <> u /\ access (m_pc s t) = Some (o, w1) /\ access (m_pc s u) = Some (o, w2) /\ w1 || w2 = true.
(** an answer is up to date if it was computed, and only from the map in use when it is given *)
Definition up_to_date (a : answer) : Prop := a_from a <> [] /\ Forall (fun m => m = a_map a) (a_from a).

Section Inv.
Definition all_of (tree : option nat) (l : list (option nat)) := Forall (fun m => m = tree) l.
Definition pc_ok (tree : option nat) (p : mpc) : Prop :=
  match p with
  | MTest _ got => all_of tree got
  | MSearch _ got m | MLook _ got m => all_of tree got /\ tree = Some m
  | MStore _ got => got <> [] /\ all_of tree got
  | _ => True
  end.
Definition updating (p : mpc) : Prop := match p with MClear _ | MDelete _ | MAssign _ => True | _ => False end.
Definition asking (p : mpc) : Prop := match p with MFind _ | MTest _ _ | MSearch _ _ _ | MLook _ _ _ | MStore _ _ => True | _ => False end.
Record inv (s : gms) : Prop := {
  i_cmd : m_pc s Cmd = MIdle;
  i_plan : m_pc s Plan = MIdle \/ (asking (m_pc s Plan) /\ m_mutex s = Some Plan);
  i_main : updating (m_pc s Main) -> m_mutex s = Some Main;
  i_mutex : m_mutex s = Some Main -> updating (m_pc s Main);
  i_mutexc : m_mutex s <> Some Cmd;
  i_pcm : pc_ok (m_tree s) (m_pc s Main);
  i_pcp : pc_ok (m_tree s) (m_pc s Plan);
  i_cache : Forall (fun e => snd e <> [] /\ all_of (m_tree s) (snd e)) (m_cache s);
  i_empty : match m_pc s Main with MDelete _ | MAssign _ => m_cache s = [] | _ => True end;
  i_next : forall m, m_tree s = Some m -> m < m_next s;
  i_freed : forall m, In m (m_freed s) -> m < m_next s;
  i_new : match m_pc s Main with MClear n | MDelete n | MAssign n => n < m_next s /\ ~ In n (m_freed s) /\ m_tree s <> Some n | _ => True end;
  i_live : match m_pc s Main with MAssign _ => True | _ => forall m, m_tree s = Some m -> ~ In m (m_freed s) end;
  i_ans : Forall up_to_date (m_answers s) }.

Lemma inv_init : inv gms_init.
Proof. constructor; cbn; auto; try discriminate; intros; try discriminate; contradiction. Qed.

Lemma lookup_in k c v : lookup k c = Some v -> In (c, v) k.
Proof.
  unfold lookup. destruct (find _ k) as [[c' v']|] eqn:E; [|discriminate]. intros X; injection X as <-.
  apply find_some in E as [H1 H2]. apply Z.eqb_eq in H2. cbn in *. subst. exact H1.
Qed.

Ltac pcs := unfold set_pc, thread_eqb; cbn [m_pc m_tree m_freed m_next m_cache m_mutex m_answers].
Ltac fin := constructor; pcs; cbn in *; auto; try discriminate; try contradiction; try tauto;
  try (right; match goal with H : _ \/ _ |- _ => destruct H as [|[_ ?]]; [discriminate|auto] end; fail);
  try (left; match goal with H : _ \/ _ |- _ => destruct H as [|[_ ?]]; [assumption|discriminate] end; fail);
  try (constructor; auto; fail); try (split; [discriminate|auto]; fail);
  try (match goal with H : _ /\ ?x = Some _ |- _ => destruct H as [? ->]; constructor; auto end; fail).
Lemma inv_step s l s' : inv s -> (forall c, l <> LAsk Cmd c) -> gm_step s l = Some s' -> inv s'.
Proof.
  intros I NC. destruct s as [tree freed nxt cache mutex pc ans].
  pose proof (i_cmd _ I) as HC. pose proof (i_plan _ I) as HP. pose proof (i_main _ I) as HM. pose proof (i_mutex _ I) as HX. pose proof (i_mutexc _ I) as HY.
  pose proof (i_pcm _ I) as Hpm. pose proof (i_pcp _ I) as Hpp. pose proof (i_cache _ I) as Hk. pose proof (i_empty _ I) as He.
  pose proof (i_next _ I) as Hn. pose proof (i_freed _ I) as Hf. pose proof (i_new _ I) as Hw. pose proof (i_live _ I) as Hl. pose proof (i_ans _ I) as Ha.
  cbn [m_pc m_tree m_freed m_next m_cache m_mutex m_answers] in *. clear I.
  destruct l; cbn [gm_step]; intros E.
  - destruct (pc Plan) eqn:EP; try discriminate. destruct mutex as [[]|]; try discriminate. injection E as <-.
    constructor; pcs; rewrite ?EP; auto; try discriminate; try (intros U; specialize (HM U); discriminate).
  - destruct (pc Plan) eqn:EP; try discriminate. destruct mutex as [[]|]; try discriminate. injection E as <-.
    constructor; pcs; rewrite ?EP; auto; try discriminate; try (intros U; specialize (HM U); discriminate).
  - destruct t; [destruct (pc Main) eqn:EM|destruct (pc Plan) eqn:EP; [destruct mutex as [[]|]|..]|exfalso; exact (NC c eq_refl)]; try discriminate; injection E as <-; fin.
  - destruct t; [destruct (pc Main) eqn:EM|destruct (pc Plan) eqn:EP|rewrite HC in E; discriminate]; try discriminate;
      (destruct (lookup cache c) as [v|] eqn:EL; injection E as <-; [apply lookup_in in EL; pose proof (proj1 (Forall_forall _ _) Hk _ EL) as HkE|]); fin.
  - destruct t; [destruct (pc Main) eqn:EM|destruct (pc Plan) eqn:EP|rewrite HC in E; discriminate]; try discriminate; destruct tree as [m|]; injection E as <-; fin.
  - destruct t; [destruct (pc Main) eqn:EM|destruct (pc Plan) eqn:EP|rewrite HC in E; discriminate]; try discriminate; injection E as <-; fin.
  - destruct t; [destruct (pc Main) eqn:EM|destruct (pc Plan) eqn:EP|rewrite HC in E; discriminate]; try discriminate; injection E as <-; fin.
  - destruct t; [destruct (pc Main) eqn:EM|destruct (pc Plan) eqn:EP|rewrite HC in E; discriminate]; try discriminate; destruct got as [|x got]; try discriminate;
      injection E as <-; fin.
  - destruct t; [destruct (pc Main) eqn:EM|destruct (pc Plan) eqn:EP|rewrite HC in E; discriminate]; try discriminate; injection E as <-; fin.
    destruct HP as [|[_ HP]]; [discriminate|]. destruct (pc Main) eqn:EM; auto; cbn in HM; specialize (HM I); congruence.
  - destruct (pc Main) eqn:EM; try discriminate. destruct mutex; try discriminate. injection E as <-. fin.
    + intros m Hm. specialize (Hn m Hm). lia.
    + intros m Hm. specialize (Hf m Hm). lia.
    + split; [lia|]. split; [intros Hin; specialize (Hf _ Hin); lia|]. intros Ht. specialize (Hn _ Ht). lia.
  - destruct (pc Main) eqn:EM; try discriminate. injection E as <-. fin.
  - destruct (pc Main) eqn:EM; try discriminate. injection E as <-. destruct Hw as (W1 & W2 & W3). fin.
    + intros m. destruct tree as [m'|]; [|auto]. intros [<-|Hin]; auto.
    + split; [exact W1|]. split; [|exact W3]. destruct tree as [m'|]; [|auto]. intros [->|Hin]; auto.
  - destruct (pc Main) eqn:EM; try discriminate. injection E as <-. destruct Hw as (W1 & W2 & W3).
    assert (HM1 : mutex = Some Main) by (apply HM; exact I).
    assert (HP1 : pc Plan = MIdle) by (destruct HP as [|[_ HP]]; [assumption|rewrite HM1 in HP; discriminate]).
    rewrite He. fin; try (rewrite HP1; exact I).
    + intros m X; injection X as <-. exact W1.
    + intros m X; injection X as <-. exact W2.
  - destruct (pc Main) eqn:EM; try discriminate. injection E as <-. fin.
  - destruct (pc Main) eqn:EM; try discriminate. injection E as <-. fin.
Qed.

Lemma inv_run ls : forall s s', inv s -> (forall c, ~ In (LAsk Cmd c) ls) -> gm_run s ls = Some s' -> inv s'.
Proof.
  induction ls as [|l ls IH]; cbn; intros s s' I NC E; [injection E as <-; exact I|].
  destruct (gm_step s l) as [s1|] eqn:E1; [|discriminate]. eapply IH; [|intros c H; exact (NC c (or_intror H))|exact E].
  apply (inv_step s l s1 I); [intros c X; exact (NC c (or_introl X))|exact E1].
Qed.
End Inv.

(** As long as the command thread asks for no risk (the speed-up option is off), then whatever planning cycles, maps, depth clouds and clicked points follow
    each other in whatever order: no thread reads a deleted map, and every answer is computed from the map in use alone. *)
Theorem C104_map_in_use :
  forall ls s, reaches ls s -> (forall c, ~ In (LAsk Cmd c) ls) -> ~ reads_deleted s /\ Forall up_to_date (m_answers s).
Proof.
  intros ls s H NC. pose proof (inv_run ls _ _ inv_init NC H) as I. split; [|exact (i_ans _ I)].
  intros (t & m & w & Ac & Hin). assert (Hm : m_tree s = Some m /\ ~ exists n, m_pc s Main = MAssign n).
  { destruct t.
    - pose proof (i_pcm _ I) as P. destruct (m_pc s Main) eqn:E; cbn in Ac; try discriminate. injection Ac as -> <-. cbn in P.
      split; [tauto|]. intros [n X]; discriminate.
    - pose proof (i_pcp _ I) as P. destruct (m_pc s Plan) eqn:E; cbn in Ac; try discriminate. injection Ac as -> <-. cbn in P.
      split; [tauto|]. intros [n X]. destruct (i_plan _ I) as [Y|[_ Y]]; [congruence|]. pose proof (i_main _ I) as HM. rewrite X in HM. specialize (HM Logic.I). congruence.
    - rewrite (i_cmd _ I) in Ac. discriminate. }
  destruct Hm as [Hm Hno]. pose proof (i_live _ I) as L. destruct (m_pc s Main) eqn:E; try (exact (L m Hm Hin)). apply Hno; eauto.
Qed.
Print Assumptions C104_map_in_use.
(** The planning cycle and the reception of a map exclude each other, whatever the other threads do. *)
Theorem C104_planning_excludes_map :
  forall ls s, reaches ls s ->
  (exists c, m_pc s Plan = MFind c \/ (exists got, m_pc s Plan = MTest c got \/ m_pc s Plan = MStore c got)
             \/ (exists got m, m_pc s Plan = MSearch c got m \/ m_pc s Plan = MLook c got m)) ->
  forall n, m_pc s Main <> MClear n /\ m_pc s Main <> MDelete n /\ m_pc s Main <> MAssign n.
Proof.
  assert (A : forall ls s s', (m_pc s Plan = MIdle \/ (asking (m_pc s Plan) /\ m_mutex s = Some Plan)) -> (updating (m_pc s Main) -> m_mutex s = Some Main) ->
              gm_run s ls = Some s' ->
              (m_pc s' Plan = MIdle \/ (asking (m_pc s' Plan) /\ m_mutex s' = Some Plan)) /\ (updating (m_pc s' Main) -> m_mutex s' = Some Main)).
  { induction ls as [|l ls IH]; cbn [gm_run]; intros s s' H1 H2 E; [injection E as <-; auto|].
    destruct (gm_step s l) as [s1|] eqn:E1; [|discriminate]. apply (IH s1 s'); [| |exact E]; clear E IH.
    - destruct s as [tree freed nxt cache mutex pc ans]; cbn [m_pc m_mutex] in *.
      destruct l; cbn [gm_step] in E1; try (destruct t);
        repeat match type of E1 with context [match ?e with _ => _ end] => destruct e eqn:?; try discriminate end; injection E1 as <-;
        cbn [m_pc m_mutex]; unfold set_pc; cbn [thread_eqb]; cbn [asking]; try tauto; try (left; assumption);
        try (destruct H1 as [H1|[_ H1]]; [first [discriminate|left; exact H1]|right; split; [exact I|exact H1]]; fail);
        try (destruct H1 as [H1|[_ H1]]; [left; exact H1|discriminate]; fail).
      all: try (right; split; [exact I|]; congruence).
      all: try match goal with |- context [asking (?f ?t)] => destruct (f t) eqn:?; try discriminate; cbn in * end; auto; try tauto.
      all: try (destruct mutex as [[]|]; try discriminate; auto; fail).
      all: exfalso; specialize (H2 I); destruct H1 as [|[_ H1]]; congruence.
    - destruct s as [tree freed nxt cache mutex pc ans]; cbn [m_pc m_mutex] in *.
      destruct l; cbn [gm_step] in E1; try (destruct t);
        repeat match type of E1 with context [match ?e with _ => _ end] => destruct e eqn:?; try discriminate end; injection E1 as <-;
        cbn [m_pc m_mutex]; unfold set_pc; cbn [thread_eqb]; cbn [updating]; try tauto; try (intros U; specialize (H2 U); congruence). }
  intros ls s H (c & Hc) n. destruct (A ls gms_init s (or_introl eq_refl) (fun x => match x with end) H) as [P M].
  assert (Q : m_mutex s = Some Plan).
  { destruct P as [P|[_ P]]; [|exact P]. rewrite P in Hc. destruct Hc as [Hc|[(g & [Hc|Hc])|(g & m & [Hc|Hc])]]; discriminate. }
  split; [|split]; intros X; rewrite X in M; specialize (M I); congruence.
Qed.
Print Assumptions C104_planning_excludes_map.
(** If moreover no point is clicked and no depth cloud arrives, no container is read or changed while another thread is changing it. *)
Theorem C104_no_collision :
  forall ls s, reaches ls s -> (forall c, ~ In (LAsk Cmd c) ls) -> (forall c, ~ In (LAsk Main c) ls) -> ~ In LPoint ls -> forall o, ~ collision s o.
Proof.
  assert (A : forall ls s s', (asking (m_pc s Main) \/ m_pc s Main = MInsert -> False) -> (forall c, ~ In (LAsk Main c) ls) -> ~ In LPoint ls ->
              gm_run s ls = Some s' -> asking (m_pc s' Main) \/ m_pc s' Main = MInsert -> False).
  { induction ls as [|l ls IH]; cbn [gm_run]; intros s s' H N1 N2 E; [injection E as <-; auto|].
    destruct (gm_step s l) as [s1|] eqn:E1; [|discriminate].
    apply (IH s1 s'); [|intros c X; exact (N1 c (or_intror X))|intros X; exact (N2 (or_intror X))|exact E]; clear E IH.
    destruct s as [tree freed nxt cache mutex pc ans]; cbn [m_pc m_mutex] in *.
    destruct l; cbn [gm_step] in E1; try (destruct t);
      repeat match type of E1 with context [match ?e with _ => _ end] => destruct e eqn:?; try discriminate end; injection E1 as <-;
      cbn [m_pc m_mutex]; unfold set_pc; cbn [thread_eqb]; cbn [asking]; try tauto;
      try (exfalso; exact (N1 _ (or_introl eq_refl))); try (exfalso; exact (N2 (or_introl eq_refl))); try (intros [[]|X]; discriminate).
    all: exfalso; cbn in H; tauto. }
  intros ls s H N1 N2 N3 o (t & u & w1 & w2 & D & A1 & A2 & W).
  pose proof (inv_run ls _ _ inv_init N1 H) as I.
  assert (B : ~ (asking (m_pc s Main) \/ m_pc s Main = MInsert)).
  { refine (A ls gms_init s _ N2 N3 H). intros [X|X]; [exact X|discriminate]. }
  assert (C : forall w, access (m_pc s Cmd) = Some (o, w) -> False) by (intros w; rewrite (i_cmd _ I); discriminate).
  assert (K : forall w1 w2, access (m_pc s Main) = Some (o, w1) -> access (m_pc s Plan) = Some (o, w2) -> False).
  { intros v1 v2 B1 B2. destruct (i_plan _ I) as [X|[X Y]]; [rewrite X in B2; discriminate|].
    pose proof (i_main _ I) as HM. destruct (m_pc s Main) eqn:E; cbn in B1, B; try discriminate; try tauto. specialize (HM Logic.I). congruence. }
  destruct t, u; try congruence; eauto.
Qed.
Print Assumptions C104_no_collision.
(** In general all of it fails. (1) With the default options the command thread reads a map that was just deleted. (2) It can also put a risk of the old map
    into the cache after the cache was cleared for the new one, where the planning thread finds it. (3) Without the speed-up, a depth cloud that arrives
    during a planning cycle changes the obstacle set while the planning thread reads it. (4) A clicked point does the same to the cache. *)
Theorem C104_threads_refuted :
  (exists ls s, reaches ls s /\ (forall c, ~ In (LAsk Main c) ls) /\ ~ In LPoint ls /\ reads_deleted s) /\
  (exists ls s a, reaches ls s /\ In a (m_answers s) /\ a_who a = Plan /\ ~ up_to_date a /\ m_pc s Main = MIdle) /\
  (exists ls s, reaches ls s /\ (forall t c, In (LAsk t c) ls -> t = Plan) /\ collision s TheSet) /\
  (exists ls s, reaches ls s /\ (forall t c, In (LAsk t c) ls -> t <> Cmd) /\ ~ In LPoint ls /\ collision s TheCache).
Proof.
  set (map := [LMap; LCleared; LDeleted; LAssigned]).
  split; [|split; [|split]].
  - exists (map ++ [LAsk Cmd 7; LCached Cmd; LRead Cmd; LMap; LCleared; LDeleted]). eexists. split; [vm_compute; reflexivity|].
    split; [intros c; cbn; intuition discriminate|]. split; [cbn; intuition discriminate|].
    exists Cmd, 0%nat, false. split; [reflexivity|left; reflexivity].
  - exists (map ++ [LAsk Cmd 7; LCached Cmd; LRead Cmd; LFound Cmd; LSeen Cmd; LEnough Cmd] ++ map ++ [LStored Cmd] ++ [LPlanStart; LAsk Plan 7; LCached Plan; LPlanEnd]).
    eexists. exists (Ans Plan 7 [Some 0%nat] (Some 1%nat)). split; [vm_compute; reflexivity|]. split; [left; reflexivity|]. split; [reflexivity|].
    split; [|reflexivity]. intros [_ F]. inversion F. discriminate.
  - exists (map ++ [LPlanStart; LAsk Plan 7; LCached Plan; LRead Plan; LFound Plan; LPoint]). eexists. split; [vm_compute; reflexivity|].
    split. { intros t c. cbn. intros X. repeat destruct X as [X|X]; try discriminate; try contradiction. injection X as <- _. reflexivity. }
    exists Plan, Main, false, true. split; [discriminate|]. split; [reflexivity|]. split; reflexivity.
  - exists (map ++ [LPlanStart; LAsk Plan 7; LCached Plan; LRead Plan; LFound Plan; LSeen Plan; LEnough Plan; LAsk Main 8]). eexists.
    split; [vm_compute; reflexivity|].
    split. { intros t c. cbn. intros X. repeat destruct X as [X|X]; try discriminate; try contradiction; injection X as <- _; discriminate. }
    split; [cbn; intuition discriminate|].
    exists Plan, Main, true, false. split; [discriminate|]. split; [reflexivity|]. split; reflexivity.
Qed.
Print Assumptions C104_threads_refuted.
(** an execution the first theorem speaks about: two maps, a clicked point and a planning cycle after each; three answers, two from the new map *)
Example C104_example : exists s,
  reaches ([LMap; LCleared; LDeleted; LAssigned; LPoint; LInserted; LPlanStart; LAsk Plan 7; LCached Plan; LRead Plan; LFound Plan; LSeen Plan; LRead Plan;
            LFound Plan; LSeen Plan; LEnough Plan; LStored Plan; LPlanEnd; LMap; LCleared; LDeleted; LAssigned; LAsk Main 7; LCached Main; LRead Main;
            LFound Main; LSeen Main; LEnough Main; LStored Main; LPlanStart; LAsk Plan 7; LCached Plan]) s /\
  m_answers s = [Ans Plan 7 [Some 1%nat] (Some 1%nat); Ans Main 7 [Some 1%nat] (Some 1%nat); Ans Plan 7 [Some 0%nat; Some 0%nat] (Some 0%nat)].
Proof. eexists. split; [vm_compute; reflexivity|reflexivity]. Qed.
