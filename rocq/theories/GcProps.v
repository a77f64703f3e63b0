(** Property C98: goals and paths of the global planner under all interleavings of its threads. *)
From Coq Require Import ZArith List Bool Lia.
From Verif Require Import GcModel.
Import ListNotations.
Local Open Scope Z_scope.

Lemma gc_inv (P : gcs -> Prop) (ok : glab -> Prop) : (forall s l s', P s -> ok l -> gc_step s l = Some s' -> P s') ->
  forall ls s s', P s -> (forall l, In l ls -> ok l) -> gc_run s ls = Some s' -> P s'.
Proof.
  intros H ls. induction ls as [|l ls IH]; intros s s' Hs K R; cbn in R; [injection R as <-; exact Hs|].
  destruct (gc_step s l) as [s1|] eqn:E; [|discriminate]. refine (IH s1 s' (H _ _ _ Hs (K l (or_introl eq_refl)) E) (fun x X => K x (or_intror X)) R).
Qed.

(* ---------------------------------------------------------------------------------------------- C98 *)
(** C98. A goal given between two planning cycles is the target of the next search, or the vehicle was found to be there; whatever the threads do then, as
    long as no other goal is given. *)
Theorem C98_goal_between_cycles :
  forall s g ls s', q_pc s = KIdle -> gc_run s (GGoal g :: ls) = Some s' -> (forall h, ~ In (GGoal h) ls) ->
  q_tried s' = q_tried s \/ (exists later, q_tried s' = q_tried s ++ g :: later) \/ (exists later, q_reached s' = q_reached s ++ g :: later).
Proof.
  intros s g ls s' Hp R Hl. cbn in R. destruct (gc_step s (GGoal g)) as [s1|] eqn:E; [|discriminate].
  set (T := q_tried s). set (Y := q_reached s).
  assert (P1 : (q_goal s1 = g /\ q_blocked s1 = false /\ (q_pc s1 = KIdle \/ q_pc s1 = KPlan) /\ q_tried s1 = T /\ q_reached s1 = Y) \/
               (exists later, q_tried s1 = T ++ g :: later) \/ (exists later, q_reached s1 = Y ++ g :: later)).
  { left. destruct s as [goal blocked wps pc len close tried reached crashed]. cbn in Hp, E. subst pc. destruct crashed; [discriminate|]. destruct close; [discriminate|].
    injection E as <-. cbn. repeat split. left. reflexivity. }
  clearbody T Y. clear E Hp.
  assert (Q : (q_goal s' = g /\ q_blocked s' = false /\ (q_pc s' = KIdle \/ q_pc s' = KPlan) /\ q_tried s' = T /\ q_reached s' = Y) \/
               (exists later, q_tried s' = T ++ g :: later) \/ (exists later, q_reached s' = Y ++ g :: later)).
  { refine (gc_inv (fun s => (q_goal s = g /\ q_blocked s = false /\ (q_pc s = KIdle \/ q_pc s = KPlan) /\ q_tried s = T /\ q_reached s = Y) \/
                (exists later, q_tried s = T ++ g :: later) \/ (exists later, q_reached s = Y ++ g :: later)) (fun l => forall h, l <> GGoal h) _ ls s1 s' P1 _ R).
    2:{ intros l H h ->. exact (Hl h H). }
    clear R Hl P1. clear s s' s1 ls. intros s l s' H K E. destruct s as [goal blocked wps pc len close tried reached crashed]. cbn in H, E. destruct crashed; [discriminate|].
    destruct H as [(H1 & H2 & H3 & H4 & H5)|[(x & H)|(x & H)]].
    - subst goal blocked tried reached. destruct H3 as [-> | ->]; destruct l; cbn in E; try discriminate E; try (exfalso; exact (K _ eq_refl)).
      + injection E as <-. cbn. destruct in_goal; cbn; [right; right; exists []; reflexivity|left; tauto].
      + destruct len; [discriminate|]. destruct close; [discriminate|]. injection E as <-. cbn. left. tauto.
      + destruct close; [|discriminate]. injection E as <-. cbn. left. tauto.
      + injection E as <-. cbn. right. left. exists []. reflexivity.
      + destruct len; [discriminate|]. destruct close; [discriminate|]. injection E as <-. cbn. left. tauto.
      + destruct close; [|discriminate]. injection E as <-. cbn. left. tauto.
    - right. left. subst tried. destruct l; destruct pc; cbn in E; try discriminate E; try (exfalso; exact (K _ eq_refl)); cbn;
        repeat match type of E with
        | context [match ?w with [] => _ | _ :: _ => _ end] => destruct w
        | context [match ?w with O => _ | S _ => _ end] => destruct w
        | context [if ?w then _ else _] => destruct w
        | context [match ?w with FOwnCell => _ | FNone => _ | FGood => _ | FPoor _ => _ end] => destruct w
        end; try discriminate E; injection E as <-; cbn; try (exists x; reflexivity).
      exists (x ++ [goal]). rewrite <- app_assoc. reflexivity.
    - right. right. subst reached. destruct l; destruct pc; cbn in E; try discriminate E; try (exfalso; exact (K _ eq_refl)); cbn;
        try (injection E as <-; cbn; destruct in_goal; cbn; [exists (x ++ [goal]); rewrite <- app_assoc; reflexivity|exists x; reflexivity]);
        repeat match type of E with
        | context [match ?w with [] => _ | _ :: _ => _ end] => destruct w
        | context [match ?w with O => _ | S _ => _ end] => destruct w
        | context [if ?w then _ else _] => destruct w
        | context [match ?w with FOwnCell => _ | FNone => _ | FGood => _ | FPoor _ => _ end] => destruct w
        end; try discriminate E; injection E as <-; cbn; exists x; reflexivity. }
  destruct Q as [(_ & _ & _ & Q & _)|[Q|Q]]; auto.
Qed.
Print Assumptions C98_goal_between_cycles.
Definition one_cycle (r : found) : list glab := [GStart false; GRead; GFound r; GClear; GFill 3].
Example C98_example : exists s, gc_run (gcs_init 1) (one_cycle FNone) = Some s /\ q_pc s = KIdle /\
  option_map q_tried (gc_run s (GGoal 7 :: one_cycle FGood)) = Some [1; 7].
Proof. eexists. split; [reflexivity|]. split; reflexivity. Qed.

(** Refuted for goals given during a planning cycle: the failure of the search for the old goal is held against the new one, which is given up in the next
    cycle without having been tried; and a goal given just before the next waiting goal is taken up is overwritten by it. In both cases the new goal is gone. *)
Definition gone (g : Z) (s : gcs) : Prop :=
  q_goal s <> g /\ ~ In g (q_wps s) /\ ~ In g (q_tried s) /\ ~ In g (q_reached s) /\ q_pc s = KIdle.
Theorem C98_goal_lost_refuted :
  (exists ls s, In (GGoal 7) ls /\ gc_run (gcs_init 1) ls = Some s /\ gone 7 s) /\
  (exists ls s, In (GGoal 7) ls /\ ~ In (GFound FNone) ls /\ gc_run (gcs_init 1) ls = Some s /\ gone 7 s).
Proof.
  split.
  - exists [GStart false; GRead; GGoal 7; GFound FNone; GClear; GFill 0; GStart false; GPop 0; GRead; GFound FGood; GClear; GFill 0].
    eexists. split; [cbn; tauto|]. split; [reflexivity|]. repeat split; cbn; lia.
  - exists [GStart false; GRead; GFound (FPoor 5); GHalf; GHalf2; GClear; GFill 9; GStart true; GGoal 7; GPop 0; GRead; GFound FGood; GClear; GFill 9].
    eexists. split; [cbn; tauto|]. split; [cbn; intros H; repeat (destruct H as [H|H]; [discriminate H|]); exact H|]. split; [reflexivity|]. repeat split; cbn; lia.
Qed.
Print Assumptions C98_goal_lost_refuted.
(** The first position of the path is only read if it exists, if no planning step comes between the test and the read ... *)
Inductive paired : list glab -> Prop :=
| paired_nil : paired []
| paired_other l ls : l <> GCheck -> l <> GTake -> paired ls -> paired (l :: ls)
| paired_both ls : paired ls -> paired (GCheck :: GTake :: ls).
Theorem C98_path_read_in_range :
  forall g ls s, paired ls -> gc_run (gcs_init g) ls = Some s -> q_crashed s = false.
Proof.
  intros g ls s P. assert (G : forall a, q_close a = false -> q_crashed a = false -> gc_run a ls = Some s -> q_crashed s = false).
  2:{ apply G; reflexivity. }
  induction P as [|l ls K1 K2 P IH|ls P IH]; intros a A B R.
  - injection R as <-. exact B.
  - cbn in R. destruct (gc_step a l) as [b|] eqn:E; [|discriminate]. apply (IH b); [| |exact R];
      destruct a as [goal blocked wps pc len close tried reached crashed]; cbn in A, B, E; subst; destruct l; try contradiction; destruct pc; cbn in E; try discriminate E;
      repeat match type of E with
        | context [match ?w with [] => _ | _ :: _ => _ end] => destruct w
        | context [if ?w then _ else _] => destruct w
        | context [match ?w with FOwnCell => _ | FNone => _ | FGood => _ | FPoor _ => _ end] => destruct w
        end; injection E as <-; reflexivity.
  - cbn in R. destruct a as [goal blocked wps pc len close tried reached crashed]. cbn in A, B, R. subst. destruct len as [|len]; [discriminate|]. cbn in R.
    apply (IH (Gcs goal blocked wps pc len false tried reached false)); [reflexivity|reflexivity|exact R].
Qed.
Print Assumptions C98_path_read_in_range.
Example C98_paired_example : exists s, gc_run (gcs_init 1) (one_cycle FGood ++ [GCheck; GTake]) = Some s /\ q_len s = 2%nat /\ paired (one_cycle FGood ++ [GCheck; GTake]).
Proof. eexists. split; [reflexivity|]. split; [reflexivity|]. repeat (apply paired_other; [discriminate|discriminate|]). apply paired_both, paired_nil. Qed.
(** ... refuted otherwise: the planning thread empties the path in between. *)
Theorem C98_path_race_refuted :
  exists ls s, gc_run (gcs_init 1) ls = Some s /\ q_crashed s = true.
Proof. exists (one_cycle FGood ++ [GStart false; GRead; GFound FGood; GCheck; GClear; GTake]). eexists. split; reflexivity. Qed.
Print Assumptions C98_path_race_refuted.
(** The goals that were put aside for intermediate ones are taken up again in their order, each once: in that many cycles that find the present goal reached,
    whatever the searches yield (short of further intermediate goals) and whatever the main thread does meanwhile, as long as no goal is given. *)
Definition of_planning (l : glab) : bool := match l with GGoal _ | GCheck | GTake => false | _ => true end.
Definition reached_cycle (c : Z * found * nat) : list glab := let '(here, r, n) := c in [GStart true; GPop here; GRead; GFound r; GClear; GFill n].
Definition same_plan (a b : gcs) : Prop :=
  q_goal a = q_goal b /\ q_blocked a = q_blocked b /\ q_wps a = q_wps b /\ q_pc a = q_pc b /\ q_tried a = q_tried b.
Definition uncrashed (a : gcs) : gcs :=
  let '(Gcs goal blocked wps pc len close tried reached crashed) := a in Gcs goal blocked wps pc 0 false tried reached false.
Lemma plan_only : forall ls s s', (forall g, ~ In (GGoal g) ls) -> gc_run s ls = Some s' ->
  forall a, same_plan s a -> q_crashed a = false -> exists a', gc_run a (filter of_planning ls) = Some a' /\ same_plan s' a'.
Proof.
  induction ls as [|l ls IH]; intros s s' NG E a Ha Ca; cbn in E; [injection E as <-; exists a; split; [reflexivity|exact Ha]|].
  destruct (gc_step s l) as [s1|] eqn:E1; [|discriminate].
  assert (NG' : forall g, ~ In (GGoal g) ls) by (intros g X; exact (NG g (or_intror X))).
  destruct s as [goal blocked wps pc len close tried reached crashed]. destruct a as [goal' blocked' wps' pc' len' close' tried' reached' crashed'].
  destruct Ha as (H1 & H2 & H3 & H4 & H5). cbn in H1, H2, H3, H4, H5, Ca. subst goal' blocked' wps' pc' tried' crashed'. cbn in E1. destruct crashed; [discriminate|].
  destruct l; cbn [filter of_planning]; try (exfalso; exact (NG g (or_introl eq_refl))).
  all: try (destruct pc; cbn in E1; try discriminate E1;
    repeat match type of E1 with
      | context [match ?w with [] => _ | _ :: _ => _ end] => destruct w eqn:?
      | context [match ?w with FOwnCell => _ | FNone => _ | FGood => _ | FPoor _ => _ end] => destruct w eqn:?
      | context [if ?w then _ else _] => destruct w eqn:?
      end; injection E1 as <-; subst; cbn [gc_run gc_step]; apply (IH _ _ NG' E); [repeat split|reflexivity]; fail).
  - destruct pc; try discriminate E1. injection E1 as <-. apply (IH _ _ NG' E); [repeat split|reflexivity].
  - destruct pc; try discriminate E1. destruct wps; [destruct blocked|]; injection E1 as <-; apply (IH _ _ NG' E); solve [repeat split|reflexivity].
  - destruct pc; try discriminate E1. destruct r; injection E1 as <-; apply (IH _ _ NG' E); solve [repeat split|reflexivity].
  - assert (E2 : s1 = Gcs goal blocked wps pc len true tried reached false).
    { destruct pc; cbn in E1; (destruct len; [discriminate|]); (destruct close; [discriminate|]); injection E1 as <-; reflexivity. }
    subst s1. apply (IH _ _ NG' E); [repeat split|reflexivity].
  - destruct close; [|destruct pc; discriminate]. assert (E2 : s1 = Gcs goal blocked wps pc (pred len) false tried reached (Nat.eqb len 0)) by (destruct pc; cbn in E1; injection E1 as <-; reflexivity).
    subst s1. apply (IH _ _ NG' E); [repeat split|reflexivity].
Qed.
Theorem C98_waiting_goals_in_order :
  forall cycles ls s s', q_pc s = KIdle -> (forall g, ~ In (GGoal g) ls) -> length cycles = length (q_wps s) ->
  (forall c, In c cycles -> match snd (fst c) with FPoor _ => False | _ => True end) ->
  filter of_planning ls = concat (map reached_cycle cycles) -> gc_run s ls = Some s' ->
  q_tried s' = q_tried s ++ q_wps s /\ q_wps s' = [] /\ q_pc s' = KIdle.
Proof.
  intros cycles ls s s' Hp NG Hn Hr Hf E.
  destruct (plan_only ls s s' NG E (uncrashed s)) as (a' & R & (A1 & A2 & A3 & A4 & A5)).
  { destruct s. repeat split. } { destruct s. reflexivity. }
  rewrite A3, A4, A5. clear A1 A2 A3 A4 A5. rewrite Hf in R. clear Hf E NG ls.
  assert (G : forall cycles a, q_pc a = KIdle -> q_crashed a = false -> length cycles = length (q_wps a) ->
    (forall c, In c cycles -> match snd (fst c) with FPoor _ => False | _ => True end) -> gc_run a (concat (map reached_cycle cycles)) = Some a' ->
    q_tried a' = q_tried a ++ q_wps a /\ q_wps a' = [] /\ q_pc a' = KIdle).
  { clear. induction cycles as [|[[h r] n] cs IH]; intros a Hp Hc Hn Hr R.
    - cbn in R. injection R as <-. destruct (q_wps a) eqn:W; [|discriminate]. rewrite app_nil_r. auto.
    - destruct a as [goal blocked wps pc len close tried reached crashed]. cbn in Hp, Hc, Hn. subst pc crashed. destruct wps as [|g wps]; [discriminate|]. cbn in Hn. injection Hn as Hn.
      cbn [map concat reached_cycle] in R. cbn [app gc_run gc_step orb] in R.
      pose proof (Hr _ (or_introl eq_refl)) as Hr1. cbn in Hr1. assert (Hr2 := fun c X => Hr c (or_intror X)).
      destruct r; try contradiction; cbn [gc_step] in R; (destruct (IH (Gcs _ _ _ _ _ _ _ _ _) eq_refl eq_refl Hn Hr2 R) as (B1 & B2 & B3); cbn in B1, B2, B3; split; [|split; assumption]; rewrite B1; cbn;
        rewrite <- app_assoc; reflexivity). }
  destruct s as [goal blocked wps pc len close tried reached crashed]. cbn in Hp, Hn |- *. subst pc. refine (G cycles (Gcs _ _ _ _ _ _ _ _ _) eq_refl eq_refl Hn Hr R).
Qed.
Print Assumptions C98_waiting_goals_in_order.
Example C98_waiting_example :
  let s := Gcs 5 false [3; 1] KIdle 4 false [1; 3] [] false in
  let ls := [GStart true; GCheck; GPop 0; GRead; GTake; GFound FGood; GClear; GFill 4; GStart true; GPop 0; GRead; GFound FNone; GClear; GFill 0] in
  filter of_planning ls = concat (map reached_cycle [(0, FGood, 4%nat); (0, FNone, 0%nat)]) /\ option_map q_tried (gc_run s ls) = Some [1; 3; 3; 1].
Proof. split; reflexivity. Qed.
