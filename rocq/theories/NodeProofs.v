From Coq Require Import ZArith List Bool String Lia.
From Flocq Require Import Core BinarySingleNaN.
From Verif Require Import Num NodeModel NodeSpec UsmModel.
Import ListNotations.

(** ---------------- usm *)
Section U.
Variables (S C : Type) (S_eqb : S -> S -> bool) (run : S -> C -> transition * C).
Hypothesis S_eqb_ok : forall a b, S_eqb a b = true <-> a = b.
Lemma transition_eqb_ok a b : transition_eqb a b = true <-> a = b.
Proof. destruct a, b; cbn; split; congruence. Qed.

Lemma usm_map_spec t m : match usm_map S t m with
  | Some s' => In (t, s') m | None => forall s', ~ In (t, s') m end.
Proof.
  induction m as [|(t', s') m IH]; cbn; [auto|]. destruct (transition_eqb t' t) eqn:E.
  - apply transition_eqb_ok in E. subst. now left.
  - destruct (usm_map S t m); [now right|]. intros s2 [[= -> _]|H]; [|eapply IH; eauto].
    rewrite (proj2 (transition_eqb_ok t t) eq_refl) in E. discriminate.
Qed.
(** a table with distinct state labels and distinct transition labels per state (as C++ requires) *)
Definition proper (tab : usm_table S) : Prop :=
  NoDup (map fst tab) /\ forall s m, In (s, m) tab -> NoDup (map fst m).
Lemma usm_map_complete t m s' : NoDup (map fst m) -> In (t, s') m -> usm_map S t m = Some s'.
Proof.
  induction m as [|(t0, s0) m IH]; cbn; [intros _ []|]. intros H [[= -> ->]|H2].
  - now rewrite (proj2 (transition_eqb_ok t t) eq_refl).
  - inversion H as [|? ? N1 N2]; subst. destruct (transition_eqb t0 t) eqn:E; [|auto].
    apply transition_eqb_ok in E. subst. exfalso. apply N1. apply (in_map fst) in H2. exact H2.
Qed.
Lemma choose_spec tab err s t : proper tab ->
  (forall m s', In (s, m) tab -> In (t, s') m -> chooseNextState S S_eqb tab err s t = s') /\
  ((forall m s', In (s, m) tab -> ~ In (t, s') m) -> chooseNextState S S_eqb tab err s t = err).
Proof.
  intros (N1 & N2). induction tab as [|(s0, m0) tab IH]; cbn.
  - split; [intros ? ? []|reflexivity].
  - cbn in N1. inversion N1 as [|? ? N3 N4]; subst.
    specialize (IH N4 ltac:(intros; eapply N2; right; eassumption)). destruct IH as (I1 & I2).
    destruct (S_eqb s0 s) eqn:E.
    + apply S_eqb_ok in E. subst s0. split.
      * intros m s' [[= ->]|H] Hin.
        -- rewrite (usm_map_complete t m s' ltac:(eapply N2; left; reflexivity) Hin). reflexivity.
        -- exfalso. apply N3. apply (in_map fst) in H. exact H.
      * intros H. pose proof (usm_map_spec t m0) as U. destruct (usm_map S t m0); [|reflexivity].
        exfalso. eapply H; [left; reflexivity|exact U].
    + split.
      * intros m s' [[= -> ->]|H] Hin; [|eauto]. rewrite (proj2 (S_eqb_ok s s) eq_refl) in E. discriminate.
      * intros H. apply I2. intros m s' Hin. eapply H. right. exact Hin.
Qed.
Lemma iterateOnce_spec tab err s c s' c' : proper tab ->
  iterateOnce S C run (chooseNextState S S_eqb tab err) s c = (s', c') ->
  c' = snd (run s c) /\
  (fst (run s c) = REPEAT -> s' = s) /\
  (fst (run s c) <> REPEAT ->
     (forall m s2, In (s, m) tab -> In (fst (run s c), s2) m -> s' = s2) /\
     ((forall m s2, In (s, m) tab -> ~ In (fst (run s c), s2) m) -> s' = err)).
Proof.
  intros P. unfold iterateOnce. destruct (run s c) as (t, c1) eqn:E. cbn [fst snd]. intros [= <- <-].
  split; [reflexivity|]. destruct (choose_spec tab err s t P) as (H1 & H2). split.
  - intros ->. reflexivity.
  - intros Ht. destruct t; try contradiction; split; auto; intros; symmetry; eauto.
Qed.
End U.

(** ---------------- failsafe *)
Lemma checkFailsafe_spec st cloud start hover :
  checkFailsafe true st cloud start hover =
  if (15 * 10 ^ 9 <? cloud)%Z && (15 * 10 ^ 9 <? start)%Z then (TERMINATION, hover)
  else if (5 * 10 ^ 8 <? cloud)%Z && (5 * 10 ^ 9 <? start)%Z then (CRITICAL, true)
  else (if hover then st else ACTIVE, hover).
Proof.
  unfold checkFailsafe. change timeout_termination with (15 * 10 ^ 9)%Z. change timeout_critical with (5 * 10 ^ 8)%Z.
  change timeout_startup with (5 * 10 ^ 9)%Z. destruct (_ && _); [reflexivity|]. destruct (_ && _); [reflexivity|].
  destruct hover; reflexivity.
Qed.

Lemma checkFailsafe_cases st cloud start hover st' hover' :
  checkFailsafe true st cloud start hover = (st', hover') ->
  (stale_15s cloud start -> st' = TERMINATION /\ hover' = hover) /\
  (~ stale_15s cloud start -> stale_half_s cloud start -> st' = CRITICAL /\ hover' = true) /\
  (~ stale_15s cloud start -> ~ stale_half_s cloud start ->
     hover' = hover /\ (hover = false -> st' = ACTIVE) /\ (hover = true -> st' = st)).
Proof.
  rewrite checkFailsafe_spec. unfold stale_15s, stale_half_s.
  set (a := (15 * 10 ^ 9)%Z). set (b := (5 * 10 ^ 8)%Z). set (d := (5 * 10 ^ 9)%Z).
  destruct (Z.ltb_spec a cloud), (Z.ltb_spec a start), (Z.ltb_spec b cloud), (Z.ltb_spec d start); cbn [andb];
    intros [= <- <-]; repeat split; intros; try lia; try reflexivity; destruct hover; try reflexivity; discriminate.
Qed.

(** ---------------- parameters *)
Section P.
Variable N : num.
Variable D : Type.
Variable tofloat : D -> N.
Notation step := (pstep N D tofloat).

Ltac streq := repeat match goal with
  | |- context [String.eqb ?a ?b] => destruct (String.eqb_spec a b); [subst; reflexivity|]
  end.

Lemma float_member_in name get : float_member (N := N) name = Some get -> In (name, get) (float_members N).
Proof.
  unfold float_member. destruct (find _ _) as [(n, g)|] eqn:E; [|discriminate]. intros [= <-].
  apply find_some in E. destruct E as (I & E). cbn [fst] in E. apply String.eqb_eq in E. now subst.
Qed.
Lemma float_member_none name : float_member (N := N) name = None -> forall e, In e (float_members N) -> name <> fst e.
Proof.
  unfold float_member. destruct (find _ _) as [(n, g)|] eqn:E; [discriminate|]. intros _ e He F. subst name.
  pose proof (find_none _ _ E e He) as F. cbn in F. rewrite String.eqb_refl in F. discriminate.
Qed.

Lemma step_delivers name get e p : float_member name = Some get ->
  get (step p e) = match delivers tofloat name e with Some v => v | None => get p end.
Proof.
  intros H. apply float_member_in in H. destruct p. destruct e as [[i r z]|resp].
  - cbn [pstep delivers p_id p_real]. unfold px4ParamsCallback. cbn [p_id p_real p_int].
    destruct (String.eqb_spec i name) as [->|Hn].
    + unfold float_members in H. cbn [In] in H.
      repeat (destruct H as [H|H]; [injection H as <- <-; reflexivity|]). destruct H.
    + unfold float_members in H. cbn [In] in H.
      repeat (destruct H as [H|H]; [injection H as <- <-; apply String.eqb_neq in Hn;
        repeat match goal with |- ?g (if String.eqb i ?b then _ else _) = _ =>
          destruct (String.eqb i b) eqn:?; [first [reflexivity | congruence]|] end; reflexivity|]). destruct H.
  - cbn [pstep delivers]. unfold pollParameters. unfold float_members in H. cbn [In] in H.
    repeat (destruct H as [H|H]; [injection H as <- <-;
       match goal with |- context [polled ?s] => let x := eval vm_compute in (polled s) in change (polled s) with x end; cbv iota;
       match goal with |- _ = match match resp ?s with _ => _ end with _ => _ end => destruct (resp s) eqn:E; cbn; rewrite ?E | _ => idtac end;
       reflexivity|]). destruct H.
Qed.
Lemma history_delivers name get es p : float_member name = Some get ->
  get (fold_left step es p) = last_delivered tofloat name (get p) es.
Proof.
  intros H. revert p. induction es as [|e es IH]; intros p; cbn [fold_left]; [reflexivity|].
  rewrite IH. unfold last_delivered. cbn [fold_left]. f_equal. now apply step_delivers.
Qed.
Lemma auto_mode_step e p : auto_mode (step p e) =
  match e with EMsg m => if String.eqb (p_id m) "MPC_AUTO_MODE" then to_int32 (p_int m) else auto_mode p | EPoll _ => auto_mode p end.
Proof.
  destruct p. destruct e as [[i r z]|resp]; [|reflexivity]. cbn [pstep]. unfold px4ParamsCallback. cbn [p_id p_real p_int].
  destruct (String.eqb_spec i "MPC_AUTO_MODE") as [->|Hn]; [reflexivity|].
  repeat match goal with |- ?g (if String.eqb i ?b then _ else _) = _ => destruct (String.eqb i b); [reflexivity|] end.
  reflexivity.
Qed.
Lemma unknown_name m p : float_member (N := N) (p_id m) = None -> p_id m <> "MPC_AUTO_MODE"%string ->
  px4ParamsCallback N D tofloat p m = p.
Proof.
  destruct m as [i r z]. destruct p. cbn [p_id]. intros H1 H2. pose proof (float_member_none i H1) as F.
  unfold px4ParamsCallback. cbn [p_id p_real p_int].
  assert (G : forall b, In b (map fst (float_members N)) -> String.eqb i b = false).
  { intros b Hb. apply in_map_iff in Hb. destruct Hb as (e & <- & He). apply String.eqb_neq. now apply F. }
  apply String.eqb_neq in H2. rewrite H2.
  repeat match goal with |- (if String.eqb i ?b then _ else _) = _ => rewrite (G b) by (cbn [map fst float_members In]; tauto) end.
  reflexivity.
Qed.
Lemma poll_flag resp p : let (p', ni) := pollParameters N D tofloat resp p in
  ni = false <-> forall name get, polled name = true -> float_member name = Some get -> finiteb N (get p') = true.
Proof.
  destruct p. unfold pollParameters. cbn zeta.
  match goal with |- context [Px4 ?a ?b ?c ?d ?e ?f ?g ?h ?i ?j ?k ?l ?m ?n] => set (p' := Px4 a b c d e f g h i j k l m n) end.
  rewrite !orb_false_iff, !negb_false_iff. split.
  - intros H name get Hp Hm. apply float_member_in in Hm. unfold float_members in Hm. cbn [In] in Hm.
    repeat (destruct Hm as [Hm|Hm]; [injection Hm as <- <-; first [discriminate Hp|tauto]|]). destruct Hm.
  - intros H. repeat split;
    match goal with |- finiteb N (?g p') = true =>
      first [eapply (H "MPC_XY_CRUISE"%string g); reflexivity | eapply (H "CP_DIST"%string g); reflexivity
      | eapply (H "MPC_LAND_SPEED"%string g); reflexivity | eapply (H "NAV_ACC_RAD"%string g); reflexivity
      | eapply (H "MPC_ACC_HOR"%string g); reflexivity | eapply (H "MPC_JERK_MAX"%string g); reflexivity
      | eapply (H "MPC_ACC_DOWN_MAX"%string g); reflexivity | eapply (H "MPC_ACC_UP_MAX"%string g); reflexivity
      | eapply (H "MPC_Z_VEL_MAX_DN"%string g); reflexivity | eapply (H "MPC_Z_VEL_MAX_UP"%string g); reflexivity
      | eapply (H "MPC_YAWRAUTO_MAX"%string g); reflexivity] end.
Qed.

(** ---------------- mission *)
Definition code_type_ok (p1 : N) : bool := ltb N (sub N p1 (ofZ N 1)) (flt_min N).
Lemma speed_item_iff w : speed_item N w = true <-> speed_change code_type_ok w.
Proof. unfold speed_item, speed_change, code_type_ok. rewrite !andb_true_iff, Z.eqb_eq. tauto. Qed.
Lemma scan_back_spec : forall pre speed,
  let items := rev pre in let i := (List.length pre - 1)%nat in
  (exists v, closest_speed_change code_type_ok items i v /\ pre <> [] /\ scan_back N pre speed = v) \/
  ((forall w, In w items -> ~ speed_change code_type_ok w) /\ scan_back N pre speed = speed).
Proof.
  induction pre as [|w pre IH]; intros speed; cbn zeta.
  - right. split; [intros ? []|reflexivity].
  - cbn [scan_back]. destruct (speed_item N w) eqn:E.
    + left. exists (w_param2 w). split; [|split; [discriminate|reflexivity]].
      exists (List.length pre), w. cbn [List.length rev]. repeat split; try lia.
      * rewrite nth_error_app2; rewrite rev_length; [|lia]. now rewrite Nat.sub_diag.
      * apply speed_item_iff in E. exact (proj1 E).
      * apply speed_item_iff in E. exact (proj1 (proj2 E)).
      * apply speed_item_iff in E. exact (proj2 (proj2 E)).
    + assert (Nw : ~ speed_change code_type_ok w) by (intros F; apply speed_item_iff in F; congruence).
      destruct (IH speed) as [(v & (k & w0 & Hk & Hn & Hs & Hv & Hl) & Hne & ->)|(H & ->)].
      * left. exists v. split; [|split; [discriminate|reflexivity]]. destruct pre as [|w1 pre]; [contradiction|].
        exists k, w0. cbn [List.length rev] in *. repeat split; try exact Hv; try apply Hs; try lia.
        -- rewrite nth_error_app1; [exact Hn|]. apply nth_error_Some. congruence.
        -- intros j w' Hj Hw'. destruct (Nat.eq_dec j (S (List.length pre))) as [->|Hj2].
           ++ rewrite nth_error_app2 in Hw' by (rewrite app_length, rev_length; cbn; lia).
              rewrite app_length, rev_length in Hw'. cbn [List.length] in Hw'.
              replace (S (List.length pre) - (List.length pre + 1))%nat with 0%nat in Hw' by lia.
              cbn [nth_error] in Hw'. injection Hw' as <-. exact Nw.
           ++ rewrite nth_error_app1 in Hw' by (rewrite app_length, rev_length; cbn; lia). apply (Hl j); [lia|exact Hw'].
      * right. split; [|reflexivity]. intros w' Hw'. cbn [rev] in Hw'. apply in_app_or in Hw'. destruct Hw' as [Hw'|[<-|[]]]; auto.
Qed.
Lemma closest_prefix ok (items more : list (wpt N)) i v : (i < List.length items)%nat ->
  closest_speed_change ok items i v -> closest_speed_change ok (items ++ more) i v.
Proof.
  intros Hi (k & w & Hk & Hn & Hs & Hv & Hl). exists k, w. repeat split; try assumption; try apply Hs.
  - rewrite nth_error_app1 by lia. exact Hn.
  - intros j w' Hj Hw'. rewrite nth_error_app1 in Hw' by lia. eauto.
Qed.
Lemma mission_loop_spec : forall rest seen speed,
  (forall w, In w seen -> w_current w = false) ->
  let items := rev seen ++ rest in
  ((exists i, is_current_index items i /\
     ((exists v, closest_speed_change code_type_ok items i v /\ mission_loop N seen rest speed = v) \/
      ((forall j w, (j <= i)%nat -> nth_error items j = Some w -> ~ speed_change code_type_ok w) /\ mission_loop N seen rest speed = speed))) \/
   ((forall w, In w items -> w_current w = false) /\ mission_loop N seen rest speed = speed)).
Proof.
  induction rest as [|w rest IH]; intros seen speed Hseen; cbn zeta.
  - right. split; [|reflexivity]. intros w Hw. rewrite app_nil_r in Hw. apply in_rev in Hw. auto.
  - cbn [mission_loop]. destruct (w_current w) eqn:E.
    + left. exists (List.length seen).
      assert (Eq : rev seen ++ w :: rest = rev (w :: seen) ++ rest) by (cbn; now rewrite <- app_assoc).
      split.
      * split.
        -- exists w. split; [|exact E]. rewrite nth_error_app2; rewrite rev_length; [|lia]. now rewrite Nat.sub_diag.
        -- intros j w' Hj Hw'. rewrite nth_error_app1 in Hw' by (rewrite rev_length; lia).
           apply Hseen. apply in_rev. eapply nth_error_In; eauto.
      * rewrite Eq. destruct (scan_back_spec (w :: seen) speed) as [(v & Hc & _ & Hv)|(H & Hv)].
        -- left. exists v. split; [|exact Hv]. cbn [List.length] in Hc. replace (S (List.length seen) - 1)%nat with (List.length seen) in Hc by lia.
           apply closest_prefix; [|exact Hc]. rewrite rev_length. cbn. lia.
        -- right. split; [|exact Hv]. intros j w' Hj Hw'. apply H.
           rewrite nth_error_app1 in Hw' by (rewrite rev_length; cbn; lia). eapply nth_error_In; eauto.
    + specialize (IH (w :: seen) speed ltac:(intros w' [<-|Hw']; auto)). cbn zeta in IH.
      replace (rev (w :: seen) ++ rest) with (rev seen ++ w :: rest) in IH by (cbn; now rewrite <- app_assoc).
      exact IH.
Qed.
Lemma missionCallback_spec items speed :
  ((exists i, is_current_index items i /\
     ((exists v, closest_speed_change code_type_ok items i v /\ missionCallback N items speed = v) \/
      ((forall j w, (j <= i)%nat -> nth_error items j = Some w -> ~ speed_change code_type_ok w) /\ missionCallback N items speed = speed))) \/
   ((forall w, In w items -> w_current w = false) /\ missionCallback N items speed = speed)).
Proof. exact (mission_loop_spec items [] speed ltac:(intros ? [])). Qed.
End P.

(** accepted speed types, for the integral values MAVLink uses *)
Lemma code_type_ok_values : code_type_ok F32 (ofZ F32 0) = true /\ code_type_ok F32 (ofZ F32 1) = true /\
  code_type_ok F32 (ofZ F32 2) = false /\ code_type_ok F32 (ofZ F32 3) = false /\ code_type_ok F32 (nanv F32) = false.
Proof. repeat split; vm_compute; reflexivity. Qed.

(** item list: ground speed 3, then airspeed 7, then the current item *)
Definition mission_witness : list (wpt F32) :=
  [Wpt false 178 (ofZ F32 1) (ofZ F32 3); Wpt false 178 (ofZ F32 0) (ofZ F32 7); Wpt true 16 (ofZ F32 0) (ofZ F32 0)].
Definition ground_speed_type (p1 : F32) : bool := eqb F32 p1 (ofZ F32 1).
Lemma mission_refuted : exists (items : list (wpt F32)) i,
  is_current_index items i /\ closest_speed_change ground_speed_type items i (ofZ F32 3) /\
  missionCallback F32 items (nanv F32) = ofZ F32 7.
Proof.
  exists mission_witness, 2%nat. split; [|split].
  - split; [eexists; split; reflexivity|]. intros j w Hj. destruct j as [|[|j]]; cbn; [| |lia]; intros [= <-]; reflexivity.
  - exists 0%nat. eexists. split; [lia|]. split; [reflexivity|]. split; [repeat split; vm_compute; reflexivity|]. split; [reflexivity|].
    intros j w Hj. destruct j as [|[|[|j]]]; cbn; [lia| | |lia]; intros [= <-] (H1 & H2 & H3); cbn in H1; try lia.
    vm_compute in H2. discriminate.
  - unfold missionCallback, mission_witness. cbn [mission_loop w_current scan_back].
    assert (S1 : speed_item F32 (Wpt true 16 (ofZ F32 0) (ofZ F32 0)) = false) by (vm_compute; reflexivity).
    assert (S2 : speed_item F32 (Wpt false 178 (ofZ F32 0) (ofZ F32 7)) = true) by (vm_compute; reflexivity).
    rewrite S1, S2. cbn [w_param2]. reflexivity.
Qed.
