(** State machine, loiter, NaN and history facts of the waypoint generator. *)
From Coq Require Import ZArith Reals List Bool Lia Lra.
From Flocq Require Import Core BinarySingleNaN.
From Verif Require Import Num Mat CommonModel CommonSpec CommonProofs HistModel PfModel PfProofs3 StarModel LpModel UsmModel WgModel WgSpec WgProofs.
Import ListNotations.

Section Any.
Context (N : num) (G : trig N) (secs : Z -> N) (travel : Z -> N -> N).
Local Notation getPathMsg := (getPathMsg N G secs).
Local Notation calc := (calculateWaypoint N G secs travel).
Local Notation step := (wg_step N G secs travel).
Local Notation run := (wg_run N G secs travel).
Local Notation runState := (runState N G secs travel).

Lemma pathSetpoint_cfg w w' now : w_cfg w' = w_cfg w -> fst (pathSetpoint N travel w' now) = path_usable N travel (c_info (w_cfg w)) now.
Proof using. intros E. unfold pathSetpoint, path_usable. rewrite E. reflexivity. Qed.

Definition next_of (w : wg N) (now : Z) : pstate :=
  documented_next (w_state w) (i_stay (w_in w)) (alt_of N w) (path_usable N travel (c_info (w_cfg w)) now).

(** result of one state run: the transition leads to the documented state, and what is left alone *)
Record ran (w : wg N) (now : Z) (t : transition) (w1 : wg N) : Prop := {
  rn_state : w_state w1 = w_state w;
  rn_next : (if match t with REPEAT => true | _ => false end then w_state w else wg_choose (w_state w) t) = next_of w now;
  rn_repeat : t <> ERROR;
  rn_reset : m_reset (w_mem w1) = m_reset (w_mem w);
  rn_ang : o_ang (w_out w1) = o_ang (w_out w);
  rn_pos : o_pos (w_out w1) = o_smoothed (w_out w1);
  rn_cfg : w_cfg w1 = w_cfg w;
  rn_stay : i_stay (w_in w1) = i_stay (w_in w);
  rn_inpos : i_pos (w_in w1) = i_pos (w_in w) }.
Lemma runState_ran w now t w1 : runState w now = (t, w1) -> ran w now t w1.
Proof using.
  unfold WgProofs.runState. destruct (w_state w) eqn:S.
  - unfold runTryPath. destruct (pathSetpoint N travel w now) as [av sp] eqn:P.
    set (w0 := with_goto N w _). pose proof (getPathMsg_frame N G secs w0) as F. set (w2 := getPathMsg w0) in *. clearbody w2.
    assert (Hav : av = path_usable N travel (c_info (w_cfg w)) now) by (rewrite <- (pathSetpoint_cfg w w now eq_refl), P; reflexivity).
    assert (I : w_in w2 = w_in w) by (exact (fr_in F)).
    destruct (i_stay (w_in w)) eqn:St.
    + intros [= <- <-]. constructor; try apply F; try (rewrite I; reflexivity).
      * unfold next_of. rewrite S, St. reflexivity.
      * discriminate.
    + destruct (altitudeChange N w2) as [alt w3] eqn:Al. destruct (altitudeChange_frame N _ _ _ Al) as (B & A1 & A2 & A3 & A4 & A5 & _).
      assert (Ba : alt = alt_of N w) by (rewrite B; unfold alt_of; rewrite I, (fr_reach F); reflexivity).
      intros E. assert (E2 : w1 = w3) by (destruct alt; [|destruct av]; congruence). subst w1.
      constructor; try (rewrite ?A1, ?A2, ?A3, ?A4, ?A5; try rewrite I; apply F || reflexivity).
      * unfold next_of. rewrite S, St, <- Ba, <- Hav. destruct alt; [|destruct av]; injection E as <-; reflexivity.
      * destruct alt; [|destruct av]; injection E as <-; discriminate.
  - unfold runAltitudeChange. set (w0 := if nav_eqb _ _ then _ else _).
    assert (F0 : w_state w0 = w_state w /\ m_reset (w_mem w0) = m_reset (w_mem w) /\ o_ang (w_out w0) = o_ang (w_out w) /\ w_cfg w0 = w_cfg w /\
                 i_stay (w_in w0) = i_stay (w_in w) /\ i_pos (w_in w0) = i_pos (w_in w) /\ alt_of N w0 = alt_of N w).
    { unfold w0, alt_of. destruct (nav_eqb (i_nav (w_in w)) N_offboard); [|destruct (ltb N (cst N 1 2) _)]; cbn; auto 10. }
    clearbody w0. destruct F0 as (B1 & B2 & B3 & B4 & B5 & B6 & B7).
    pose proof (getPathMsg_frame N G secs w0) as F. set (w2 := getPathMsg w0) in *. clearbody w2.
    destruct (i_stay (w_in w)) eqn:St.
    + intros [= <- <-]. constructor; rewrite ?(fr_state F), ?(fr_reset F), ?(fr_ang F), ?(fr_cfg F), ?(fr_in F), ?(fr_pos F); auto.
      * unfold next_of. rewrite S, St. reflexivity.
      * discriminate.
      * congruence.
    + destruct (altitudeChange N w2) as [alt w3] eqn:Al. destruct (altitudeChange_frame N _ _ _ Al) as (B & A1 & A2 & A3 & A4 & A5 & _).
      assert (Ba : alt = alt_of N w) by (rewrite B, <- B7; unfold alt_of; rewrite (fr_in F), (fr_reach F); reflexivity).
      intros E. assert (E2 : w1 = w3) by congruence. subst w1.
      constructor; rewrite ?A1, ?A2, ?A3, ?A4, ?A5, ?(fr_state F), ?(fr_reset F), ?(fr_ang F), ?(fr_cfg F), ?(fr_in F), ?(fr_pos F); auto.
      * unfold next_of. rewrite S, St, <- Ba. destruct alt; injection E as <-; reflexivity.
      * destruct alt; injection E as <-; discriminate.
      * congruence.
  - unfold runLoiter. set (w0 := with_goto N _ _). pose proof (getPathMsg_frame N G secs w0) as F. set (w2 := getPathMsg w0) in *.
    assert (I : w_in w2 = w_in w) by (exact (fr_in F)). intros E. assert (E2 : w1 = w2) by congruence. subst w1. clearbody w2.
    constructor; try apply F; try (rewrite I; reflexivity).
    + unfold next_of. rewrite S. destruct (i_stay (w_in w)); injection E as <-; reflexivity.
    + destruct (i_stay (w_in w)); injection E as <-; discriminate.
  - unfold runDirect. set (w0 := with_goto N _ _). pose proof (getPathMsg_frame N G secs w0) as F. set (w2 := getPathMsg w0) in *.
    assert (I : w_in w2 = w_in w) by (exact (fr_in F)). clearbody w2.
    assert (Hav : fst (pathSetpoint N travel w2 now) = path_usable N travel (c_info (w_cfg w)) now) by (apply pathSetpoint_cfg; apply F).
    rewrite Hav. destruct (path_usable N travel (c_info (w_cfg w)) now) eqn:P.
    + intros [= <- <-]. constructor; try apply F; try (rewrite I; reflexivity).
      * unfold next_of. rewrite S, P. reflexivity.
      * discriminate.
    + destruct (altitudeChange N w2) as [alt w3] eqn:Al. destruct (altitudeChange_frame N _ _ _ Al) as (B & A1 & A2 & A3 & A4 & A5 & _).
      assert (Ba : alt = alt_of N w) by (rewrite B; unfold alt_of; rewrite I, (fr_reach F); reflexivity).
      intros E. assert (E2 : w1 = w3) by (destruct alt; [|destruct (i_stay (w_in w))]; congruence). subst w1.
      constructor; try (rewrite ?A1, ?A2, ?A3, ?A4, ?A5; try rewrite I; apply F || reflexivity).
      * unfold next_of. rewrite S, P, <- Ba. destruct alt; [|destruct (i_stay (w_in w))]; injection E as <-; reflexivity.
      * destruct alt; [|destruct (i_stay (w_in w))]; injection E as <-; discriminate.
Qed.

Lemma calc_next w now : m_reset (w_mem w) = false ->
  w_state (calc w now) = next_of w now /\ o_type (w_out (calc w now)) = next_of w now /\ m_reset (w_mem (calc w now)) = false /\
  o_ang (w_out (calc w now)) = o_ang (w_out w) /\ o_pos (w_out (calc w now)) = o_smoothed (w_out (calc w now)) /\
  w_cfg (calc w now) = w_cfg w /\ i_stay (w_in (calc w now)) = i_stay (w_in w) /\ i_pos (w_in (calc w now)) = i_pos (w_in w).
Proof using.
  intros R. rewrite calc_eq by exact R. destruct (runState (prep N w now) now) as [t w1] eqn:E.
  destruct (runState_ran _ _ _ _ E) as [A B C D E1 F H I J].
  change (next_of (prep N w now) now) with (next_of w now) in B. change (w_state (prep N w now)) with (w_state w) in *. rewrite <- B.
  destruct t; cbn; rewrite ?A, ?D, ?E1, ?F, ?H, ?I, ?J; cbn; try congruence; auto 20.
Qed.

(** nobody outside asks for a reset *)
Lemma run_cons w o l : run w (o :: l) = run (step w o) l.
Proof using. reflexivity. Qed.
Lemma run_app w a b : run w (a ++ b) = run (run w a) b.
Proof using. apply fold_left_app. Qed.
Lemma step_reset w o : m_reset (w_mem w) = false -> m_reset (w_mem (step w o)) = false.
Proof using. intros H. destruct o; cbn; auto. apply calc_next, H. Qed.
Lemma run_reset l : forall w, m_reset (w_mem w) = false -> m_reset (w_mem (run w l)) = false.
Proof using. induction l as [|o l IH]; intros w H; [exact H|]. cbn. apply IH, step_reset, H. Qed.
Lemma step_state w o : is_get o = false -> w_state (step w o) = w_state w.
Proof using. destruct o; cbn; congruence. Qed.
Lemma step_ang w o : m_reset (w_mem w) = false -> o_ang (w_out (step w o)) = o_ang (w_out w).
Proof using. intros H. destruct o; cbn; auto. apply calc_next, H. Qed.
Lemma run_ang l : forall w, m_reset (w_mem w) = false -> o_ang (w_out (run w l)) = o_ang (w_out w).
Proof using. induction l as [|o l IH]; intros w H; [reflexivity|]. rewrite run_cons, IH by (apply step_reset, H). apply step_ang, H. Qed.

(* ------------------------------------------------------------------- a stay request *)
Lemma stay_step w o : i_stay (w_in w) = true -> always_stay [o] -> m_reset (w_mem w) = false -> i_stay (w_in (step w o)) = true.
Proof using.
  intros H A R. destruct o as [pos q goal vel stay air nav land to des| | | |]; cbn; auto.
  - apply (A pos q goal vel stay air nav land to des). left; reflexivity.
  - destruct (calc_next w now R) as (_ & _ & _ & _ & _ & _ & E & _). rewrite E. exact H.
Qed.
Lemma documented_stay s alt path : documented_next s true alt path = LOITER \/ s = DIRECT /\ documented_next s true alt path <> DIRECT.
Proof using. destruct s, alt, path; cbn; auto; right; split; auto; discriminate. Qed.
Fixpoint gets (l : list (wg_op N)) : nat := match l with [] => 0 | o :: r => (if is_get o then 1 else 0) + gets r end.
(** rank: number of control cycles until LOITER at most *)
Definition rank (s : pstate) : nat := match s with LOITER => 0 | DIRECT => 2 | _ => 1 end.
Lemma stay_run l : forall w, m_reset (w_mem w) = false -> i_stay (w_in w) = true -> always_stay l -> (rank (w_state w) <= gets l)%nat ->
  w_state (run w l) = LOITER.
Proof using.
  induction l as [|o l IH]; intros w R H A G0.
  - cbn in G0. cbn. destruct (w_state w); cbn in G0; try reflexivity; exfalso; clear -G0; inversion G0.
  - cbn. apply IH.
    + apply step_reset, R.
    + apply stay_step; [exact H| |exact R]. intros pos q goal vel stay air nav land to des [E|[]]. apply (A pos q goal vel stay air nav land to des). left; exact E.
    + intros pos q goal vel stay air nav land to des I. apply (A pos q goal vel stay air nav land to des). right; exact I.
    + cbn [gets] in G0. destruct (is_get o) eqn:Eo.
      * destruct o; try discriminate. cbn [step wg_step]. destruct (calc_next w now R) as (E & _). rewrite E. unfold next_of. rewrite H.
        destruct (w_state w), (alt_of N w), (path_usable N travel (c_info (w_cfg w)) now); cbn in *; clear -G0; lia.
      * rewrite (step_state w o Eo). exact G0.
Qed.

(* ------------------------------------------------------------------- loiter *)
Lemma loiter_calc w now : m_reset (w_mem w) = false -> w_state w = LOITER ->
  let hover := if m_changed (w_mem w) || hasNaN N (m_hover (w_mem w)) then i_pos (w_in w) else m_hover (w_mem w) in
  let w' := calc w now in
  m_hover (w_mem w') = hover /\ m_autoland (w_mem w') = m_autoland (w_mem w) /\ (w_state w' = LOITER -> m_changed (w_mem w') = false) /\
  o_goto (w_out w') = (if negb (m_autoland (w_mem w)) && ltb N (v3norm N (v3sub N (i_goal (w_in w)) (i_pos (w_in w)))) (ofZ N 1) then i_goal (w_in w) else hover) /\
  (m_autoland (w_mem w) = true -> o_pos (w_out w') = o_smoothed (w_out w) /\ o_smoothed (w_out w') = o_smoothed (w_out w)).
Proof using.
  intros R S hover w'. unfold w'. rewrite calc_eq by exact R. unfold WgProofs.runState. change (w_state (prep N w now)) with (w_state w). rewrite S.
  unfold runLoiter. cbn [m_changed m_hover w_mem prep w_in]. fold hover. set (w0 := with_goto N _ _).
  pose proof (getPathMsg_frame N G secs w0) as F. pose proof (getPathMsg_goto N G secs w0) as Go. pose proof (getPathMsg_auto_pos N G secs w0) as Au.
  set (w2 := getPathMsg w0) in *. clearbody w2.
  destruct (i_stay (w_in w)); cbn [finish w_mem m_hover m_autoland m_changed w_out o_goto o_pos o_smoothed w_state];
    (split; [exact (fr_hover F)|]; split; [exact (fr_auto F)|]; split; [rewrite ?(fr_state F); cbn; rewrite ?S; cbn; try discriminate; reflexivity|]; split; [exact Go|exact Au]).
Qed.
(** during a loiter episode *)
Definition hovering (p0 : vec3 N) (w : wg N) : Prop := m_reset (w_mem w) = false /\ m_changed (w_mem w) = false /\ m_hover (w_mem w) = p0.
Lemma hovering_step p0 w o : hasNaN N p0 = false -> w_state w = LOITER -> hovering p0 w -> w_state (step w o) = LOITER -> hovering p0 (step w o).
Proof using.
  intros Hn S (R & C & H) S'. destruct o; try (repeat split; assumption). destruct (loiter_calc w now R S) as (A & _ & B & _). cbn [wg_step]. cbv zeta in A.
  rewrite C, H, Hn in A. cbn in A. repeat split; [apply calc_next, R| |exact A]. apply B, S'.
Qed.
Lemma get_no_get l : no_get l -> forall w, w_state (run w l) = w_state w /\ m_changed (w_mem (run w l)) = m_changed (w_mem w) /\ m_hover (w_mem (run w l)) = m_hover (w_mem w).
Proof using.
  induction l as [|o l IH]; intros H w; [auto|]. rewrite run_cons. destruct (IH (fun x I => H x (or_intror I)) (step w o)) as (A & B & C). rewrite A, B, C.
  specialize (H o (or_introl eq_refl)). destruct o; try discriminate; auto.
Qed.
Lemma stays_in_tail w o l : stays_in G secs travel w LOITER (o :: l) -> l <> [] -> w_state (step w o) = LOITER.
Proof using. intros H L. exact (H [o] l eq_refl L). Qed.
(** w is about to run its first loiter cycle: it latches its position *)
Definition fresh (w : wg N) : Prop := m_reset (w_mem w) = false /\ m_changed (w_mem w) || hasNaN N (m_hover (w_mem w)) = true.
Lemma hover_run p0 : hasNaN N p0 = false -> forall l w, stays_in G secs travel w LOITER l ->
  (hovering p0 w \/ (fresh w /\ exists n l', l = OpGet n :: l' /\ i_pos (w_in w) = p0)) ->
  forall a n b, l = a ++ OpGet n :: b -> let w1 := run w a in let w2 := run w (a ++ [OpGet n]) in
    o_goto (w_out w2) = (if negb (m_autoland (w_mem w1)) && ltb N (v3norm N (v3sub N (i_goal (w_in w1)) (i_pos (w_in w1)))) (ofZ N 1) then i_goal (w_in w1) else p0).
Proof using.
  intros Hn. induction l as [|o l IH]; intros w S0 Hov a n b E; [destruct a; discriminate|]. cbv zeta.
  assert (SL : w_state w = LOITER) by (exact (S0 [] (o :: l) eq_refl ltac:(discriminate))).
  destruct a as [|o' a].
  - injection E as -> ->. cbn. destruct Hov as [(R & C & H)|((R & C) & n' & l' & [= <- <-] & P)].
    + destruct (loiter_calc w n R SL) as (_ & _ & _ & Go & _). rewrite C, H, Hn in Go. cbn in Go. exact Go.
    + destruct (loiter_calc w n R SL) as (_ & _ & _ & Go & _). rewrite C, P in Go. rewrite P. exact Go.
  - cbn in E. injection E as <- E. change ((o :: a) ++ [OpGet n]) with (o :: (a ++ [OpGet n])). rewrite !run_cons.
    assert (SL' : w_state (step w o) = LOITER) by (apply (stays_in_tail w o l S0); rewrite E; destruct a; discriminate).
    apply (IH (step w o)) with (b := b); [|left|exact E].
    + intros a' b' E' B'. specialize (S0 (o :: a') b'). apply S0; [cbn; rewrite <- E'; reflexivity|exact B'].
    + destruct Hov as [Hv|((R & C) & n' & l' & [= -> ->] & P)].
      * apply hovering_step; assumption.
      * destruct (loiter_calc w n' R SL) as (A & _ & B & _). rewrite C, P in A. repeat split; [apply calc_next, R|apply B; exact SL'|exact A].
Qed.
Lemma loiter_autoland w now : m_reset (w_mem w) = false -> w_state w = LOITER -> m_autoland (w_mem w) = true ->
  m_autoland (w_mem (calc w now)) = true /\ o_smoothed (w_out (calc w now)) = o_smoothed (w_out w) /\ o_pos (w_out (calc w now)) = o_smoothed (w_out w).
Proof using. intros R S A. destruct (loiter_calc w now R S) as (_ & B & _ & _ & C). rewrite B. destruct (C A) as [C1 C2]. auto. Qed.
Lemma loiter_autoland_run : forall l w, m_reset (w_mem w) = false -> m_autoland (w_mem w) = true -> o_pos (w_out w) = o_smoothed (w_out w) ->
  stays_in G secs travel w LOITER l -> o_pos (w_out (run w l)) = o_pos (w_out w).
Proof using.
  induction l as [|o l IH]; intros w R A P S0; [reflexivity|].
  assert (SL : w_state w = LOITER) by (exact (S0 [] (o :: l) eq_refl ltac:(discriminate))).
  assert (St : m_autoland (w_mem (step w o)) = true /\ o_smoothed (w_out (step w o)) = o_smoothed (w_out w) /\ o_pos (w_out (step w o)) = o_smoothed (w_out w)).
  { destruct o; try (cbn; auto). apply loiter_autoland; assumption. }
  destruct St as (A' & B' & C'). rewrite run_cons, IH; [rewrite P; exact C'|apply step_reset, R|exact A'|congruence|].
  intros a b E B. apply (S0 (o :: a) b); [cbn; rewrite <- E; reflexivity|exact B].
Qed.
End Any.
