(** Frame facts and the state machine of the waypoint generator. *)
From Coq Require Import ZArith Reals List Bool Lia Lra.
From Flocq Require Import Core BinarySingleNaN.
From Verif Require Import Num Mat CommonModel CommonSpec CommonProofs HistModel PfModel PfProofs3 StarModel LpModel UsmModel WgModel WgSpec.
Import ListNotations.

Section Any.
Context (N : num) (G : trig N) (secs : Z -> N) (travel : Z -> N -> N).
Local Notation getPathMsg := (getPathMsg N G secs).
Local Notation calc := (calculateWaypoint N G secs travel).
Local Notation step := (wg_step N G secs travel).
Local Notation run := (wg_run N G secs travel).

Lemma scaleToFOV_total fs p : exists s, scaleToFOV N fs p = Some s.
Proof.
  unfold scaleToFOV. destruct (isOnEdgeOfFOV_spec N fs p) as (r & j & E & Et & Ef). rewrite E. destruct r.
  - specialize (Et eq_refl). destruct (isInWhichFOV_spec N fs p true j Et) as (H1 & H2 & _).
    destruct (H2 eq_refl) as (Hj & f & Hf & Hs). destruct (Z.ltb_spec j 0); [lia|]. rewrite Hf. eexists; reflexivity.
  - eexists; reflexivity.
Qed.

(** what getPathMsg leaves alone *)
Record frame (w w' : wg N) : Prop := {
  fr_state : w_state w' = w_state w; fr_in : w_in w' = w_in w; fr_cfg : w_cfg w' = w_cfg w;
  fr_calt : m_calt (w_mem w') = m_calt (w_mem w); fr_hover : m_hover (w_mem w') = m_hover (w_mem w);
  fr_last : m_last (w_mem w') = m_last (w_mem w); fr_cur : m_cur (w_mem w') = m_cur (w_mem w);
  fr_reach : m_reach (w_mem w') = m_reach (w_mem w); fr_auto : m_autoland (w_mem w') = m_autoland (w_mem w);
  fr_yawreach : m_yawreach (w_mem w') = m_yawreach (w_mem w); fr_reset : m_reset (w_mem w') = m_reset (w_mem w);
  fr_changed : m_changed (w_mem w') = m_changed (w_mem w); fr_lin : o_lin (w_out w') = o_lin (w_out w);
  fr_ang : o_ang (w_out w') = o_ang (w_out w); fr_pos : o_pos (w_out w') = o_smoothed (w_out w') }.
Lemma getPathMsg_frame w : frame w (getPathMsg w).
Proof.
  unfold WgModel.getPathMsg. destruct (nextSmoothYaw _ _ _ _ _ _ _ _) as [yaw yv]. destruct (m_autoland (w_mem w)) eqn:A.
  - constructor; cbn; auto.
  - destruct (adaptSpeed _ _ _ _ _ _ _ _ _) as [[[[g sp] h] y'] ad]. destruct (smoothWaypoint _ _ _ _ _ _) as [[sl sv] sm]. constructor; cbn; auto.
Qed.
(** goto_position after getPathMsg: the goal when it is closer than 1 m (and no landing is under way), else unchanged *)
Lemma getPathMsg_goto w : o_goto (w_out (getPathMsg w)) =
  if negb (m_autoland (w_mem w)) && ltb N (v3norm N (v3sub N (i_goal (w_in w)) (i_pos (w_in w)))) (ofZ N 1) then i_goal (w_in w) else o_goto (w_out w).
Proof.
  unfold WgModel.getPathMsg. destruct (nextSmoothYaw _ _ _ _ _ _ _ _) as [yaw yv]. destruct (m_autoland (w_mem w)) eqn:A; [reflexivity|].
  unfold adaptSpeed. destruct (ltb N (v3norm N (v3sub N (i_goal (w_in w)) (i_pos (w_in w)))) (ofZ N 1)); destruct (smoothWaypoint _ _ _ _ _ _) as [[sl sv] sm]; reflexivity.
Qed.
Lemma getPathMsg_auto_pos w : m_autoland (w_mem w) = true ->
  o_pos (w_out (getPathMsg w)) = o_smoothed (w_out w) /\ o_smoothed (w_out (getPathMsg w)) = o_smoothed (w_out w).
Proof. intros A. unfold WgModel.getPathMsg. destruct (nextSmoothYaw _ _ _ _ _ _ _ _) as [yaw yv]. rewrite A. split; reflexivity. Qed.

Lemma isAltitudeChange_spec (i : wg_in N) reach :
  fst (fst (isAltitudeChange N i reach)) =
    altitude_wanted N (i_nav i) (vz (i_pos i)) (vz (i_goal i)) (i_land i) (i_takeoff i) reach.
Proof.
  unfold isAltitudeChange, altitude_wanted.
  destruct (ltb N (sub N (vz (i_goal i)) (cst N 4 5)) (vz (i_pos i))), (ltb N (vz (i_pos i)) (vz (i_goal i))), (i_nav i), reach, (i_land i), (i_takeoff i), (leb N (vz (i_goal i)) (vz (i_pos i)));
  reflexivity.
Qed.

Definition alt_of (w : wg N) : bool :=
  altitude_wanted N (i_nav (w_in w)) (vz (i_pos (w_in w))) (vz (i_goal (w_in w))) (i_land (w_in w)) (i_takeoff (w_in w)) (m_reach (w_mem w)).

Lemma altitudeChange_frame w b w' : altitudeChange N w = (b, w') ->
  b = alt_of w /\ w_state w' = w_state w /\ w_in w' = w_in w /\ w_cfg w' = w_cfg w /\ w_out w' = w_out w /\
  m_reset (w_mem w') = m_reset (w_mem w) /\ m_hover (w_mem w') = m_hover (w_mem w) /\ m_speed (w_mem w') = m_speed (w_mem w) /\
  m_yaw (w_mem w') = m_yaw (w_mem w) /\ m_heading (w_mem w') = m_heading (w_mem w) /\ m_yawreach (w_mem w') = m_yawreach (w_mem w) /\
  m_calt (w_mem w') = m_calt (w_mem w) /\ m_cur (w_mem w') = m_cur (w_mem w) /\ m_last (w_mem w') = m_last (w_mem w).
Proof.
  unfold altitudeChange, alt_of. rewrite <- isAltitudeChange_spec. destruct (isAltitudeChange N (w_in w) (m_reach (w_mem w))) as [[b0 al] re].
  intros [= <- <-]. cbn. auto 20.
Qed.

(** the iteration, per state *)
Definition prep (w : wg N) (now : Z) : wg N :=
  let m := w_mem w in let o := w_out w in
  WG (w_state w) (w_in w)
     (WMem (m_sloc m) (m_svel m) (m_calt m) (m_hover m) (m_cur m) now (m_reach m) (m_autoland m) (m_yaw m) (m_yawvel m) (m_heading m) (m_yawreach m)
           (m_speed m) (m_reset m) (m_changed m))
     (WOut (o_type o) (o_pos o) (o_quat o) (nan3 N) (o_ang o) (o_goto o) (o_adapted o) (o_smoothed o)) (w_cfg w).
Definition finish (s : pstate) (changed : bool) (w : wg N) : wg N :=
  let o := w_out w in let m := w_mem w in
  WG s (w_in w)
     (WMem (m_sloc m) (m_svel m) (m_calt m) (m_hover m) (m_last m) (m_cur m) (m_reach m) (m_autoland m) (m_yaw m) (m_yawvel m) (m_heading m) (m_yawreach m)
           (m_speed m) (m_reset m) changed)
     (WOut s (o_pos o) (o_quat o) (o_lin o) (o_ang o) (o_goto o) (o_adapted o) (o_smoothed o)) (w_cfg w).

Definition runState (w : wg N) (now : Z) : transition * wg N :=
  match w_state w with
  | TRY_PATH => runTryPath N G secs travel w now | ALTITUDE_CHANGE => runAltitudeChange N G secs w
  | LOITER => runLoiter N G secs w | DIRECT => runDirect N G secs travel w now end.
Lemma calc_eq w now : m_reset (w_mem w) = false ->
  calc w now = let (t, w1) := runState (prep w now) now in
    match t with REPEAT => finish (w_state w1) false w1 | _ => finish (wg_choose (w_state w1) t) true w1 end.
Proof.
  intros R. unfold calculateWaypoint, runCurrentState. fold (prep w now). cbn [m_reset w_mem prep]. rewrite R. change (w_state (prep w now)) with (w_state w).
  unfold runState. change (w_state (prep w now)) with (w_state w).
  destruct (match w_state w with TRY_PATH => _ | ALTITUDE_CHANGE => _ | LOITER => _ | DIRECT => _ end) as [t w1]. destruct t; reflexivity.
Qed.
Lemma calc_reset w now : m_reset (w_mem w) = true -> w_state (calc w now) = LOITER /\ o_type (w_out (calc w now)) = LOITER /\ m_reset (w_mem (calc w now)) = false.
Proof.
  intros R. unfold calculateWaypoint, runCurrentState. fold (prep w now). cbn [m_reset w_mem prep]. rewrite R.
  unfold wg_choose. cbn. destruct (w_state w); auto.
Qed.
End Any.
Arguments fr_state {N w w'} _.
Arguments fr_in {N w w'} _.
Arguments fr_cfg {N w w'} _.
Arguments fr_calt {N w w'} _.
Arguments fr_hover {N w w'} _.
Arguments fr_reach {N w w'} _.
Arguments fr_auto {N w w'} _.
Arguments fr_yawreach {N w w'} _.
Arguments fr_reset {N w w'} _.
Arguments fr_changed {N w w'} _.
Arguments fr_lin {N w w'} _.
Arguments fr_ang {N w w'} _.
Arguments fr_pos {N w w'} _.
