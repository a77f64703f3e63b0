(** Property theorem C125: take-off, landing and the restart of the setpoint filter (local planner's waypoint generator). *)
From Coq Require Import ZArith Reals List Bool Lia Lra.
From Flocq Require Import Core BinarySingleNaN.
From Verif Require Import Num Mat CommonModel CommonSpec CommonProofs CommonProofs2 HistModel PfModel PfProps StarModel LpModel LpProofs2 UsmModel
  WgModel WgSpec WgProofs WgProofs2 WgProofs3 WgProps WgLookSpec WgLookProofs PfProofs3.
Import ListNotations.

Section Any.
Context (N : num) (G : trig N) (secs : Z -> N) (travel : Z -> N -> N).
Local Notation calc := (calculateWaypoint N G secs travel).
(** a cycle that asks whether the altitude has to be changed *)
Definition asks (w : wg N) (now : Z) : bool :=
  match w_state w with
  | TRY_PATH | ALTITUDE_CHANGE => negb (i_stay (w_in w))
  | LOITER => false
  | DIRECT => negb (path_usable N travel (c_info (w_cfg w)) now)
  end.
Definition flags_of (w : wg N) : bool * bool := (m_autoland (w_mem w), m_reach (w_mem w)).
Definition answer (w : wg N) : bool * bool :=
  let '(_, al, re) := isAltitudeChange N (w_in w) (m_reach (w_mem w)) in (al, re).
Lemma flags_alt w b w' : altitudeChange N w = (b, w') -> flags_of w' = answer w /\ w_in w' = w_in w.
Proof. unfold altitudeChange, answer. destruct (isAltitudeChange N _ _) as [[x y] z]. intros [= _ <-]. split; reflexivity. Qed.
Definition alt_in (i : wg_in N) := (vz (i_pos i), vz (i_goal i), i_nav i, i_land i, i_takeoff i).
Lemma answer_ext w w' : alt_in (w_in w') = alt_in (w_in w) -> m_reach (w_mem w') = m_reach (w_mem w) -> answer w' = answer w.
Proof. unfold alt_in, answer, isAltitudeChange. intros [= -> -> -> -> ->] ->. reflexivity. Qed.
Lemma run_flags w now t w1 : runState N G secs travel w now = (t, w1) ->
  flags_of w1 = (if asks w now then answer w else flags_of w) /\ alt_in (w_in w1) = alt_in (w_in w).
Proof.
  unfold runState, asks. destruct (w_state w) eqn:S.
  - unfold runTryPath. destruct (pathSetpoint N travel w now) as [av sp]. set (w0 := with_goto N w _).
    pose proof (getPathMsg_frame N G secs w0) as F. set (w2 := getPathMsg N G secs w0) in *. clearbody w2.
    assert (I : w_in w2 = w_in w) by exact (fr_in F).
    assert (Fl : flags_of w2 = flags_of w) by (unfold flags_of; rewrite (fr_auto F), (fr_reach F); reflexivity).
    destruct (i_stay (w_in w)); cbn [negb]; [intros [= _ <-]; rewrite I; auto|]. destruct (altitudeChange N w2) as [alt w3] eqn:Al.
    destruct (flags_alt _ _ _ Al) as [A1 A2]. intros E. assert (w1 = w3) as -> by (destruct alt; [|destruct av]; congruence).
    rewrite A1, A2, I. split; [|reflexivity]. apply answer_ext; [rewrite I; reflexivity|exact (fr_reach F)].
  - unfold runAltitudeChange. set (w0 := if nav_eqb _ _ then _ else _).
    assert (F0 : alt_in (w_in w0) = alt_in (w_in w) /\ flags_of w0 = flags_of w /\ i_stay (w_in w0) = i_stay (w_in w)).
    { unfold w0. destruct (nav_eqb (i_nav (w_in w)) N_offboard); [|destruct (ltb N (cst N 1 2) _)]; cbn; auto. }
    clearbody w0. destruct F0 as (B1 & B2 & B3).
    pose proof (getPathMsg_frame N G secs w0) as F. set (w2 := getPathMsg N G secs w0) in *. clearbody w2.
    assert (Fl : flags_of w2 = flags_of w) by (unfold flags_of in *; rewrite (fr_auto F), (fr_reach F); exact B2).
    assert (I : alt_in (w_in w2) = alt_in (w_in w)) by (rewrite (fr_in F); exact B1).
    destruct (i_stay (w_in w)); cbn [negb]; [intros [= _ <-]; auto|]. destruct (altitudeChange N w2) as [alt w3] eqn:Al.
    destruct (flags_alt _ _ _ Al) as [A1 A2]. intros E. assert (w1 = w3) as -> by congruence.
    rewrite A1, A2. split; [|exact I]. apply answer_ext; [exact I|]. unfold flags_of in Fl. congruence.
  - unfold runLoiter. set (w0 := with_goto N _ _). pose proof (getPathMsg_frame N G secs w0) as F. set (w2 := getPathMsg N G secs w0) in *. clearbody w2.
    intros [= _ <-]. unfold flags_of. rewrite (fr_auto F), (fr_reach F), (fr_in F). auto.
  - unfold runDirect. set (w0 := with_goto N _ _). pose proof (getPathMsg_frame N G secs w0) as F. set (w2 := getPathMsg N G secs w0) in *.
    assert (I : w_in w2 = w_in w) by exact (fr_in F). clearbody w2.
    assert (Fl : flags_of w2 = flags_of w) by (unfold flags_of; rewrite (fr_auto F), (fr_reach F); reflexivity).
    rewrite (pathSetpoint_cfg N travel w w2 now) by apply F.
    destruct (path_usable N travel (c_info (w_cfg w)) now); cbn [negb]; [intros [= _ <-]; rewrite I; auto|]. destruct (altitudeChange N w2) as [alt w3] eqn:Al.
    destruct (flags_alt _ _ _ Al) as [A1 A2]. intros E. assert (w1 = w3) as -> by (destruct alt; [|destruct (i_stay (w_in w))]; congruence).
    rewrite A1, A2, I. split; [|reflexivity]. apply answer_ext; [rewrite I; reflexivity|exact (fr_reach F)].
Qed.
Lemma calc_flags w now : m_reset (w_mem w) = false ->
  flags_of (calc w now) = (if asks w now then answer w else flags_of w) /\ alt_in (w_in (calc w now)) = alt_in (w_in w).
Proof.
  intros R. rewrite calc_eq by exact R. destruct (runState N G secs travel (prep N w now) now) as [t w1] eqn:E. destruct (run_flags _ _ _ _ E) as [A B].
  change (asks (prep N w now) now) with (asks w now) in A. change (answer (prep N w now)) with (answer w) in A. change (flags_of (prep N w now)) with (flags_of w) in A.
  change (w_in (prep N w now)) with (w_in w) in B. destruct t; split; (exact A || exact B).
Qed.

(** the vehicle is below the goal altitude in every vehicle state of the flight in offboard mode *)
Definition below (op : wg_op N) : Prop :=
  match op with OpUpdate pos _ goal _ _ _ nav _ _ _ => nav = N_offboard -> leb N (vz goal) (vz pos) = false | _ => True end.
Definition not_reached (w : wg N) : Prop :=
  m_reset (w_mem w) = false /\ m_reach (w_mem w) = false /\ (i_nav (w_in w) = N_offboard -> leb N (vz (i_goal (w_in w))) (vz (i_pos (w_in w))) = false).
Lemma not_reached_step w op : not_reached w -> below op -> not_reached (wg_step N G secs travel w op).
Proof.
  intros (R & M & L) B. destruct op as [pos q goal vel stay air nav land to des|i f|f|a b|now]; cbn [wg_step].
  - split; [exact R|]. split; [|exact B]. unfold updateState. cbn [w_mem m_reach]. rewrite M. destruct (_ || _); reflexivity.
  - split; [exact R|]. split; [exact M|exact L].
  - split; [exact R|]. split; [exact M|exact L].
  - split; [exact R|]. split; [exact M|exact L].
  - split; [apply calc_next; exact R|]. destruct (calc_flags w now R) as [F I]. unfold flags_of in F. split.
    + destruct (asks w now); [|congruence]. unfold answer, isAltitudeChange in F. rewrite M in F.
      destruct (i_nav (w_in w)) eqn:Nv; cbn [nav_eqb andb] in F.
      all: try (rewrite (L eq_refl) in F).
      all: repeat match type of F with context [if ?c then _ else _] => destruct c end; cbn in F; congruence.
    + unfold alt_in in I. injection I as I1 I2 I3 _ _. rewrite I1, I2, I3. exact L.
Qed.
End Any.

(** C125, take-off in offboard mode: after a vehicle state on the ground, with the goal above the vehicle from then on while the mode is offboard, a control
    cycle in offboard mode leads to the altitude change, however long ago the landing was, whatever happened before it, unless loiter is requested or left. *)
Theorem C125_offboard_takeoff_climbs :
  forall (N : num) G secs travel (o : wg_out N) (cruise : N) (before after : list (wg_op N)) pos q goal vel stay nav land to des (now : Z),
  let landed := OpUpdate pos q goal vel stay false nav land to des in
  let w := history N G secs travel o cruise (before ++ landed :: after) in
  (forall op, In op (landed :: after) -> below N op) ->
  i_nav (w_in w) = N_offboard -> i_stay (w_in w) = false -> w_state w <> LOITER ->
  (w_state w = DIRECT -> path_usable N travel (c_info (w_cfg w)) now = false) ->
  w_state (history N G secs travel o cruise ((before ++ landed :: after) ++ [OpGet now])) = ALTITUDE_CHANGE.
Proof.
  intros N G secs travel o cruise before after pos q goal vel stay nav land to des now landed w B Nv St Sl Sd.
  assert (I : not_reached N w).
  { unfold w, history. rewrite run_app, run_cons.
    assert (I0 : not_reached N (wg_step N G secs travel (wg_run N G secs travel (wg_init N o cruise) before) landed)).
    { split; [apply step_reset; apply (history_reset N G secs travel o cruise before)|]. split; [reflexivity|]. exact (B landed (or_introl eq_refl)). }
    assert (Ba : forall op, In op after -> below N op) by (intros op H; apply B; right; exact H).
    revert I0 Ba. generalize (wg_step N G secs travel (wg_run N G secs travel (wg_init N o cruise) before) landed). clear.
    induction after as [|op l IH]; intros w I0 Ba; [exact I0|]. rewrite run_cons. apply IH; [|intros op' H; apply Ba; right; exact H].
    apply not_reached_step; [exact I0|]. apply Ba. left. reflexivity. }
  destruct I as (R & M & L).
  assert (E : history N G secs travel o cruise ((before ++ landed :: after) ++ [OpGet now]) = calculateWaypoint N G secs travel w now)
    by (unfold w, history; rewrite run_app; reflexivity).
  rewrite E. destruct (calc_next N G secs travel w now R) as (A & _). rewrite A. unfold next_of, alt_of, altitude_wanted. rewrite Nv, M, (L Nv), St. cbn [negb andb].
  destruct (w_state w); cbn [documented_next]; try reflexivity; [congruence|]. rewrite (Sd eq_refl). reflexivity.
Qed.
Print Assumptions C125_offboard_takeoff_climbs.

(** C125, landing mode (in which the target is commanded unsmoothed, and the smoothing restarts from the vehicle with every vehicle state): a control cycle
    that evaluates the autopilot's mode is followed by landing mode if and only if the autopilot lands, by its mode or by an item of its mission.
    Every other cycle and every other operation keeps the mode as it is. *)
Theorem C125_lands_when_asked :
  forall secs travel (o : wg_out Rn) (cruise : R) (l : list (wg_op Rn)) (op : wg_op Rn),
  let w := history Rn Rtrig secs travel o cruise l in
  let w' := history Rn Rtrig secs travel o cruise (l ++ [op]) in
  let i := w_in w in
  match op with
  | OpGet now =>
      ((w_state w = TRY_PATH \/ w_state w = ALTITUDE_CHANGE) /\ i_stay i = false \/ w_state w = DIRECT /\ path_usable Rn travel (c_info (w_cfg w)) now = false ->
       (m_autoland (w_mem w') = true <-> i_nav i = N_land \/ i_nav i = N_mission /\ i_land i = true)) /\
      (w_state w = LOITER \/ (w_state w = TRY_PATH \/ w_state w = ALTITUDE_CHANGE) /\ i_stay i = true \/ w_state w = DIRECT /\ path_usable Rn travel (c_info (w_cfg w)) now = true ->
       m_autoland (w_mem w') = m_autoland (w_mem w))
  | _ => m_autoland (w_mem w') = m_autoland (w_mem w)
  end.
Proof.
  intros secs travel o cruise l op w w' i.
  assert (E : w' = wg_step Rn Rtrig secs travel w op) by (unfold w', w, history; rewrite run_app; reflexivity). clearbody w'.
  assert (R : m_reset (w_mem w) = false) by apply history_reset. clearbody w. subst w' i.
  destruct op as [pos q goal vel stay air nav land to des|j f|f|a b|now]; cbn [wg_step]; try reflexivity.
  destruct (calc_flags Rn Rtrig secs travel w now R) as [F _]. unfold flags_of in F. split.
  - intros A. assert (As : asks Rn travel w now = true) by (unfold asks; destruct A as [[[S|S] St]|[S P]]; rewrite S, ?St, ?P; reflexivity).
    rewrite As in F. unfold answer in F. destruct (isAltitudeChange Rn (w_in w) (m_reach (w_mem w))) as [[b al] re] eqn:I. injection F as -> _.
    unfold isAltitudeChange in I. rewrite cst_Rn in I. cbn [ltb leb sub Rn] in I.
    destruct (R_ltb_spec (vz (i_goal (w_in w)) - IZR 4 / IZR 5) (vz (i_pos (w_in w)))) as [H1|H1];
      [|destruct (R_ltb_spec (vz (i_pos (w_in w))) (vz (i_goal (w_in w)))) as [H2|H2]; [|exfalso; lra]];
      destruct (i_nav (w_in w)); cbn [nav_eqb andb orb negb] in I; destruct (i_land (w_in w)), (i_takeoff (w_in w)), (m_reach (w_mem w)); cbn [andb orb negb] in I;
      repeat match type of I with context [if ?c then _ else _] => destruct c end; injection I as <- <- <-;
      (split; [intros X|intros [X|[X Y]]]; try discriminate; auto).
  - intros A. assert (As : asks Rn travel w now = false) by (unfold asks; destruct A as [S|[[[S|S] St]|[S P]]]; rewrite S, ?St, ?P; reflexivity).
    rewrite As in F. congruence.
Qed.
Print Assumptions C125_lands_when_asked.
(** in binary32, a return to a home of unknown altitude is flown as a landing *)
Theorem C125_unknown_altitude_lands_refuted :
  let run z := frun [upd (fpt 0 0 10) (V3 (ofZ F32 50) (ofZ F32 0) z) false N_rtl; secs0 0; secs0 1] in
  m_autoland (w_mem (run (nanv F32))) = true /\ w_state (run (nanv F32)) = ALTITUDE_CHANGE /\
  map (fun z => m_autoland (w_mem (run (ofZ F32 z)))) [0; 5; 9; 10; 11; 50]%Z = [false; false; false; false; false; false].
Proof. vmall. Qed.
Print Assumptions C125_unknown_altitude_lands_refuted.

Local Open Scope R_scope.
(** C125, the smoothing starts at the vehicle: the setpoint of the first smoothed cycle after a vehicle state on the ground is a step of the filter, at rest, from
    the vehicle's position. *)
Theorem C125_starts_at_the_vehicle :
  forall secs travel axis gain (w : wg Rn) pos q goal vel stay air nav land to des (now : Z),
  In (axis, gain) [(vx, c_sxy); (vy, c_sxy); (vz, c_sz)] ->
  let u := updateState Rn Rtrig w pos q goal vel stay air nav land to des in
  m_reset (w_mem w) = false -> m_autoland (w_mem w) = false -> w_state w <> ALTITUDE_CHANGE -> smoothing_on w -> air = false ->
  let w' := calculateWaypoint Rn Rtrig secs travel u now in let k := gain (w_cfg w) in let dt := cycle_time secs u now in
  axis (o_pos (w_out w')) = axis pos + ((axis (o_adapted (w_out w')) - axis pos) * k + axis (target_velocity u w') * (2 * sqrt k)) * dt * dt.
Proof.
  intros secs travel axis gain w pos q goal vel stay air nav land to des now Hin u R Al S So -> w' k dt.
  destruct (cycle_pos secs travel axis gain u now Hin R Al S So) as (E1 & E2 & E3). fold w' in E1, E2, E3. fold dt in E1, E2.
  rewrite E3, E2, E1. change (gain (w_cfg u)) with k.
  change (m_sloc (w_mem u)) with pos. change (m_svel (w_mem u)) with (zero3 Rn).
  assert (Z0 : axis (zero3 Rn) = 0) by (cbn [In] in Hin; destruct Hin as [E|[E|[E|[]]]]; injection E as <- <-; reflexivity). rewrite Z0. tR. ring.
Qed.
Print Assumptions C125_starts_at_the_vehicle.
(** ... and after a landing has been given up: [now1] is the last cycle in landing mode, [now2] the next one. *)
Theorem C125_starts_at_the_vehicle_after_landing :
  forall secs travel axis gain (w : wg Rn) pos q goal vel stay air nav land to des (now1 now2 : Z),
  In (axis, gain) [(vx, c_sxy); (vy, c_sxy); (vz, c_sz)] ->
  let u := updateState Rn Rtrig w pos q goal vel stay air nav land to des in
  let w1 := calculateWaypoint Rn Rtrig secs travel u now1 in
  m_reset (w_mem w) = false -> m_autoland (w_mem w) = true -> m_autoland (w_mem w1) = false -> w_state w1 <> ALTITUDE_CHANGE -> smoothing_on w ->
  let w' := calculateWaypoint Rn Rtrig secs travel w1 now2 in let k := gain (w_cfg w) in let dt := cycle_time secs w1 now2 in
  axis (o_pos (w_out w')) = axis pos + ((axis (o_adapted (w_out w')) - axis pos) * k + axis (target_velocity w1 w') * (2 * sqrt k)) * dt * dt.
Proof.
  intros secs travel axis gain w pos q goal vel stay air nav land to des now1 now2 Hin u w1 R Al Al1 S So w' k dt.
  destruct (calc_decomp2 Rn Rtrig secs travel u now1 R) as (w0 & T & _ & _ & _ & _ & _ & _ & _ & Sl & Sv). fold w1 in Sl, Sv.
  assert (Cf : w_cfg w1 = w_cfg w) by (unfold w1; rewrite (cycle_cfg secs travel u now1 R); reflexivity).
  assert (P0 : m_sloc (w_mem w1) = pos /\ m_svel (w_mem w1) = zero3 Rn).
  { rewrite Sl, Sv. unfold WgModel.getPathMsg. destruct (nextSmoothYaw Rn Rtrig _ _ _ _ _ _) as [yaw yv]. rewrite (tg_auto Rn _ _ T). cbn [prep w_mem m_autoland].
    change (m_autoland (w_mem u)) with (m_autoland (w_mem w)). rewrite Al. cbn [w_mem m_sloc m_svel]. rewrite (tg_sloc Rn _ _ T), (tg_svel Rn _ _ T).
    cbn [prep w_mem m_sloc m_svel]. unfold u, updateState. cbn [w_mem m_sloc m_svel]. rewrite Al, orb_true_r. split; reflexivity. }
  destruct P0 as [P0 V0].
  assert (So1 : smoothing_on w1) by (unfold smoothing_on; rewrite Cf; exact So).
  assert (R1 : m_reset (w_mem w1) = false) by (apply calc_next; exact R).
  destruct (cycle_pos secs travel axis gain w1 now2 Hin R1 Al1 S So1) as (E1 & E2 & E3). fold w' in E1, E2, E3. fold dt in E1, E2.
  rewrite E3, E2, E1, P0, V0, Cf. fold k.
  assert (Z0 : axis (zero3 Rn) = 0) by (cbn [In] in Hin; destruct Hin as [E|[E|[E|[]]]]; injection E as <- <-; reflexivity). rewrite Z0. tR. ring.
Qed.
Print Assumptions C125_starts_at_the_vehicle_after_landing.

(** C125, a filter that has left the numbers is forgotten with the next vehicle state: two generators that differ in the memory of their filters only, both
    not finite, are the same from the next vehicle state on, in every number system. *)
Definition with_filter (N : num) (w : wg N) (loc vel : vec3 N) (yaw yawvel : N) (reached : bool) : wg N :=
  let m := w_mem w in
  WG (w_state w) (w_in w) (WMem loc vel (m_calt m) (m_hover m) (m_last m) (m_cur m) reached (m_autoland m) yaw yawvel (m_heading m) (m_yawreach m)
                             (m_speed m) (m_reset m) (m_changed m)) (w_out w) (w_cfg w).
Theorem C125_invalid_filter_forgotten :
  forall (N : num) G secs travel (w : wg N) loc1 vel1 yaw1 yv1 re1 loc2 vel2 yaw2 yv2 re2 pos q goal vel stay air nav land to des (l : list (wg_op N)),
  (finite3 N loc1 = false \/ finite3 N vel1 = false) -> (finite3 N loc2 = false \/ finite3 N vel2 = false) ->
  let update := OpUpdate pos q goal vel stay air nav land to des in
  wg_run N G secs travel (with_filter N w loc1 vel1 yaw1 yv1 re1) (update :: l) = wg_run N G secs travel (with_filter N w loc2 vel2 yaw2 yv2 re2) (update :: l).
Proof.
  intros N G secs travel w loc1 vel1 yaw1 yv1 re1 loc2 vel2 yaw2 yv2 re2 pos q goal vel stay air nav land to des l H1 H2 update.
  rewrite !run_cons. f_equal. unfold update. cbn [wg_step]. unfold updateState, with_filter. cbn [w_mem m_sloc m_svel m_autoland m_calt m_hover m_last m_cur m_reach m_yaw m_yawvel m_heading m_yawreach m_speed m_reset m_changed w_state w_out w_cfg].
  assert (X1 : negb air || negb (allFinite N loc1) || negb (allFinite N vel1) = true) by (unfold allFinite; destruct H1 as [-> | ->]; cbn; rewrite ?orb_true_r; reflexivity).
  assert (X2 : negb air || negb (allFinite N loc2) || negb (allFinite N vel2) = true) by (unfold allFinite; destruct H2 as [-> | ->]; cbn; rewrite ?orb_true_r; reflexivity).
  rewrite X1, X2. reflexivity.
Qed.
Print Assumptions C125_invalid_filter_forgotten.

(** C125, a target that is not a number is ignored: in a smoothed cycle whose speed-adapted target contains NaN the commanded position contains none, as long as
    the filter's memory is finite (as it is after every vehicle state with a finite position), and so are the gains and the length of the cycle. *)
Lemma nn_mult (x y : f32) : is_finite x = true -> is_finite y = true -> is_nan (@Bmult 24 128 _ _ mode_NE x y : f32) = false.
Proof.
  intros Fx Fy. destruct x as [sx|sx| |sx mx ex Hx]; try discriminate; destruct y as [sy|sy| |sy my ey Hy]; try discriminate; try reflexivity.
  pose proof (Bmult_correct 24 128 _ _ mode_NE (B754_finite sx mx ex Hx) (B754_finite sy my ey Hy)) as C. destruct (Rlt_bool _ _).
  - destruct C as (_ & C & _). destruct (Bmult mode_NE _ _); try discriminate C; reflexivity.
  - destruct (Bmult mode_NE _ _); try reflexivity. cbn in C. discriminate C.
Qed.
Lemma nn_plus (x y : f32) : is_finite x = true -> is_nan y = false -> is_nan (@Bplus 24 128 _ _ mode_NE x y : f32) = false.
Proof.
  intros Fx Ny. destruct (is_finite y) eqn:Fy.
  - pose proof (Bplus_correct 24 128 _ _ mode_NE x y Fx Fy) as C. destruct (Rlt_bool _ _).
    + destruct C as (_ & C & _). destruct (Bplus mode_NE x y); try discriminate C; reflexivity.
    + destruct C as (C & _). destruct (Bplus mode_NE x y); try reflexivity. cbn in C. discriminate C.
  - destruct y as [sy|sy| |sy my ey Hy]; try discriminate. destruct x as [sx|sx| |sx mx ex Hx]; try discriminate; reflexivity.
Qed.
Lemma nn_mult_pos (x y : f32) : is_nan x = false -> is_finite y = true -> f32_ltb (f32_ofZ 0) y = true -> is_nan (@Bmult 24 128 _ _ mode_NE x y : f32) = false.
Proof.
  intros Nx Fy P. destruct (is_finite x) eqn:Fx; [apply nn_mult; assumption|]. destruct x as [sx|sx| |sx mx ex Hx]; try discriminate.
  destruct y as [sy|sy| |sy my ey Hy]; try discriminate; try (destruct sy; discriminate P); reflexivity.
Qed.
(** one coordinate of the filter *)
Lemma nn_filter (s l k v dk dt loc : f32) :
  is_finite s = true -> is_finite loc = true -> l = f32_ofZ 0 -> is_finite k = true -> is_finite v = true -> is_finite dk = true -> is_finite dt = true ->
  f32_ltb (f32_ofZ 0) dt = true ->
  is_nan (add F32 loc (mul F32 (add F32 s (mul F32 (add F32 (mul F32 l k) (mul F32 v dk)) dt)) dt) : f32) = false.
Proof.
  intros Fs Fl -> Fk Fv Fdk Fdt P. cbn [add mul F32].
  apply nn_plus; [exact Fl|]. apply nn_mult_pos; [|exact Fdt|exact P]. apply nn_plus; [exact Fs|]. apply nn_mult_pos; [|exact Fdt|exact P].
  apply nn_plus; [|apply nn_mult; assumption]. destruct k as [sk|sk| |sk mk ek Hk]; try discriminate; reflexivity.
Qed.
Lemma finite3_inv (v : vec3 F32) : finite3 F32 v = true -> is_finite (vx v : f32) = true /\ is_finite (vy v : f32) = true /\ is_finite (vz v : f32) = true.
Proof. unfold finite3. cbn [finiteb F32]. intros H. apply andb_prop in H. destruct H as [H1 H3]. apply andb_prop in H1. destruct H1 as [H1 H2]. auto. Qed.
Lemma isnanb_f32 (x : f32) : isnanb F32 x = is_nan x.
Proof. apply PfProofs3.isnan_F32. Qed.
Theorem C125_nan_target_ignored :
  forall G (secs : Z -> F32) travel (w : wg F32) (now : Z),
  m_reset (w_mem w) = false -> m_autoland (w_mem w) = false ->
  ltb F32 (c_sxy (w_cfg w)) (cst F32 1 100) = false -> ltb F32 (c_sz (w_cfg w)) (cst F32 1 100) = false ->
  finiteb F32 (c_sxy (w_cfg w)) = true -> finiteb F32 (c_sz (w_cfg w)) = true ->
  finiteb F32 (mul F32 (ofZ F32 2) (sqrtv F32 (c_sxy (w_cfg w)))) = true -> finiteb F32 (mul F32 (ofZ F32 2) (sqrtv F32 (c_sz (w_cfg w)))) = true ->
  finite3 F32 (m_sloc (w_mem w)) = true -> finite3 F32 (m_svel (w_mem w)) = true -> finiteb F32 (secs (now - m_cur (w_mem w))%Z) = true ->
  let w' := calculateWaypoint F32 G secs travel w now in
  hasNaN F32 (o_adapted (w_out w')) = true -> hasNaN F32 (o_pos (w_out w')) = false.
Proof.
  intros G secs travel w now R Al K1 K2 Fk1 Fk2 Fd1 Fd2 Fl Fv Fs w' Hn.
  destruct (calc_decomp2 F32 G secs travel w now R) as (w0 & T & _ & P & _ & _ & Ad & _). cbv zeta in *. fold w' in P, Ad. rewrite Ad in Hn. rewrite P. clear P Ad.
  unfold WgModel.getPathMsg in *. destruct (nextSmoothYaw F32 G _ _ _ _ _ _) as [yaw yv]. rewrite (tg_auto F32 _ _ T) in *. cbn [prep w_mem m_autoland] in *. rewrite Al in *.
  destruct (adaptSpeed F32 G _ _ _ _ _ _ _) as [[[[g sp] hd] y'] ad].
  assert (Dt : exists dt : f32, stepTime F32 secs (w_mem w0) = dt /\ is_finite dt = true /\ f32_ltb (f32_ofZ 0) dt = true).
  { eexists. split; [reflexivity|]. unfold stepTime. rewrite (tg_cur F32 _ _ T), (tg_last F32 _ _ T). cbn [prep w_mem m_cur m_last].
    destruct (ltb F32 (ofZ F32 0) (secs (now - m_cur (w_mem w))%Z)) eqn:L; [split; [exact Fs|exact L]|split; vm_compute; reflexivity]. }
  destruct Dt as (dt & Ed & Fdt & Pdt). rewrite Ed in *. clear Ed.
  unfold smoothWaypoint in *. rewrite (tg_cfg F32 _ _ T) in *. cbn [prep w_cfg] in *. rewrite K1, K2 in *. cbn [orb] in *.
  rewrite (tg_sloc F32 _ _ T), (tg_svel F32 _ _ T) in *. cbn [prep w_mem m_sloc m_svel] in *.
  assert (Ld : allFinite F32 (v3sub F32 ad (m_sloc (w_mem w))) = false).
  { revert Hn. cbn [w_out o_adapted]. unfold hasNaN, allFinite, finite3, v3sub. rewrite !isnanb_f32. cbn [vx vy vz sub finiteb F32].
    destruct ad as [ax ay az]. cbn [vx vy vz]. intros Hn. apply orb_prop in Hn. destruct Hn as [Hn|Hn]; [apply orb_prop in Hn; destruct Hn as [Hn|Hn]|];
      apply is_nan_eq in Hn; subst; cbn [nanv F32]; cbn [Bminus]; cbn [is_finite]; rewrite ?andb_false_r; try reflexivity. }
  revert Hn. cbn [w_out o_adapted o_pos]. intros _. cbv zeta. rewrite Ld.
  set (V := if ltb F32 _ (cst F32 1 10) then zero3 F32 else _). clearbody V.
  assert (Vd : exists d, (if allFinite F32 (v3sub F32 V (m_svel (w_mem w))) then v3sub F32 V (m_svel (w_mem w)) else zero3 F32) = d /\ finite3 F32 d = true).
  { eexists. split; [reflexivity|]. destruct (allFinite F32 (v3sub F32 V (m_svel (w_mem w)))) eqn:A; [exact A|reflexivity]. }
  destruct Vd as (d & Ev & Fd). rewrite Ev. clear Ev.
  apply finite3_inv in Fl, Fv, Fd. destruct Fl as (L1 & L2 & L3), Fv as (V1 & V2 & V3'), Fd as (D1 & D2 & D3).
  unfold hasNaN. rewrite !isnanb_f32. cbn [vx vy vz zero3].
  rewrite !nn_filter by (assumption || reflexivity). reflexivity.
Qed.
Print Assumptions C125_nan_target_ignored.
(** such a memory is what a vehicle state leaves behind *)
Theorem C125_filter_finite_after_vehicle_state :
  forall G secs travel (o : wg_out F32) (cruise : F32) (l : list (wg_op F32)) pos q goal vel stay air nav land to des,
  finite3 F32 pos = true ->
  let w := history F32 G secs travel o cruise (l ++ [OpUpdate pos q goal vel stay air nav land to des]) in
  finite3 F32 (m_sloc (w_mem w)) = true /\ finite3 F32 (m_svel (w_mem w)) = true.
Proof.
  intros G secs travel o cruise l pos q goal vel stay air nav land to des Fp w. unfold w, history. rewrite run_app.
  generalize (wg_run F32 G secs travel (wg_init F32 o cruise) l). intros w0. cbn [wg_run fold_left wg_step]. unfold updateState. cbn [w_mem m_sloc m_svel]. unfold allFinite.
  destruct (finite3 F32 (m_sloc (w_mem w0))) eqn:E1, (finite3 F32 (m_svel (w_mem w0))) eqn:E2, air, (m_autoland (w_mem w0)); cbn [negb orb];
    (split; [first [exact Fp|exact E1]|first [exact E2|reflexivity]]).
Qed.
Print Assumptions C125_filter_finite_after_vehicle_state.

(** concrete runs *)
Definition land_up (z gz : Z) (air : bool) (nav : nav_state) (item : bool) : wg_op F32 :=
  OpUpdate (fpt 0 0 z) q_id (fpt 50 0 gz) (fpt 0 0 0) false air nav item false (fpt 0 0 0).
(** a flight in offboard mode: up to the goal altitude, further down without climbing again, landed, taken off again *)
Example C125_takeoff_example :
  let up z gz air := land_up z gz air N_offboard false in
  let l := [up 0 10 false; secs0 0; secs0 1; up 10 10 true; secs0 2; up 5 10 true; secs0 3; secs0 4; up 0 10 false; up 1 10 true; secs0 5]%Z in
  map (fun n => w_state (frun (firstn n l))) [2; 3; 5; 7; 8; 9; 10; 11]%nat = [TRY_PATH; ALTITUDE_CHANGE; TRY_PATH; DIRECT; DIRECT; DIRECT; DIRECT; ALTITUDE_CHANGE].
Proof. vm_compute. reflexivity. Qed.
Example C125_land_example :
  map (fun x => m_autoland (w_mem (frun [land_up 10 5 true (fst x) (snd x); secs0 0; secs0 1])))
    [(N_land, false); (N_mission, true); (N_mission, false); (N_rtl, true); (N_takeoff, true); (N_offboard, false)] = [true; true; false; false; false; false].
Proof. vm_compute. reflexivity. Qed.
(** goals that are not numbers: the target is NaN, the commanded position is not; attitudes that are not numbers: the commanded yaw stays a number *)
Example C125_nan_example :
  let bad := [land_up 5 5 true N_mission false; secs0 0; secs0 1;
    OpUpdate (fpt 0 0 5) q_id (V3 (ofZ F32 10) (nanv F32) (ofZ F32 5)) (fpt 0 0 0) false true N_mission false false (fpt 0 0 0); secs0 2; secs0 3; secs0 4] in
  let att := [land_up 5 5 true N_mission false; secs0 0; secs0 1;
    OpUpdate (fpt 0 0 5) (Q4 F32 (nanv F32) (nanv F32) (nanv F32) (nanv F32)) (fpt 50 0 5) (fpt 0 0 0) true true N_mission false false (fpt 0 0 0); secs0 2; secs0 3] in
  map (fun n => let w := frun (firstn n bad) in (hasNaN F32 (o_adapted (w_out w)), hasNaN F32 (o_pos (w_out w)))) [3; 5; 6; 7]%nat =
    [(false, false); (true, false); (true, false); (true, false)] /\
  map (fun n => let w := frun (firstn n att) in (w_state w, isnanb F32 (i_yaw (w_in w)), isnanb F32 (m_yaw (w_mem w)))) [3; 5; 6]%nat =
    [(DIRECT, false, false); (LOITER, true, false); (LOITER, true, false)].
Proof. split; vm_compute; reflexivity. Qed.
(** hypotheses of the two theorems about the start of the smoothing: a landing item of the mission has been completed, the vehicle flies on *)
Definition landed_w : wg Rn :=
  WG TRY_PATH (WIn (V3 (0 : Rn) (0 : Rn) (5 : Rn)) (zero3 Rn) (V3 (50 : Rn) (0 : Rn) (5 : Rn)) (0 : Rn) (0 : Rn) N_mission true false (zero3 Rn) false true)
     (WMem (zero3 Rn) (zero3 Rn) (zero3 Rn) (zero3 Rn) 0 0 false true (0 : Rn) (0 : Rn) None (0 : Rn) (0 : Rn) false false)
     (WOut TRY_PATH (zero3 Rn) (Q4 Rn (1 : Rn) (0 : Rn) (0 : Rn) (0 : Rn)) (zero3 Rn) (zero3 Rn) (zero3 Rn) (zero3 Rn) (zero3 Rn))
     (WCfg (10 : Rn) (3 : Rn) [] (Out (3 : Rn) 0 [])).
Example C125_start_example :
  let secs (n : Z) : Rn := IZR n / 1000000000 in let travel (n : Z) (v : Rn) : Rn := secs n * v in
  let u := updateState Rn Rtrig landed_w (V3 (1 : Rn) (2 : Rn) (3 : Rn)) (Q4 Rn (1 : Rn) (0 : Rn) (0 : Rn) (0 : Rn)) (V3 (50 : Rn) (0 : Rn) (5 : Rn)) (zero3 Rn) false true N_mission false false (zero3 Rn) in
  let w1 := calculateWaypoint Rn Rtrig secs travel u 100000000 in
  m_reset (w_mem landed_w) = false /\ m_autoland (w_mem landed_w) = true /\ m_autoland (w_mem w1) = false /\ w_state w1 <> ALTITUDE_CHANGE /\ smoothing_on landed_w.
Proof.
  intros secs travel u w1. split; [reflexivity|]. split; [reflexivity|].
  assert (R : m_reset (w_mem u) = false) by reflexivity.
  assert (A : altitude_wanted Rn N_mission (3 : Rn) (5 : Rn) false false false = false) by reflexivity.
  split; [|split].
  - destruct (calc_flags Rn Rtrig secs travel u 100000000 R) as [F _]. fold w1 in F. change (asks Rn travel u 100000000) with true in F. cbv iota in F.
    unfold flags_of, answer, isAltitudeChange in F. cbn [u updateState landed_w w_in i_pos i_goal i_nav i_land i_takeoff vz nav_eqb andb orb negb] in F.
    destruct (ltb Rn _ (3 : Rn)); [injection F as -> _; reflexivity|]. destruct (ltb Rn _ _); injection F as -> _; reflexivity.
  - destruct (calc_next Rn Rtrig secs travel u 100000000 R) as (N & _). fold w1 in N. rewrite N. unfold next_of, alt_of.
    change (w_state u) with TRY_PATH. change (i_stay (w_in u)) with false. change (i_nav (w_in u)) with N_mission. change (i_land (w_in u)) with false. change (i_takeoff (w_in u)) with false.
    unfold altitude_wanted, path_usable. cbn. discriminate.
  - unfold smoothing_on, landed_w. cbn [w_cfg c_sxy c_sz]. tR. lra.
Qed.
