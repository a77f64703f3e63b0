(** Property theorems for the local planner's waypoint generator (C36-C40, C68-C71). *)
From Coq Require Import ZArith Reals List Bool Lia Lra.
From Flocq Require Import Core BinarySingleNaN.
From Verif Require Import Num Mat CommonModel CommonSpec CommonProofs CommonProofs2 HistModel PfModel PfProofs3 PfProps StarModel LpModel LpProofs2 UsmModel
  WgModel WgSpec WgProofs WgProofs2 WgProofs3.
Import ListNotations.

(** Every number system, every trigonometry, every clock: the API as a list of operations from construction. *)
Definition history (N : num) G secs travel (o : wg_out N) (cruise : N) (l : list (wg_op N)) : wg N := wg_run N G secs travel (wg_init N o cruise) l.
Lemma history_reset N G secs travel o cruise l : m_reset (w_mem (history N G secs travel o cruise l)) = false.
Proof. apply run_reset. reflexivity. Qed.

(** C36. The generator starts in LOITER; only getWaypoints changes the state, and it moves to exactly the documented next state. *)
Theorem C36_initial : forall (N : num) (o : wg_out N) (cruise : N), w_state (wg_init N o cruise) = LOITER.
Proof. reflexivity. Qed.
Print Assumptions C36_initial.
Theorem C36_transitions :
  forall (N : num) G secs travel (o : wg_out N) (cruise : N) (l : list (wg_op N)) (op : wg_op N),
  let w := history N G secs travel o cruise l in
  let w' := history N G secs travel o cruise (l ++ [op]) in
  match op with
  | OpGet now =>
      let i := w_in w in
      w_state w' = documented_next (w_state w) (i_stay i)
        (altitude_wanted N (i_nav i) (vz (i_pos i)) (vz (i_goal i)) (i_land i) (i_takeoff i) (m_reach (w_mem w)))
        (path_usable N travel (c_info (w_cfg w)) now) /\
      o_type (w_out w') = w_state w'
  | _ => w_state w' = w_state w
  end.
Proof.
  intros N G secs travel o cruise l op w w'. assert (E : w' = wg_step N G secs travel w op) by (unfold w', w, history; rewrite run_app; reflexivity).
  destruct op; rewrite E; try reflexivity. cbv zeta. cbn [wg_step].
  destruct (calc_next N G secs travel w now (history_reset N G secs travel o cruise l)) as (A & B & _). rewrite A, B. split; reflexivity.
Qed.
Print Assumptions C36_transitions.
(** documented moves only: a table of the possible successors *)
Theorem C36_documented_moves : forall s stay alt path, In (s, documented_next s stay alt path)
  [(TRY_PATH, TRY_PATH); (TRY_PATH, ALTITUDE_CHANGE); (TRY_PATH, DIRECT); (TRY_PATH, LOITER);
   (LOITER, LOITER); (LOITER, TRY_PATH);
   (DIRECT, DIRECT); (DIRECT, TRY_PATH); (DIRECT, ALTITUDE_CHANGE); (DIRECT, LOITER);
   (ALTITUDE_CHANGE, ALTITUDE_CHANGE); (ALTITUDE_CHANGE, TRY_PATH); (ALTITUDE_CHANGE, LOITER)].
Proof. intros [] [] [] []; cbn; auto 20. Qed.
Print Assumptions C36_documented_moves.
(** a reset request, in whatever state *)
Theorem C36_reset : forall (N : num) G secs travel (w : wg N) now, m_reset (w_mem w) = true ->
  w_state (calculateWaypoint N G secs travel w now) = LOITER /\ m_reset (w_mem (calculateWaypoint N G secs travel w now)) = false.
Proof. intros N G secs travel w now R. destruct (calc_reset N G secs travel w now R) as (A & _ & B). auto. Qed.
Print Assumptions C36_reset.

(** Concrete runs in binary32. *)
Ltac vmall := cbv zeta; repeat match goal with |- _ /\ _ => split end; vm_compute; reflexivity.
Definition fsecs (n : Z) : F32 := div F32 (ofZ F32 n) (ofZ F32 1000000000).
Definition ftravel (n : Z) (v : F32) : F32 := mul F32 (fsecs n) v.
Definition q_id : quat F32 := Q4 F32 (ofZ F32 1) (ofZ F32 0) (ofZ F32 0) (ofZ F32 0).
Definition out0 : wg_out F32 := WOut LOITER (fpt 7 7 7) q_id (fpt 7 7 7) (fpt 7 7 7) (fpt 7 7 7) (fpt 7 7 7) (fpt 7 7 7).
Definition upd (pos goal : vec3 F32) (stay : bool) (nav : nav_state) : wg_op F32 :=
  OpUpdate pos q_id goal (fpt 0 0 0) stay true nav false false (fpt 0 0 0).
Definition frun (l : list (wg_op F32)) : wg F32 := history F32 f32tr fsecs ftravel out0 (ofZ F32 3) l.
Definition vint (v : vec3 F32) : list Z := [f32_cast (vx v); f32_cast (vy v); f32_cast (vz v)].
Definition secs0 (n : Z) : wg_op F32 := OpGet (100000000000000 + n * 1000000000).
Example C36_example :
  let g := fpt 10 0 5 in
  map (fun l => w_state (frun l)) [
    [upd (fpt 0 0 5) g true N_mission; secs0 0];
    [upd (fpt 0 0 5) g false N_mission; secs0 0];
    [upd (fpt 0 0 5) g false N_mission; secs0 0; secs0 1];
    [upd (fpt 0 0 5) g false N_takeoff; secs0 0; secs0 1];
    [upd (fpt 0 0 5) g false N_mission; secs0 0; OpInfo (Out (ofZ F32 3) 100000000000000 [fpt 9 0 5; fpt 5 0 5; fpt 0 0 5]); secs0 1];
    [upd (fpt 0 0 5) g false N_mission; secs0 0; secs0 1; upd (fpt 0 0 5) g true N_mission; secs0 2]]
  = [LOITER; TRY_PATH; DIRECT; ALTITUDE_CHANGE; TRY_PATH; LOITER].
Proof. vm_compute. reflexivity. Qed.

(** C68. A request to loiter takes effect within two control cycles, from every state and whatever the planner does, and lasts
    as long as it is requested. *)
Theorem C68_stay :
  forall (N : num) G secs travel (w : wg N) (l : list (wg_op N)),
  m_reset (w_mem w) = false -> i_stay (w_in w) = true -> always_stay l ->
  (2 <= length (filter is_get l))%nat -> w_state (wg_run N G secs travel w l) = LOITER.
Proof.
  intros N G secs travel w l R S A L. apply stay_run; try assumption.
  assert (E : gets N l = length (filter is_get l)) by (clear; induction l as [|o l IH]; [reflexivity|]; cbn; rewrite IH; destruct (is_get o); reflexivity).
  rewrite E. destruct (w_state w); cbn; lia.
Qed.
Print Assumptions C68_stay.
Theorem C68_stay_at_once :
  forall (N : num) G secs travel (w : wg N) now, m_reset (w_mem w) = false -> i_stay (w_in w) = true -> w_state w <> DIRECT ->
  w_state (calculateWaypoint N G secs travel w now) = LOITER.
Proof.
  intros N G secs travel w now R S D. destruct (calc_next N G secs travel w now R) as (E & _). rewrite E. unfold next_of. rewrite S. destruct (w_state w); try reflexivity. congruence.
Qed.
Print Assumptions C68_stay_at_once.
(** one cycle is not always enough: direct flight with a path available goes on to follow the path *)
Example C68_example :
  let l := [upd (fpt 0 0 5) (fpt 10 0 5) false N_mission; secs0 0; secs0 1;
            OpInfo (Out (ofZ F32 3) 100000000000000 [fpt 9 0 5; fpt 5 0 5; fpt 0 0 5]); upd (fpt 0 0 5) (fpt 10 0 5) true N_mission] in
  w_state (frun l) = DIRECT /\ i_stay (w_in (frun l)) = true /\ w_state (frun (l ++ [secs0 1])) = TRY_PATH /\ w_state (frun (l ++ [secs0 1; secs0 2])) = LOITER.
Proof. vmall. Qed.

(** C37. An episode starts with the first loiter cycle after a cycle that ended in LOITER coming from another state (or with the first
    cycle after construction, see C37_hover_initial) and lasts while the state stays LOITER. Its goto position is the vehicle position of
    that first cycle in every cycle, except when the goal is closer than 1 m and no landing is in progress: then it is the goal. *)
Theorem C37_hover_partial :
  forall (N : num) G secs travel (o : wg_out N) (cruise : N) (before quiet : list (wg_op N)) (enter first : Z) (later : list (wg_op N)),
  let w := history N G secs travel o cruise before in
  let w0 := wg_run N G secs travel w (OpGet enter :: quiet) in
  let p0 := i_pos (w_in w0) in
  w_state w <> LOITER -> w_state (wg_run N G secs travel w [OpGet enter]) = LOITER -> no_get quiet -> hasNaN N p0 = false ->
  stays_in G secs travel w0 LOITER (OpGet first :: later) ->
  forall a n b, OpGet first :: later = a ++ OpGet n :: b ->
    let w1 := wg_run N G secs travel w0 a in let w2 := wg_run N G secs travel w0 (a ++ [OpGet n]) in
    let near := ltb N (v3norm N (v3sub N (i_goal (w_in w1)) (i_pos (w_in w1)))) (ofZ N 1) in
    (near = false \/ m_autoland (w_mem w1) = true -> o_goto (w_out w2) = p0) /\
    (near = true -> m_autoland (w_mem w1) = false -> o_goto (w_out w2) = i_goal (w_in w1)).
Proof.
  intros N G secs travel o cruise before quiet enter first later w w0 p0 S0 S1 Q P S2 a n b E. cbv zeta.
  assert (R : m_reset (w_mem w) = false) by apply history_reset.
  assert (C : m_changed (w_mem (calculateWaypoint N G secs travel w enter)) = true).
  { change (wg_run N G secs travel w [OpGet enter]) with (calculateWaypoint N G secs travel w enter) in S1. rewrite calc_eq in * by exact R.
    destruct (runState N G secs travel (prep N w enter) enter) as [t w1] eqn:Er. destruct (runState_ran N G secs travel _ _ _ _ Er) as [A _ _ _ _ _ _ _ _].
    change (w_state (prep N w enter)) with (w_state w) in A. destruct t; try reflexivity. cbn in S1. congruence. }
  assert (F : fresh N w0).
  { split; [apply run_reset, R|]. unfold w0. rewrite run_cons. destruct (get_no_get N G secs travel quiet Q (wg_step N G secs travel w (OpGet enter))) as (_ & X & _).
    rewrite X. cbn [wg_step]. rewrite C. reflexivity. }
  pose proof (hover_run N G secs travel p0 P (OpGet first :: later) w0 S2 (or_intror (conj F (ex_intro _ first (ex_intro _ later (conj eq_refl eq_refl))))) a n b E) as H.
  cbv zeta in H. rewrite H. split.
  - intros [X|X]; rewrite X; [rewrite andb_false_r; reflexivity|reflexivity].
  - intros X Y. rewrite X, Y. reflexivity.
Qed.
Print Assumptions C37_hover_partial.
(** the first episode, which starts at construction (binary32: the stored hover position is NaN) *)
Theorem C37_hover_initial_partial :
  forall G secs travel (o : wg_out F32) (cruise : F32) (quiet : list (wg_op F32)) (first : Z) (later : list (wg_op F32)),
  let w0 := history F32 G secs travel o cruise quiet in
  let p0 := i_pos (w_in w0) in
  no_get quiet -> hasNaN F32 p0 = false -> stays_in G secs travel w0 LOITER (OpGet first :: later) ->
  forall a n b, OpGet first :: later = a ++ OpGet n :: b ->
    let w1 := wg_run F32 G secs travel w0 a in let w2 := wg_run F32 G secs travel w0 (a ++ [OpGet n]) in
    let near := ltb F32 (v3norm F32 (v3sub F32 (i_goal (w_in w1)) (i_pos (w_in w1)))) (ofZ F32 1) in
    (near = false \/ m_autoland (w_mem w1) = true -> o_goto (w_out w2) = p0) /\
    (near = true -> m_autoland (w_mem w1) = false -> o_goto (w_out w2) = i_goal (w_in w1)).
Proof.
  intros G secs travel o cruise quiet first later w0 p0 Q P S2 a n b E. cbv zeta.
  assert (F : fresh F32 w0).
  { split; [apply history_reset|]. unfold w0, history. destruct (get_no_get F32 G secs travel quiet Q (wg_init F32 o cruise)) as (_ & X & Y). rewrite X, Y. reflexivity. }
  pose proof (hover_run F32 G secs travel p0 P (OpGet first :: later) w0 S2 (or_intror (conj F (ex_intro _ first (ex_intro _ later (conj eq_refl eq_refl))))) a n b E) as H.
  cbv zeta in H. rewrite H. split.
  - intros [X|X]; rewrite X; [rewrite andb_false_r; reflexivity|reflexivity].
  - intros X Y. rewrite X, Y. reflexivity.
Qed.
Print Assumptions C37_hover_initial_partial.
Lemma stays_in_check N G secs travel (w : wg N) s l : (forall k, (k < length l)%nat -> w_state (wg_run N G secs travel w (firstn k l)) = s) -> stays_in G secs travel w s l.
Proof.
  intros H a b -> Hb. specialize (H (length a)). rewrite app_length, firstn_app, Nat.sub_diag, firstn_all, firstn_O, app_nil_r in H. apply H.
  destruct b; [congruence|]. cbn. lia.
Qed.
(** the hypotheses are met, the vehicle drifts, the hover target does not *)
Definition drift (x : Z) : wg_op F32 := upd (fpt x 0 5) (fpt 100 0 5) true N_mission.
Example C37_example :
  let before := [upd (fpt 0 0 5) (fpt 100 0 5) false N_mission; secs0 0; drift 1] in
  let w := frun before in let w0 := frun (before ++ [secs0 1; drift 2]) in
  w_state w = TRY_PATH /\ w_state (frun (before ++ [secs0 1])) = LOITER /\
  map (fun l => vint (o_goto (w_out (frun (before ++ [secs0 1; drift 2] ++ l))))) [[secs0 2]; [secs0 2; drift 3; secs0 3]; [secs0 2; drift 3; secs0 3; drift 4; secs0 4]]
    = [[2; 0; 5]; [2; 0; 5]; [2; 0; 5]]%Z /\ stays_in f32tr fsecs ftravel w0 LOITER [secs0 2; drift 3; secs0 3].
Proof.
  cbv zeta. split; [vm_compute; reflexivity|]. split; [vm_compute; reflexivity|]. split; [vm_compute; reflexivity|].
  apply stays_in_check. intros [|[|[|k]]] Hk; [vm_compute; reflexivity..|]. cbn in Hk. lia.
Qed.
(** The claim as stated is false: loitering within 1 m of the goal the target is the goal, not the position of loiter entry. *)
Theorem C37_goal_refuted :
  let w := frun [upd (fpt 0 0 5) (fpt 0 0 5) true N_mission; secs0 0; upd (fpt 0 0 5) (V3 (div F32 (ofZ F32 1) (ofZ F32 2)) (ofZ F32 0) (ofZ F32 5)) true N_mission; secs0 1] in
  w_state w = LOITER /\ ltb F32 (div F32 (ofZ F32 1) (ofZ F32 4)) (vx (o_goto (w_out w))) = true /\ vint (m_hover (w_mem w)) = [0; 0; 5]%Z.
Proof. vmall. Qed.
Print Assumptions C37_goal_refuted.
(** Worse: loitering requested during a landing. As long as it loiters the commanded position stays where the landing last put it, ... *)
Theorem C37_landing_target_kept :
  forall (N : num) G secs travel (w : wg N) (l : list (wg_op N)),
  m_reset (w_mem w) = false -> m_autoland (w_mem w) = true -> o_pos (w_out w) = o_smoothed (w_out w) -> stays_in G secs travel w LOITER l ->
  o_pos (w_out (wg_run N G secs travel w l)) = o_pos (w_out w).
Proof. intros N G secs travel w l. apply loiter_autoland_run. Qed.
Print Assumptions C37_landing_target_kept.
(** ... which is the landing point: here the vehicle at 10 m is told to loiter, and the position command stays on the ground (0 m). *)
Theorem C37_loiter_while_landing_refuted :
  let p := fpt 0 0 10 in let g := fpt 0 0 0 in
  let l := [upd p g false N_land; secs0 0; secs0 1; secs0 2; secs0 3; upd p g true N_land; secs0 4; secs0 5; upd p g true N_loiter; secs0 6; secs0 7] in
  w_state (frun l) = LOITER /\ vint (o_pos (w_out (frun l))) = [0; 0; 0]%Z /\ vint (o_goto (w_out (frun l))) = [0; 0; 10]%Z.
Proof. vmall. Qed.
Print Assumptions C37_loiter_while_landing_refuted.

(** C38. Following the planner path, binary32: whatever the planner's output (NaN or infinite nodes, any velocity) the goto position has no
    NaN component, provided the vehicle position has none. *)
Theorem C38_no_nan_target :
  forall G secs travel (o : wg_out F32) (cruise : F32) (l : list (wg_op F32)) (now : Z),
  let w := history F32 G secs travel o cruise l in
  w_state w = TRY_PATH -> hasNaN F32 (i_pos (w_in w)) = false ->
  hasNaN F32 (o_goto (w_out (history F32 G secs travel o cruise (l ++ [OpGet now])))) = false.
Proof.
  intros G secs travel o cruise l now w S P. unfold history. rewrite run_app. change (wg_run F32 G secs travel _ [OpGet now]) with (calculateWaypoint F32 G secs travel w now).
  apply try_path_no_nan; [apply history_reset|exact S|exact P].
Qed.
Print Assumptions C38_no_nan_target.
Example C38_example :
  let info := OpInfo (Out (ofZ F32 3) 100000000000000 [nan3 F32; nan3 F32; nan3 F32; nan3 F32]) in
  let l := [upd (fpt 0 0 5) (fpt 10 0 5) false N_mission; secs0 0; info] in
  w_state (frun l) = TRY_PATH /\ vint (o_goto (w_out (frun (l ++ [secs0 1])))) = [0; 0; 5]%Z.
Proof. vmall. Qed.
(** Direct flight has no such guard: an undefined goal coordinate becomes an undefined target. *)
Theorem C38_direct_nan_refuted :
  let l := [upd (fpt 0 0 5) (V3 (ofZ F32 10) (nanv F32) (ofZ F32 5)) false N_mission; secs0 0; secs0 1] in
  w_state (frun l) = DIRECT /\ hasNaN F32 (o_goto (w_out (frun (l ++ [secs0 2])))) = true /\ hasNaN F32 (o_goto (w_out (frun l))) = false.
Proof. vmall. Qed.
Print Assumptions C38_direct_nan_refuted.

Local Open Scope R_scope.
(** C39, real arithmetic: any state with non-negative speed and cruise velocity and cameras with positive width. [along p t a k]:
    a = p + k (t - p). *)
Theorem C39_speed :
  forall secs travel (w : wg Rn) (now : Z),
  m_reset (w_mem w) = false -> m_autoland (w_mem w) = false -> 0 <= m_speed (w_mem w) -> 0 <= o_cruise (c_info (w_cfg w)) ->
  (forall f, In f (c_fovs (w_cfg w)) -> 0 < h_fov_deg f) ->
  let w' := calculateWaypoint Rn Rtrig secs travel w now in let pos := i_pos (w_in w) in let out := w_out w' in
  let speed := m_speed (w_mem w') in
  0 <= speed <= v3norm Rn (v3sub Rn (i_goal (w_in w)) pos) /\
  speed <= Rmax (m_speed (w_mem w)) (Rmax 1 (o_cruise (c_info (w_cfg w)))) /\
  (exists k, 0 <= k /\ along pos (o_goto out) (o_adapted out) k) /\
  v3norm Rn (v3sub Rn (o_adapted out) pos) <= speed /\
  (c_sxy (w_cfg w) < 1 / 100 \/ c_sz (w_cfg w) < 1 / 100 -> o_pos out = o_adapted out).
Proof. exact calc_R. Qed.
Print Assumptions C39_speed.
(** over histories: with all cruise velocities in [0, vmax] (vmax at least 1) and n configured cameras of positive width, the commanded speed
    stays in [0, vmax] for ever. *)
Theorem C39_speed_history :
  forall secs travel (n : nat) (vmax : R) (w : wg Rn) (l : list (wg_op Rn)), 1 <= vmax ->
  m_reset (w_mem w) = false -> 0 <= m_speed (w_mem w) <= vmax -> 0 <= o_cruise (c_info (w_cfg w)) <= vmax ->
  length (c_fovs (w_cfg w)) = n -> (forall f, In f (c_fovs (w_cfg w)) -> 0 < h_fov_deg f) ->
  (forall o, In o l -> match o with OpFOV i f => (i < n)%nat /\ 0 < h_fov_deg f | OpInfo f => 0 <= o_cruise f <= vmax | _ => True end) ->
  0 <= m_speed (w_mem (wg_run Rn Rtrig secs travel w l)) <= vmax.
Proof.
  intros secs travel n vmax w l V R S C L F O. destruct (speed_run secs travel n vmax l V w) as (_ & A & _); [repeat split; try assumption; try apply S; try apply C| |exact A].
  apply Forall_forall. intros o I. specialize (O o I). destruct o; exact O.
Qed.
Print Assumptions C39_speed_history.
Example C39_example : exists (w : wg Rn) (l : list (wg_op Rn)),
  w = wg_init Rn (WOut LOITER (zero3 Rn) (Q4 Rn (ofZ Rn 1) (ofZ Rn 0) (ofZ Rn 0) (ofZ Rn 0)) (zero3 Rn) (zero3 Rn) (zero3 Rn) (zero3 Rn) (zero3 Rn)) (ofZ Rn 3) /\
  m_reset (w_mem w) = false /\ m_autoland (w_mem w) = false /\ 0 <= m_speed (w_mem w) <= 5 /\ 0 <= o_cruise (c_info (w_cfg w)) <= 5 /\
  length (c_fovs (w_cfg w)) = 0%nat /\ (forall f, In f (c_fovs (w_cfg w)) -> 0 < h_fov_deg f).
Proof. eexists. exists []. split; [reflexivity|]. cbn. tR. repeat split; try lra. intros f []. Qed.

(** C40. Where the generator changes altitude: exactly in the listed situations (with C36_transitions), and then it moves towards the goal
    altitude: over the reals, in any altitude change cycle outside offboard mode that is not braking, the adapted target's height is
    between ... on the goal's side of the vehicle. *)
Theorem C40_altitude_target :
  forall (N : num) G secs travel (w : wg N) (now : Z), m_reset (w_mem w) = false -> w_state w = ALTITUDE_CHANGE ->
  let i := w_in w in let pos := i_pos i in let out := w_out (calculateWaypoint N G secs travel w now) in
  let fast := ltb N (cst N 1 2) (v2norm N (vx (i_vel i)) (vy (i_vel i))) in
  (i_nav i <> N_offboard -> m_autoland (w_mem w) = true \/ ltb N (v3norm N (v3sub N (i_goal i) pos)) (ofZ N 1) = false ->
     if fast then o_goto out = pos else exists h, o_goto out = V3 (vx h) (vy h) (vz (i_goal i)) /\ (h = pos \/ h = m_calt (w_mem w))) /\
  (i_nav i <> N_offboard -> fast = false -> o_lin out = i_desired i) /\
  (i_nav i <> N_offboard -> m_autoland (w_mem w) = true -> o_pos out = o_goto out) /\
  (i_nav i = N_offboard -> i_airborne i = true -> m_autoland (w_mem w) = true \/ ltb N (v3norm N (v3sub N (V3 (vx pos) (vy pos) (vz (i_goal i))) pos)) (ofZ N 1) = false ->
     o_goto out = V3 (vx pos) (vy pos) (if leb N (vz pos) (vz (i_goal i)) then add N (vz pos) (ofZ N 1) else sub N (vz pos) (ofZ N 1))).
Proof.
  intros N G secs travel w now R S. destruct (alt_target N G secs travel w now R S) as (A & B & C & D). cbv zeta in *.
  assert (X : forall b : bool, negb (m_autoland (w_mem w)) && b = true -> m_autoland (w_mem w) = true \/ b = false -> False).
  { intros b H [E|E]; rewrite E in H; [discriminate|rewrite andb_false_r in H; discriminate]. }
  split; [|split; [|split]].
  - intros Hn Hc. assert (E : nav_eqb (i_nav (w_in w)) N_offboard = false) by (destruct (i_nav (w_in w)); try reflexivity; congruence). rewrite E in *.
    destruct (negb _ && _) eqn:Y in A; [exfalso; eapply X; eassumption|]. destruct (ltb N (cst N 1 2) _); [exact A|].
    eexists. split; [exact A|]. destruct (m_changed (w_mem w)); auto.
  - intros Hn Hf. assert (E : nav_eqb (i_nav (w_in w)) N_offboard = false) by (destruct (i_nav (w_in w)); try reflexivity; congruence). rewrite E, Hf in C. exact C.
  - intros Hn Ha. assert (E : nav_eqb (i_nav (w_in w)) N_offboard = false) by (destruct (i_nav (w_in w)); try reflexivity; congruence). rewrite E in *.
    rewrite (D Ha eq_refl), A, Ha. reflexivity.
  - intros Hn Ha Hc. assert (E : nav_eqb (i_nav (w_in w)) N_offboard = true) by (rewrite Hn; reflexivity). rewrite E, Ha in *.
    destruct (negb _ && _) eqn:Y in A; [exfalso; eapply X; [exact Y|exact Hc]|]. exact A.
Qed.
Print Assumptions C40_altitude_target.
Theorem C40_moves_to_goal_altitude :
  forall secs travel (w : wg Rn) (now : Z),
  m_reset (w_mem w) = false -> m_autoland (w_mem w) = false -> 0 <= m_speed (w_mem w) -> 0 <= o_cruise (c_info (w_cfg w)) ->
  (forall f, In f (c_fovs (w_cfg w)) -> 0 < h_fov_deg f) -> w_state w = ALTITUDE_CHANGE -> i_nav (w_in w) <> N_offboard ->
  v2norm Rn (vx (i_vel (w_in w))) (vy (i_vel (w_in w))) <= 1 / 2 ->
  let z := vz (i_pos (w_in w)) in let gz := vz (i_goal (w_in w)) in
  exists k, 0 <= k /\ vz (o_adapted (w_out (calculateWaypoint Rn Rtrig secs travel w now))) = z + k * (gz - z).
Proof.
  intros secs travel w now R A Hs Hc Hf S Hn Hv. destruct (calc_R secs travel w now R A Hs Hc Hf) as (_ & _ & (k & Hk & (_ & _ & K)) & _).
  exists k. split; [exact Hk|]. cbv zeta in *. rewrite K. destruct (alt_target Rn Rtrig secs travel w now R S) as (T0 & _). cbv zeta in T0.
  assert (E : nav_eqb (i_nav (w_in w)) N_offboard = false) by (destruct (i_nav (w_in w)); try reflexivity; congruence). rewrite E, cst_Rn in T0. cbn [ltb Rn] in T0.
  destruct (R_ltb_spec (1 / 2) (v2norm Rn (vx (i_vel (w_in w))) (vy (i_vel (w_in w))))) as [Hbad|_]; [lra|].
  assert (Z : vz (o_goto (w_out (calculateWaypoint Rn Rtrig secs travel w now))) = vz (i_goal (w_in w))).
  { destruct (negb _ && _) in T0; [|destruct (m_changed (w_mem w))]; rewrite T0; reflexivity. }
  rewrite Z. reflexivity.
Qed.
Print Assumptions C40_moves_to_goal_altitude.
(** a vehicle at height 5 that rises to a goal at height 10 *)
Definition ex_alt : wg Rn :=
  let w := wg_init Rn (WOut LOITER (zero3 Rn) (Q4 Rn (ofZ Rn 1) (ofZ Rn 0) (ofZ Rn 0) (ofZ Rn 0)) (zero3 Rn) (zero3 Rn) (zero3 Rn) (zero3 Rn) (zero3 Rn)) (ofZ Rn 3) in
  WG ALTITUDE_CHANGE (WIn (V3 (ofZ Rn 0) (ofZ Rn 0) (ofZ Rn 5)) (zero3 Rn) (V3 (ofZ Rn 50) (ofZ Rn 0) (ofZ Rn 10)) (ofZ Rn 0) (ofZ Rn 0) N_takeoff false true (zero3 Rn) false true)
     (w_mem w) (w_out w) (w_cfg w).
Example C40_example : let w := ex_alt in
  m_reset (w_mem w) = false /\ m_autoland (w_mem w) = false /\ 0 <= m_speed (w_mem w) /\ 0 <= o_cruise (c_info (w_cfg w)) /\
  (forall f, In f (c_fovs (w_cfg w)) -> 0 < h_fov_deg f) /\ w_state w = ALTITUDE_CHANGE /\ i_nav (w_in w) <> N_offboard /\
  v2norm Rn (vx (i_vel (w_in w))) (vy (i_vel (w_in w))) <= 1 / 2 /\ vz (i_pos (w_in w)) < vz (i_goal (w_in w)).
Proof.
  cbn. repeat (split; [first [reflexivity|lra|discriminate|intros f []]|]). split; [|lra].
  rn. replace (0 * 0 + 0 * 0) with 0 by ring. rewrite sqrt_0. lra.
Qed.
(** The claim fails for descents: return-to-land above the goal altitude never asks for an altitude change (rtl_descend is dead code), and offboard
    mode above the goal altitude does not either; it even records the altitude as reached, so that a later, higher goal is not climbed to. *)
Theorem C40_no_descent_refuted :
  (forall (posz goalz : R) (land takeoff reached : bool), goalz < posz ->
     altitude_wanted Rn N_rtl posz goalz land takeoff reached = false /\ altitude_wanted Rn N_offboard posz goalz land takeoff reached = false) /\
  (forall (posz goalz : R) (land takeoff : bool), altitude_wanted Rn N_offboard posz goalz land takeoff true = false).
Proof.
  split; [|reflexivity]. intros posz goalz land takeoff reached H. unfold altitude_wanted. rewrite cst_Rn. cbn [ltb leb sub Rn]. split.
  - destruct (R_ltb_spec (goalz - 4 / 5) posz); [reflexivity|lra].
  - destruct (R_leb_spec goalz posz); [apply andb_false_r|lra].
Qed.
Print Assumptions C40_no_descent_refuted.
(** the same in binary32, on runs: above the goal altitude the generator follows paths or flies directly, below it climbs *)
Theorem C40_no_descent_runs_refuted :
  let st nav z gz := w_state (frun [upd (fpt 0 0 z) (fpt 50 0 gz) false nav; secs0 0; secs0 1]) in
  st N_rtl 10%Z 5%Z = DIRECT /\ st N_rtl 5%Z 10%Z = ALTITUDE_CHANGE /\ st N_offboard 10%Z 5%Z = DIRECT /\ st N_offboard 5%Z 10%Z = ALTITUDE_CHANGE /\
  st N_land 10%Z 0%Z = ALTITUDE_CHANGE /\ st N_takeoff 0%Z 10%Z = ALTITUDE_CHANGE /\
  w_state (frun [upd (fpt 0 0 10) (fpt 50 0 5) false N_offboard; secs0 0; secs0 1; upd (fpt 0 0 10) (fpt 50 0 40) false N_offboard; secs0 2; secs0 3]) = DIRECT.
Proof. vmall. Qed.
Print Assumptions C40_no_descent_runs_refuted.

(** C69. The position command is always the smoothed target, in every history: so the "no position, zero velocity" braking command prepared
    before an altitude change (position_wp = (NaN, NaN, z)) never reaches the caller. *)
Theorem C69_position_is_smoothed :
  forall (N : num) G secs travel (o : wg_out N) (cruise : N) (l : list (wg_op N)) (now : Z),
  let out := w_out (history N G secs travel o cruise (l ++ [OpGet now])) in o_pos out = o_smoothed out.
Proof.
  intros N G secs travel o cruise l now. unfold history. rewrite run_app. apply (calc_next N G secs travel (wg_run N G secs travel (wg_init N o cruise) l) now).
  apply history_reset.
Qed.
Print Assumptions C69_position_is_smoothed.
Theorem C69_brake_command_lost_refuted :
  let fast := OpUpdate (fpt 0 0 5) q_id (fpt 50 0 20) (fpt 3 0 0) false true N_takeoff false false (fpt 0 0 0) in
  let w := frun [fast; secs0 0; secs0 1; secs0 2] in
  w_state (frun [fast; secs0 0; secs0 1]) = ALTITUDE_CHANGE /\ hasNaN F32 (o_pos (w_out w)) = false /\ vint (o_lin (w_out w)) = [0; 0; 0]%Z /\ is_nan (vz (o_lin (w_out w)) : f32) = true.
Proof. vmall. Qed.
Print Assumptions C69_brake_command_lost_refuted.

(** C70, real arithmetic: the commanded orientation is a rotation about the vertical by a yaw in [-pi, pi] (a unit quaternion), in every history. *)
Theorem C70_orientation :
  forall secs travel (o : wg_out Rn) (cruise : R) (l : list (wg_op Rn)) (now : Z),
  exists yaw, - PI <= yaw <= PI /\
    o_quat (w_out (history Rn Rtrig secs travel o cruise (l ++ [OpGet now]))) = Q4 Rn (cos (yaw / 2)) 0 0 (sin (yaw / 2)).
Proof.
  intros secs travel o cruise l now. unfold history. rewrite run_app.
  assert (Y : yaw_ok (wg_run Rn Rtrig secs travel (wg_init Rn o cruise) l)).
  { apply yaw_run. pose proof PI_RGT_0. unfold yaw_ok, inpi, wg_init. cbn [w_mem w_in m_reset m_yaw m_yawreach i_yaw m_heading ofZ nanv Rn]. tR. repeat split; try lra; discriminate. }
  destruct (calc_quat secs travel _ now Y) as (yaw & Hy & E). exists yaw. split; [exact Hy|]. etransitivity; [exact E|].
  unfold createPoseQuat, qmul, qaxis_x, qaxis_y, qaxis_z. cbn [qw qx qy qz t_cos t_sin Rtrig add sub mul div ofZ Rn]. tR.
  replace (0 / 2) with 0 by lra. rewrite cos_0, sin_0. f_equal; ring.
Qed.
Print Assumptions C70_orientation.

(** C71. The angular velocity of the result is whatever memory held at construction: no call ever writes it. *)
Theorem C71_yaw_rate_never_set_refuted :
  forall (N : num) G secs travel (o : wg_out N) (cruise : N) (l : list (wg_op N)),
  o_ang (w_out (history N G secs travel o cruise l)) = o_ang o.
Proof. intros N G secs travel o cruise l. apply (run_ang N G secs travel l (wg_init N o cruise)). reflexivity. Qed.
Print Assumptions C71_yaw_rate_never_set_refuted.
