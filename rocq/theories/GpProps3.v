(** Properties C56, C58, C59, C88, C91, C92, C93: the global planner node. *)
From Coq Require Import ZArith Reals List Bool Lia Lra Psatz.
From Flocq Require Import Core BinarySingleNaN.
From Verif Require Import Num Num64 F64Err CommonModel CommonSpec GpModel GpSearch GpPlan GpNode GpSpec GpPlanSpec GpNodeSpec GpProofs GpArith GpCellProofs
  GpMiscProofs GpCostProofs GpPlanProofs GpNodeProofs GpNodeProofs2 GpNodeProofs3 GpProps1 GpProps1b.
Import ListNotations.
Local Open Scope R_scope.

(* ---------------------------------------------------------------------------------------------- C56 *)
(** C56. In every history the recorded trail has no cell twice in a row and consists of cells the vehicle was in, in that order; for every number type. *)
Theorem C56_trail :
  forall (N : num) (G : trig N) (fl cl rnd : N -> Z) (prob : N -> N) ltinf popS popO (C : ncfg N) fuel start over mi es s o,
  nrun N G fl cl rnd prob ltinf popS popO C fuel (ninit N fl C start over mi) es = Some (s, o) ->
  linked (fun a b => a <> b) (trail s) /\ subseq (trail s) (map (fun p => cell_of N fl (cell_scale (nc_gp C)) (gp_pos p)) (poses_of es)).
Proof.
  intros N G fl cl rnd prob ltinf popS popO C fuel start over mi es s o H. eapply run_trail in H; [|exact I].
  destruct H as (A & l & B & D). split; [exact A|]. rewrite B. exact D.
Qed.
Print Assumptions C56_trail.
(** Unless the vehicle is backing up, its cell is the last of the trail after every pose. *)
Theorem C56_trail_current :
  forall (N : num) (fl : N -> Z) (C : ncfg N) s p, g_going_back (ns_pl s) = false ->
  exists l, trail (positionCallback N fl C s p) = l ++ [cell_of N fl (cell_scale (nc_gp C)) (gp_pos p)].
Proof. intros. apply position_last. assumption. Qed.
Print Assumptions C56_trail_current.
(** Backing up: the path is the trail backwards from its last cell, either all of it or at least seven cells up to one of low risk (then those cells and one
    more are forgotten); the goal is its last cell. *)
Theorem C56_go_back :
  forall (N : num) (cl rnd : N -> Z) (prob : N -> N) (C : ncfg N) (g : gplanner N), g_back g <> [] ->
  exists g', goBack N cl rnd prob (nc_gp C) g = Some g' /\ g_going_back g' = true /\
  hd_error (g_path g') = hd_error (rev (g_back g)) /\
  exists n, g_path g' = firstn n (rev (g_back g)) /\ gc_cell (g_goal g') = last (g_path g') (C3 0 0 0) /\
    ((n = length (g_back g) /\ g_back g' = g_back g) \/
     ((7 <= n < length (g_back g))%nat /\ g_back g' = firstn (length (g_back g) - n - 1) (g_back g) /\
      ltb N (g_risk N cl rnd prob (nc_gp C) g (gc_cell (g_goal g'))) (cst N 1 2) = true)).
Proof.
  intros N cl rnd prob C g H. destruct (goBack_spec N cl rnd prob C g H) as (g' & A & B & n & D & E & F & K).
  exists g'. split; [exact A|]. split; [exact B|]. split; [|exists n; auto].
  rewrite D in *. destruct n; [contradiction|]. destruct (rev (g_back g)); reflexivity.
Qed.
Print Assumptions C56_go_back.
(** Backing up without a trail runs off the end of an empty vector. *)
Theorem C56_empty_trail_refuted :
  forall (N : num) (cl rnd : N -> Z) (prob : N -> N) (P : gcfg N) (g : gplanner N), g_back g = [] -> goBack N cl rnd prob P g = None.
Proof. intros N cl rnd prob P g H. unfold goBack. rewrite H. reflexivity. Qed.
Print Assumptions C56_empty_trail_refuted.
Definition ex_poses : list (nev F64) :=
  EGoal (g64 9 2) (g64 1 2) :: map (fun x => EPose (GP (V3 (g64 x 2) (g64 1 2) (g64 7 2)) (g64 0 1))) [1; 2; 3; 5; 4; 6]%Z.
Definition trail_of (r : option (nstate F64 * list (nout F64))) : list gcell := match r with Some (s, _) => trail s | None => [] end.
Example C56_example :
  trail_of (nrun F64 trig0 f64_fl f64_cl f64_rnd ex_prob ltinf64 (pop_min F64) (pop_min F64) ex_C 1 (ninit F64 f64_fl ex_C ex_zero (g64 1 1) 2000) ex_poses) =
  [C3 0 0 3; C3 1 0 3; C3 2 0 3; C3 3 0 3].
Proof. vm_compute. reflexivity. Qed.

(* ---------------------------------------------------------------------------------------------- C58 *)
(** C58. One planning cycle: the current goal leaves the list only if it was reached or found blocked, and then the next one takes its place (with none left
    and the goal blocked: the present cell); the node may put an intermediate goal in front, and nothing else changes. *)
Theorem C58_cycle :
  forall (N : num) (G : trig N) (fl cl rnd : N -> Z) (prob : N -> N) ltinf popS popO (C : ncfg N) fuel touched s s' o,
  nstep N G fl cl rnd prob ltinf popS popO C fuel s (EPlan touched) = Some (s', o) ->
  let a := served (withinPositionRadius N (cell_scale (nc_gp C)) (g_goal (ns_pl s)) (g_pos (ns_pl s))) (g_goal_blocked (ns_pl s))
                  (cell_of N fl (cell_scale (nc_gp C)) (g_pos (ns_pl s))) (agenda s) in
  agenda s' = a \/ exists m r, agenda s' = GC m r true :: a.
Proof. intros N G fl cl rnd prob ltinf popS popO C fuel touched s s' o H a. apply plannerLoop_goals in H. destruct H as (a' & -> & B & _). exact B. Qed.
Print Assumptions C58_cycle.
(** Between two user commands the goals that are not intermediate ones are served in order: what is left is a tail of the list, or, if the last one was
    blocked, the cell where the vehicle was. No intermediate goal outlives the goal it was made for. *)
Theorem C58_goals_in_order :
  forall (N : num) (G : trig N) (fl cl rnd : N -> Z) (prob : N -> N) ltinf popS popO (C : ncfg N) fuel es s s' o,
  forallb auto_event es = true -> has_final s ->
  nrun N G fl cl rnd prob ltinf popS popO C fuel s es = Some (s', o) ->
  (exists k, real s' = skipn k (real s)) \/ (exists c, real s' = [GC c (ofZ N 1) false]).
Proof. intros. eapply run_real; eauto. Qed.
Print Assumptions C58_goals_in_order.
Theorem C58_one_goal_at_a_time :
  forall (N : num) (G : trig N) (fl cl rnd : N -> Z) (prob : N -> N) ltinf popS popO (C : ncfg N) fuel s e s' o,
  auto_event e = true -> has_final s -> nstep N G fl cl rnd prob ltinf popS popO C fuel s e = Some (s', o) ->
  has_final s' /\
  (real s' = real s \/
   (exists g rest, real s = g :: rest /\ g = g_goal (ns_pl s) /\ (exists touched, e = EPlan touched) /\
     ((real s' = rest /\ withinPositionRadius N (cell_scale (nc_gp C)) g (g_pos (ns_pl s)) || g_goal_blocked (ns_pl s) = true) \/
      (rest = [] /\ real s' = [GC (cell_of N fl (cell_scale (nc_gp C)) (g_pos (ns_pl s))) (ofZ N 1) false] /\ g_goal_blocked (ns_pl s) = true)))).
Proof. intros. split; [eapply step_final; eauto|eapply step_real; eauto]. Qed.
Print Assumptions C58_one_goal_at_a_time.
(** A goal given by the user does not replace the goals waiting: with an intermediate goal active (always the case on the way along a long path), the goal it
    was made for stays in the list and is flown to after the new one. *)
Theorem C58_stale_goal_refuted :
  forall (N : num) (G : trig N) (fl cl rnd : N -> Z) (prob : N -> N) ltinf popS popO (C : ncfg N) fuel s x y s1 o1 old ws,
  ns_wps s = old :: ws ->
  nstep N G fl cl rnd prob ltinf popS popO C fuel s (EGoal x y) = Some (s1, o1) ->
  let new := GC (cell_of N fl (cell_scale (nc_gp C)) (V3 x y (clicked_alt C))) (clicked_radius C) false in
  agenda s1 = new :: old :: ws /\
  forall s2 touched s3 o3, agenda s2 = agenda s1 -> withinPositionRadius N (cell_scale (nc_gp C)) (g_goal (ns_pl s2)) (g_pos (ns_pl s2)) = true ->
    nstep N G fl cl rnd prob ltinf popS popO C fuel s2 (EPlan touched) = Some (s3, o3) ->
    agenda s3 = old :: ws \/ exists m r, agenda s3 = GC m r true :: old :: ws.
Proof.
  intros N G fl cl rnd prob ltinf popS popO C fuel s x y s1 o1 old ws Hw E new. cbn [nstep] in E. injection E as <- <-.
  assert (A : agenda (with_pl N s (setGoal N (ns_pl s) new)) = new :: old :: ws) by (unfold agenda; cbn; rewrite Hw; reflexivity).
  split; [exact A|]. intros s2 touched s3 o3 H2 Hr H3. apply C58_cycle in H3. cbv zeta in H3. rewrite Hr in H3.
  replace (served true (g_goal_blocked (ns_pl s2)) (cell_of N fl (cell_scale (nc_gp C)) (g_pos (ns_pl s2))) (agenda s2)) with (old :: ws) in H3; [exact H3|].
  rewrite H2. change (agenda _) with (agenda (with_pl N s (setGoal N (ns_pl s) new))). rewrite A. reflexivity.
Qed.
Print Assumptions C58_stale_goal_refuted.
(** A goal from the flight controller that differs only in altitude is ignored. *)
Theorem C58_altitude_change_ignored_refuted :
  forall (G : trig Rn) (prob : Rn -> Rn) popS popO (C : ncfg Rn) fuel s p,
  cx (cell_of Rn Rfl (cell_scale (nc_gp C)) p) = cx (gc_cell (g_goal (ns_pl s))) ->
  cy (cell_of Rn Rfl (cell_scale (nc_gp C)) p) = cy (gc_cell (g_goal (ns_pl s))) ->
  nstep Rn G Rfl Rcl Rrnd prob anyinf popS popO C fuel s (EFcu true p) = Some (s, []).
Proof.
  intros G prob popS popO C fuel s p Hx Hy. cbn [nstep]. unfold fcuInputGoalCallback. cbv zeta. rewrite Hx, Hy.
  assert (E : forall i, ltb Rn (cst Rn 1 1000) (absv Rn (sub Rn (pos1 Rn (cell_scale (nc_gp C)) i) (pos1 Rn (cell_scale (nc_gp C)) i))) = false).
  { intros i. rewrite cst_Rn. rn. apply R_ltb_false. tR. rewrite Rminus_diag_eq by reflexivity. rewrite Rabs_R0. lra. }
  rewrite !E. reflexivity.
Qed.
Print Assumptions C58_altitude_change_ignored_refuted.
Example C58_example :
  has_final (ninit F64 f64_fl ex_C ex_zero (g64 1 1) 2000) /\
  (let s := with_wps F64 (ninit F64 f64_fl ex_C ex_zero (g64 1 1) 2000) [GC (C3 4 0 3) (g64 1 1) false] in
   has_final s /\ length (real s) = 2%nat /\ forallb (@auto_event F64) [EPlan []; ECmd] = true) /\
  cx (cell_of Rn Rfl 1 (V3 (1 / 2) (1 / 2) (9 / 2))) = 0%Z.
Proof.
  split; [reflexivity|]. split; [split; [reflexivity|split; reflexivity]|]. unfold cell_of, Rfl. cbn [cx vx]. rn. apply Zfloor_imp. tR. cbn. lra.
Qed.

(* ---------------------------------------------------------------------------------------------- C59 *)
(** C59. The setpoint is on the ray from the vehicle to its current goal pose: at the goal if that is less than a metre away, otherwise one speed (in metres)
    ahead. *)
Theorem C59_setpoint :
  forall (goal pos : vec3 Rn) (speed : Rn), goal <> pos -> 0 <= speed ->
  let d := gdistance Rn pos goal in let sp := setpointPos Rn goal pos speed in
  0 < d /\ (exists k, 0 <= k /\ sp = v3add Rn pos (v3scale Rn k (v3sub Rn goal pos))) /\
  (d < 1 -> sp = goal) /\ (1 <= d -> gdistance Rn pos sp = speed) /\ gdistance Rn pos sp <= Rmax 1 speed.
Proof.
  intros [gx gy gz] [px py pz] speed Hne Hs d sp. tR.
  set (x := gx - px). set (y := gy - py). set (z := gz - pz).
  assert (Q : 0 < x * x + y * y + z * z).
  { destruct (Req_dec x 0) as [X|X]; [destruct (Req_dec y 0) as [Y|Y]; [destruct (Req_dec z 0) as [Z|Z]|]|].
    - exfalso. apply Hne. unfold x in X. unfold y in Y. unfold z in Z. f_equal; lra.
    - nra. - nra. - nra. }
  assert (Ed : d = sqrt (x * x + y * y + z * z)) by reflexivity.
  assert (D0 : 0 < d) by (rewrite Ed; apply sqrt_lt_R0; exact Q).
  assert (DD : d * d = x * x + y * y + z * z) by (rewrite Ed; apply sqrt_sqrt; lra).
  set (len := if Rlt_dec d 1 then d else speed).
  assert (Esp : sp = V3 (px + len * (1 / d * x)) (py + len * (1 / d * y)) (pz + len * (1 / d * z)) :> vec3 Rn).
  { unfold sp, setpointPos. cbv zeta. unfold v3add, v3scale, v3sub. cbn [vx vy vz]. rn. tR.
    replace (gnorm Rn (V3 (gx - px) (gy - py) (gz - pz) : vec3 Rn)) with d by reflexivity.
    unfold len. destruct (Rlt_dec d 1) as [L|L].
    - apply R_ltb_true in L. rewrite L. unfold x, y, z. f_equal; ring.
    - assert (L' : R_ltb d 1 = false) by (apply R_ltb_false; lra). rewrite L'. unfold x, y, z. f_equal; ring. }
  assert (L0 : 0 <= len) by (unfold len; destruct (Rlt_dec d 1); lra).
  assert (Edist : gdistance Rn (V3 px py pz) sp = len).
  { rewrite Esp. unfold gdistance, gnorm, v3sub. cbn [vx vy vz]. rn. tR.
    match goal with |- sqrt ?e = _ => replace e with (len * len * ((x * x + y * y + z * z) / (d * d))) by (field; lra) end.
    rewrite <- DD. replace (len * len * (d * d / (d * d))) with (len * len) by (field; lra). apply sqrt_square. exact L0. }
  split; [exact D0|]. split; [|split; [|split]].
  - exists (len / d). split; [apply Rmult_le_pos; [exact L0|left; apply Rinv_0_lt_compat; exact D0]|].
    rewrite Esp. unfold v3add, v3scale, v3sub. cbn [vx vy vz]. rn. tR. fold x y z. f_equal; field; lra.
  - intros L. rewrite Esp. unfold len. destruct (Rlt_dec d 1); [|lra]. unfold x, y, z. f_equal; field; lra.
  - intros L. rewrite Edist. unfold len. destruct (Rlt_dec d 1); [lra|reflexivity].
  - rewrite Edist. unfold len. destruct (Rlt_dec d 1); [eapply Rle_trans; [|apply Rmax_l]; lra|apply Rmax_r].
Qed.
Print Assumptions C59_setpoint.
(** The speed is between the default and the maximum speed, if the default does not exceed the maximum and the risk threshold is at most 1. *)
Theorem C59_speed :
  forall (prob : Rn -> Rn) (C : ncfg Rn) s, default_speed (nc_gp C) <= max_speed (nc_gp C) -> risk_threshold (nc_gp C) <= 1 ->
  default_speed (nc_gp C) <= targetSpeed Rn Rfl Rcl Rrnd prob C s <= max_speed (nc_gp C).
Proof.
  intros prob C s Hd Ht. unfold targetSpeed. destruct (use_speedup_heuristics (nc_gp C)); [|tR; lra]. cbv zeta. rn. tR.
  match goal with |- context [sqrt ?e] => set (r := sqrt e); pose proof (sqrt_pos e) as Hr; fold r in Hr end.
  destruct (R_leb (risk_threshold (nc_gp C)) r) eqn:L; [lra|]. apply R_leb_false in L. tR. split; nra.
Qed.
Print Assumptions C59_speed.
(** Where the published values disappoint: (1) between one metre and one speed away the setpoint is beyond the goal pose; (2) a vehicle exactly at its goal
    pose gets a setpoint that is not a number; (3) switching the risk based speed-up off changes nothing: another option is read. *)
Theorem C59_setpoint_refuted :
  (forall (goal pos : vec3 Rn) (speed : Rn), 1 <= gdistance Rn pos goal < speed ->
     gdistance Rn pos goal < gdistance Rn pos (setpointPos Rn goal pos speed)) /\
  (let p := V3 (g64 3 2) (g64 1 2) (g64 7 2) in let q := setpointPos F64 p p (g64 1 1) in
   eqb F64 (vx q) (vx q) = false /\ eqb F64 (vy q) (vy q) = false /\ eqb F64 (vz q) (vz q) = false) /\
  (forall (prob : Rn -> Rn) (C : ncfg Rn) s, use_risk_based_speedup (nc_gp C) = false -> use_speedup_heuristics (nc_gp C) = true ->
     let r := sqrt (g_risk Rn Rcl Rrnd prob (nc_gp C) (ns_pl s) (cell_of Rn Rfl (cell_scale (nc_gp C)) (gp_pos (ns_pos s)))) in
     r < risk_threshold (nc_gp C) -> risk_threshold (nc_gp C) <= 1 -> default_speed (nc_gp C) < max_speed (nc_gp C) ->
     default_speed (nc_gp C) < targetSpeed Rn Rfl Rcl Rrnd prob C s).
Proof.
  split; [|split].
  - intros goal pos speed (H1 & H2). assert (goal <> pos).
    { intros ->. revert H1. unfold gdistance, gnorm, v3sub. destruct pos as [a b c]. cbn [vx vy vz]. rn. tR. rewrite !Rminus_diag_eq by reflexivity.
      replace (0 * 0 + 0 * 0 + 0 * 0) with 0 by ring. rewrite sqrt_0. lra. }
    destruct (C59_setpoint goal pos speed H) as (_ & _ & _ & A & _); [tR; lra|]. specialize (A H1). cbv zeta in A. tR. rewrite A. exact H2.
  - cbv zeta. split; [vm_compute; reflexivity|]. split; vm_compute; reflexivity.
  - intros prob C s _ Hu r Hr Ht Hd. unfold targetSpeed. rewrite Hu. cbv zeta. rn. tR. fold r.
    assert (L : R_leb (risk_threshold (nc_gp C)) r = false) by (apply R_leb_false; exact Hr). rewrite L. tR. nra.
Qed.
Print Assumptions C59_setpoint_refuted.
Example C59_example : setpointPos Rn (V3 3 4 1) (V3 0 0 1) 2 = V3 (6 / 5) (8 / 5) 1.
Proof.
  unfold setpointPos. cbv zeta. unfold v3add, v3scale, v3sub. cbn [vx vy vz]. rn. tR.
  assert (E : gnorm Rn (V3 (3 - 0) (4 - 0) (1 - 1) : vec3 Rn) = 5).
  { unfold gnorm. cbn [vx vy vz]. rn. tR. replace ((3 - 0) * (3 - 0) + (4 - 0) * (4 - 0) + (1 - 1) * (1 - 1)) with (5 * 5) by ring. apply sqrt_square. lra. }
  rewrite E. replace (R_ltb 5 1) with false by (symmetry; apply R_ltb_false; lra). f_equal; field.
Qed.
