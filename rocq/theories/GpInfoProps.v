(** C110: what the global planner says about its path, and whether the path is the cheapest one. *)
From Coq Require Import ZArith Reals List Bool Lia Lra.
From Flocq Require Import Core BinarySingleNaN.
From Verif Require Import Num Num64 F64Err CommonModel CommonSpec GpModel GpSearch GpAstar GpPlan GpNode GpSpec GpPlanSpec GpProofs GpArith GpCellProofs
  GpMiscProofs GpCostProofs GpPlanProofs GpF64 GpF64b GpProps1 GpProps1b GpProps2b GpInfo.
Import ListNotations.
Local Open Scope R_scope.

Lemma info_from_R G (P : gcfg Rn) (risk : gcell -> Rn) pos vel : sane P -> (forall c, 0 <= risk c) -> forall l a b i x,
  path_cost G P risk pos vel KNode a b l = Some x ->
  let r := info_from Rn G Rfl P risk pos vel i a b l in
  pi_cost r = pi_cost i + x /\ pi_dist r = pi_dist i + path_dist P b l /\
  0 <= pi_risk r - pi_risk i /\ 0 <= pi_smooth r - pi_smooth i /\
  path_dist P b l + (pi_risk r - pi_risk i) + (pi_smooth r - pi_smooth i) <= x <= path_dist P b l + (pi_risk r - pi_risk i) + 2 * (pi_smooth r - pi_smooth i) /\
  (gnorm Rn vel <= 1 -> x = path_dist P b l + (pi_risk r - pi_risk i) + (pi_smooth r - pi_smooth i)).
Proof.
  intros HP Hr. assert (Hr' : forall c, nneg (risk c)) by (intros; apply nneg_R; auto).
  induction l as [|c l IH]; intros a b i x; cbn [path_cost path_dist info_from].
  - intros H. apply some_inj in H. subst x. repeat split; try (rn; tR; lra).
  - destruct (getEdgeCost Rn G Rfl P risk pos vel (Nd KNode b a) (Nd KNode c b)) as [ec|] eqn:E; [|discriminate].
    destruct (path_cost G P risk pos vel KNode b c l) as [y|] eqn:F; [|discriminate]. intros H. apply some_inj in H. subst x.
    pose proof (IH b c (info_step Rn G Rfl P risk pos vel i a b c) y F) as K. cbv zeta in K |- *.
    set (r := info_from Rn G Rfl P risk pos vel (info_step Rn G Rfl P risk pos vel i a b c) b c l) in *.
    unfold info_step in K. rewrite E in K. cbn [or_nan pi_cost pi_dist pi_risk pi_smooth pi_blocked] in K.
    unfold getEdgeCost in E. cbn [n_cell] in E. destruct (getRiskNode Rn Rfl P risk (Nd KNode c b)) as [rk|] eqn:Er; [|discriminate]. cbn [or_nan] in K.
    apply some_inj in E. cbv zeta in E.
    assert (Rk : 0 <= rk) by (apply nneg_R; exact (riskNode_nonneg Rn anyinf arithR _ _ risk Hr' _ _ Er)).
    assert (F1 : 0 <= risk_factor P) by (apply nneg_R, sane_risk, HP). assert (F2 : 0 <= smooth_factor P) by (apply nneg_R, sane_smooth, HP).
    set (ts := getTurnSmoothness Rn G (Nd KNode b a) (Nd KNode c b)) in *.
    assert (Ts : 0 <= ts) by (unfold ts, getTurnSmoothness; rn; tR; apply Rle_0_sqr).
    assert (M1 : 0 <= risk_factor P * rk) by (apply Rmult_le_pos; assumption). assert (M2 : 0 <= smooth_factor P * ts) by (apply Rmult_le_pos; assumption).
    set (ed := getEdgeDist Rn P b c) in *. destruct K as (K1 & K2 & K3 & K4 & K5 & K6). revert K1 K2 K3 K4 K5 K6. rn. tR. intros K1 K2 K3 K4 K5 K6.
    set (m1 := risk_factor P * rk) in *. set (m2 := smooth_factor P * ts) in *.
    revert E. rn. tR. fold m1 m2. intros E.
    destruct (R_ltb (distance3D Rn (cell_scale P) b (cell_of Rn Rfl (cell_scale P) pos)) 3 && R_ltb 1 (gnorm Rn vel)) eqn:Eb;
      (split; [lra|split; [lra|split; [lra|split; [lra|split; [lra|]]]]]).
    + intros V. apply andb_true_iff in Eb as [_ Eb]. apply R_ltb_true in Eb. lra.
    + intros V. specialize (K6 V). lra.
Qed.

Lemma path_cost_some G (P : gcfg Rn) (risk : gcell -> Rn) pos vel k : / 5 < cell_scale P -> forall l p c, linked (fun a b => a <> b) (c :: l) ->
  exists x, path_cost G P risk pos vel k p c l = Some x.
Proof.
  intros Hs. induction l as [|d l IH]; intros p c L; cbn [path_cost]; [exists 0; reflexivity|]. destruct L as [L1 L2]. destruct (IH c d L2) as [y ->].
  unfold getEdgeCost, getRiskNode. destruct (C94_cells_of_move (cell_scale P) (Nd k d c) Hs) as [H _].
  destruct (getCells Rn Rfl (cell_scale P) (Nd k d c)) as [|e es]; [|eexists; reflexivity]. exfalso. apply L1. symmetry. apply H. reflexivity.
Qed.

(** C110. For every path without repeated cells and cells of more than 20 cm: the cost reported is the cost the search adds up along it (for nodes of type
    Node), without the move into the start; the reported distance is its climb-weighted length; the rest of the cost is the reported risk and, up to the doubled
    penalty near a fast vehicle, the reported turns. *)
Theorem C110_info :
  forall (G : trig Rn) (prob : Rn -> Rn) (P : gcfg Rn) (g : gplanner Rn) par s l, sane P -> (forall c, 0 <= g_risk Rn Rcl Rrnd prob P g c) ->
  / 5 < cell_scale P -> linked (fun a b => a <> b) (s :: l) ->
  let i := getPathInfo Rn G Rfl Rcl Rrnd prob P g (par :: s :: l) in
  path_cost G P (g_risk Rn Rcl Rrnd prob P g) (g_pos g) (g_vel g) KNode par s l = Some (pi_cost i) /\ pi_dist i = path_dist P s l /\
  0 <= pi_risk i /\ 0 <= pi_smooth i /\
  pi_dist i + pi_risk i + pi_smooth i <= pi_cost i <= pi_dist i + pi_risk i + 2 * pi_smooth i /\
  (gnorm Rn (g_vel g) <= 1 -> pi_cost i = pi_dist i + pi_risk i + pi_smooth i).
Proof.
  intros G prob P g par s l HP Hr Hs Hl i. destruct (path_cost_some G P (g_risk Rn Rcl Rrnd prob P g) (g_pos g) (g_vel g) KNode Hs l par s Hl) as [x H].
  pose proof (info_from_R G P _ _ _ HP Hr l par s (no_info Rn) x H) as K. cbv zeta in K.
  change (info_from Rn G Rfl P (g_risk Rn Rcl Rrnd prob P g) (g_pos g) (g_vel g) (no_info Rn) par s l) with i in K.
  cbn [no_info pi_cost pi_dist pi_risk pi_smooth] in K. revert K. rn. tR. intros (K1 & K2 & K3 & K4 & K5 & K6).
  assert (K1' : pi_cost i = x) by lra. split; [rewrite K1'; exact H|].
  split; [lra|split; [lra|split; [lra|split; [lra|]]]]. intros V. specialize (K6 V). lra.
Qed.
Print Assumptions C110_info.
(** every path of the normal search is such a path *)
Example C110_moves_differ : linked (fun a b => a <> b) (C3 0 0 1 :: [C3 1 1 1; C3 2 1 1; C3 3 1 1; C3 4 0 1]).
Proof. repeat (split; [discriminate|]). exact I. Qed.

(** A path of the normal search is never reported as blocked (doubles). *)
Lemma info_not_blocked G (P : gcfg F64) (risk : gcell -> F64) pos vel k : forall l a b i,
  pi_blocked i = false -> flyable F64 (cell_scale P) (speednode_radius P) (isLegal F64 f64_fl P risk) k a b l ->
  pi_blocked (info_from F64 G f64_fl P risk pos vel i a b l) = false.
Proof.
  induction l as [|c l IH]; intros a b i Hi Fl; cbn [info_from]; [exact Hi|]. destruct Fl as (_ & L & Fl). apply IH; [|exact Fl].
  unfold info_step. cbn [pi_blocked]. rewrite Hi. cbn [orb]. unfold isLegal in L. apply andb_true_iff in L as [_ L].
  change (getRiskNode F64 f64_fl P risk (Nd k c b)) with (getRiskNode F64 f64_fl P risk (Nd KNode c b)) in L.
  destruct (getRiskNode F64 f64_fl P risk (Nd KNode c b)) as [r|]; [|discriminate]. cbn [or_nan].
  destruct (ltb F64 (max_cell_risk P) r) eqn:E; [|reflexivity]. exfalso.
  apply f64_ltb_true in L as (A1 & A2 & A3). apply f64_ltb_true in E as (B1 & B2 & B3). lra.
Qed.
Theorem C110_not_blocked :
  forall (G : trig F64) (prob : F64 -> F64) (P : gcfg F64) (g : gplanner F64) s par p,
  good_path F64 f64_fl f64_cl f64_rnd prob P g s par p -> pi_blocked (getPathInfo F64 G f64_fl f64_cl f64_rnd prob P g p) = false.
Proof. intros G prob P g s par p (k & l & -> & Fl & _). exact (info_not_blocked G P _ _ _ k l par s (no_info F64) eq_refl Fl). Qed.
Print Assumptions C110_not_blocked.
(** ... and exactly the paths with a move into a cell of more than the allowed risk are. *)
Lemma info_blocked_iff G (P : gcfg F64) (risk : gcell -> F64) pos vel : forall l a b i,
  pi_blocked (info_from F64 G f64_fl P risk pos vel i a b l) = true <->
  pi_blocked i = true \/ exists l1 b' c l2 r, b :: l = l1 ++ b' :: c :: l2 /\ getRiskNode F64 f64_fl P risk (Nd KNode c b') = Some r /\ ltb F64 (max_cell_risk P) r = true.
Proof.
  assert (NN : forall m : F64, ltb F64 m (or_nan F64 None) = false) by (intros m; destruct m as [[]|[]| |[] ? ? ?]; reflexivity).
  induction l as [|c l IH]; intros a b i; cbn [info_from].
  - split; [tauto|]. intros [H|(l1 & b' & c & l2 & r & E & _)]; [exact H|]. destruct l1 as [|? [|]]; discriminate.
  - rewrite IH. unfold info_step. cbn [pi_blocked]. rewrite orb_true_iff. split.
    + intros [[H|H]|(l1 & b' & c' & l2 & r & E & R)].
      * tauto.
      * right. exists [], b, c, l. destruct (getRiskNode F64 f64_fl P risk (Nd KNode c b)) as [r|] eqn:Er; [|rewrite NN in H; discriminate].
        exists r. split; [reflexivity|]. split; [reflexivity|exact H].
      * right. exists (b :: l1), b', c', l2, r. split; [cbn [app]; f_equal; exact E|exact R].
    + intros [H|(l1 & b' & c' & l2 & r & E & R1 & R2)]; [tauto|]. destruct l1 as [|b1 l1].
      * cbn [app] in E. injection E as E1 E2 _. subst b' c'. left. right. rewrite R1. exact R2.
      * cbn [app] in E. injection E as _ E. right. exists l1, b', c', l2, r. tauto.
Qed.
Theorem C110_blocked_iff :
  forall (G : trig F64) (prob : F64 -> F64) (P : gcfg F64) (g : gplanner F64) par s l,
  pi_blocked (getPathInfo F64 G f64_fl f64_cl f64_rnd prob P g (par :: s :: l)) = true <->
  exists l1 b c l2 r, s :: l = l1 ++ b :: c :: l2 /\
    getRiskNode F64 f64_fl P (g_risk F64 f64_cl f64_rnd prob P g) (Nd KNode c b) = Some r /\ ltb F64 (max_cell_risk P) r = true.
Proof.
  intros. unfold getPathInfo. rewrite info_blocked_iff. cbn [no_info pi_blocked]. split; [intros [H|H]; [discriminate|exact H]|right; assumption].
Qed.
Print Assumptions C110_blocked_iff.

(** The path message with risks: one risk per pose, that of the path cell the pose stands for. *)
Theorem C110_risk_message :
  forall (G : trig F64) (prob : F64 -> F64) (P : gcfg F64) (g : gplanner F64),
  is_finite (cell_scale P : f64) = true -> bpow radix2 (-20) <= B2R (cell_scale P : f64) <= bpow radix2 20 ->
  (forall c, In c (g_path g) -> (Z.abs (cx c) <= 2 ^ 31 /\ Z.abs (cy c) <= 2 ^ 31 /\ Z.abs (cz c) <= 2 ^ 31)%Z) ->
  snd (getPathWithRiskMsg F64 G f64_fl f64_cl f64_rnd prob P g) = map (g_risk F64 f64_cl f64_rnd prob P g) (g_path g) /\
  map gp_pos (fst (getPathWithRiskMsg F64 G f64_fl f64_cl f64_rnd prob P g)) = map (centre F64 (cell_scale P)) (g_path g).
Proof.
  intros G prob P g Hf Hs Hc. unfold getPathWithRiskMsg. cbn [fst snd]. destruct (C57_path_message F64 G P g (g_path g)) as (E & _).
  split; [|exact E]. rewrite <- (map_map gp_pos (fun q => g_risk F64 f64_cl f64_rnd prob P g (cell_of F64 f64_fl (cell_scale P) q))), E, map_map.
  apply map_ext_in. intros c I. destruct (Hc c I) as (A & B & C). rewrite (C51_roundtrip_double (cell_scale P) c Hf Hs A B C). reflexivity.
Qed.
Print Assumptions C110_risk_message.

(** "The path is the cheapest one, up to the overestimate factor" is false. Here the vehicle is at the edge of the known, free space (y >= 1) and flies four
    cells along the edge; turning costs nothing, the parameters are within the limits of the reconfiguration file and the search overestimates by 1.03 only.
    The returned path stays in the unknown cells, although the way through the free space beside is also legal and costs less than 5/8 of it. (The estimate of
    the risk on the way to the goal assumes that all of it is unknown, use_risk_heuristics_.) *)
Definition ex_Pc : gcfg F64 :=
  GCfg (g64 1 1) (g64 5 1) KNoSmooth 1 10 (g64 1 5) (g64 0 1) (g64 3 1) (g64 1000 1) (g64 1 1) (g64 1 100) (g64 5 1) (g64 1 1) (g64 1 2)
       (g64 103 100) (g64 103 100) (g64 1 2) (g64 1 1) (g64 3 1) true true true true true (g64 0 1).
Definition ex_edge (c : gcell) : option F64 := if (cy c <=? 0)%Z then None else Some (g64 (-4) 1).
Definition ex_plc : gplanner F64 :=
  GPl (GMap (Some ex_edge) (Some (g64 1 1)) []) [] [] (V3 (g64 1 2) (g64 1 2) (g64 3 2)) (g64 0 1) ex_zero (GC (C3 4 0 1) (g64 1 1) false) false false false (g64 1 1) [] 2000.
Definition path_found (r : option (bool * gplanner F64)) : option (list gcell) := match r with Some (true, g) => Some (g_path g) | _ => None end.
Definition ex_found : option (list gcell) :=
  path_found (getGlobalPath F64 trig0 f64_fl f64_cl f64_rnd ex_prob ltinf64 (pop_min F64) (pop_min F64) 20 ex_Pc ex_plc).
Definition ex_straight : list gcell := map (fun x => C3 x 0 1) [0; 0; 1; 2; 3; 4]%Z.
Definition ex_beside : list gcell := [C3 0 0 1; C3 0 0 1; C3 1 1 1; C3 2 1 1; C3 3 1 1; C3 4 0 1].
Definition ex_info (p : list gcell) : pinfo F64 := getPathInfo F64 trig0 f64_fl f64_cl f64_rnd ex_prob ex_Pc ex_plc p.
Theorem C110_cheapest_refuted :
  prob_ok ex_prob /\ is_pop (@pop_min ptr F64) /\ is_pop (@pop_min gcell F64) /\ sane ex_Pc /\ ex_found = Some ex_straight /\
  good_path F64 f64_fl f64_cl f64_rnd ex_prob ex_Pc ex_plc (start_cell F64 f64_fl ex_Pc ex_plc) (behind_cell F64 f64_fl ex_Pc ex_plc) ex_straight /\
  good_path F64 f64_fl f64_cl f64_rnd ex_prob ex_Pc ex_plc (start_cell F64 f64_fl ex_Pc ex_plc) (behind_cell F64 f64_fl ex_Pc ex_plc) ex_beside /\
  ltb F64 (mul F64 (g64 8 5) (pi_cost (ex_info ex_beside))) (pi_cost (ex_info ex_straight)) = true.
Proof.
  split. { intros l. unfold ex_prob, unitv, nneg. destruct (ltb F64 (g64 0 1) l); vm_compute; split; reflexivity. }
  split; [apply is_pop_min|]. split; [apply is_pop_min|]. split. { split; vm_compute; reflexivity. }
  split. { vm_compute. reflexivity. }
  assert (S : start_cell F64 f64_fl ex_Pc ex_plc = C3 0 0 1) by (vm_compute; reflexivity).
  assert (B : behind_cell F64 f64_fl ex_Pc ex_plc = C3 0 0 1) by (vm_compute; reflexivity).
  rewrite S, B.
  assert (Gp : forall l, linked adjacent (C3 0 0 1 :: l) ->
      forallb (fun x => isLegal F64 f64_fl ex_Pc (g_risk F64 f64_cl f64_rnd ex_prob ex_Pc ex_plc) (Nd KNoSmooth (snd x) (fst x))) (combine (C3 0 0 1 :: l) l) = true ->
      near_goal F64 (cell_scale ex_Pc) (g_goal ex_plc) (last l (C3 0 0 1)) ->
      good_path F64 f64_fl f64_cl f64_rnd ex_prob ex_Pc ex_plc (C3 0 0 1) (C3 0 0 1) (C3 0 0 1 :: C3 0 0 1 :: l)).
  { intros l L F Ng. exists KNoSmooth, l. split; [reflexivity|]. split; [|exact Ng]. clear Ng. revert L F. 
    cut (forall p c, linked adjacent (c :: l) ->
      forallb (fun x => isLegal F64 f64_fl ex_Pc (g_risk F64 f64_cl f64_rnd ex_prob ex_Pc ex_plc) (Nd KNoSmooth (snd x) (fst x))) (combine (c :: l) l) = true ->
      flyable F64 (cell_scale ex_Pc) (speednode_radius ex_Pc) (isLegal F64 f64_fl ex_Pc (g_risk F64 f64_cl f64_rnd ex_prob ex_Pc ex_plc)) KNoSmooth p c l); [intros K; apply K|].
    induction l as [|d l IH]; intros p c L F; [exact I|]. cbn [flyable]. cbn [combine forallb fst snd] in F. apply andb_true_iff in F as [F1 F2].
    destruct L as [L1 L2]. split; [exact L1|]. split; [exact F1|]. apply IH; assumption. }
  split; [|split].
  - apply (Gp (map (fun x => C3 x 0 1) [1; 2; 3; 4]%Z)); [|vm_compute; reflexivity|vm_compute; reflexivity].
    repeat (split; [split; [discriminate|cbn; lia]|]). exact I.
  - apply (Gp [C3 1 1 1; C3 2 1 1; C3 3 1 1; C3 4 0 1]); [|vm_compute; reflexivity|vm_compute; reflexivity].
    repeat (split; [split; [discriminate|cbn; lia]|]). exact I.
  - vm_compute. reflexivity.
Qed.
Print Assumptions C110_cheapest_refuted.
(** The same paths as examples for the theorems above. *)
Example C110_example :
  map (fun p => (f64_rnd (mul F64 (ofZ F64 100) (pi_cost (ex_info p))), f64_rnd (mul F64 (ofZ F64 100) (pi_dist (ex_info p))), pi_blocked (ex_info p))) [ex_straight; ex_beside] =
  [(1466, 400, false); (881, 483, false)]%Z.
Proof. vm_compute. reflexivity. Qed.
