(** Property C52: the paths of the global planner. *)
From Coq Require Import ZArith Reals List Bool Lia Lra Permutation.
From Flocq Require Import Core BinarySingleNaN.
From Verif Require Import Num Num64 F64Err CommonModel CommonSpec GpModel GpSearch GpAstar GpPlan GpNode GpSpec GpPlanSpec GpNodeSpec GpProofs GpArith GpCellProofs
  GpMiscProofs GpCostProofs GpPlanProofs GpNodeProofs GpNodeProofs2 GpNodeProofs3 GpF64 GpF64b GpProps1.
Import ListNotations.
Local Open Scope R_scope.

(* ---------------------------------------------------------------------------------------------- C52 *)
(** C52. With the doubles of the program, whatever the map, the costs, the start, the goal and the bound, and whichever of several equally good entries the
    priority queue hands out: the search returns, has expanded at most max_iter nodes, and if it reports success the path is parent, start, and moves that the
    node type offers and the map judges legal, ending inside the goal's planning radius. *)
Theorem C52_search :
  forall (G : trig F64) (prob : F64 -> F64) popS (P : gcfg F64) (g : gplanner F64) over k s par t mi,
  prob_ok prob -> is_pop popS -> sane P -> cache_nonneg (g_cache g) ->
  let risk := g_risk F64 f64_cl f64_rnd prob P g in
  let legal := isLegal F64 f64_fl P risk in
  exists found it path,
    findSmoothPath F64 (cell_scale P) (speednode_radius P) legal (getEdgeCost F64 G f64_fl P risk (g_pos g) (g_vel g))
      (getHeuristic F64 G f64_rnd P risk over (gc_cell t)) ltinf64 popS (Nd k s par) t mi = Some (found, it, path) /\
    (0 <= it <= Z.max 0 mi)%Z /\ (found = false -> path = []) /\
    (found = true -> exists l, path = par :: s :: l /\ flyable F64 (cell_scale P) (speednode_radius P) legal k par s l /\
       near_goal F64 (cell_scale P) t (last l s)).
Proof. intros. apply (search_spec F64 ltinf64 arith64 G f64_fl f64_cl f64_rnd prob popS); assumption. Qed.
Print Assumptions C52_search.
(** what "legal" means: below the maximum altitude, and the mean risk of the cells along the move, times its length, is below the limit *)
Theorem C52_legal :
  forall (P : gcfg F64) (risk : gcell -> F64) n, isLegal F64 f64_fl P risk n = true <->
  ltb F64 (pos1 F64 (cell_scale P) (cz (n_cell n))) (ofZ F64 (max_altitude P)) = true /\
  (getCells F64 f64_fl (cell_scale P) n <> [] /\
   ltb F64 (mul F64 (div F64 (fold_left (fun r c => add F64 r (risk c)) (getCells F64 f64_fl (cell_scale P) n) (ofZ F64 0))
                             (ofZ F64 (Z.of_nat (length (getCells F64 f64_fl (cell_scale P) n)))))
                    (distance3D F64 (cell_scale P) (n_par n) (n_cell n))) (max_cell_risk P) = true).
Proof.
  intros P risk n. unfold isLegal, getRiskNode, getLength. rewrite andb_true_iff. destruct (getCells F64 f64_fl (cell_scale P) n) as [|c l].
  - split; [intros (_ & X); discriminate X|]. intros (_ & X & _). contradiction.
  - split; [intros (A & B)|intros (A & _ & B)]; (split; [exact A|]); [split; [discriminate|exact B]|exact B].
Qed.
Print Assumptions C52_legal.
(** Planning: a reported path is one of the normal search, or of the last resort; the vehicle's cell is free and so is the goal, if required. If planning
    reports failure the path is the old one. *)
Theorem C52_global_path :
  forall (G : trig F64) (prob : F64 -> F64) popS popO (P : gcfg F64) (g : gplanner F64) fuel b g',
  prob_ok prob -> is_pop popS -> is_pop popO -> sane P -> cache_nonneg (g_cache g) ->
  getGlobalPath F64 G f64_fl f64_cl f64_rnd prob ltinf64 popS popO fuel P g = Some (b, g') ->
  (b = true -> (good_path F64 f64_fl f64_cl f64_rnd prob P g (start_cell F64 f64_fl P g) (behind_cell F64 f64_fl P g) (g_path g') \/
                fallback_path F64 f64_fl f64_cl f64_rnd prob P g (start_cell F64 f64_fl P g) (g_path g')) /\
     isOccupied F64 f64_rnd prob P (g_map g) (cell_of F64 f64_fl (cell_scale P) (g_pos g)) = false /\
     (goal_must_be_free P = true -> ltb F64 (max_cell_risk P) (g_risk F64 f64_cl f64_rnd prob P g (gc_cell (g_goal g))) = false)) /\
  (b = false -> g_path g' = g_path g).
Proof.
  intros G prob popS popO P g fuel b g' H1 H2 H3 H4 H5 E.
  eapply (getGlobalPath_spec F64 ltinf64 arith64) in E; eauto. destruct E as (A & B & _). split; [intros X; destruct (A X) as (A1 & A2 & A3 & _); auto|exact B].
Qed.
Print Assumptions C52_global_path.
(** Every path the node publishes, in any history of messages since its start: good or of the last resort for the present position, velocity, map and one of
    the goals waiting, or the path published before, or the cell the vehicle is in. *)
Theorem C52_every_published_path :
  forall (G : trig F64) (prob : F64 -> F64) popS popO (C : ncfg F64) fuel start over mi es s o touched s' o',
  prob_ok prob -> is_pop popS -> is_pop popO -> sane (nc_gp C) ->
  nrun F64 G f64_fl f64_cl f64_rnd prob ltinf64 popS popO C fuel (ninit F64 f64_fl C start over mi) es = Some (s, o) ->
  nstep F64 G f64_fl f64_cl f64_rnd prob ltinf64 popS popO C fuel s (EPlan touched) = Some (s', o') ->
  let p := g_path (ns_pl s') in let P := nc_gp C in let here := cell_of F64 f64_fl (cell_scale P) (g_pos (ns_pl s)) in
  In (OTempPath (path_poses F64 G (cell_scale P) (g_yaw (ns_pl s)) p)) o' /\
  exists g0, g_pos g0 = g_pos (ns_pl s) /\ g_vel g0 = g_vel (ns_pl s) /\ g_map g0 = g_map (ns_pl s) /\ g_cache g0 = g_cache (ns_pl s) /\
    (In (g_goal g0) (agenda s) \/ gc_cell (g_goal g0) = here) /\
    (good_path F64 f64_fl f64_cl f64_rnd prob P g0 (start_cell F64 f64_fl P g0) (behind_cell F64 f64_fl P g0) p \/
     fallback_path F64 f64_fl f64_cl f64_rnd prob P g0 (start_cell F64 f64_fl P g0) p \/
     p = g_path (ns_pl s) \/ p = [here]).
Proof.
  intros G prob popS popO C fuel start over mi es s o touched s' o' H1 H2 H3 H4 HR HS p P here.
  assert (K : cache_nonneg (g_cache (ns_pl s))).
  { eapply (run_cache F64 ltinf64 arith64); [..|exact HR|]; auto. intros c r []. }
  cbn [nstep] in HS. eapply (plannerLoop_path F64 ltinf64 arith64) in HS; eauto.
  destruct HS as (_ & g0 & A1 & A2 & A3 & A4 & A5 & A6 & A7). split; [exact A7|]. exists g0. auto 10.
Qed.
Print Assumptions C52_every_published_path.
(** The last resort does not keep its promise of a safe altitude: its cruise cells are the ones whose index is the maximum altitude, whose centre is above
    it; and for cells of 2 m it looks for a path to and along quite different cells, because indices are taken for coordinates. *)
Theorem C52_fallback_altitude_refuted :
  (forall (P : gcfg Rn) c, cell_scale P = 1 -> cz (above Rn Rfl P c) = max_altitude P /\ IZR (max_altitude P) < pos1 Rn (cell_scale P) (cz (above Rn Rfl P c))) /\
  (forall (P : gcfg Rn) c, cell_scale P = 2 -> cx (above Rn Rfl P c) = (cx c / 2)%Z /\ cz (above Rn Rfl P c) = (max_altitude P / 2)%Z).
Proof.
  assert (D : forall z, Zfloor (IZR z / 2) = (z / 2)%Z).
  { intros z. apply Zfloor_imp. pose proof (Z.div_mod z 2 ltac:(lia)) as E. pose proof (Z.mod_pos_bound z 2 ltac:(lia)) as M.
    set (q := (z / 2)%Z) in *. set (r := (z mod 2)%Z) in *. rewrite E at 1 2. rewrite !plus_IZR, mult_IZR. destruct M as (M1 & M2).
    apply IZR_le in M1. assert (r <= 1)%Z as M3 by lia. apply IZR_le in M3. lra. }
  split; intros P c Hs; unfold above, cell_of, Rfl; cbn [cx cz vx vz]; rn; tR; rewrite !Hs.
  - replace (IZR (max_altitude P) / 1) with (IZR (max_altitude P)) by field. rewrite Zfloor_IZR. split; [reflexivity|].
    rewrite pos1_R. lra.
  - rewrite !D. auto.
Qed.
Print Assumptions C52_fallback_altitude_refuted.
(** A run of the node in doubles: a map with one obstacle, a pose, a goal behind the obstacle, one planning cycle. The path goes around. *)
Definition ex_P2 : gcfg F64 :=
  GCfg (g64 1 1) (g64 5 1) KNoSmooth 1 10 (g64 1 5) (g64 20 1) (g64 3 1) (g64 500 1) (g64 1 1) (g64 5 1000) (g64 5 1) (g64 1 1) (g64 1 2)
       (g64 3 2) (g64 2 1) (g64 1 2) (g64 1 1) (g64 3 1) true true true true true (g64 0 1).
Definition ex_C2 : ncfg F64 := NCfg ex_P2 (g64 7 2) (g64 1 1) 1 (g64 101 100).
Definition ex_init2 : nstate F64 := ninit F64 f64_fl ex_C2 ex_zero (g64 1 1) 2000.
Definition ex_events : list (nev F64) :=
  [EMap true (Some ex_tree) (g64 1 1); EPose (GP (V3 (g64 1 2) (g64 1 2) (g64 7 2)) (g64 0 1)); EGoal (g64 9 2) (g64 1 2); EPlan []].
Definition ex_run2 : option (nstate F64 * list (nout F64)) :=
  nrun F64 trig0 f64_fl f64_cl f64_rnd ex_prob ltinf64 (pop_min F64) (pop_min F64) ex_C2 20 ex_init2 ex_events.
Definition path_of (r : option (nstate F64 * list (nout F64))) : list gcell * nat := match r with Some (s, o) => (g_path (ns_pl s), length o) | None => ([], O) end.
Example C52_example :
  prob_ok ex_prob /\ is_pop (@pop_min ptr F64) /\ is_pop (@pop_min gcell F64) /\ sane ex_P2 /\
  path_of ex_run2 = ([C3 0 0 3; C3 0 0 3; C3 1 1 3; C3 2 1 3; C3 3 1 3; C3 4 0 3], 6%nat).
Proof.
  split. { intros l. unfold ex_prob, unitv, nneg. destruct (ltb F64 (g64 0 1) l); vm_compute; split; reflexivity. }
  split; [apply is_pop_min|]. split; [apply is_pop_min|]. split. { split; vm_compute; reflexivity. }
  vm_compute. reflexivity.
Qed.
