(** Property theorems for local_planner/src/nodes/star_planner.cpp (C31, C32, C64). *)
From Coq Require Import ZArith Reals List Bool Lia Lra Arith.
From Flocq Require Import Core BinarySingleNaN.
From Verif Require Import Num Mat CommonModel CommonSpec HistModel HistProofs PfModel PfSpec PfProofs3 PfProps StarModel StarSpec StarProofs StarProofs2.
Import ListNotations.

(** C31. For every number system, trigonometry, candidate computation and parameters. [cands p v] are the candidate directions
    computed for a node at p with velocity v. *)
Theorem C31_tree_bounded :
  forall (N : num) (G : trig N) (huge : N) (cands : vec3 N -> vec3 N -> option (list (candidate N))) (P : star_params N) (r : star_result N),
  (0 <= children_per_node P)%Z -> buildLookAheadTree N G huge cands P = Some r ->
  (exists root, nth_error (r_tree r) 0 = Some root /\ n_pos root = sp_position P /\ n_depth root = 0%nat) /\
  (forall i t, (0 < i)%nat -> nth_error (r_tree r) i = Some t ->
     (n_origin t < i)%nat /\ In (n_origin t) (r_closed r) /\
     exists o, nth_error (r_tree r) (n_origin t) = Some o /\ n_depth t = S (n_depth o)) /\
  (Z.of_nat (length (r_tree r)) <= 1 + Z.max 0 (n_expanded_nodes P) * children_per_node P)%Z /\
  (Z.of_nat (length (r_closed r)) <= Z.max 0 (n_expanded_nodes P))%Z /\
  NoDup (r_closed r) /\
  (forall i, In i (r_closed r) -> (i < length (r_tree r))%nat) /\
  (forall i t, nth_error (r_tree r) i = Some t -> (n_closed t = true <-> In i (r_closed r))).
Proof.
  intros N G huge cands P r Hc E. destruct (build_inv N G huge cands P r Hc E) as (l & I & L & _).
  split; [destruct (ti_root _ _ _ _ _ _ _ _ _ I) as (t & H1 & H2 & _ & H3); eauto|]. split.
  { intros i t Hi Et. destruct (ti_par _ _ _ _ _ _ _ _ _ I i t Hi Et) as (H1 & H2 & o & H3 & c & cs & H). split; [exact H1|]. split; [exact H2|].
    exists o. split; [exact H3|]. destruct H as (_ & _ & _ & _ & _ & _ & H). lia. }
  assert (L' : (Z.of_nat (length (r_closed r)) <= Z.max 0 (n_expanded_nodes P))%Z) by lia.
  split. { pose proof (ti_len _ _ _ _ _ _ _ _ _ I) as X. nia. }
  split; [exact L'|]. split; [apply I|]. split; [apply I|apply I].
Qed.
Print Assumptions C31_tree_bounded.
(** The construction always terminates without undefined behaviour: real arithmetic with the candidate computation of
    planner_functions.cpp, at least one child per node, smoothing margin between 0 and 180 degrees. *)
Theorem C31_always_completes :
  forall (cast : R -> Z) (top : list (candidate Rn) -> option (candidate Rn * list (candidate Rn))) (huge : R)
    (cloud : list (xyzi Rn)) (cp : costParameters Rn) (margin : R) (closest : vec3 Rn) (max_range min_range : R) (P : star_params Rn),
  is_priority_queue Rn top -> (0 <= margin <= 180)%R -> (1 <= children_per_node P)%Z ->
  exists r, buildLookAheadTree Rn Rtrig huge
    (starCandidates Rn Rtrig cast (ZnearestA : Rn -> Z) (Zceil : Rn -> Z) top cloud (sp_goal P) cp margin closest max_range min_range (children_per_node P)) P
    = Some r.
Proof.
  intros. apply build_total; [lia|]. intros p v X.
  destruct (starCandidates_total cast top cloud (sp_goal P) cp margin closest max_range min_range (children_per_node P) p v) as (cs & E & _); auto.
  congruence.
Qed.
Print Assumptions C31_always_completes.
(** ... but children_per_node_ = 0, which the parameter server accepts, is undefined behaviour as soon as a node is expanded. *)
Theorem C31_zero_children_refuted :
  forall (cast : R -> Z) (top : list (candidate Rn) -> option (candidate Rn * list (candidate Rn))) (huge : R)
    (cloud : list (xyzi Rn)) (cp : costParameters Rn) (margin : R) (closest : vec3 Rn) (max_range min_range : R) (P : star_params Rn),
  is_priority_queue Rn top -> (0 <= margin <= 180)%R -> children_per_node P = 0%Z -> (1 <= n_expanded_nodes P)%Z ->
  buildLookAheadTree Rn Rtrig huge
    (starCandidates Rn Rtrig cast (ZnearestA : Rn -> Z) (Zceil : Rn -> Z) top cloud (sp_goal P) cp margin closest max_range min_range (children_per_node P)) P
    = None.
Proof.
  intros. unfold buildLookAheadTree. destruct (Z.to_nat (n_expanded_nodes P)) as [|n] eqn:En; [lia|]. cbn [expandLoop starInit ss_go].
  unfold expandOnce. cbn [starInit ss_tree ss_origin nth_error n_pos n_vel]. rewrite H1, starCandidates_zero by assumption. reflexivity.
Qed.
Print Assumptions C31_zero_children_refuted.

(** C32. The path is the list of positions on the chain of parents from a deepest open node to the root. *)
Theorem C32_path_is_root_path :
  forall (N : num) (G : trig N) (huge : N) (cands : vec3 N -> vec3 N -> option (list (candidate N))) (P : star_params N) (r : star_result N),
  (0 <= children_per_node P)%Z -> buildLookAheadTree N G huge cands P = Some r ->
  exists leaf t chain,
    nth_error (r_tree r) leaf = Some t /\
    (leaf = 0%nat \/ n_closed t = false) /\
    (forall i u, nth_error (r_tree r) i = Some u -> n_closed u = false -> (n_depth u <= n_depth t)%nat) /\
    root_chain N (r_tree r) leaf chain /\
    r_path r = map n_pos chain /\
    length (r_path r) = S (n_depth t) /\
    (exists p, r_path r = p ++ [sp_position P]) /\
    (forall k u v, nth_error chain k = Some u -> nth_error chain (S k) = Some v -> child_of N G huge cands P v u).
Proof.
  intros N G huge cands P r Hc E. destruct (build_inv N G huge cands P r Hc E) as (l & I & L & R & Ep).
  assert (Hne : r_tree r <> []). { destruct (ti_root _ _ _ _ _ _ _ _ _ I) as (t & Et & _). intros X. rewrite X in Et. discriminate. }
  destruct (deepest_spec N (r_tree r) Hne) as (D1 & D2 & D3).
  destruct (nth_error (r_tree r) (deepest N (r_tree r))) as [t|] eqn:Et; [|apply nth_error_None in Et; lia].
  exists (deepest N (r_tree r)), t, l. split; [exact Et|]. split.
  { destruct D2 as [D2|(t' & D2 & D2')]; [now left|right; congruence]. }
  split. { intros i u Eu Hu. destruct (D3 t eq_refl i u Eu Hu) as [H|(_ & H)]; lia. }
  split; [exact R|]. split; [exact Ep|]. split. { rewrite Ep, map_length. exact (chain_length _ _ _ _ _ _ _ _ _ _ _ _ I R Et). }
  split. { destruct (chain_last _ _ _ _ _ _ _ _ _ _ _ I R) as (l' & q & -> & Hq). rewrite Ep, map_app. cbn [map]. rewrite Hq. eauto. }
  exact (chain_edges _ _ _ _ _ _ _ _ _ _ _ I R).
Qed.
Print Assumptions C32_path_is_root_path.

(** C64, real arithmetic. *)
Theorem C64_tree_geometry :
  forall (huge : R) (cands : vec3 Rn -> vec3 Rn -> option (list (candidate Rn))) (P : star_params Rn) (r : star_result Rn),
  (0 <= children_per_node P)%Z -> (0 <= tree_node_distance P)%R -> buildLookAheadTree Rn Rtrig huge cands P = Some r ->
  (forall i j s t, i <> j -> nth_error (r_tree r) i = Some s -> nth_error (r_tree r) j = Some t ->
     (1 / 5 <= v3norm Rn (v3sub Rn (n_pos s) (n_pos t)))%R) /\
  (forall i t, (0 < i)%nat -> nth_error (r_tree r) i = Some t -> exists o, nth_error (r_tree r) (n_origin t) = Some o /\
     child_of Rn Rtrig huge cands P o t /\ v3norm Rn (v3sub Rn (n_pos t) (n_pos o)) = tree_node_distance P) /\
  (forall i t, In i (r_closed r) -> (0 < i)%nat -> nth_error (r_tree r) i = Some t ->
     (v3norm Rn (v3sub Rn (n_pos t) (sp_position P)) < max_path_length P)%R).
Proof.
  intros huge cands P r Hc Hd E. destruct (build_inv Rn Rtrig huge cands P r Hc E) as (l & I & L & R & Ep).
  split; [|split].
  - assert (S : forall i j s t, (i < j)%nat -> nth_error (r_tree r) i = Some s -> nth_error (r_tree r) j = Some t ->
      (1 / 5 <= v3norm Rn (v3sub Rn (n_pos s) (n_pos t)))%R).
    { intros i j s t Hij Es Et. pose proof (ti_space _ _ _ _ _ _ _ _ _ I i j s t Hij Es Et) as X. apply R_ltb_false in X. rewrite cst_Rn in X. exact X. }
    intros i j s t Hij Es Et. destruct (Nat.lt_total i j) as [H|[H|H]]; [eauto|contradiction|].
    replace (v3norm Rn (v3sub Rn (n_pos s) (n_pos t))) with (v3norm Rn (v3sub Rn (n_pos t) (n_pos s))); [eauto|].
    unfold v3norm, v3sqnorm, v3sub. cbn [vx vy vz]. rn. f_equal. tR. ring.
  - intros i t Hi Et. destruct (ti_par _ _ _ _ _ _ _ _ _ I i t Hi Et) as (_ & _ & o & Eo & Hch). exists o. split; [exact Eo|]. split; [exact Hch|].
    destruct Hch as (c & cs & _ & _ & Hp & _). rewrite Hp. apply polar_dist. exact Hd.
  - intros i t Hin Hi Et. pose proof (ti_near _ _ _ _ _ _ _ _ _ I i t Hin Hi Et) as X. apply R_ltb_true in X. exact X.
Qed.
Print Assumptions C64_tree_geometry.
(** best first: after every expansion the node expanded next is a cheapest open node within the maximal path length, and the
    search stops early only if no such node has a cost below HUGE_VAL *)
Theorem C64_best_first :
  forall (G : trig Rn) (huge : R) (cands : vec3 Rn -> vec3 Rn -> option (list (candidate Rn))) (P : star_params Rn) (s s' : star_state Rn),
  expandOnce Rn G huge cands P s = Some s' ->
  let eligible i t := nth_error (ss_tree s') i = Some t /\ n_closed t = false /\
                      (v3norm Rn (v3sub Rn (n_pos t) (sp_position P)) < max_path_length P)%R in
  (ss_go s' = true -> exists t, eligible (ss_origin s') t /\ (n_total t < huge)%R /\ forall i t', eligible i t' -> (n_total t <= n_total t')%R) /\
  (ss_go s' = false -> forall i t', eligible i t' -> (huge <= n_total t')%R).
Proof.
  intros G huge cands P s s' E eligible. pose proof (expand_best G huge cands P s s' E) as X. destruct (ss_go s'); split; intros H; try discriminate.
  - destruct X as (t & H1 & H2 & H3 & H4 & H5). exists t. split; [unfold eligible; auto|]. split; [exact H4|]. intros i t' (A & B & C). eauto.
  - intros i t' (A & B & C). eauto.
Qed.
Print Assumptions C64_best_first.

(** Examples, in binary32: two candidates per node (straight on and to the side), three expansions. *)
Definition ex_cands (p v : vec3 F32) : option (list (candidate F32)) :=
  Some [Cand (ofZ F32 3) (ofZ F32 0) (ofZ F32 0); Cand (ofZ F32 5) (ofZ F32 0) (ofZ F32 20)].
Definition ex_P : star_params F32 := SP 2 3 (ofZ F32 1) (ofZ F32 15) (ofZ F32 35) (fpt 0 10 0) (fpt 0 0 0) (fpt 0 0 0).
Example C31_example :
  option_map (fun r => (length (r_tree r), r_closed r)) (buildLookAheadTree F32 f32tr (ofZ F32 1000000000) ex_cands ex_P) = Some (7%nat, [0; 1; 3]%nat) /\
  (0 <= children_per_node ex_P)%Z.
Proof. split; [vm_compute; reflexivity|cbn; lia]. Qed.
Example C32_example :
  option_map (fun r : star_result F32 => map (fun p : vec3 F32 => [f32_cast (vx p); f32_cast (vy p)]) (r_path r)) (buildLookAheadTree F32 f32tr (ofZ F32 1000000000) ex_cands ex_P) =
  Some [[0; 3]; [0; 2]; [0; 1]; [0; 0]]%Z.
Proof. vm_compute. reflexivity. Qed.
Example C64_example : exists (cast : R -> Z) (top : list (candidate Rn) -> option (candidate Rn * list (candidate Rn))),
  is_priority_queue Rn top /\ (0 <= 40 <= 180)%R.
Proof. exists (fun _ => 0%Z), (scan_top Rn). split; [exact (scan_top_pq Rn ordered_Rn)|lra]. Qed.
