(** C122. The made-up data sent to the global planner. *)
From Coq Require Import ZArith List Bool Lia String.
From Verif Require Import Num Num64 CommonModel CommonSpec GpModel GpSearch GpPlan GpNode PfModel CamModel MdModel GpSpec GpPlanSpec GpNodeSpec GpProofs GpArith GpMiscProofs
  GpCostProofs GpPlanProofs GpF64 GpProps1 CamProofs GpNodeProofs.
Import ListNotations.
Local Open Scope Z_scope.

(** a point of the wall [dist] ahead, from -[width] to [width] across, from the ground to [height]: the middles of the unit cubes there *)
Definition on_wall (N : num) (dist width height : Z) (p : vec3 N) : Prop :=
  exists i j, - width <= i <= width /\ 0 <= j <= height /\
    p = V3 (add N (ofZ N dist) (cst N 1 2)) (add N (ofZ N i) (cst N 1 2)) (add N (ofZ N j) (cst N 1 2)).

Lemma in_zrange lo hi x : In x (zrange lo hi) <-> lo <= x <= hi.
Proof.
  unfold zrange. rewrite in_map_iff. split.
  - intros (k & <- & Hk). apply in_seq in Hk. lia.
  - intros H. exists (Z.to_nat (x - lo)). split; [lia|]. apply in_seq. lia.
Qed.
Lemma zrange_length lo hi : List.length (zrange lo hi) = Z.to_nat (hi - lo + 1).
Proof. unfold zrange. rewrite map_length, seq_length. reflexivity. Qed.
Lemma in_wall N d w h p : In p (createWall N d w h) <-> on_wall N d w h p.
Proof.
  unfold createWall, on_wall. rewrite in_flat_map. split.
  - intros (i & Hi & Hp). apply in_map_iff in Hp. destruct Hp as (j & <- & Hj). rewrite in_zrange in Hi, Hj. exists i, j. auto.
  - intros (i & j & Hi & Hj & ->). exists i. rewrite in_zrange. split; [exact Hi|]. apply in_map_iff. exists j. rewrite in_zrange. auto.
Qed.
Lemma flat_const {A B} (f : A -> list B) n l : (forall x, List.length (f x) = n) -> List.length (flat_map f l) = (List.length l * n)%nat.
Proof. intros H. induction l as [|a l IH]; cbn [flat_map length Nat.mul]; [reflexivity|]. rewrite app_length, H, IH. reflexivity. Qed.
Lemma wall_length N d w h : 0 <= w -> 0 <= h -> Z.of_nat (List.length (createWall N d w h)) = (2 * w + 1) * (h + 1).
Proof.
  intros Hw Hh. unfold createWall. rewrite (flat_const _ (Z.to_nat (h + 1))).
  - rewrite zrange_length, Nat2Z.inj_mul. lia.
  - intros i. rewrite map_length, zrange_length. f_equal. lia.
Qed.

(** C122. For every size of the wall: the points sent are those of the wall; the wall fits in if it has at most 100 points, and then, if it has fewer, the cloud has the origin
    as a further point. *)
Theorem C122_cloud :
  forall (N : num) d w h, 0 <= w -> 0 <= h ->
  let n := (2 * w + 1) * (h + 1) in
  (sendMockData N (createWall N d w h) = None <-> 100 < n) /\
  (forall pts, sendMockData N (createWall N d w h) = Some pts ->
     List.length pts = 100%nat /\
     forall p, In p pts <-> on_wall N d w h p \/ (n < 100 /\ p = V3 (ofZ N 0) (ofZ N 0) (ofZ N 0))).
Proof.
  intros N d w h Hw Hh n. pose proof (wall_length N d w h Hw Hh) as L. fold n in L. clearbody n. unfold sendMockData. rewrite L.
  destruct (100 <? n) eqn:E; [apply Z.ltb_lt in E|apply Z.ltb_ge in E].
  - split; [tauto|discriminate].
  - split; [split; [discriminate|lia]|]. intros pts Hp. apply (f_equal (fun o => match o with Some l => l | None => [] end)) in Hp. cbv beta iota in Hp. subst pts. split.
    + rewrite app_length, repeat_length. lia.
    + intros p. rewrite in_app_iff, in_wall. apply or_iff_compat_l. split.
      * intros H. pose proof (repeat_spec _ _ _ H) as ->. split; [|reflexivity].
        destruct (Z.eq_dec n 100) as [X|]; [|lia]. rewrite X in H. destruct H.
      * intros (Hn & ->). destruct (Z.to_nat (100 - n)) eqn:K; [lia|]. left. reflexivity.
Qed.
Print Assumptions C122_cloud.

(** The wall the node sends has 77 points. The other 23 are at the origin of the camera's frame, where there is no wall: the planner takes the cell the camera itself is in
    for an obstacle cell, whatever the transform. *)
Theorem C122_camera_in_obstacle_refuted :
  forall (N : num) (fl : N -> Z) (C : ncfg N) tf frame s now fr stamp g s' m pts,
  sendMockData N (mock_wall N) = Some pts ->
  tf frame now = Some g -> isnanb N (vx (g (V3 (ofZ N 0) (ofZ N 0) (ofZ N 0)))) = false ->
  cameraCallback N fl C tf frame s now (CloudMsg fr stamp pts) = (s', m) ->
  In (cell_of N fl (cell_scale (nc_gp C)) (g (V3 (ofZ N 0) (ofZ N 0) (ofZ N 0)))) (occupied (g_map (ns_pl s'))).
Proof.
  intros N fl C tf frame s now fr stamp g s' m pts Hp Hg Hn H.
  apply (camera_adds N fl C tf frame s now _ s' m _ H). right. exists g, (V3 (ofZ N 0) (ofZ N 0) (ofZ N 0)). split; [exact Hg|].
  split; [|auto]. cbn [cm_points]. apply (C122_cloud N 5 5 6); [lia|lia|exact Hp|]. right. split; [lia|reflexivity].
Qed.
Print Assumptions C122_camera_in_obstacle_refuted.

(** A wall of more than 100 points is written beyond the end of the cloud. *)
Theorem C122_overrun_refuted : forall (N : num) d h, 6 <= h -> sendMockData N (createWall N d 7 h) = None.
Proof. intros N d h Hh. apply C122_cloud; lia. Qed.
Print Assumptions C122_overrun_refuted.

(** The goal is sent as a clicked point. The planner only prints the risk there: in no state does it change the goals, the path, what is flown to, or the map. *)
Theorem C122_goal_ignored_refuted :
  forall (N : num) (G : trig N) (fl cl rnd : N -> Z) (prob : N -> N) ltinf popS popO (C : ncfg N) fuel s s' o,
  nstep N G fl cl rnd prob ltinf popS popO C fuel s (EClick (clicked_goal N)) = Some (s', o) ->
  o = [] /\ g_goal (ns_pl s') = g_goal (ns_pl s) /\ ns_wps s' = ns_wps s /\ ns_path s' = ns_path s /\ ns_goal s' = ns_goal s /\
  g_path (ns_pl s') = g_path (ns_pl s) /\ g_map (ns_pl s') = g_map (ns_pl s).
Proof.
  intros N G fl cl rnd prob ltinf popS popO C fuel s s' o H. cbn [nstep] in H. unfold clickedPointCallback in H. cbv zeta in H.
  match type of H with context [getRiskC N cl rnd prob ?P ?m ?k ?c] => destruct (getRiskC N cl rnd prob P m k c) as [[r k']|]; [|discriminate] end.
  destruct (octree (g_map (ns_pl s))); [|discriminate]. injection H as <- <-. cbn. auto 10.
Qed.
Print Assumptions C122_goal_ignored_refuted.

(** the wall in front of the vehicle, and the vehicle's cell with it *)
Definition ex_mock : option (list gcell) :=
  match sendMockData F64 (mock_wall F64) with
  | Some l => Some (occupied (g_map (ns_pl (fst (cameraCallback F64 f64_fl ex_C (fun _ _ => Some (fun p => p)) "camera_link" (ninit F64 f64_fl ex_C ex_zero (g64 1 1) 2000)
                     0 (CloudMsg "world" 0 l))))))
  | None => None
  end.
Definition ex_mock_has (c : gcell) : bool := match ex_mock with Some l => cmem c l | None => false end.
Definition ex_fits (w h : Z) : bool := match sendMockData F64 (createWall F64 5 w h) with Some _ => true | None => false end.
Example C122_example :
  map ex_mock_has [C3 5 (-5) 0; C3 5 5 6; C3 0 0 0; C3 5 6 6] = [true; true; true; false] /\ ex_fits 5 6 = true /\ ex_fits 7 6 = false.
Proof. vm_compute. auto. Qed.
