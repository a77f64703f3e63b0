(** C121. The obstacles the global planner remembers from its depth cameras. *)
From Coq Require Import ZArith List Bool String Lia.
From Verif Require Import Num Num64 CommonModel CommonSpec GpModel GpSearch GpPlan GpNode PfModel CamModel GpSpec GpPlanSpec GpNodeSpec GpProofs GpArith GpMiscProofs
  GpCostProofs GpPlanProofs GpF64 GpProps1 CamProofs.
Import ListNotations.

(** Where the points of a cloud really are: [world f t] maps the points measured in frame [f] at time [t] into the map frame. *)
Definition really_in (N : num) (fl : N -> Z) (sc : N) (world : string -> Z -> option (vec3 N -> vec3 N)) (msg : cloudmsg N) (c : gcell) : Prop :=
  exists g p, world (cm_frame msg) (cm_stamp msg) = Some g /\ In p (cm_points msg) /\ isnanb N (vx (g p)) = false /\ cell_of N fl sc (g p) = c.

(** C121. For every history of callbacks and clouds, every tf tree and every search order: the set of obstacle cells is exactly what it was before and the cells of the
    points of the clouds received - transformed with the one configured camera frame at the time of reception, points whose x is NaN left out. Nothing is ever
    forgotten, nothing else is ever added. *)
Theorem C121_obstacles_stored :
  forall (N : num) (G : trig N) (fl cl rnd : N -> Z) (prob : N -> N) ltinf popS popO (C : ncfg N) tf frame fuel s es s' o,
  (forall pts, ~ In (COther (ECloud pts)) es) -> crun N G fl cl rnd prob ltinf popS popO C tf frame fuel s es = Some (s', o) ->
  forall c, In c (occupied (g_map (ns_pl s'))) <->
    In c (occupied (g_map (ns_pl s))) \/
    exists now msg g p, In (CCam now msg) es /\ tf frame now = Some g /\ In p (cm_points msg) /\ isnanb N (vx (g p)) = false /\
      cell_of N fl (cell_scale (nc_gp C)) (g p) = c.
Proof.
  intros N G fl cl rnd prob ltinf popS popO C tf frame fuel s es s' o Hn H c. rewrite (crun_seen N G fl cl rnd prob ltinf popS popO C tf frame fuel es s s' o Hn H c).
  apply or_iff_compat_l. unfold stores. split.
  - intros (now & msg & A & g & p & B). exists now, msg, g, p. tauto.
  - intros (now & msg & g & p & A & B). exists now, msg. split; [exact A|]. exists g, p. exact B.
Qed.
Print Assumptions C121_obstacles_stored.

(** With one camera, whose clouds carry the configured frame, and a transform that is the same when the cloud arrives as when it was taken, the cells stored are the
    cells in which the obstacles are. *)
Theorem C121_obstacles_right :
  forall (N : num) (G : trig N) (fl cl rnd : N -> Z) (prob : N -> N) ltinf popS popO (C : ncfg N) world frame fuel s es s' o,
  (forall pts, ~ In (COther (ECloud pts)) es) -> crun N G fl cl rnd prob ltinf popS popO C world frame fuel s es = Some (s', o) ->
  (forall now msg, In (CCam now msg) es -> cm_frame msg = frame /\ world frame now = world frame (cm_stamp msg)) ->
  forall c, In c (occupied (g_map (ns_pl s'))) <->
    In c (occupied (g_map (ns_pl s))) \/ exists now msg, In (CCam now msg) es /\ really_in N fl (cell_scale (nc_gp C)) world msg c.
Proof.
  intros N G fl cl rnd prob ltinf popS popO C world frame fuel s es s' o Hn H Hw c.
  rewrite (crun_seen N G fl cl rnd prob ltinf popS popO C world frame fuel es s s' o Hn H c).
  apply or_iff_compat_l. unfold stores, really_in.
  split; intros (now & msg & A & g & p & B & B'); exists now, msg; (split; [exact A|]); exists g, p; destruct (Hw _ _ A) as (E1 & E2);
    (split; [|exact B']); [rewrite E1, <- E2|rewrite E2, <- E1]; exact B.
Qed.
Print Assumptions C121_obstacles_right.

(** Otherwise they are not. A cloud whose header names another frame than the configured one (the left and right cameras of global_planner_sitl_3cam.launch), or taken
    when the vehicle was elsewhere than when it arrives: if the two transforms put its points into different cells, none of the cells with an obstacle gets stored and all of
    those stored have none. This includes the case that there is no transform for the camera's own frame or the stamp of the cloud. *)
Theorem C121_wrong_transform_refuted :
  forall (N : num) (fl : N -> Z) (C : ncfg N) world frame s now msg s' m g,
  cameraCallback N fl C world frame s now msg = (s', m) -> world frame now = Some g ->
  (forall h p q, world (cm_frame msg) (cm_stamp msg) = Some h -> In p (cm_points msg) -> In q (cm_points msg) ->
     cell_of N fl (cell_scale (nc_gp C)) (g p) <> cell_of N fl (cell_scale (nc_gp C)) (h q)) ->
  forall c,
    (really_in N fl (cell_scale (nc_gp C)) world msg c -> (In c (occupied (g_map (ns_pl s'))) <-> In c (occupied (g_map (ns_pl s))))) /\
    (In c (occupied (g_map (ns_pl s'))) -> In c (occupied (g_map (ns_pl s))) \/ ~ really_in N fl (cell_scale (nc_gp C)) world msg c).
Proof.
  intros N fl C world frame s now msg s' m g H Hg Hd c.
  pose proof (camera_adds N fl C world frame s now msg s' m c H) as A.
  assert (D : stores N fl C world frame now msg c -> really_in N fl (cell_scale (nc_gp C)) world msg c -> False).
  { intros (g' & p & E & Hp & _ & Hc) (h & q & E' & Hq & _ & Hc'). rewrite Hg in E. injection E as <-. apply (Hd h p q E' Hp Hq). rewrite Hc, Hc'. reflexivity. }
  split; [intros Hr|]; rewrite A; [split; [intros [X|X]; [exact X|contradiction (D X Hr)]|auto]|].
  intros [X|X]; [auto|]. right. intros Hr. exact (D X Hr).
Qed.
Print Assumptions C121_wrong_transform_refuted.

(** Without the parameter camera_frame_id the node tells the parameter server "camera_link" but looks up the frame with the empty name. tf has no such frame: whatever the
    cameras send, no obstacle is ever stored and no cloud is passed on to the octomap server. *)
Theorem C121_default_frame_refuted :
  forall (N : num) (G : trig N) (fl cl rnd : N -> Z) (prob : N -> N) ltinf popS popO (C : ncfg N) tf fuel s es s' o ms,
  (forall t, tf ""%string t = None) -> (forall pts, ~ In (COther (ECloud pts)) es) ->
  crun N G fl cl rnd prob ltinf popS popO C tf (camera_frame_id None) fuel s es = Some (s', (o, ms)) ->
  camera_frame_param None = "camera_link"%string /\ (forall c, In c (occupied (g_map (ns_pl s'))) <-> In c (occupied (g_map (ns_pl s)))) /\ ms = [].
Proof.
  intros N G fl cl rnd prob ltinf popS popO C tf fuel s es s' o ms Ht Hn H. split; [reflexivity|]. split.
  - intros c. rewrite (crun_seen N G fl cl rnd prob ltinf popS popO C tf _ fuel es s s' _ Hn H c). split; [|auto].
    intros [X|(now & msg & _ & g & p & E & _)]; [exact X|]. cbn [camera_frame_id] in E. rewrite Ht in E. discriminate.
  - clear Hn. revert s s' o ms H. induction es as [|e es IH]; intros s s' o ms H; cbn [crun] in H; [injection H as _ _ <-; reflexivity|].
    destruct (cstep N G fl cl rnd prob ltinf popS popO C tf (camera_frame_id None) fuel s e) as [[s1 [o1 m1]]|] eqn:E; [|discriminate].
    destruct (crun N G fl cl rnd prob ltinf popS popO C tf (camera_frame_id None) fuel s1 es) as [[s2 [o2 m2]]|] eqn:E2; [|discriminate]. injection H as _ _ <-.
    rewrite (IH _ _ _ _ E2), app_nil_r. destruct e as [e|now msg]; cbn [cstep] in E.
    + destruct (nstep N G fl cl rnd prob ltinf popS popO C fuel s e) as [[sx ox]|]; [|discriminate]. injection E as _ _ <-. reflexivity.
    + unfold cameraCallback, cam_points in E. cbn [camera_frame_id] in E. rewrite Ht in E. injection E as _ _ <-. reflexivity.
Qed.
Print Assumptions C121_default_frame_refuted.

(** A cell in which an obstacle has just been seen keeps the risk it had: the cached risk is read, and only the next map empties the cache. *)
Theorem C121_risk_not_renewed_refuted :
  forall (N : num) (fl cl rnd : N -> Z) (prob : N -> N) (C : ncfg N) tf frame s now msg s' m c r,
  cameraCallback N fl C tf frame s now msg = (s', m) ->
  cache_find N (g_cache (ns_pl s)) c = Some r ->
  getRiskC N cl rnd prob (nc_gp C) (g_map (ns_pl s')) (g_cache (ns_pl s')) c = Some (r, g_cache (ns_pl s')) /\ g_cache (ns_pl s') = g_cache (ns_pl s).
Proof.
  intros N fl cl rnd prob C tf frame s now msg s' m c r H Hr.
  assert (E : g_cache (ns_pl s') = g_cache (ns_pl s)).
  { unfold cameraCallback in H. destruct (cam_points N tf frame now msg) as [pts|]; injection H as <- _; [|reflexivity].
    unfold depthCameraCallback. cbn [ns_pl with_pl]. generalize (ns_pl s). induction pts as [|p pts IH]; intros g; cbn [fold_left]; [reflexivity|]. rewrite IH. reflexivity. }
  split; [|exact E]. unfold getRiskC. rewrite E, Hr. reflexivity.
Qed.
Print Assumptions C121_risk_not_renewed_refuted.

(** the three cameras of the launch file: the left one looks where the frame of the front one does not. Two point clouds of one point each. *)
Definition ex_turn (p : vec3 F64) : vec3 F64 := V3 (opp F64 (vy p)) (vx p) (vz p).
Definition ex_world (f : string) (t : Z) : option (vec3 F64 -> vec3 F64) :=
  if string_dec f "camera_link" then Some (fun p => p) else if string_dec f "left_camera_link" then Some ex_turn else None.
Definition ex_front : cloudmsg F64 := CloudMsg "camera_link" 10 [V3 (g64 5 1) (g64 0 1) (g64 3 1); V3 (g64 11 2) (g64 1 1) (g64 3 1)].
Definition ex_left : cloudmsg F64 := CloudMsg "left_camera_link" 11 [V3 (g64 5 1) (g64 0 1) (g64 3 1)].
Definition ex_seen (r : option (nstate F64 * (list (nout F64) * list (cloudmsg F64)))) : list gcell :=
  match r with Some (s, _) => occupied (g_map (ns_pl s)) | None => [] end.
Definition ex_cam (param : option string) (es : list (cev F64)) :=
  crun F64 trig0 f64_fl f64_cl f64_rnd ex_prob ltinf64 (pop_min F64) (pop_min F64) ex_C ex_world (camera_frame_id param) 5 (ninit F64 f64_fl ex_C ex_zero (g64 1 1) 2000) es.
Example C121_example :
  ex_seen (ex_cam (Some "camera_link"%string) [CCam 12 ex_front; COther (EVel ex_zero); CCam 13 ex_left]) = [C3 5 0 3; C3 5 1 3] /\
  map (fun p => cell_of F64 f64_fl (g64 1 1) (ex_turn p)) (cm_points ex_left) = [C3 0 5 3] /\
  ex_seen (ex_cam (Some "camera_link"%string) [CCam 13 ex_left]) = [C3 5 0 3] /\
  ex_seen (ex_cam None [CCam 12 ex_front; COther (EVel ex_zero); CCam 13 ex_left]) = [].
Proof. vm_compute. auto. Qed.
