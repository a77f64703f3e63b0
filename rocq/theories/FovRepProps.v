(** Property theorem C126 (fields of view of the cameras) and further theorems of C14, C24, C58, C79. *)
From Coq Require Import ZArith Reals List Bool Lia Lra.
From Flocq Require Import Core BinarySingleNaN.
From Verif Require Import Num Mat CommonModel CommonSpec CommonProofs CommonProofs2 HistModel PfModel StarModel LpModel UsmModel WgModel SlModel
  GpModel GpPlan GpNode PfDecideProps.
Import ListNotations.

(** C126. [reports] are the fields of view received, with the number of the camera. *)
Definition planner_fovs (N : num) (s : lp_state N) (reports : list (nat * fov N)) : list (fov N) :=
  l_fovs (fold_left (fun s r => lp_setFOV N s (fst r) (snd r)) reports s).
Definition generator_fovs (N : num) (w : wg N) (reports : list (nat * fov N)) : list (fov N) :=
  c_fovs (w_cfg (fold_left (fun w r => wg_setFOV N w (fst r) (snd r)) reports w)).
(** the field of view reported last by camera [i] *)
Fixpoint last_report {A} (i : nat) (reports : list (nat * A)) : option A :=
  match reports with
  | [] => None
  | r :: rest => match last_report i rest with Some f => Some f | None => if Nat.eqb (fst r) i then Some (snd r) else None end
  end.
(** each camera has a number below that of the cameras known when it reports, or is the next one *)
Fixpoint in_order {A} (known : nat) (reports : list (nat * A)) : Prop :=
  match reports with [] => True | r :: rest => (fst r <= known)%nat /\ in_order (Nat.max known (S (fst r))) rest end.

Lemma nth_set_nth {A} (l : list A) i j x : nth_error (set_nth l i x) j = if Nat.eqb i j then (if (i <? length l)%nat then Some x else None) else nth_error l j.
Proof.
  revert i j. induction l as [|a l IH]; intros [|i] [|j]; cbn [set_nth nth_error Nat.eqb length]; try reflexivity.
  - destruct (Nat.eqb i j); reflexivity.
  - rewrite IH. destruct (Nat.eqb i j); [|reflexivity]. destruct (Nat.ltb_spec i (length l)), (Nat.ltb_spec (S i) (S (length l))); try reflexivity; lia.
Qed.
Lemma len_set_nth {A} (l : list A) i x : length (set_nth l i x) = length l.
Proof. revert i. induction l as [|a l IH]; intros [|i]; cbn; auto. Qed.

Lemma planner_step N s i f : (i <= length (l_fovs s))%nat ->
  let l := l_fovs (lp_setFOV N s i f) in length l = Nat.max (length (l_fovs s)) (S i) /\
  forall j, nth_error l j = if Nat.eqb i j then Some f else nth_error (l_fovs s) j.
Proof.
  intros H l. unfold l, lp_setFOV. cbn [l_fovs]. destruct (Nat.ltb_spec i (length (l_fovs s))) as [L|L].
  - rewrite len_set_nth. split; [lia|]. intros j. rewrite nth_set_nth. destruct (Nat.ltb_spec i (length (l_fovs s))); [|lia]. reflexivity.
  - assert (i = length (l_fovs s)) by lia. subst i. rewrite app_length. cbn [length]. split; [lia|]. intros j.
    destruct (Nat.eqb_spec (length (l_fovs s)) j) as [<-|Nj]; [rewrite nth_error_app2, Nat.sub_diag by lia; reflexivity|].
    destruct (Nat.lt_ge_cases j (length (l_fovs s))); [apply nth_error_app1; lia|]. rewrite nth_error_app2 by lia.
    rewrite (proj2 (nth_error_None _ _)) by (cbn; lia). symmetry. apply nth_error_None. lia.
Qed.
(** C126, planner: if the cameras become known in order, the planner's field of view of each camera is the one reported last. *)
Theorem C126_planner_fov :
  forall (N : num) (reports : list (nat * fov N)) (s : lp_state N) (i : nat),
  in_order (length (l_fovs s)) reports ->
  nth_error (planner_fovs N s reports) i = match last_report i reports with Some f => Some f | None => nth_error (l_fovs s) i end.
Proof.
  intros N reports. induction reports as [|[j f] l IH]; intros s i H; [reflexivity|]. destruct H as [H1 H2]. cbn [fst] in *.
  destruct (planner_step N s j f H1) as [L E]. unfold planner_fovs. cbn [fold_left fst snd]. fold (planner_fovs N (lp_setFOV N s j f) l).
  rewrite IH by (rewrite L; exact H2). cbn [last_report fst snd]. destruct (last_report i l); [reflexivity|]. rewrite E. destruct (Nat.eqb j i); reflexivity.
Qed.
Print Assumptions C126_planner_fov.
(** once as many cameras are known as there are, every order will do *)
Theorem C126_planner_fov_all_known :
  forall (N : num) (reports : list (nat * fov N)) (s : lp_state N) (n i : nat),
  (n <= length (l_fovs s))%nat -> (forall r, In r reports -> (fst r < n)%nat) ->
  nth_error (planner_fovs N s reports) i = match last_report i reports with Some f => Some f | None => nth_error (l_fovs s) i end.
Proof.
  intros N reports s n i L H. apply C126_planner_fov. revert L H. generalize (length (l_fovs s)). induction reports as [|r l IH]; intros k L H; [exact I|].
  split; [specialize (H r (or_introl eq_refl)); lia|]. apply IH; [lia|]. intros r' Hr. apply H. right. exact Hr.
Qed.
Print Assumptions C126_planner_fov_all_known.
(** C126, waypoint generator: in every order *)
Theorem C126_generator_fov :
  forall (N : num) (reports : list (nat * fov N)) (w : wg N) (i : nat) (f : fov N),
  last_report i reports = Some f -> nth_error (generator_fovs N w reports) i = Some f.
Proof.
  assert (S1 : forall (N : num) (w : wg N) i f j, nth_error (c_fovs (w_cfg (wg_setFOV N w i f))) j =
    if Nat.eqb i j then Some f else if (j <? length (c_fovs (w_cfg w)))%nat then nth_error (c_fovs (w_cfg w)) j
    else if (j <? i)%nat then Some (Fov (ofZ N 0) (ofZ N 0) (ofZ N 0) (ofZ N 0)) else None).
  { intros N w i f j. unfold wg_setFOV. cbn [w_cfg c_fovs]. set (l := c_fovs (w_cfg w)). rewrite nth_set_nth.
    destruct (Nat.ltb_spec i (length l)) as [L|L].
    - destruct (Nat.ltb_spec i (length l)); [|lia]. destruct (Nat.eqb i j); [reflexivity|]. destruct (Nat.ltb_spec j (length l)); [reflexivity|].
      destruct (Nat.ltb_spec j i); [lia|]. apply nth_error_None. lia.
    - rewrite app_length, repeat_length. destruct (Nat.ltb_spec i (length l + (S i - length l))); [|lia]. destruct (Nat.eqb_spec i j) as [->|Nij]; [reflexivity|].
      destruct (Nat.ltb_spec j (length l)); [rewrite nth_error_app1 by lia; reflexivity|]. rewrite nth_error_app2 by lia.
      destruct (Nat.ltb_spec j i); [|apply nth_error_None; rewrite repeat_length; lia].
      assert (Hr : (j - length l < length (repeat (Fov (ofZ N 0) (ofZ N 0) (ofZ N 0) (ofZ N 0)) (S i - length l)))%nat) by (rewrite repeat_length; lia).
      destruct (nth_error (repeat _ _) (j - length l)) as [x|] eqn:E; [|apply nth_error_None in E; lia]. apply nth_error_In, repeat_spec in E. congruence. }
  assert (K : forall (N : num) reports (w : wg N) i f, nth_error (c_fovs (w_cfg w)) i = Some f -> last_report i reports = None -> nth_error (generator_fovs N w reports) i = Some f).
  { intros N reports. induction reports as [|[j g] l IH]; intros w i f H E; [exact H|]. cbn [last_report fst snd] in E.
    destruct (last_report i l) eqn:El; [discriminate|]. destruct (Nat.eqb_spec j i) as [|Nji]; [discriminate|].
    unfold generator_fovs. cbn [fold_left fst snd]. apply IH; [|exact El]. rewrite S1. destruct (Nat.eqb_spec j i); [congruence|].
    assert (i < length (c_fovs (w_cfg w)))%nat by (apply nth_error_Some; congruence). destruct (Nat.ltb_spec i (length (c_fovs (w_cfg w)))); [exact H|lia]. }
  intros N reports. induction reports as [|[j g] l IH]; intros w i f E; [discriminate|]. cbn [last_report fst snd] in E.
  unfold generator_fovs. cbn [fold_left fst snd]. destruct (last_report i l) eqn:El.
  - injection E as ->. apply IH. exact El.
  - destruct (Nat.eqb_spec j i) as [->|]; [|discriminate]. injection E as <-. apply K; [|exact El]. rewrite S1, Nat.eqb_refl. reflexivity.
Qed.
Print Assumptions C126_generator_fov.
(** C126, the node (local_planner_nodelet.cpp:164-174): in every planning cycle it reports all its cameras, counting upwards. [rounds] are the cycles before,
    [now] the fields of view of the last one. *)
Definition one_round {A} (fs : list A) : list (nat * A) := List.combine (List.seq 0 (List.length fs)) fs.
Definition cycles {A} (rounds : list (list A)) : list (nat * A) := concat (map one_round rounds).
Lemma in_order_mono {A} (l : list (nat * A)) : forall k k', (k <= k')%nat -> in_order k l -> in_order k' l.
Proof.
  induction l as [|r l IH]; intros k k' H; [auto|]. cbn [in_order]. intros [H1 H2]. split; [lia|]. apply (IH (Nat.max k (S (fst r)))); [lia|exact H2].
Qed.
Lemma in_order_round {A} (rest : list (nat * A)) : in_order 0 rest -> forall (r : list A) j k, (j <= k)%nat -> in_order k (List.combine (List.seq j (List.length r)) r ++ rest).
Proof.
  intros R r. induction r as [|f r IH]; intros j k H; cbn [List.length List.seq List.combine app in_order]; [apply (in_order_mono rest 0); [lia|exact R]|].
  split; [exact H|]. apply IH. cbn [fst]. lia.
Qed.
Lemma in_order_cycles {A} (rounds : list (list A)) : in_order 0 (cycles rounds).
Proof.
  induction rounds as [|r l IH]; [exact I|]. unfold cycles. cbn [map concat]. apply in_order_round; [exact IH|lia].
Qed.
Lemma last_report_app {A} i (a b : list (nat * A)) : last_report i (a ++ b) = match last_report i b with Some f => Some f | None => last_report i a end.
Proof. induction a as [|r a IH]; cbn [app last_report]; [destruct (last_report i b); reflexivity|]. rewrite IH. destruct (last_report i b); reflexivity. Qed.
Lemma last_report_round {A} i (r : list A) : forall j, last_report i (List.combine (List.seq j (List.length r)) r) = if (i <? j)%nat then None else nth_error r (i - j).
Proof.
  induction r as [|f r IH]; intros j; cbn [List.length List.seq List.combine last_report fst snd]; [destruct (i <? j)%nat; destruct (i - j)%nat; reflexivity|].
  rewrite IH. destruct (Nat.ltb_spec i (S j)) as [L|L], (Nat.ltb_spec i j) as [L2|L2]; try lia.
  - destruct (Nat.eqb_spec j i); [lia|reflexivity].
  - assert (i = j) as -> by lia. rewrite Nat.eqb_refl, Nat.sub_diag. reflexivity.
  - replace (i - j)%nat with (S (i - S j)) by lia. cbn [nth_error]. destruct (nth_error r (i - S j)) eqn:E; [reflexivity|]. destruct (Nat.eqb_spec j i); [lia|]. reflexivity.
Qed.
Theorem C126_node_fov :
  forall (N : num) (s : lp_state N) (w : wg N) (rounds : list (list (fov N))) (now : list (fov N)) (i : nat),
  (i < length now)%nat ->
  nth_error (planner_fovs N s (cycles (rounds ++ [now]))) i = nth_error now i /\
  nth_error (generator_fovs N w (cycles (rounds ++ [now]))) i = nth_error now i.
Proof.
  intros N s w rounds now i Hi.
  assert (L : last_report i (cycles (rounds ++ [now])) = nth_error now i).
  { unfold cycles. rewrite map_app, concat_app, last_report_app. cbn [map concat]. rewrite app_nil_r. unfold one_round at 1. rewrite last_report_round. cbn [Nat.ltb Nat.leb].
    rewrite Nat.sub_0_r. destruct (nth_error now i) eqn:E; [reflexivity|]. apply nth_error_None in E. lia. }
  destruct (nth_error now i) as [f|] eqn:E; [|apply nth_error_None in E; lia]. split.
  - rewrite C126_planner_fov by (apply (in_order_mono _ 0); [lia|apply in_order_cycles]). rewrite L. reflexivity.
  - apply C126_generator_fov. exact L.
Qed.
Print Assumptions C126_node_fov.
Example C126_node_example : cycles [[10; 11]; [20; 21]]%nat = [(0, 10); (1, 11); (0, 20); (1, 21)]%nat.
Proof. reflexivity. Qed.
(** The planner of two cameras: if camera 1 is first, its field of view is lost as soon as camera 0 reports; until then, a camera that has reported twice is
    known twice. *)
Theorem C126_out_of_order_refuted :
  forall (N : num) (s : lp_state N) (f0 f1 f1' : fov N), l_fovs s = [] ->
  planner_fovs N s [(1, f1); (0, f0)]%nat = [f0] /\ planner_fovs N s [(1, f1); (1, f1')]%nat = [f1; f1'].
Proof. intros N s f0 f1 f1' E. unfold planner_fovs. cbn [fold_left fst snd]. unfold lp_setFOV. cbn [l_fovs]. rewrite !E. split; reflexivity. Qed.
Print Assumptions C126_out_of_order_refuted.
Example C126_example : in_order 0 [(0, 10); (1, 11); (0, 20); (2, 12); (1, 21)]%nat /\
  last_report 1 [(0, 10); (1, 11); (0, 20); (2, 12); (1, 21)]%nat = Some 21%nat /\ last_report 3 [(0, 10); (1, 11)]%nat = None.
Proof. cbn. intuition lia. Qed.

(** C14: after setZero every entry is 0, whatever the histogram held before, and its shape is the one it had. *)
Theorem C14_set_zero :
  forall (N : num) (h : hist N) (x y : Z) (v : N), h_get N (h_setZero N h) x y = Some v -> v = ofZ N 0 /\ exists v0, h_get N h x y = Some v0.
Proof.
  intros N h x y v H. unfold h_get, wrapIndex in *. cbn [h_setZero h_edim h_zdim h_dist] in H.
  destruct ((h_edim h =? 0)%Z || (h_zdim h =? 0)%Z); [discriminate|].
  match type of H with mget (mfill _ _) ?a ?b = _ => set (i := a) in *; set (j := b) in * end.
  apply mget_inv in H. destruct H as (H1 & H2 & H3). cbn [mfill rows cols cell] in *. split; [congruence|]. eexists. apply mget_some; assumption.
Qed.
Print Assumptions C14_set_zero.
Example C14_set_zero_example : match h_new Rn 6 with Some h => exists v, h_get Rn (h_setZero Rn h) 3 7 = Some v | None => False end.
Proof. eexists. reflexivity. Qed.

(** C24: where a remembered point is seen, for a level vehicle: a point at elevation [e], at the bearing [b] to the left of the heading [yaw] of the vehicle (degrees)
    is looked up in the fields of view at the bearing [b] (and at elevation -e: the elevation of the vehicle's frame points down). *)
Local Open Scope R_scope.
Lemma at_heading e z z' d p : same_heading 360 z z' ->
  polarHistogramToCartesian Rn Rtrig (Pol (e : Rn) (z : Rn) (d : Rn)) p = polarHistogramToCartesian Rn Rtrig (Pol (e : Rn) (z' : Rn) (d : Rn)) p.
Proof.
  intros (k & ->). unfold polarHistogramToCartesian, DEG_TO_RAD. cbn [pe pz pr t_cos t_sin Rtrig add sub mul div ofZ pif Rn]. tR.
  assert (E : (z' + 360 * IZR k) * (PI / 180) = z' * (PI / 180) + 2 * PI * IZR k) by field.
  rewrite E, sin_period_Z, cos_period_Z. reflexivity.
Qed.
Lemma wrapPolar_plain (e z d : R) : -90 < e < 90 -> wrapPolar Rn (Pol (e : Rn) (z : Rn) (d : Rn)) = Pol (e : Rn) (wrapAngleToPlusMinus180 Rn z) (d : Rn).
Proof.
  intros He. unfold wrapPolar. cbn [pe pz pr]. rewrite (wrap180_id e) by lra. cbn [ltb ofZ Rn].
  destruct (R_ltb_spec 90 e); [lra|]. destruct (R_ltb_spec e (-90)); [lra|]. reflexivity.
Qed.
Theorem C24_direction_in_view :
  forall (yaw : R) (position : vec3 Rn) (e b d : R), 0 < d -> -90 < e < 90 -> -180 <= b < 180 ->
  let rad x := x * PI / 180 in
  let p : vec3 Rn := V3 (vx position + d * cos (rad e) * cos (rad (yaw + b)) : Rn) (vy position + d * cos (rad e) * sin (rad (yaw + b)) : Rn) (vz position + d * sin (rad e) : Rn) in
  fcuDirection Rn Rtrig yaw 0 position p = Pol (- e : Rn) (b : Rn) (d : Rn).
Proof.
  intros yaw position e b d Hd He Hb rad p. set (z := 90 - (yaw + b)). set (z' := - wrapAngleToPlusMinus180 Rn (- z)).
  pose proof (wrap180_range (- z)) as W. destruct (wrap180_congr (- z)) as (k & Hk).
  assert (Hz : -180 < z' <= 180) by (unfold z'; lra).
  assert (Sz : same_heading 360 z z').
  { exists k. unfold z'. rewrite Hk. ring. }
  assert (Ep : p = polarHistogramToCartesian Rn Rtrig (Pol (e : Rn) (z' : Rn) (d : Rn)) position).
  { rewrite <- (at_heading e z z' d position Sz). unfold p, polarHistogramToCartesian, DEG_TO_RAD, rad, z. cbn [pe pz pr t_cos t_sin Rtrig add sub mul div ofZ pif Rn]. tR.
    replace ((90 - (yaw + b)) * (PI / 180)) with (PI / 2 - (yaw + b) * PI / 180) by field.
    rewrite sin_shift, cos_shift. replace (e * (PI / 180)) with (e * PI / 180) by field. reflexivity. }
  unfold fcuDirection, cartesianToPolarFCU. rewrite Ep, polar_of_at by assumption. cbn [pe pz pr opp add sub ofZ Rn]. tR.
  rewrite (wrapPolar_plain (- e)) by lra. cbn [pe pz pr].
  replace (- e - 0) with (- e) by ring. rewrite (wrapPolar_plain (- e)) by lra. f_equal.
  destruct (wrap180_congr (- z' + 90)) as (k1 & H1). rewrite H1. destruct (wrap180_congr (- z' + 90 + 360 * IZR k1 - yaw)) as (k2 & H2).
  destruct Sz as (k3 & H3).
  apply canonical_unique; [apply wrap180_range|exact Hb|].
  exists (k3 + k1 + k2)%Z. rewrite H2, !plus_IZR. unfold z in H3. lra.
Qed.
Print Assumptions C24_direction_in_view.
Example C24_direction_example : let rad x := x * PI / 180 in
  0 < 2 /\ -90 < 10 < 90 /\ -180 <= 45 < 180 /\
  fcuDirection Rn Rtrig (170 : Rn) (0 : Rn) (V3 (0 : Rn) (0 : Rn) (0 : Rn))
    (V3 (0 + 2 * cos (rad 10) * cos (rad (170 + 45)) : Rn) (0 + 2 * cos (rad 10) * sin (rad (170 + 45)) : Rn) (0 + 2 * sin (rad 10) : Rn)) = Pol (- 10 : Rn) (45 : Rn) (2 : Rn).
Proof. intros rad. repeat (split; [lra|]). exact (C24_direction_in_view 170 (V3 (0 : Rn) (0 : Rn) (0 : Rn)) 10 45 2 ltac:(lra) ltac:(lra) ltac:(lra)). Qed.

(** C79: the sequence number of a grid taken from a message is that of the message. *)
Theorem C79_sequence_number :
  forall (N : num) ceilc rnd (s s' : slp N) (m : gmsg N), runRaw N ceilc rnd s m = Some s' -> s_seq s' = gm_seq m.
Proof.
  intros N ceilc rnd s s' m H. unfold runRaw, finishRun in H. repeat match type of H with obind ?x _ = _ => destruct x; [cbn [obind] in H|discriminate H] end.
  injection H as <-. reflexivity.
Qed.
Print Assumptions C79_sequence_number.

(** C58: a goal that has been set is not given up on account of the one before: neither the next goal of the agenda nor any other is blocked to begin with. *)
Theorem C58_new_goal_not_blocked :
  forall (N : num) (C : ncfg N) (s : nstate N) (g : goalcell N) (ws : list (goalcell N)),
  (let s' := fst (setNewGoal N C s g) in g_goal (ns_pl s') = g /\ g_goal_blocked (ns_pl s') = false /\ ns_wps s' = ns_wps s) /\
  (forall fl, ns_wps s = g :: ws -> let s' := fst (popNextGoal N fl C s) in g_goal (ns_pl s') = g /\ g_goal_blocked (ns_pl s') = false /\ ns_wps s' = ws) /\
  (forall fl, ns_wps s = [] -> g_goal_blocked (ns_pl s) = true -> g_goal_blocked (ns_pl (fst (popNextGoal N fl C s))) = false).
Proof.
  intros N C s g ws. split; [cbn; auto|]. split.
  - intros fl E. unfold popNextGoal. rewrite E. cbn. auto.
  - intros fl E B. unfold popNextGoal. rewrite E, B. reflexivity.
Qed.
Print Assumptions C58_new_goal_not_blocked.
