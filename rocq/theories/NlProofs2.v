(** Proofs about the local planner node: the cloud pipeline. *)
From Coq Require Import ZArith List Bool Lia String.
From Verif Require Import Num Mat CommonModel HistModel PfModel StarModel LpModel UsmModel WgModel NodeModel NodeProofs NlModel NlSpec CommonProofs2 NlProofs.
Import ListNotations.
Local Open Scope Z_scope.

Section Nl.
Context (N : num) (G : trig N) (secs : Z -> N) (travel : Z -> N -> N) (getyaw : quat N -> N).
Context (P : Type) (pl_run : P -> plan_in N -> Z -> P) (pl_out : P -> output N) (pl_scan : P -> N * list N).
Notation stepN := (step N G secs travel getyaw P pl_run pl_out pl_scan).
Notation runN := (run N G secs travel getyaw P pl_run pl_out pl_scan).
Notation workN := (workerStep N P pl_run pl_out pl_scan).
Notation state := (nl N P).

Definition pc_ok (cams : list (cam N)) (w : wpc) (clouds : list (tcloud N)) : Prop :=
  let n := List.length cams in
  match w with
  | PScan j c => (c <= j <= n)%nat /\ (c = j -> forall i k, (i < j)%nat -> nth_error cams i = Some k -> k_transformed k = true)
  | PSwap j => (0 < n)%nat /\ (j <= n)%nat /\ List.length clouds = n /\
               forall i k, (j <= i)%nat -> nth_error cams i = Some k -> k_transformed k = true
  | PInfo => True
  | _ => (0 < n)%nat /\ List.length clouds = n
  end.

(** the part of a state the cloud pipeline depends on *)
Definition view (s : state) : list (cam N) * wpc * list (tcloud N) * list (plan_in N) :=
  (s_cams s, s_wpc s, n_clouds (s_lp_in s), feeds (s_log s)).

Lemma feeds_app (a b : list (out N)) : feeds (a ++ b) = feeds b ++ feeds a.
Proof. unfold feeds. rewrite rev_app_distr, flat_map_app. reflexivity. Qed.

(** events that are not part of the cloud pipeline *)
Definition pipeline (e : ev N) : bool := match e with ECloud _ _ | ETransform _ _ | EWorker _ => true | _ => false end.
Lemma view_other s e s' : stepN s e = Some s' -> pipeline e = false -> view s' = view s.
Proof.
  intros H E. destruct e; cbn [step] in H; try discriminate; injection H as <-; try reflexivity.
  - unfold cmdStart. destruct (s_cmd s); reflexivity.
  - unfold cmdPoll. destruct (s_cmd s); [destruct (_ && _)|]; reflexivity.
  - unfold cmdEnd. destruct (s_cmd s); [|reflexivity]. destruct (s_posrec s); [|reflexivity].
    destruct (checkFailsafe _ _ _ _ _) as [st h].
    assert (F : forall g, feeds (publish N getyaw g now ++ s_log s) = feeds (s_log s))
      by (intros g; rewrite feeds_app; cbn; rewrite app_nil_r; reflexivity).
    destruct st; unfold view; cbn [s_cams s_wpc s_lp_in s_log up_cmd app]; try reflexivity. rewrite F. reflexivity.
  - destruct gs; [|destruct (s_accept s)]; reflexivity.
  - unfold fcuInputGoal. destruct (_ && _); destruct (_ =? 1); reflexivity.
  - unfold reconf. destruct (workerHoldsRunning _); reflexivity.
Qed.

Lemma nth_cam_transform (s : state) i (f : cam N -> cam N) :
  (forall k, k_transformed k = true -> k_transformed (f k) = true) ->
  pc_ok (s_cams s) (s_wpc s) (n_clouds (s_lp_in s)) -> pc_ok (upd (s_cams s) i f) (s_wpc s) (n_clouds (s_lp_in s)).
Proof.
  intros Hf H. unfold pc_ok in *. rewrite upd_length.
  assert (X : forall j k, nth_error (upd (s_cams s) i f) j = Some k ->
      exists k0, nth_error (s_cams s) j = Some k0 /\ (k_transformed k0 = true -> k_transformed k = true)).
  { intros j k. rewrite upd_nth. destruct (Nat.eqb i j); [|eauto].
    destruct (nth_error (s_cams s) j) as [k0|]; cbn; [|discriminate]. intros [= <-]. eauto. }
  destruct (s_wpc s); try exact H.
  - destruct H as [A B]; split; [exact A|]. intros E j k L Hk. destruct (X _ _ Hk) as (k0 & K & T). eauto.
  - destruct H as (A & B & C & D); repeat split; try assumption. intros j k L Hk. destruct (X _ _ Hk) as (k0 & K & T). eauto.
Qed.

Lemma cloud_transformed k m : k_transformed k = true -> k_transformed (pointCloudCallback N k m) = true.
Proof. unfold pointCloudCallback. destruct (_ && _); auto. Qed.
Lemma pass_transformed k tf k' : transformPass N G k tf = Some k' -> k_transformed k = true -> k_transformed k' = true.
Proof.
  unfold transformPass. destruct (k_received k); [|intros [= <-]; auto].
  destruct tf as [[a b]|]; [|intros [= <-]; auto]. destruct (removeNaNAndGetMaxima _ _) as [[c mx]|]; [|discriminate].
  intros [= <-]; reflexivity.
Qed.

Lemma scan_feeds a b : feeds (laserScan N a b) = [].
Proof. unfold laserScan. destruct (negb _); [destruct (ltb _ _ _)|]; reflexivity. Qed.

(** one worker step, on the view *)
Lemma work_view s now : view (workN s now) =
  let c := s_cams s in let l := n_clouds (s_lp_in s) in let f := feeds (s_log s) in
  match s_wpc s with
  | PScan i cnt => match nth_error c i with
      | Some k => (c, PScan (S i) (if k_transformed k then S cnt else cnt), l, f)
      | None => if (List.length c =? 0)%nat || negb (cnt =? List.length c)%nat then (c, PScan 0 0, l, f)
                else (c, PSwap 0, firstn (List.length c) (l ++ repeat (tcloud0 N) (List.length c - List.length l)), f) end
  | PSwap i => match nth_error c i with
      | Some k => (upd c i (fun k => Cam (k_received k) (k_raw k) false (tcloud0 N) (k_fov k) (k_registered k)), PSwap (S i),
                   upd l i (fun _ => k_out k), f)
      | None => (c, PState, l, f) end
  | PState => (c, PFlag, l, f)
  | PFlag => (c, if s_new s then PGoal else PRun, l, f)
  | PGoal => (c, PPrev, l, f) | PPrev => (c, PClear, l, f) | PClear => (c, PRun, l, f)
  | PRun => (c, PInfo, l, f ++ [p_rest N (s_lp_in s) (s_newest_wp s) (s_px4 s) (s_speed s)])
  | PInfo => match s_cmd s with Some _ => (c, PInfo, l, f) | None => (c, PScan 0 0, l, f) end
  end.
Proof.
  unfold workerStep. destruct (s_wpc s) eqn:W; cbv zeta; try reflexivity.
  - destruct (nth_error _ _); [reflexivity|]. destruct (_ || _); reflexivity.
  - destruct (nth_error _ _); reflexivity.
  - unfold view; cbn [s_cams s_wpc s_lp_in s_log up_work n_clouds p_rest]. rewrite !feeds_app, scan_feeds, app_nil_r. reflexivity.
  - destruct (s_cmd s); unfold view; cbn [s_cams s_wpc s_lp_in s_log up_work n_clouds app]; [rewrite W; reflexivity|].
    change (OInfo now :: s_log s) with ([OInfo now] ++ s_log s). rewrite feeds_app, app_nil_r. reflexivity.
Qed.

Definition pc_inv (s : state) : Prop := pc_ok (s_cams s) (s_wpc s) (n_clouds (s_lp_in s)).

Lemma work_pc s now : pc_inv s -> pc_inv (workN s now).
Proof.
  intros H. pose proof (work_view s now) as V. unfold view in V.
  unfold pc_inv in *. cbv zeta in V.
  destruct (s_wpc s) eqn:W; cbn [pc_ok] in H.
  - destruct H as [[A1 A2] B]. destruct (nth_error (s_cams s) i) as [k|] eqn:K.
    + injection V as -> -> -> _. cbn [pc_ok].
      assert (i < List.length (s_cams s))%nat by (apply nth_error_Some; congruence).
      split; [destruct (k_transformed k); lia|]. intros E j k' L Hk. destruct (k_transformed k) eqn:T; [|lia].
      destruct (Nat.eq_dec j i) as [->|Ne]; [congruence|]. apply (B ltac:(lia) j k'); [lia|assumption].
    + assert (List.length (s_cams s) <= i)%nat by (apply nth_error_None; assumption).
      destruct ((List.length (s_cams s) =? 0)%nat || negb (cnt =? List.length (s_cams s))%nat) eqn:C.
      * injection V as -> -> -> _. cbn [pc_ok]. split; [lia|]. intros _ j k' L; lia.
      * apply orb_false_iff in C as [C1 C2]. apply Nat.eqb_neq in C1. apply negb_false_iff in C2. apply Nat.eqb_eq in C2.
        injection V as -> -> -> _. cbn [pc_ok]. repeat split; try lia.
        -- rewrite firstn_length, app_length, repeat_length. lia.
        -- intros j k' L Hk. apply (B ltac:(lia) j k'); [|assumption].
           assert (j < List.length (s_cams s))%nat by (apply nth_error_Some; congruence). lia.
  - destruct H as (A & B & C & D). destruct (nth_error (s_cams s) i) as [k|] eqn:K.
    + injection V as -> -> -> _. cbn [pc_ok]. rewrite !upd_length.
      assert (i < List.length (s_cams s))%nat by (apply nth_error_Some; congruence).
      repeat split; try lia; try assumption. intros j k' L. rewrite upd_nth.
      destruct (Nat.eqb_spec i j); [lia|]. intros Hk; apply (D j k'); [lia|assumption].
    + injection V as -> -> -> _. cbn [pc_ok]. split; [assumption|]. lia.
  - injection V as -> -> -> _. exact H.
  - injection V as -> -> -> _. destruct (s_new s); exact H.
  - injection V as -> -> -> _. exact H.
  - injection V as -> -> -> _. exact H.
  - injection V as -> -> -> _. exact H.
  - injection V as -> -> -> _. exact I.
  - destruct (s_cmd s); injection V as -> -> -> _; [exact I|]. cbn [pc_ok]. split; [lia|]. intros _ j k' L; lia.
Qed.

Lemma view_pc s s' : view s' = view s -> pc_inv s -> pc_inv s'.
Proof. unfold view, pc_inv. intros [= -> -> -> _] H. exact H. Qed.

Lemma step_pc s e s' : pc_inv s -> stepN s e = Some s' -> pc_inv s'.
Proof.
  intros I H. destruct (pipeline e) eqn:E; [|eapply view_pc; [eapply view_other; eauto|assumption]].
  destruct e; try discriminate; cbn [step] in H.
  - injection H as <-. unfold pc_inv; cbn. apply nth_cam_transform; [intros k; apply cloud_transformed|exact I].
  - destruct (nth_error (s_cams s) i) as [k|] eqn:K; [|injection H as <-; exact I].
    destruct (transformPass N G k tf) as [k'|] eqn:T; [|discriminate]. injection H as <-. unfold pc_inv; cbn.
    assert (X : upd (s_cams s) i (fun _ => k') = upd (s_cams s) i (fun x => if k_transformed x then (if k_transformed k' then k' else x) else k')).
    { clear -K T. revert i K. induction (s_cams s) as [|x r IH]; intros [|i] K; cbn in *; try reflexivity.
      - injection K as ->. destruct (k_transformed k) eqn:Tk; [|reflexivity]. rewrite (pass_transformed _ _ _ T Tk). reflexivity.
      - f_equal. auto. }
    rewrite X. apply nth_cam_transform; [|exact I]. intros x Tx. rewrite Tx. destruct (k_transformed k') eqn:?; assumption.
  - injection H as <-. apply work_pc; exact I.
Qed.

Lemma step_cams_length s e s' : stepN s e = Some s' -> List.length (s_cams s') = List.length (s_cams s).
Proof.
  intros H. destruct (pipeline e) eqn:E; [|pose proof (view_other _ _ _ H E) as V; unfold view in V; congruence].
  destruct e; try discriminate; cbn [step] in H.
  - injection H as <-. apply upd_length.
  - destruct (nth_error _ _); [|injection H as <-; reflexivity]. destruct (transformPass _ _ _ _); [|discriminate].
    injection H as <-. apply upd_length.
  - injection H as <-. pose proof (work_view s now) as V. unfold view in V. cbv zeta in V.
    destruct (s_wpc s); [destruct (nth_error _ _); [|destruct (_ || _)]|destruct (nth_error _ _)|..|destruct (s_cmd s)];
      injection V as -> _ _ _; try apply upd_length; reflexivity.
Qed.

(* ------------------------------------------------------------------ the pipeline of one camera *)
Inductive item := T (t : tcloud N) | Rw (c : pcloud N).
Definition inflight (i : nat) (w : wpc) (l : list (tcloud N)) : list item :=
  let x := match nth_error l i with Some t => [T t] | None => [] end in
  match w with
  | PSwap j => if (i <? j)%nat then x else []
  | PState | PFlag | PGoal | PPrev | PClear | PRun => x
  | _ => [] end.
Definition cam_items (k : option (cam N)) : list item :=
  match k with Some k => (if k_transformed k then [T (k_out k)] else []) ++ (if k_received k then [Rw (k_raw k)] else []) | None => [] end.
Definition items (i : nat) (s : state) : list item :=
  map T (consumed i (feeds (s_log s))) ++ inflight i (s_wpc s) (n_clouds (s_lp_in s)) ++ cam_items (nth_error (s_cams s) i).

Context (Hrm : forall c c' mx, removeNaNAndGetMaxima N c = Some (c', mx) -> c_points N c' = filter (finite3 N) (c_points N c)).
Definition Rit (i : nat) (es : list (ev N)) (x : item) (m : cloud_msg N) : Prop :=
  match x with T t => is_message i es t m | Rw c => c = toPCL N m end.
Lemma Rit_mono i es e x m : Rit i es x m -> Rit i (es ++ [e]) x m.
Proof.
  destruct x; [|auto]. intros (A & B & tl & tf & I & Q). split; [exact A|split; [exact B|]].
  exists tl, tf. split; [apply in_or_app; left; exact I|exact Q].
Qed.

Lemma consumed_app i a b : consumed (N := N) i (a ++ b) = consumed i a ++ consumed i b.
Proof. apply flat_map_app. Qed.
Lemma received_snoc i (es : list (ev N)) e : received i (es ++ [e]) = received i es ++ received i [e].
Proof. apply flat_map_app. Qed.

Lemma items_view i s s' : view s' = view s -> items i s' = items i s.
Proof. unfold view, items. intros [= -> -> -> ->]. reflexivity. Qed.

Lemma received_other i e : pipeline e = false -> received (N := N) i [e] = [].
Proof. destruct e; cbn; congruence. Qed.

Lemma step_items i es s e s' : pc_inv s -> subseq (Rit i es) (items i s) (received i es) ->
  stepN s e = Some s' -> subseq (Rit i (es ++ [e])) (items i s') (received i (es ++ [e])).
Proof.
  intros PI SI H. rewrite received_snoc.
  assert (SM : subseq (Rit i (es ++ [e])) (items i s) (received i es)) by (eapply sub_mono; [intros; eapply Rit_mono; eauto|exact SI]).
  clear SI.
  destruct (pipeline e) eqn:E.
  2:{ rewrite (items_view _ _ _ (view_other _ _ _ H E)), received_other, app_nil_r by assumption. exact SM. }
  destruct e; try discriminate; cbn [step] in H.
  - (* cloud *)
    injection H as <-. unfold items in *. cbn [s_cams s_wpc s_lp_in s_log up_cams received flat_map app].
    rewrite upd_nth, (Nat.eqb_sym i i0).
    destruct (Nat.eqb_spec i0 i) as [->|Ne]; [|rewrite app_nil_r; exact SM]. cbn [app].
    destruct (nth_error (s_cams s) i) as [k|]; cbn [option_map cam_items] in *; [|apply sub_more; exact SM].
    unfold pointCloudCallback. destruct (k_received k && _) eqn:D; [apply sub_more; exact SM|].
    cbn [k_received k_raw k_transformed k_out]. rewrite !app_assoc. apply sub_snoc; [|reflexivity].
    rewrite !app_assoc in SM. destruct (k_received k); [|rewrite app_nil_r in SM; exact SM].
    rewrite <- (app_nil_r ((map T _ ++ _) ++ _)). eapply sub_drop; [exact SM|]. rewrite app_nil_r. reflexivity.
  - (* transform *)
    cbn [received flat_map app]. rewrite app_nil_r.
    destruct (nth_error (s_cams s) i0) as [k|] eqn:K; [|injection H as <-; exact SM].
    destruct (transformPass N G k tf) as [k'|] eqn:Tr; [|discriminate]. injection H as <-.
    unfold items in *. cbn [s_cams s_wpc s_lp_in s_log up_cams]. rewrite upd_nth.
    destruct (Nat.eqb_spec i0 i) as [->|Ne]; [|exact SM]. rewrite K in *. cbn [option_map cam_items] in *.
    unfold transformPass in Tr. destruct (k_received k) eqn:Rc; [|injection Tr as <-; rewrite Rc; exact SM].
    destruct tf as [[tl tfc]|]; [|injection Tr as <-; rewrite Rc; exact SM].
    destruct (removeNaNAndGetMaxima N (pc_points (k_raw k))) as [[c mx]|] eqn:Rm; [|discriminate]. injection Tr as <-.
    cbn [k_received k_raw k_transformed k_out]. rewrite app_nil_r.
    rewrite !app_assoc in *. apply sub_change with (x := Rw (k_raw k)).
    + destruct (k_transformed k); [|rewrite app_nil_r in SM; exact SM].
      eapply sub_drop; [exact SM|]. rewrite <- app_assoc. reflexivity.
    + intros y Ey. cbn in Ey |- *. rewrite Ey. split; [reflexivity|split; [reflexivity|]].
      exists tl, tfc. split; [apply in_or_app; right; left; reflexivity|]. cbn. rewrite (Hrm _ _ _ Rm), Ey. reflexivity.
  - (* worker *)
    injection H as <-. cbn [received flat_map app]. rewrite app_nil_r.
    pose proof (work_view s now) as V. unfold view in V. cbv zeta in V. unfold pc_inv in PI. unfold items in *.
    destruct (s_wpc s) eqn:W; cbn [pc_ok inflight app] in PI, SM.
    + destruct (nth_error (s_cams s) i0) as [k|] eqn:K.
      * injection V as -> -> -> ->. exact SM.
      * destruct (_ || _); injection V as -> -> -> ->; [exact SM|]. exact SM.
    + destruct PI as (A & B & C & D). destruct (nth_error (s_cams s) i0) as [k|] eqn:K.
      * injection V as -> -> -> ->. cbn [inflight]. rewrite !upd_nth.
        destruct (Nat.eqb_spec i0 i) as [->|Ne].
        -- replace (i <? S i)%nat with true by (symmetry; apply Nat.ltb_lt; lia).
           rewrite Nat.ltb_irrefl in SM. cbn [app] in SM. rewrite K in SM |- *. cbn [option_map cam_items k_transformed k_received k_raw] in *.
           rewrite (D i k ltac:(lia) K) in SM.
           destruct (nth_error (n_clouds (s_lp_in s)) i) as [t|] eqn:L.
           ++ cbn [option_map]. cbn [app] in *. exact SM.
           ++ apply nth_error_None in L. assert (i < List.length (s_cams s))%nat by (apply nth_error_Some; congruence). lia.
        -- replace (i <? S i0)%nat with (i <? i0)%nat; [exact SM|].
           destruct (Nat.ltb_spec i i0), (Nat.ltb_spec i (S i0)); try reflexivity; lia.
      * injection V as -> -> -> ->. cbn [inflight].
        assert (List.length (s_cams s) <= i0)%nat by (apply nth_error_None; assumption).
        destruct (Nat.ltb_spec i i0) as [Lt|Ge]; [exact SM|].
        replace (nth_error (n_clouds (s_lp_in s)) i) with (@None (tcloud N)) by (symmetry; apply nth_error_None; lia). exact SM.
    + injection V as -> -> -> ->. exact SM.
    + injection V as -> -> -> ->. destruct (s_new s); exact SM.
    + injection V as -> -> -> ->. exact SM.
    + injection V as -> -> -> ->. exact SM.
    + injection V as -> -> -> ->. exact SM.
    + injection V as -> -> -> ->. cbn [inflight app]. rewrite consumed_app, map_app, <- app_assoc.
      cbn [consumed flat_map p_rest n_clouds]. rewrite app_nil_r.
      destruct (nth_error (n_clouds (s_lp_in s)) i); exact SM.
    + destruct (s_cmd s); injection V as -> -> -> ->; exact SM.
Qed.

Definition fed_ok (n : nat) (s : state) : Prop :=
  List.length (s_cams s) = n /\ forall l, In l (feeds (s_log s)) -> List.length (n_clouds l) = n /\ (0 < n)%nat.
Lemma step_fed n s e s' : pc_inv s -> fed_ok n s -> stepN s e = Some s' -> fed_ok n s'.
Proof.
  intros PI [A B] H. split; [rewrite (step_cams_length _ _ _ H); exact A|].
  destruct (pipeline e) eqn:E; [|pose proof (view_other _ _ _ H E) as V; unfold view in V; injection V as _ _ _ ->; exact B].
  destruct e; try discriminate; cbn [step] in H.
  - injection H as <-. exact B.
  - destruct (nth_error _ _); [|injection H as <-; exact B]. destruct (transformPass _ _ _ _); [|discriminate].
    injection H as <-. exact B.
  - injection H as <-. pose proof (work_view s now) as V. unfold view in V. cbv zeta in V. unfold pc_inv in PI.
    destruct (s_wpc s) eqn:W; [destruct (nth_error _ _); [|destruct (_ || _)]|destruct (nth_error _ _)|..|destruct (s_cmd s)];
      injection V as _ _ _ ->; try exact B.
    intros l L. apply in_app_or in L as [L|[<-|[]]]; [auto|]. cbn. cbn in PI. lia.
Qed.

Lemma init_items i n start goal acc lp l w jv jq : items i (init N P n start goal acc lp l w jv jq) = [].
Proof.
  unfold items, init; cbn. destruct (nth_error (repeat (cam0 N) n) i) as [k|] eqn:K; [|reflexivity].
  apply nth_error_In, repeat_spec in K. subst k. reflexivity.
Qed.
Lemma init_pc n start goal acc lp l w jv jq : pc_inv (init N P n start goal acc lp l w jv jq).
Proof. unfold pc_inv; cbn. split; [lia|]. intros _ j k L; lia. Qed.

Lemma pipeline_spec i n start goal acc lp l w jv jq es s :
  runN (init N P n start goal acc lp l w jv jq) es = Some s ->
  (forall f, In f (feeds (s_log s)) -> List.length (n_clouds f) = n /\ (0 < n)%nat) /\
  subseq (is_message i es) (consumed i (feeds (s_log s))) (received i es).
Proof.
  intros R.
  assert (X : pc_inv s /\ fed_ok n s /\ subseq (Rit i es) (items i s) (received i es)).
  { revert es s R. apply (run_ind N G secs travel getyaw P pl_run pl_out pl_scan (fun es s => pc_inv s /\ fed_ok n s /\ subseq (Rit i es) (items i s) (received i es))).
    - split; [apply init_pc|]. rewrite init_items. split; [|constructor]. split; [cbn; apply repeat_length|cbn; contradiction].
    - intros es s e s' (I1 & I2 & I3) _ St. split; [eapply step_pc; eauto|]. split; [eapply step_fed; eauto|]. eapply step_items; eauto. }
  destruct X as (_ & [_ F] & S). split; [exact F|].
  unfold items in S. apply (sub_map T (Rit i es)).
  rewrite <- (app_nil_r (map T _)). eapply sub_drop; [exact S|]. rewrite app_nil_r. reflexivity.
Qed.

(* ------------------------------------------------------------------ pending clouds *)
Lemma cams_other s e s' i : stepN s e = Some s' -> (forall m, e <> ECloud i m) -> (forall tf, e <> ETransform i tf) ->
  option_map (fun k => (k_received k, k_raw k)) (nth_error (s_cams s') i) = option_map (fun k => (k_received k, k_raw k)) (nth_error (s_cams s) i).
Proof.
  intros H N1 N2. destruct (pipeline e) eqn:E; [|pose proof (view_other _ _ _ H E) as V; unfold view in V; injection V as -> _ _ _; reflexivity].
  destruct e; try discriminate; cbn [step] in H.
  - injection H as <-. cbn. rewrite upd_nth. destruct (Nat.eqb_spec i0 i); [subst; exfalso; eapply N1; reflexivity|reflexivity].
  - destruct (nth_error (s_cams s) i0) eqn:K; [|injection H as <-; reflexivity]. destruct (transformPass _ _ _ _); [|discriminate].
    injection H as <-. cbn. rewrite upd_nth. destruct (Nat.eqb_spec i0 i); [subst; exfalso; eapply N2; reflexivity|reflexivity].
  - injection H as <-. pose proof (work_view s now) as V. unfold view in V. cbv zeta in V.
    destruct (s_wpc s); [destruct (nth_error _ _); [|destruct (_ || _)]|destruct (nth_error _ i0)|..|destruct (s_cmd s)];
      injection V as -> _ _ _; try reflexivity. rewrite upd_nth. destruct (Nat.eqb i0 i); [|reflexivity].
    destruct (nth_error (s_cams s) i); reflexivity.
Qed.
(** a pending cloud is replaced by a message exactly if that is at least 0.3 s newer (to the microsecond) *)
Lemma pending_step s i m m' s' : pending N P s i m -> stepN s (ECloud i m') = Some s' ->
  pending N P s' i (if cm_stamp m' - cm_stamp m / 1000 * 1000 <? 300000000 then m else m').
Proof.
  intros (k & K & Rc & Rw_) H. cbn [step] in H. injection H as <-. unfold pending; cbn. rewrite upd_nth, Nat.eqb_refl, K. cbn.
  eexists; split; [reflexivity|]. unfold pointCloudCallback. rewrite Rc, Rw_. cbn [toPCL pc_us andb].
  destruct (_ <? _); cbn; auto.
Qed.
Lemma pending_run i m es : forall s s', pending N P s i m -> runN s es = Some s' ->
  (forall m', In m' (received i es) -> cm_stamp m' - cm_stamp m / 1000 * 1000 < 300000000) ->
  (forall tf, ~ In (ETransform i tf) es) -> pending N P s' i m.
Proof.
  induction es as [|e es IH]; intros s s' Pd R Hr Ht; cbn in R; [injection R as <-; exact Pd|].
  destruct (stepN s e) as [s1|] eqn:E; [|discriminate].
  assert (Pd1 : pending N P s1 i m).
  { assert (Dm : (exists m', e = ECloud i m') \/ forall m', e <> ECloud i m').
    { destruct e; try (right; congruence). destruct (Nat.eq_dec i0 i) as [->|]; [left; eauto|right; congruence]. }
    destruct Dm as [[m' ->]|Nm].
    - pose proof (pending_step _ _ _ _ _ Pd E) as X.
      assert (L : cm_stamp m' - cm_stamp m / 1000 * 1000 < 300000000) by (apply Hr; cbn; rewrite Nat.eqb_refl; left; reflexivity).
      apply Z.ltb_lt in L. rewrite L in X. exact X.
    - destruct Pd as (k & K & Rc & Rw_).
      pose proof (cams_other _ _ _ i E Nm ltac:(intros tf ->; eapply Ht; left; reflexivity)) as O. rewrite K in O. cbn in O.
      destruct (nth_error (s_cams s1) i) as [k1|] eqn:K1; [|discriminate]. injection O as O1 O2.
      exists k1. split; [exact K1|split; congruence]. }
  eapply IH; eauto.
  - intros m' I. apply Hr. cbn [received flat_map]. apply in_or_app; right; exact I.
  - intros tf I. eapply Ht; right; exact I.
Qed.

(* ------------------------------------------------------------------ progress *)
Definition rank (n : nat) (w : wpc) : nat :=
  match w with
  | PScan i _ => 2 * n + 9 - i | PSwap i => n + 8 - i | PState => 7 | PFlag => 6 | PGoal => 5 | PPrev => 4 | PClear => 3 | PRun => 2 | PInfo => 1
  end.
Definition ready (n : nat) (s : state) : Prop :=
  List.length (s_cams s) = n /\ pc_inv s /\
  match s_wpc s with
  | PScan i c => c = i /\ (i <= n)%nat /\ forall j k, nth_error (s_cams s) j = Some k -> k_transformed k = true
  | PInfo => False
  | _ => True end.
Definition nfeeds (s : state) : nat := List.length (feeds (s_log s)).
Lemma work_ready n s now : (0 < n)%nat -> ready n s ->
  (nfeeds (workN s now) = S (nfeeds s)) \/
  (ready n (workN s now) /\ nfeeds (workN s now) = nfeeds s /\ (rank n (s_wpc (workN s now)) < rank n (s_wpc s))%nat).
Proof.
  intros Hn (L & PI & W). pose proof (work_pc s now PI) as PI'.
  assert (L' : List.length (s_cams (workN s now)) = n).
  { rewrite <- L. apply (step_cams_length s (EWorker now)). reflexivity. }
  unfold ready, nfeeds. pose proof (work_view s now) as V. unfold view in V. cbv zeta in V. unfold pc_inv in PI.
  destruct (s_wpc s) eqn:Wp; cbn [pc_ok] in PI.
  - destruct W as (-> & Li & Tr). destruct (nth_error (s_cams s) i) as [k|] eqn:K.
    + rewrite (Tr _ _ K) in V. assert (i < n)%nat by (rewrite <- L; apply nth_error_Some; congruence).
      injection V as V1 V2 V3 V4. rewrite V2, V4, V1. right.
      split; [|split; [reflexivity|cbn [rank]; lia]]. repeat split; auto; lia.
    + assert (n <= i)%nat by (rewrite <- L; apply nth_error_None; assumption). assert (i = n) by lia. subst i.
      replace ((List.length (s_cams s) =? 0)%nat || negb (n =? List.length (s_cams s))%nat) with false in V
        by (symmetry; rewrite L, Nat.eqb_refl; destruct n; [lia|reflexivity]).
      injection V as V1 V2 V3 V4. rewrite V2, V4, V1. right.
      split; [|split; [reflexivity|cbn [rank]; lia]]. repeat split; auto.
  - destruct PI as (A & B & C & D). destruct (nth_error (s_cams s) i) as [k|] eqn:K.
    + assert (i < n)%nat by (rewrite <- L; apply nth_error_Some; congruence). injection V as V1 V2 V3 V4. rewrite V2, V4. right.
      split; [|split; [reflexivity|cbn [rank]; lia]]. repeat split; auto.
    + injection V as V1 V2 V3 V4. rewrite V2, V4. right. split; [|split; [reflexivity|cbn [rank]; lia]]. repeat split; auto.
  - injection V as V1 V2 V3 V4. rewrite V2, V4. right. split; [|split; [reflexivity|cbn [rank]; lia]]. repeat split; auto.
  - injection V as V1 V2 V3 V4. rewrite V2, V4. right.
    split; [|split; [reflexivity|destruct (s_new s); cbn [rank]; lia]]. repeat split; auto. destruct (s_new s); exact I.
  - injection V as V1 V2 V3 V4. rewrite V2, V4. right. split; [|split; [reflexivity|cbn [rank]; lia]]. repeat split; auto.
  - injection V as V1 V2 V3 V4. rewrite V2, V4. right. split; [|split; [reflexivity|cbn [rank]; lia]]. repeat split; auto.
  - injection V as V1 V2 V3 V4. rewrite V2, V4. right. split; [|split; [reflexivity|cbn [rank]; lia]]. repeat split; auto.
  - injection V as V1 V2 V3 V4. left. rewrite V4, app_length. cbn. lia.
  - contradiction.
Qed.
Lemma other_ready n s e s' : ready n s -> stepN s e = Some s' -> is_worker e = false ->
  ready n s' /\ nfeeds s' = nfeeds s /\ s_wpc s' = s_wpc s.
Proof.
  intros (L & PI & W) H E. pose proof (step_pc _ _ _ PI H) as PI'. pose proof (step_cams_length _ _ _ H) as L'.
  assert (X : s_wpc s' = s_wpc s /\ nfeeds s' = nfeeds s /\
    ((forall j k, nth_error (s_cams s) j = Some k -> k_transformed k = true) -> forall j k, nth_error (s_cams s') j = Some k -> k_transformed k = true)).
  { destruct (pipeline e) eqn:Ep; [|pose proof (view_other _ _ _ H Ep) as V; unfold view, nfeeds in *; injection V as -> -> _ ->; auto].
    destruct e; try discriminate; cbn [step] in H.
    - injection H as <-. repeat split; auto. cbn. intros A j k. rewrite upd_nth. destruct (Nat.eqb i j); [|apply A].
      destruct (nth_error (s_cams s) j) as [k0|] eqn:K; cbn; [|discriminate]. intros [= <-]. apply cloud_transformed; eauto.
    - destruct (nth_error (s_cams s) i) as [k0|] eqn:K; [|injection H as <-; auto]. destruct (transformPass N G k0 tf) as [k1|] eqn:Tr; [|discriminate].
      injection H as <-. repeat split; auto. cbn. intros A j k. rewrite upd_nth. destruct (Nat.eqb_spec i j); [|apply A].
      subst j. rewrite K. cbn. intros [= <-]. eapply pass_transformed; eauto. }
  destruct X as (X1 & X2 & X3). split; [|auto]. split; [congruence|split; [exact PI'|]]. rewrite X1.
  destruct (s_wpc s); auto. destruct W as (A & B & C). repeat split; auto; exact (X3 C).
Qed.
Definition nworker (es : list (ev N)) : nat := List.length (filter is_worker es).
Lemma feeds_grow s e s' : stepN s e = Some s' -> (nfeeds s <= nfeeds s')%nat.
Proof.
  intros H. unfold nfeeds. destruct (pipeline e) eqn:E; [|pose proof (view_other _ _ _ H E) as V; unfold view in V; injection V as _ _ _ ->; lia].
  destruct e; try discriminate; cbn [step] in H.
  - injection H as <-. apply Nat.le_refl.
  - destruct (nth_error _ _); [|injection H as <-; lia]. destruct (transformPass _ _ _ _); [|discriminate]. injection H as <-. apply Nat.le_refl.
  - injection H as <-. pose proof (work_view s now) as V. unfold view in V. cbv zeta in V.
    destruct (s_wpc s); [destruct (nth_error _ _); [|destruct (_ || _)]|destruct (nth_error _ _)|..|destruct (s_cmd s)];
      injection V as _ _ _ ->; rewrite ?app_length; lia.
Qed.
Lemma run_feeds_grow es : forall s s', runN s es = Some s' -> (nfeeds s <= nfeeds s')%nat.
Proof.
  induction es as [|e es IH]; cbn; intros s s' R; [injection R as <-; lia|].
  destruct (stepN s e) as [s1|] eqn:E; [|discriminate]. pose proof (feeds_grow _ _ _ E). apply IH in R. lia.
Qed.
Lemma progress n es : (0 < n)%nat -> forall s s', ready n s -> runN s es = Some s' ->
  (rank n (s_wpc s) <= nworker es + 1)%nat -> (nfeeds s < nfeeds s')%nat.
Proof.
  intros Hn. induction es as [|e es IH]; cbn [run]; intros s s' Rd R C.
  - exfalso. destruct Rd as (L & PI & W). unfold nworker, pc_inv in *; cbn in C.
    destruct (s_wpc s); cbn [rank pc_ok] in *; try lia; contradiction.
  - destruct (stepN s e) as [s1|] eqn:E; [|discriminate].
    destruct (is_worker e) eqn:Ew.
    + destruct e; try discriminate. cbn [step] in E. injection E as <-.
      destruct (work_ready n s now Hn Rd) as [F|(Rd' & F & Rk)].
      * pose proof (run_feeds_grow _ _ _ R). lia.
      * rewrite <- F. apply (IH _ _ Rd' R). unfold nworker in *. cbn in C. lia.
    + destruct (other_ready n s e s1 Rd E Ew) as (Rd' & F & W). rewrite <- F. apply (IH _ _ Rd' R).
      rewrite W. unfold nworker in *. cbn in C. rewrite Ew in C. exact C.
Qed.
End Nl.
