(** Properties of the trails shown by the local planner and the landing planner. Model: TrModel.v. *)
From Coq Require Import ZArith Reals List Bool Lia Lra.
From Verif Require Import Num CommonModel PfModel WgModel LvModel SlModel SlvModel TrModel.
Import ListNotations.

Section Spec.
Context (N : num).
(** the positions received and the waypoints and adapted waypoints sent in a history *)
Definition lposes (es : list (lev N)) : list (vec3 N) := flat_map (fun e => match e with LPose p => [p] | _ => [] end) es.
Definition sposes (es : list (sev N)) : list (vec3 N) := flat_map (fun e => match e with SPose p => [p] | _ => [] end) es.
Definition sent (es : list (lev N)) : list (vec3 N) := flat_map (fun e => match e with LCmd true wp _ => [wp] | _ => [] end) es.
Definition sent_adapted (es : list (lev N)) : list (vec3 N) := flat_map (fun e => match e with LCmd true _ ad => [ad] | _ => [] end) es.
(** the lines of the polyline through these points *)
Fixpoint polyline (ps : list (vec3 N)) : list (list (vec3 N)) :=
  match ps with p :: ((q :: _) as r) => [p; q] :: polyline r | _ => [] end.
Lemma polyline_app ps p q : polyline (ps ++ [p; q]) = polyline (ps ++ [p]) ++ [[p; q]].
Proof. induction ps as [|a ps IH]; [reflexivity|]. destruct ps as [|b ps]; [reflexivity|]. cbn [app polyline] in *. rewrite IH. reflexivity. Qed.
Definition srun (es : list (sev N)) : strail N := fold_left (st_step N) es (st_init N).

Lemma lt_run_app es1 : forall es2 s, lt_run N s (es1 ++ es2) = match lt_run N s es1 with Some s' => lt_run N s' es2 | None => None end.
Proof. induction es1 as [|e es IH]; intros es2 s; [reflexivity|]. cbn. destruct (lt_step N s e); [apply IH|reflexivity]. Qed.
Lemma polyline_snoc x ps p : polyline ((x :: ps) ++ [p]) = polyline (x :: ps) ++ [[last (x :: ps) x; p]].
Proof.
  destruct (@exists_last _ (x :: ps) ltac:(discriminate)) as (l & y & E). rewrite E. rewrite last_last, <- app_assoc. cbn [app]. apply polyline_app.
Qed.
Lemma last_default (A : Type) (l : list A) a b : l <> [] -> last l a = last l b.
Proof. destruct l as [|x l]; [congruence|]. intros _. revert x. induction l as [|y l IH]; intros x; [reflexivity|]. exact (IH y). Qed.
Lemma last_cons_snoc (A : Type) (x : A) l p d : last (x :: l ++ [p]) d = p.
Proof. change (x :: l ++ [p]) with ((x :: l) ++ [p]). apply last_last. Qed.
Lemma snoc_ind_ev (P : list (lev N) -> Prop) : P [] -> (forall es e, P es -> P (es ++ [e])) -> forall es, P es.
Proof. intros. apply rev_ind; auto. Qed.
End Spec.

(** C105: the trails on the display. Every line keeps its place: no line is replaced by a later one of the same trail. *)
Theorem C105_lines_stay :
  (forall (N : num) a b c d e f es s, lt_run N (lt_init N a b c d e f) es = Some s ->
     map (fun t => fst (tl_actual t)) (lt_lines s) = map Z.of_nat (seq 0 (length (lt_lines s))) /\
     map (fun t => fst (tl_waypoint t)) (lt_lines s) = map Z.of_nat (seq 0 (length (lt_lines s))) /\
     map (fun t => fst (tl_adapted t)) (lt_lines s) = map Z.of_nat (seq 0 (length (lt_lines s)))) /\
  (forall (N : num) es, map fst (st_lines (srun N es)) = map Z.of_nat (seq 0 (length (st_lines (srun N es))))).
Proof.
  split.
  - intros N a b c d e f es.
    assert (G : forall s, lt_run N (lt_init N a b c d e f) es = Some s ->
      lt_id s = Z.of_nat (length (lt_lines s)) /\
      map (fun t => fst (tl_actual t)) (lt_lines s) = map Z.of_nat (seq 0 (length (lt_lines s))) /\
      map (fun t => fst (tl_waypoint t)) (lt_lines s) = map Z.of_nat (seq 0 (length (lt_lines s))) /\
      map (fun t => fst (tl_adapted t)) (lt_lines s) = map Z.of_nat (seq 0 (length (lt_lines s)))); [|intros s E; apply (G s E)].
    induction es as [|e0 es IH] using rev_ind; intros s E; [injection E as <-; cbn; auto|].
    rewrite lt_run_app in E. destruct (lt_run N _ es) as [s1|]; [|discriminate]. destruct (IH s1 eq_refl) as (I0 & I1 & I2 & I3). clear IH. cbn in E.
    destruct e0 as [p|act wp ad]; cbn in E.
    + injection E as <-. cbn. auto.
    + destruct (lt_received s1); [|discriminate]. destruct act; injection E as <-; cbn; [|auto].
      rewrite !map_app, app_length, seq_app, map_app, I0, I1, I2, I3. cbn. split; [lia|]. auto.
  - intros N es. assert (G : st_id (srun N es) = Z.of_nat (length (st_lines (srun N es))) /\
      map fst (st_lines (srun N es)) = map Z.of_nat (seq 0 (length (st_lines (srun N es))))); [|apply G].
    induction es as [|e es (I0 & I1)] using rev_ind; [cbn; auto|]. unfold srun in *. rewrite fold_left_app. destruct e as [p|]; cbn; [auto|].
    rewrite !map_app, app_length, seq_app, map_app, I0, I1. cbn. split; [lia|auto].
Qed.
Print Assumptions C105_lines_stay.
(** The trails of the waypoints are the polylines through all waypoints sent, in order; they begin at whatever the first waypoint replaced. *)
Theorem C105_waypoint_trails :
  forall (N : num) a b c d e f es s, lt_run N (lt_init N a b c d e f) es = Some s ->
  map (fun t => snd (tl_waypoint t)) (lt_lines s) = polyline N (c :: sent N es) /\
  map (fun t => snd (tl_adapted t)) (lt_lines s) = polyline N (e :: sent_adapted N es).
Proof.
  intros N a b c d e f es.
  assert (G : forall s, lt_run N (lt_init N a b c d e f) es = Some s ->
    lt_wp s = last (c :: sent N es) c /\ lt_ad s = last (e :: sent_adapted N es) e /\
    map (fun t => snd (tl_waypoint t)) (lt_lines s) = polyline N (c :: sent N es) /\
    map (fun t => snd (tl_adapted t)) (lt_lines s) = polyline N (e :: sent_adapted N es)); [|intros s E; apply (G s E)].
  induction es as [|e0 es IH] using rev_ind; intros s E; [injection E as <-; cbn; auto|].
  rewrite lt_run_app in E. destruct (lt_run N _ es) as [s1|]; [|discriminate]. destruct (IH s1 eq_refl) as (I0 & I1 & I2 & I3). clear IH. cbn in E.
  unfold sent, sent_adapted in *. rewrite !flat_map_app. destruct e0 as [p|act wp ad]; cbn in E.
  - injection E as <-. cbn [flat_map app]. rewrite !app_nil_r. cbn. auto.
  - destruct (lt_received s1); [|discriminate]. destruct act; injection E as <-; cbn [flat_map app]; [|rewrite !app_nil_r; cbn; auto].
    cbn [lt_wp lt_ad lt_lines]. rewrite !last_cons_snoc, !map_app, I2, I3. cbn [map tl_waypoint tl_adapted snd]. rewrite I0, I1.
    rewrite !(app_comm_cons _ [_]), !polyline_snoc. auto.
Qed.
Print Assumptions C105_waypoint_trails.
(** A line of the vehicle's trail joins the last two positions received before it is drawn (before that, what was in the variables). *)
Theorem C105_last_two_positions :
  (forall (N : num) a b c d e f es s s' wp ad, lt_run N (lt_init N a b c d e f) es = Some s -> lt_step N s (LCmd true wp ad) = Some s' ->
     exists before p q t, b :: a :: lposes N es = before ++ [p; q] /\ lt_lines s' = lt_lines s ++ [t] /\ snd (tl_actual t) = [p; q]) /\
  (forall (N : num) es, let o := V3 (ofZ N 0) (ofZ N 0) (ofZ N 0) in
     exists before p q n, o :: o :: sposes N es = before ++ [p; q] /\ st_lines (srun N (es ++ [SRun])) = st_lines (srun N es) ++ [(n, [p; q])]).
Proof.
  split.
  - intros N a b c d e f es s s' wp ad E E'.
    assert (G : forall s, lt_run N (lt_init N a b c d e f) es = Some s -> exists before, b :: a :: lposes N es = before ++ [lt_last s; lt_new s]).
    { clear. induction es as [|e0 es IH] using rev_ind; intros s E; [injection E as <-; exists []; reflexivity|].
      rewrite lt_run_app in E. destruct (lt_run N _ es) as [s1|]; [|discriminate]. destruct (IH s1 eq_refl) as (l & I). cbn in E. unfold lposes in *. rewrite flat_map_app.
      destruct e0 as [p|act wp ad]; cbn in E.
      - injection E as <-. exists (l ++ [lt_last s1]). cbn. rewrite <- app_assoc. cbn. change (b :: a :: ?x ++ [p]) with ((b :: a :: x) ++ [p]). rewrite I, <- app_assoc. reflexivity.
      - destruct (lt_received s1); [|discriminate]. exists l. cbn [flat_map app]. destruct act; injection E as <-; cbn [flat_map app]; rewrite app_nil_r; exact I. }
    destruct (G s E) as (l & I). cbn in E'. destruct (lt_received s); [|discriminate]. injection E' as <-. cbn.
    exists l, (lt_last s), (lt_new s). eexists. split; [exact I|]. split; reflexivity.
  - intros N es o. assert (G : exists before, o :: o :: sposes N es = before ++ [st_prev (srun N es); st_cur (srun N es)]).
    { induction es as [|e es (l & I)] using rev_ind; [exists []; reflexivity|]. unfold srun, sposes in *. rewrite fold_left_app, flat_map_app. destruct e as [p|]; cbn.
      - exists (l ++ [st_prev (fold_left (st_step N) es (st_init N))]). change (o :: o :: ?x ++ [p]) with ((o :: o :: x) ++ [p]). rewrite I, <- !app_assoc. reflexivity.
      - exists l. rewrite app_nil_r. exact I. }
    destruct G as (l & I). exists l. do 3 eexists. split; [exact I|]. unfold srun. rewrite fold_left_app. reflexivity.
Qed.
Print Assumptions C105_last_two_positions.
(** Hence the vehicle's trail is the whole path of received positions if exactly one position arrives per command cycle ... *)
Theorem C105_whole_path :
  forall (N : num) a b c d e f (ps : list (vec3 N * (vec3 N * vec3 N))) s,
  lt_run N (lt_init N a b c d e f) (flat_map (fun p => [LPose (fst p); LCmd true (fst (snd p)) (snd (snd p))]) ps) = Some s ->
  map (fun t => snd (tl_actual t)) (lt_lines s) = polyline N (a :: map fst ps).
Proof.
  intros N a b c d e f ps.
  assert (G : forall s, lt_run N (lt_init N a b c d e f) (flat_map (fun p => [LPose (fst p); LCmd true (fst (snd p)) (snd (snd p))]) ps) = Some s ->
    lt_new s = last (a :: map fst ps) a /\ map (fun t => snd (tl_actual t)) (lt_lines s) = polyline N (a :: map fst ps)); [|intros s E; apply (G s E)].
  induction ps as [|p ps IH] using rev_ind; intros s E; [injection E as <-; cbn; auto|].
  rewrite flat_map_app, lt_run_app in E. destruct (lt_run N _ (flat_map _ ps)) as [s1|]; [|discriminate]. destruct (IH s1 eq_refl) as (I0 & I1). cbn in E.
  injection E as <-. cbn [lt_new lt_lines]. rewrite !map_app. cbn [map]. rewrite last_cons_snoc. split; [reflexivity|].
  rewrite I1. cbn [tl_actual snd]. rewrite I0, (app_comm_cons _ [_]), polyline_snoc. reflexivity.
Qed.
Print Assumptions C105_whole_path.
(** ... and not otherwise: with two positions between two cycles there is a gap in the trail; the first line begins at whatever was in memory; the landing
    planner draws a line from the origin when only one position has arrived, and the same line again when none has arrived since. *)
Definition two_each (N : num) (p0 p1 p2 p3 w : vec3 N) : list (lev N) := [LPose p0; LPose p1; LCmd true w w; LPose p2; LPose p3; LCmd true w w].
Lemma gap (N : num) (a b c d e f p0 p1 p2 p3 w : vec3 N) : exists s, lt_run N (lt_init N a b c d e f) (two_each N p0 p1 p2 p3 w) = Some s /\
  map (fun t => snd (tl_actual t)) (lt_lines s) = [[p0; p1]; [p2; p3]] /\ lposes N (two_each N p0 p1 p2 p3 w) = [p0; p1; p2; p3].
Proof. eexists. split; [vm_compute; reflexivity|]. split; reflexivity. Qed.
Definition pt (x y z : R) : vec3 Rn := V3 (x : Rn) y z.
Theorem C105_trail_refuted :
  (exists es s, forall a b c d e f, exists s', lt_run Rn (lt_init Rn a b c d e f) es = Some s' /\ s = map (fun t => snd (tl_actual t)) (lt_lines s') /\
     lposes Rn es = [pt 0 0 0; pt 1 0 0; pt 2 0 0; pt 3 0 0] /\ ~ In [pt 1 0 0; pt 2 0 0] s /\ In [pt 0 0 0; pt 1 0 0] s /\ In [pt 2 0 0; pt 3 0 0] s) /\
  (forall (N : num) (a b c d e f p wp ad : vec3 N), exists s, lt_run N (lt_init N a b c d e f) [LPose p; LCmd true wp ad] = Some s /\
     map (fun t => snd (tl_actual t)) (lt_lines s) = [[a; p]]) /\
  (forall (N : num) (p : vec3 N), let o := V3 (ofZ N 0) (ofZ N 0) (ofZ N 0) in
     st_lines (srun N [SPose p; SRun; SRun]) = [(0%Z, [o; p]); (1%Z, [o; p])]).
Proof.
  split; [|split].
  - exists (two_each Rn (pt 0 0 0) (pt 1 0 0) (pt 2 0 0) (pt 3 0 0) (pt 9 9 9)), [[pt 0 0 0; pt 1 0 0]; [pt 2 0 0; pt 3 0 0]]. intros a b c d e f.
    destruct (gap Rn a b c d e f (pt 0 0 0) (pt 1 0 0) (pt 2 0 0) (pt 3 0 0) (pt 9 9 9)) as (s & E1 & E2 & E3).
    exists s. split; [exact E1|]. split; [symmetry; exact E2|]. split; [exact E3|]. split; [|split; [left; reflexivity|right; left; reflexivity]].
    assert (D : forall (x y : R) (u v : vec3 Rn), [pt x 0 0; u] = [pt y 0 0; v] -> x = y) by (intros x y u v X; apply (f_equal (fun l : list (vec3 Rn) => match l with w :: _ => vx w : R | [] => 0%R end)) in X; exact X).
    intros [X|[X|[]]]; apply D in X; lra.
  - intros. eexists. split; reflexivity.
  - intros. reflexivity.
Qed.
Print Assumptions C105_trail_refuted.
Example C105_example : forall (N : num) (j p q r u v w : vec3 N),
  exists s, lt_run N (lt_init N j j j j j j) [LPose p; LCmd true u u; LPose q; LCmd false v v; LPose r; LCmd true w w] = Some s /\
  map (fun t => snd (tl_waypoint t)) (lt_lines s) = [[j; u]; [u; w]] /\ map (fun t => snd (tl_actual t)) (lt_lines s) = [[j; p]; [q; r]].
Proof. intros. eexists. split; [vm_compute; reflexivity|]. split; reflexivity. Qed.
(** The arrow of the current setpoint starts at the vehicle, shows the commanded velocity, and its colour tells the state of the planner. *)
Theorem C105_setpoint_arrow :
  forall (velocity position : vec3 Rn) type,
  let '(tail, tip, colour) := setpointArrow Rn velocity type position in
  tail = position /\ v3sub Rn tip tail = velocity /\
  forall velocity' type' position', let '(_, _, colour') := setpointArrow Rn velocity' type' position' in colour' = colour <-> type' = type.
Proof.
  intros [vx vy vz] [px py pz] type. cbn. split; [reflexivity|]. split.
  - unfold v3sub, v3add. cbn. f_equal; ring.
  - intros v' type' p'. destruct type, type'; cbn; split; congruence.
Qed.
Print Assumptions C105_setpoint_arrow.
