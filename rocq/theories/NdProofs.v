(** Proofs about NdModel.v: a protection for every variable, the invariant that every thread respects it, and a way to run a thread alone. *)
From Coq Require Import Arith List Bool Lia.
From Verif Require Import NtModel NdModel.
Import ListNotations.

Inductive protection :=
| Guarded (l : dlock)                 (* every access holds l *)
| OneWriter (l : dlock) (w : dtid)    (* only w writes, holding l; the others read holding l *)
| Confined (t : dtid)                 (* only t accesses it *)
| Constant                            (* nobody writes *)
| Unprotected.
Definition prot (v : var) : protection :=
  match v with
  | CamRaw i | CamReceived i | CamCloud i | CamTransformed i | CamFov i | CamRegistered i => Guarded (Mx (Cam i))
  | TfFrames => Guarded (Mx Tf) | TfBuffer => Guarded (Mx Buf) | Px4 => Guarded (Mx Param)
  | GoalItem | DesiredYaw => Guarded (Sub SubFcu) | GroundDistance => Guarded (Sub SubAltitude)
  | AcceptGoal | StartTime => Constant
  | Hover | ErrorSent | LastWpPos | LastAdaptedWp => Confined (Th Cmd)
  | LastWpTime => OneWriter (Mx Waypoints) (Th Worker)
  | RqtConfig => Confined (Th Recf)
  | PlConfig | PlData => Guarded (Mx Running)
  | WgPlan | WgFov | WgData => Guarded (Mx Wg)
  | _ => Unprotected
  end.
Definition allowed (t : dtid) (h : list dlock) (a : dact) : Prop :=
  match a with
  | Rd v => match prot v with Guarded l => In l h | OneWriter l w => In l h \/ t = w | Confined u => t = u | _ => True end
  | Wr v => match prot v with Guarded l => In l h | OneWriter l w => t = w /\ In l h | Confined u => t = u | Constant => False | Unprotected => True end
  | _ => True
  end.
(** with the mutexes [h] held, the most recent one first, the script is properly nested, ends with none held and respects the protections *)
Fixpoint okay (t : dtid) (h : list dlock) (p : list dact) : Prop :=
  match p with
  | [] => h = []
  | Take l :: r => okay t (l :: h) r
  | Give l :: r => match h with k :: h' => k = l /\ okay t h' r | [] => False end
  | a :: r => allowed t h a /\ okay t h r
  end.

Lemma okay_d_num t h r n k : okay t h r -> okay t h (flat_map (fun i => dguard (Mx (Cam i)) [Rd (CamTransformed i)]) (seq k n) ++ r).
Proof. revert k. induction n as [|n IH]; intros k O; [exact O|]. cbn. split; [left; reflexivity|split; [reflexivity|exact (IH (S k) O)]]. Qed.
Ltac solve_okay := repeat (first [exact I | reflexivity | assumption | (left; left; reflexivity) | (right; reflexivity) | (left; right; left; reflexivity) | (left; reflexivity) | (right; left; reflexivity) | (right; right; left; reflexivity)
  | (cbn; left; reflexivity) | (cbn; right; left; reflexivity) | (cbn; right; right; left; reflexivity) | split]).
Lemma okay_swap t r n k : forall h, In (Mx Running) h -> okay t h r -> okay t h (flat_map d_swap (seq k n) ++ r).
Proof.
  intros h Hh. revert k. induction n as [|n IH]; intros k O; [exact O|]. cbn [seq flat_map]. rewrite <- app_assoc. specialize (IH (S k) O).
  cbn -[flat_map In]. assert (In (Mx Running) (Mx (Cam k) :: h)) by (right; exact Hh). assert (In (Mx (Cam k)) (Mx (Cam k) :: h)) by (left; reflexivity).
  solve_okay.
Qed.
Lemma okay_insert t h r n k : okay t h r -> okay t h (flat_map (fun _ => d_insert) (seq k n) ++ r).
Proof. revert k. induction n as [|n IH]; intros k O; [exact O|]. cbn. specialize (IH (S k) O). solve_okay. Qed.
Lemma okay_turns r w : forall h, okay (Th Cmd) h r -> okay (Th Cmd) h (flat_map d_turn w ++ r).
Proof. induction w as [|[a b] w IH]; intros h O; [exact O|]. specialize (IH h O). cbn [flat_map]. rewrite <- app_assoc. destruct a, b; cbn -[flat_map]; solve_okay. Qed.

Lemma okay_callback n t h r cb : d_callback n cb -> okay t h r -> okay t h (cb ++ r).
Proof.
  intros C O. destruct C as [i dr fi L| | | | | |a|f u s o|v|k|f];
  try destruct dr; try destruct fi; try destruct a; try destruct f; try destruct u; try destruct s; try destruct o; try destruct v; try destruct k; cbn; solve_okay.
Qed.
Lemma okay_script n t c : d_script n t c -> okay t [] c.
Proof.
  intros S. destruct S as [|new Hn|i ex L|i ex L|i ex L|i ex L|k| |cb C|w f a|z|].
  - unfold d_worker_wait, d_num. apply okay_d_num. cbn. solve_okay.
  - unfold d_worker_plan, d_num, dguard. apply okay_d_num. cbn -[flat_map d_info_rest d_run d_output]. split; [left; reflexivity|].
    rewrite <- !app_assoc. apply okay_swap; [left; reflexivity|]. destruct new; cbn; solve_okay.
  - destruct ex; cbn; solve_okay.
  - destruct ex; cbn; solve_okay.
  - destruct ex; cbn; solve_okay.
  - destruct ex; cbn; solve_okay.
  - unfold d_tf_round, dguard. cbn -[flat_map]. split; [left; reflexivity|]. apply okay_insert. cbn. solve_okay.
  - cbn. solve_okay.
  - rewrite <- (app_nil_r cb). apply (okay_callback n); [exact C|reflexivity].
  - unfold d_cmd, dguard. cbn -[flat_map d_failsafe d_waypoints]. split; [reflexivity|split; [exact I|]]. rewrite <- !app_assoc. apply okay_turns.
    destruct f as [| |[|]], a; cbn; solve_okay.
  - destruct z; cbn; solve_okay.
  - cbn. solve_okay.
Qed.

Definition respects (s : nds) : Prop := exists h : dtid -> list dlock,
  (forall t, okay t (h t) (todo_of s t)) /\ (forall t, NoDup (h t)) /\ (forall l t, held_by s l = Some t <-> In l (h t)).
Lemma put_t_same {X} (f : dtid -> X) t x : put_t f t x t = x.
Proof. unfold put_t. destruct (dtid_eq_dec t t); [reflexivity|contradiction]. Qed.
Lemma put_t_other {X} (f : dtid -> X) t x u : u <> t -> put_t f t x u = f u.
Proof. intros N. unfold put_t. destruct (dtid_eq_dec u t); [contradiction|reflexivity]. Qed.
Lemma put_l_same {X} (f : dlock -> X) l x : put_l f l x l = x.
Proof. unfold put_l. destruct (dlock_eq_dec l l); [reflexivity|contradiction]. Qed.
Lemma put_l_other {X} (f : dlock -> X) l x k : k <> l -> put_l f l x k = f k.
Proof. intros N. unfold put_l. destruct (dlock_eq_dec k l); [contradiction|reflexivity]. Qed.

Lemma respects_plain s t r : respects s -> (forall h, okay t h (todo_of s t) -> okay t h r) -> respects (Nds (put_t (todo_of s) t r) (held_by s)).
Proof.
  intros (h & O & N & W) G. exists h. split; [|split; [exact N|exact W]]. intros u. cbn.
  destruct (dtid_eq_dec u t) as [->|D]; [rewrite put_t_same; exact (G _ (O t))|rewrite put_t_other by exact D; exact (O u)].
Qed.
Lemma respects_step n s s' : respects s -> d_step n s s' -> respects s'.
Proof.
  intros R St. destruct St as [s t l r E F|s t l r E F|s t v r E|s t v r E|s t r E|s t r E|s t cb r E C|s t c E C].
  - destruct R as (h & O & N & W). exists (put_t h t (l :: h t)). cbn. split; [|split].
    + intros u. destruct (dtid_eq_dec u t) as [->|D]; [|rewrite !put_t_other by exact D; exact (O u)].
      rewrite !put_t_same. specialize (O t). rewrite E in O. exact O.
    + intros u. destruct (dtid_eq_dec u t) as [->|D]; [|rewrite !put_t_other by exact D; exact (N u)].
      rewrite put_t_same. constructor; [|exact (N t)]. intros I. apply W in I. rewrite F in I. discriminate I.
    + intros k u. destruct (dlock_eq_dec k l) as [->|Dk].
      * rewrite put_l_same. destruct (dtid_eq_dec u t) as [->|D]; [rewrite put_t_same; split; [intros _; left; reflexivity|reflexivity]|].
        rewrite put_t_other by exact D. split; [intros X; injection X as X; congruence|]. intros I. apply W in I. rewrite F in I. discriminate I.
      * rewrite put_l_other by exact Dk. destruct (dtid_eq_dec u t) as [->|D]; [|rewrite put_t_other by exact D; exact (W k u)].
        rewrite put_t_same. rewrite (W k t). split; [intros I; right; exact I|intros [X|I]; [congruence|exact I]].
  - destruct R as (h & O & N & W). pose proof (O t) as Ot. rewrite E in Ot. cbn in Ot. destruct (h t) as [|k h'] eqn:Ht; [contradiction|]. destruct Ot as [-> Ot].
    pose proof (N t) as Nt. rewrite Ht in Nt. inversion Nt as [|x y Nl Nh]; subst.
    exists (put_t h t h'). cbn. split; [|split].
    + intros u. destruct (dtid_eq_dec u t) as [->|D]; [rewrite !put_t_same; exact Ot|rewrite !put_t_other by exact D; exact (O u)].
    + intros u. destruct (dtid_eq_dec u t) as [->|D]; [rewrite put_t_same; exact Nh|rewrite put_t_other by exact D; exact (N u)].
    + intros k u. destruct (dlock_eq_dec k l) as [->|Dk].
      * rewrite put_l_same. split; [discriminate|]. intros I. exfalso. destruct (dtid_eq_dec u t) as [->|D]; [rewrite put_t_same in I; exact (Nl I)|].
        rewrite put_t_other in I by exact D. apply W in I. rewrite F in I. congruence.
      * rewrite put_l_other by exact Dk. destruct (dtid_eq_dec u t) as [->|D]; [|rewrite put_t_other by exact D; exact (W k u)].
        rewrite put_t_same. rewrite (W k t), Ht. split; [intros [X|I]; [congruence|exact I]|intros I; right; exact I].
  - apply (respects_plain s t r R). intros h O. rewrite E in O. exact (proj2 O).
  - apply (respects_plain s t r R). intros h O. rewrite E in O. exact (proj2 O).
  - apply (respects_plain s t r R). intros h O. rewrite E in O. exact (proj2 O).
  - apply (respects_plain s t r R). intros h O. rewrite E in O. exact (proj2 O).
  - apply (respects_plain s t (cb ++ Poll :: r) R). intros h O. rewrite E in O. exact (okay_callback n t h _ cb C O).
  - destruct R as (h & O & N & W). exists h. split; [|split; [exact N|exact W]]. intros u. cbn.
    destruct (dtid_eq_dec u t) as [->|D]; [|rewrite put_t_other by exact D; exact (O u)].
    rewrite put_t_same. specialize (O t). rewrite E in O. cbn in O. rewrite O. exact (okay_script n t c C).
Qed.
Lemma reachable_respects n s : d_reachable n s -> respects s.
Proof.
  intros R. induction R as [|s s' R IH St]; [|exact (respects_step n s s' IH St)].
  exists (fun _ => []). split; [intros t; reflexivity|split; [intros t; constructor|]]. intros l t. cbn. split; [discriminate|contradiction].
Qed.

(** what thread t may do next *)
Lemma next_allowed n s t a r : d_reachable n s -> todo_of s t = a :: r -> exists h, allowed t h a /\ forall l, In l h -> held_by s l = Some t.
Proof.
  intros R E. destruct (reachable_respects n s R) as (h & O & _ & W). exists (h t). split.
  - specialize (O t). rewrite E in O. destruct a; cbn in O |- *; try exact I; exact (proj1 O).
  - intros l I. apply W. exact I.
Qed.

(** ** Running a thread alone *)
Inductive alone (t : dtid) : (dlock -> option dtid) -> list dact -> (dlock -> option dtid) -> Prop :=
| ANil : forall o, alone t o [] o
| ATake : forall o l r o', o l = None -> alone t (put_l o l (Some t)) r o' -> alone t o (Take l :: r) o'
| AGive : forall o l r o', o l = Some t -> alone t (put_l o l None) r o' -> alone t o (Give l :: r) o'
| ARd : forall o v r o', alone t o r o' -> alone t o (Rd v :: r) o'
| AWr : forall o v r o', alone t o r o' -> alone t o (Wr v :: r) o'
| APoll : forall o r o', alone t o r o' -> alone t o (Poll :: r) o'.
Lemma alone_app t o p o' q o'' : alone t o p o' -> alone t o' q o'' -> alone t o (p ++ q) o''.
Proof. intros A B. induction A; cbn; [exact B| | | | |]; econstructor; eauto. Qed.
Lemma run_alone n t p o' : forall s r, d_reachable n s -> todo_of s t = p ++ r -> alone t (held_by s) p o' ->
  exists s', d_reachable n s' /\ todo_of s' t = r /\ (forall u, u <> t -> todo_of s' u = todo_of s u) /\ held_by s' = o'.
Proof.
  induction p as [|a p IH]; intros s r R E A; inversion A; subst.
  - exists s. split; [exact R|split; [exact E|split; [reflexivity|reflexivity]]].
  - destruct (IH (Nds (put_t (todo_of s) t (p ++ r)) (put_l (held_by s) l (Some t))) r) as (s' & R' & E' & U & O).
    + eapply DMore; [exact R|]. eapply XTake; [exact E|assumption]. + cbn. apply put_t_same. + cbn. assumption.
    + exists s'. split; [exact R'|split; [exact E'|split; [|exact O]]]. intros u D. rewrite (U u D). cbn. apply put_t_other. exact D.
  - destruct (IH (Nds (put_t (todo_of s) t (p ++ r)) (put_l (held_by s) l None)) r) as (s' & R' & E' & U & O).
    + eapply DMore; [exact R|]. eapply XGive; [exact E|assumption]. + cbn. apply put_t_same. + cbn. assumption.
    + exists s'. split; [exact R'|split; [exact E'|split; [|exact O]]]. intros u D. rewrite (U u D). cbn. apply put_t_other. exact D.
  - destruct (IH (Nds (put_t (todo_of s) t (p ++ r)) (held_by s)) r) as (s' & R' & E' & U & O).
    + eapply DMore; [exact R|]. eapply XRd; exact E. + cbn. apply put_t_same. + cbn. assumption.
    + exists s'. split; [exact R'|split; [exact E'|split; [|exact O]]]. intros u D. rewrite (U u D). cbn. apply put_t_other. exact D.
  - destruct (IH (Nds (put_t (todo_of s) t (p ++ r)) (held_by s)) r) as (s' & R' & E' & U & O).
    + eapply DMore; [exact R|]. eapply XWr; exact E. + cbn. apply put_t_same. + cbn. assumption.
    + exists s'. split; [exact R'|split; [exact E'|split; [|exact O]]]. intros u D. rewrite (U u D). cbn. apply put_t_other. exact D.
  - destruct (IH (Nds (put_t (todo_of s) t (p ++ r)) (held_by s)) r) as (s' & R' & E' & U & O).
    + eapply DMore; [exact R|]. eapply XPolled; exact E. + cbn. apply put_t_same. + cbn. assumption.
    + exists s'. split; [exact R'|split; [exact E'|split; [|exact O]]]. intros u D. rewrite (U u D). cbn. apply put_t_other. exact D.
Qed.
(** it starts a script with the prefix p while it is idle *)
Lemma start_and_run n t c p r s o' : d_reachable n s -> todo_of s t = [] -> d_script n t c -> c = p ++ r -> alone t (held_by s) p o' ->
  exists s', d_reachable n s' /\ todo_of s' t = r /\ (forall u, u <> t -> todo_of s' u = todo_of s u) /\ held_by s' = o'.
Proof.
  intros R E S -> A. destruct (run_alone n t p o' (Nds (put_t (todo_of s) t (p ++ r)) (held_by s)) r) as (s' & R' & E' & U & O).
  - eapply DMore; [exact R|]. eapply XStart; assumption.
  - cbn. apply put_t_same.
  - exact A.
  - exists s'. split; [exact R'|split; [exact E'|split; [|exact O]]]. intros u D. rewrite (U u D). cbn. apply put_t_other. exact D.
Qed.

(** what is guarded may be run when its mutexes are free, and leaves everything as it was *)
Definition same (o o' : dlock -> option dtid) : Prop := forall l, o l = o' l.
Lemma alone_d_num t : forall n k o, (forall i, o (Mx (Cam i)) = None) ->
  exists o', alone t o (flat_map (fun i => dguard (Mx (Cam i)) [Rd (CamTransformed i)]) (seq k n)) o' /\ same o' o.
Proof.
  induction n as [|n IH]; intros k o F; [exists o; split; [constructor|intros l; reflexivity]|].
  set (o1 := put_l (put_l o (Mx (Cam k)) (Some t)) (Mx (Cam k)) None).
  assert (S1 : same o1 o).
  { intros l. unfold o1. destruct (dlock_eq_dec l (Mx (Cam k))) as [->|D]; [rewrite put_l_same; symmetry; apply F|rewrite !put_l_other by exact D; reflexivity]. }
  destruct (IH (S k) o1) as (o' & A & S'). { intros i. rewrite (S1 (Mx (Cam i))). apply F. }
  exists o'. split; [|intros l; rewrite (S' l); apply S1]. cbn. constructor; [apply F|]. constructor. constructor; [apply put_l_same|]. exact A.
Qed.
Lemma alone_swaps t : forall n k o, (forall i, o (Mx (Cam i)) = None) -> o (Mx Wg) = None ->
  exists o', alone t o (flat_map d_swap (seq k n)) o' /\ same o' o.
Proof.
  induction n as [|n IH]; intros k o F G; [exists o; split; [constructor|intros l; reflexivity]|].
  set (o1 := put_l (put_l (put_l (put_l o (Mx (Cam k)) (Some t)) (Mx Wg) (Some t)) (Mx Wg) None) (Mx (Cam k)) None).
  assert (S1 : same o1 o).
  { intros l. unfold o1. destruct (dlock_eq_dec l (Mx (Cam k))) as [->|D]; [rewrite put_l_same; symmetry; apply F|rewrite put_l_other by exact D].
    destruct (dlock_eq_dec l (Mx Wg)) as [->|D']; [rewrite put_l_same; symmetry; exact G|rewrite !put_l_other by assumption; reflexivity]. }
  destruct (IH (S k) o1) as (o' & A & S'). { intros i. rewrite (S1 (Mx (Cam i))). apply F. } { rewrite (S1 (Mx Wg)). exact G. }
  exists o'. split; [|intros l; rewrite (S' l); apply S1]. cbn [seq flat_map]. unfold d_swap at 1, dguard. cbn -[flat_map].
  constructor; [apply F|]. do 10 constructor. { rewrite put_l_other by discriminate. exact G. }
  do 2 constructor. { apply put_l_same. } constructor. { rewrite !put_l_other by discriminate. apply put_l_same. } exact A.
Qed.

(** ** Two threads meet *)
Definition next_is (s : nds) (t : dtid) (a : dact) : Prop := exists r, todo_of s t = a :: r.
Lemma meet n s t a r u c p b q o' :
  d_reachable n s -> todo_of s t = a :: r -> todo_of s u = [] -> t <> u -> d_script n u c -> c = p ++ b :: q -> alone u (held_by s) p o' ->
  exists s', d_reachable n s' /\ next_is s' t a /\ next_is s' u b.
Proof.
  intros R E Eu D S Ec A. destruct (start_and_run n u c p (b :: q) s o' R Eu S Ec A) as (s' & R' & E' & U & _).
  exists s'. split; [exact R'|split; [|exists q; exact E']]. exists r. rewrite (U t D). exact E.
Qed.
(** the planning thread in the middle of a planner run, nobody else has begun *)
Lemma worker_at n new p q : 0 < n ->
  d_info_rest new ++ d_run ++ d_output ++ [Give (Mx Running); Rd LastWpTime] = p ++ q ->
  (forall o, o (Mx Param) = None -> exists o', alone (Th Worker) o p o' /\ same o' o) ->
  exists s, d_reachable n s /\ todo_of s (Th Worker) = q /\ (forall u, u <> Th Worker -> todo_of s u = []) /\
    held_by s (Mx Running) = Some (Th Worker) /\ forall l, l <> Mx Running -> held_by s l = None.
Proof.
  intros Hn Eq A. set (o0 := fun _ : dlock => @None dtid).
  destruct (alone_d_num (Th Worker) n 0 o0 (fun _ => eq_refl)) as (o1 & A1 & S1).
  set (o2 := put_l o1 (Mx Running) (Some (Th Worker))).
  assert (F : forall l, l <> Mx Running -> o2 l = None). { intros l D. unfold o2. rewrite put_l_other by exact D. rewrite S1. reflexivity. }
  destruct (alone_swaps (Th Worker) n 0 o2) as (o3 & A3 & S3). { intros i. apply F. discriminate. } { apply F. discriminate. }
  destruct (A o3) as (o4 & A4 & S4). { rewrite S3. apply F. discriminate. }
  destruct (start_and_run n (Th Worker) (d_worker_plan n new)
    (flat_map (fun i => dguard (Mx (Cam i)) [Rd (CamTransformed i)]) (seq 0 n) ++ Take (Mx Running) :: Wr PlData :: flat_map d_swap (seq 0 n) ++ p) q nds_init o4) as (s & R & E & U & O).
  - apply DInit.
  - reflexivity.
  - apply DSPlan. exact Hn.
  - unfold d_worker_plan, d_num. unfold dguard at 2. rewrite <- !app_assoc. cbn [app]. rewrite <- !app_assoc. f_equal. cbn [app]. do 2 f_equal. rewrite <- ?app_assoc. f_equal. exact Eq.
  - apply (alone_app _ _ _ o1); [exact A1|]. constructor; [rewrite S1; reflexivity|]. constructor. apply (alone_app _ _ _ o3); [exact A3|exact A4].
  - exists s. split; [exact R|split; [exact E|split; [intros u D; rewrite (U u D); reflexivity|]]]. rewrite O. split.
    + rewrite S4, S3. unfold o2. apply put_l_same.
    + intros l D. rewrite S4, S3. apply F. exact D.
Qed.
