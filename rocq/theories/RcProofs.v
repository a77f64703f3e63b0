(** Proofs about RcModel.v: data with a protection that the code respects is never raced for; a way to run two threads until they meet. *)
From Coq Require Import List Bool.
From Verif Require Import RcModel.
Import ListNotations.

(** ** Protected data *)
Inductive protection (lock tid : Type) := Guarded (l : lock) | Confined (t : tid) | Constant | Unprotected.
Arguments Guarded {lock tid}. Arguments Confined {lock tid}. Arguments Constant {lock tid}. Arguments Unprotected {lock tid}.

Section Rc.
Context {var lock tid : Type} (P : system var lock tid) (prot : var -> protection lock tid).
Notation act := (act var lock tid). Notation code := (code var lock tid). Notation rcs := (rcs var lock tid).
Definition has (h : list lock) (l : lock) : bool := if in_dec (lock_dec P) l h then true else false.
Definition may_rd (t : tid) (h : list lock) (v : var) : bool :=
  match prot v with Guarded l => has h l | Confined u => if tid_dec P t u then true else false | _ => true end.
Definition may_wr (t : tid) (h : list lock) (v : var) : bool :=
  match prot v with Guarded l => has h l | Confined u => if tid_dec P t u then true else false | Constant => false | Unprotected => true end.
(** the code respects the protections, for the thread t with the mutexes h held *)
Fixpoint check (t : tid) (h : list lock) (p : code) : bool :=
  match p with
  | Skip | Spawn _ => true
  | Read v => may_rd t h v
  | Write v => may_wr t h v
  | Seq p q | Alt p q => check t h p && check t h q
  | Star p => check t h p
  | Guard l p => check t (l :: h) p
  end.
Fixpoint okay (t : tid) (h : list lock) (p : list act) : Prop :=
  match p with
  | [] => h = []
  | Take l :: r => okay t (l :: h) r
  | Give l :: r => match h with k :: h' => k = l /\ okay t h' r | [] => False end
  | Rd v :: r => may_rd t h v = true /\ okay t h r
  | Wr v :: r => may_wr t h v = true /\ okay t h r
  | Fork _ :: r => okay t h r
  end.
Lemma check_okay t p x : runs p x -> forall h r, check t h p = true -> okay t h r -> okay t h (x ++ r).
Proof.
  intros R. induction R as [|v|v|u|p q x y _ IHp _ IHq|p q x _ IH|p q x _ IH|p|p x y _ IHp _ IHs|l p x _ IH]; intros h r C O; cbn in C |- *.
  - exact O.
  - split; assumption.
  - split; assumption.
  - exact O.
  - apply andb_prop in C as [C D]. rewrite <- app_assoc. apply IHp; [exact C|]. apply IHq; [exact D|exact O].
  - apply andb_prop in C as [C D]. apply IH; assumption.
  - apply andb_prop in C as [C D]. apply IH; assumption.
  - exact O.
  - rewrite <- app_assoc. apply IHp; [exact C|]. apply IHs; [exact C|exact O].
  - rewrite <- app_assoc. apply IH; [exact C|]. cbn. split; [reflexivity|exact O].
Qed.

Lemma on_same {X} (f : tid -> X) t x : on P f t x t = x.
Proof. unfold on. destruct (tid_dec P t t); [reflexivity|contradiction]. Qed.
Lemma on_other {X} (f : tid -> X) t x u : u <> t -> on P f t x u = f u.
Proof. intros N. unfold on. destruct (tid_dec P u t); [contradiction|reflexivity]. Qed.
Lemma upd_same {X} (f : lock -> X) l x : upd P f l x l = x.
Proof. unfold upd. destruct (lock_dec P l l); [reflexivity|contradiction]. Qed.
Lemma upd_other {X} (f : lock -> X) l x k : k <> l -> upd P f l x k = f k.
Proof. intros N. unfold upd. destruct (lock_dec P k l); [contradiction|reflexivity]. Qed.

Definition respects (s : rcs) : Prop := exists h : tid -> list lock,
  (forall t, okay t (h t) (todo s t)) /\ (forall t, NoDup (h t)) /\ (forall l t, holder s l = Some t <-> In l (h t)).
Lemma respects_plain s t r w a : respects s -> (forall h, okay t h (todo s t) -> okay t h r) -> w = holder s -> respects (Rcs (on P (todo s) t r) w a).
Proof.
  intros (h & O & N & W) G ->. exists h. split; [|split; [exact N|exact W]]. intros u. cbn.
  destruct (tid_dec P u t) as [->|D]; [rewrite on_same; exact (G _ (O t))|rewrite on_other by exact D; exact (O u)].
Qed.
Hypothesis bodies : forall t, check t [] (body P t) = true.
Hypothesis start : check (main P) [] (first P) = true.
Lemma respects_step s s' : respects s -> rc_step P s s' -> respects s'.
Proof.
  intros R St. destruct St as [s t l r E F|s t l r E F|s t v r E|s t v r E|s t u r E|s t c E A C].
  - destruct R as (h & O & N & W). exists (on P h t (l :: h t)). cbn. split; [|split].
    + intros u. destruct (tid_dec P u t) as [->|D]; [|rewrite !on_other by exact D; exact (O u)].
      rewrite !on_same. specialize (O t). rewrite E in O. exact O.
    + intros u. destruct (tid_dec P u t) as [->|D]; [|rewrite !on_other by exact D; exact (N u)].
      rewrite on_same. constructor; [|exact (N t)]. intros I. apply W in I. rewrite F in I. discriminate I.
    + intros k u. destruct (lock_dec P k l) as [->|Dk].
      * rewrite upd_same. destruct (tid_dec P u t) as [->|D]; [rewrite on_same; split; [intros _; left; reflexivity|reflexivity]|].
        rewrite on_other by exact D. split; [intros X; injection X as X; congruence|]. intros I. apply W in I. rewrite F in I. discriminate I.
      * rewrite upd_other by exact Dk. destruct (tid_dec P u t) as [->|D]; [|rewrite on_other by exact D; exact (W k u)].
        rewrite on_same. rewrite (W k t). split; [intros I; right; exact I|intros [X|I]; [congruence|exact I]].
  - destruct R as (h & O & N & W). pose proof (O t) as Ot. rewrite E in Ot. cbn in Ot. destruct (h t) as [|k h'] eqn:Ht; [contradiction|]. destruct Ot as [-> Ot].
    pose proof (N t) as Nt. rewrite Ht in Nt. inversion Nt as [|x y Nl Nh]; subst.
    exists (on P h t h'). cbn. split; [|split].
    + intros u. destruct (tid_dec P u t) as [->|D]; [rewrite !on_same; exact Ot|rewrite !on_other by exact D; exact (O u)].
    + intros u. destruct (tid_dec P u t) as [->|D]; [rewrite on_same; exact Nh|rewrite on_other by exact D; exact (N u)].
    + intros k u. destruct (lock_dec P k l) as [->|Dk].
      * rewrite upd_same. split; [discriminate|]. intros I. exfalso. destruct (tid_dec P u t) as [->|D]; [rewrite on_same in I; exact (Nl I)|].
        rewrite on_other in I by exact D. apply W in I. rewrite F in I. congruence.
      * rewrite upd_other by exact Dk. destruct (tid_dec P u t) as [->|D]; [|rewrite on_other by exact D; exact (W k u)].
        rewrite on_same. rewrite (W k t), Ht. split; [intros [X|I]; [congruence|exact I]|intros I; right; exact I].
  - apply respects_plain; [exact R| |reflexivity]. intros h O. rewrite E in O. exact (proj2 O).
  - apply respects_plain; [exact R| |reflexivity]. intros h O. rewrite E in O. exact (proj2 O).
  - apply respects_plain; [exact R| |reflexivity]. intros h O. rewrite E in O. exact O.
  - apply respects_plain; [exact R| |reflexivity]. intros h O. rewrite E in O. cbn in O. subst h. rewrite <- (app_nil_r c).
    apply (check_okay t (body P t)); [exact C|exact (bodies t)|reflexivity].
Qed.
Lemma reachable_respects s : reachable P s -> respects s.
Proof.
  intros R. induction R as [s I|s s' R IH St]; [|exact (respects_step s s' IH St)].
  destruct I as [c C]. exists (fun _ => []). split; [|split; [intros t; constructor|]].
  - intros t. cbn. destruct (tid_dec P t (main P)) as [->|D]; [rewrite on_same|rewrite on_other by exact D; reflexivity].
    rewrite <- (app_nil_r c). apply (check_okay (main P) (first P)); [exact C|exact start|reflexivity].
  - intros l t. cbn. split; [discriminate|contradiction].
Qed.
Lemma has_in h l : has h l = true -> In l h.
Proof. unfold has. destruct (in_dec (lock_dec P) l h) as [I|I]; [intros _; exact I|discriminate]. Qed.
Lemma next_rd s t v : reachable P s -> next_is s t (Rd v) -> exists h, may_rd t h v = true /\ forall l, In l h -> holder s l = Some t.
Proof.
  intros R (r & E). destruct (reachable_respects s R) as (h & O & _ & W). exists (h t). specialize (O t). rewrite E in O.
  split; [exact (proj1 O)|]. intros l I. apply W. exact I.
Qed.
Lemma next_wr s t v : reachable P s -> next_is s t (Wr v) -> exists h, may_wr t h v = true /\ forall l, In l h -> holder s l = Some t.
Proof.
  intros R (r & E). destruct (reachable_respects s R) as (h & O & _ & W). exists (h t). specialize (O t). rewrite E in O.
  split; [exact (proj1 O)|]. intros l I. apply W. exact I.
Qed.
Lemma may_wr_rd t h v : may_wr t h v = true -> may_rd t h v = true.
Proof. unfold may_wr, may_rd. destruct (prot v); intros H; try exact H; reflexivity. Qed.
Theorem protected s v : reachable P s -> prot v <> Unprotected -> ~ race s v.
Proof.
  intros R N (t & u & D & W & A). destruct (next_wr s t v R W) as (h & M & H).
  assert (B : exists h', may_rd u h' v = true /\ forall l, In l h' -> holder s l = Some u).
  { destruct A as [A|A]; [exact (next_rd s u v R A)|]. destruct (next_wr s u v R A) as (h' & M' & H'). exists h'. split; [exact (may_wr_rd _ _ _ M')|exact H']. }
  destruct B as (h' & M' & H'). unfold may_wr in M. unfold may_rd in M'. destruct (prot v) as [l|w| |]; [| |discriminate M|contradiction].
  - apply has_in in M. apply has_in in M'. apply H in M. apply H' in M'. congruence.
  - destruct (tid_dec P t w) as [->|]; [|discriminate M]. destruct (tid_dec P u w) as [->|]; [contradiction|discriminate M'].
Qed.
(** what a mutex guards is left alone by the others while a thread holds it *)
Theorem guarded_stable s v l t u : reachable P s -> prot v = Guarded l -> holder s l = Some t -> u <> t -> ~ next_is s u (Rd v) /\ ~ next_is s u (Wr v).
Proof.
  intros R G O D. assert (B : forall h, may_rd u h v = true -> (forall k, In k h -> holder s k = Some u) -> False).
  { intros h M H. unfold may_rd in M. rewrite G in M. apply has_in in M. apply H in M. congruence. }
  split; intros N; [destruct (next_rd s u v R N) as (h & M & H)|destruct (next_wr s u v R N) as (h & M & H); apply may_wr_rd in M]; exact (B h M H).
Qed.
End Rc.

(** ** Unprotected data *)
Section Meet.
Context {var lock tid : Type} (P : system var lock tid).
Notation act := (act var lock tid). Notation code := (code var lock tid). Notation rcs := (rcs var lock tid).
(** a short run of p, and all the accesses of p with a short run up to each *)
Fixpoint quick (p : code) : list act :=
  match p with
  | Skip | Star _ => [] | Read v => [Rd v] | Write v => [Wr v] | Spawn t => [Fork t]
  | Seq p q => quick p ++ quick q | Alt p _ => quick p | Guard l p => Take l :: quick p ++ [Give l]
  end.
Lemma quick_runs p : runs p (quick p).
Proof. induction p; cbn; constructor; assumption. Qed.
Fixpoint points (p : code) : list (list act * act) :=
  match p with
  | Skip => [] | Read v => [([], Rd v)] | Write v => [([], Wr v)] | Spawn t => [([], Fork t)]
  | Seq p q => points p ++ map (fun x => (quick p ++ fst x, snd x)) (points q)
  | Alt p q => points p ++ points q
  | Star p => points p
  | Guard l p => map (fun x => (Take l :: fst x, snd x)) (points p)
  end.
Lemma points_run p : forall x a, In (x, a) (points p) -> exists r, runs p (x ++ a :: r).
Proof.
  induction p as [|v|v|t|p IHp q IHq|p IHp q IHq|p IHp|l p IHp]; intros x a I; cbn in I.
  - contradiction.
  - destruct I as [E|[]]. inversion E; subst. exists []. constructor.
  - destruct I as [E|[]]. inversion E; subst. exists []. constructor.
  - destruct I as [E|[]]. inversion E; subst. exists []. constructor.
  - apply in_app_or in I as [I|I].
    + destruct (IHp _ _ I) as (r & R). exists (r ++ quick q). change (x ++ a :: r ++ quick q) with (x ++ (a :: r) ++ quick q). rewrite app_assoc.
      constructor; [exact R|apply quick_runs].
    + apply in_map_iff in I as ((y & b) & E & I). inversion E; subst. cbn. destruct (IHq _ _ I) as (r & R). exists r. rewrite <- app_assoc.
      constructor; [apply quick_runs|exact R].
  - apply in_app_or in I as [I|I]; [destruct (IHp _ _ I) as (r & R)|destruct (IHq _ _ I) as (r & R)]; exists r; [apply RunLeft|apply RunRight]; exact R.
  - destruct (IHp _ _ I) as (r & R). exists r. rewrite <- (app_nil_r (x ++ a :: r)). constructor; [exact R|constructor].
  - apply in_map_iff in I as ((y & b) & E & I). inversion E; subst. cbn. destruct (IHp _ _ I) as (r & R). exists (r ++ [Give l]).
    change (y ++ a :: r ++ [Give l]) with (y ++ (a :: r) ++ [Give l]). rewrite app_assoc. constructor. exact R.
Qed.

(** the mutexes held after x by a thread that held h before, if the ones in [no] cannot be had *)
Fixpoint locks (no h : list lock) (x : list act) : option (list lock) :=
  match x with
  | [] => Some h
  | Take l :: r => if has P no l || has P h l then None else locks no (l :: h) r
  | Give l :: r => match h with k :: h' => if lock_dec P k l then locks no h' r else None | [] => None end
  | _ :: r => locks no h r
  end.
Fixpoint starts (x : list act) (t : tid) : bool :=
  match x with [] => false | Fork u :: r => (if tid_dec P t u then true else false) || starts r t | _ :: r => starts r t end.

Lemma has_false h l : has P h l = false -> ~ In l h.
Proof. unfold has. destruct (in_dec (lock_dec P) l h); [discriminate|intros _; assumption]. Qed.
Lemma run_prefix t no x : forall s h h' r, reachable P s -> todo s t = x ++ r -> locks no h x = Some h' ->
  NoDup h -> (forall l, holder s l = Some t <-> In l h) -> (forall l u, u <> t -> holder s l = Some u -> In l no) ->
  exists s', reachable P s' /\ todo s' t = r /\ (forall u, u <> t -> todo s' u = todo s u) /\ NoDup h' /\ (forall l, holder s' l = Some t <-> In l h') /\
    (forall l u, u <> t -> (holder s' l = Some u <-> holder s l = Some u)) /\ (forall u, alive s' u = starts x u || alive s u).
Proof.
  induction x as [|a x IH]; intros s h h' r R E L ND H O.
  - cbn in L. injection L as <-. exists s. split; [exact R|split; [exact E|split; [reflexivity|split; [exact ND|split; [exact H|split; [reflexivity|reflexivity]]]]]].
  - assert (plain : forall al, rc_step P s (Rcs (on P (todo s) t (x ++ r)) (holder s) al) -> locks no h x = Some h' ->
      exists s', reachable P s' /\ todo s' t = r /\ (forall u, u <> t -> todo s' u = todo s u) /\ NoDup h' /\ (forall l, holder s' l = Some t <-> In l h') /\
        (forall l u, u <> t -> (holder s' l = Some u <-> holder s l = Some u)) /\ (forall u, alive s' u = starts x u || al u)).
    { intros al St L'. destruct (IH (Rcs (on P (todo s) t (x ++ r)) (holder s) al) h h' r) as (s' & R' & E' & U & N' & H' & O' & A'); try assumption.
      - exact (RMore P _ _ R St). - cbn. apply on_same.
      - exists s'. split; [exact R'|split; [exact E'|split; [|split; [exact N'|split; [exact H'|split; [exact O'|exact A']]]]]].
        intros u D. rewrite (U u D). cbn. apply on_other. exact D. }
    destruct a as [l|l|v|v|w]; cbn [app] in E; cbn in L.
    + destruct (has P no l) eqn:Hn; [discriminate L|]. destruct (has P h l) eqn:Hh; [discriminate L|]. cbn in L. apply has_false in Hn. apply has_false in Hh.
      assert (F : holder s l = None). { destruct (holder s l) as [u|] eqn:F; [|reflexivity]. exfalso. destruct (tid_dec P u t) as [->|D]; [apply Hh, H, F|exact (Hn (O l u D F))]. }
      destruct (IH (Rcs (on P (todo s) t (x ++ r)) (upd P (holder s) l (Some t)) (alive s)) (l :: h) h' r) as (s' & R' & E' & U & N' & H' & O' & A').
      * exact (RMore P _ _ R (XTake P s t l (x ++ r) E F)).
      * cbn. apply on_same.
      * exact L.
      * constructor; assumption.
      * intros k. cbn. destruct (lock_dec P k l) as [->|D]; [rewrite upd_same; split; [intros _; left; reflexivity|reflexivity]|].
        rewrite upd_other by exact D. rewrite H. split; [intros I; right; exact I|intros [X|I]; [congruence|exact I]].
      * intros k u D X. cbn in X. destruct (lock_dec P k l) as [->|Dk]; [rewrite upd_same in X; congruence|rewrite upd_other in X by exact Dk; exact (O k u D X)].
      * exists s'. split; [exact R'|split; [exact E'|split; [|split; [exact N'|split; [exact H'|split; [|exact A']]]]]].
        -- intros u D. rewrite (U u D). cbn. apply on_other. exact D.
        -- intros k u D. rewrite (O' k u D). cbn. destruct (lock_dec P k l) as [->|Dk]; [rewrite upd_same, F; split; congruence|rewrite upd_other by exact Dk; reflexivity].
    + destruct h as [|k0 h0]; [discriminate L|]. destruct (lock_dec P k0 l) as [->|]; [|discriminate L]. inversion ND as [|a b Nl Nh]; subst.
      assert (F : holder s l = Some t) by (apply H; left; reflexivity).
      destruct (IH (Rcs (on P (todo s) t (x ++ r)) (upd P (holder s) l None) (alive s)) h0 h' r) as (s' & R' & E' & U & N' & H' & O' & A').
      * exact (RMore P _ _ R (XGive P s t l (x ++ r) E F)).
      * cbn. apply on_same.
      * exact L.
      * exact Nh.
      * intros k. cbn. destruct (lock_dec P k l) as [->|D]; [rewrite upd_same; split; [discriminate|intros I; contradiction]|].
        rewrite upd_other by exact D. rewrite H. split; [intros [X|I]; [congruence|exact I]|intros I; right; exact I].
      * intros k u D X. cbn in X. destruct (lock_dec P k l) as [->|Dk]; [rewrite upd_same in X; discriminate X|rewrite upd_other in X by exact Dk; exact (O k u D X)].
      * exists s'. split; [exact R'|split; [exact E'|split; [|split; [exact N'|split; [exact H'|split; [|exact A']]]]]].
        -- intros u D. rewrite (U u D). cbn. apply on_other. exact D.
        -- intros k u D. rewrite (O' k u D). cbn. destruct (lock_dec P k l) as [->|Dk]; [rewrite upd_same, F; split; congruence|rewrite upd_other by exact Dk; reflexivity].
    + exact (plain (alive s) (XRd P s t v (x ++ r) E) L).
    + exact (plain (alive s) (XWr P s t v (x ++ r) E) L).
    + destruct (plain _ (XFork P s t w (x ++ r) E) L) as (s' & R' & E' & U & N' & H' & O' & A').
      exists s'. split; [exact R'|split; [exact E'|split; [exact U|split; [exact N'|split; [exact H'|split; [exact O'|]]]]]].
      intros u. rewrite (A' u). cbn. unfold on. destruct (tid_dec P u w); [rewrite orb_true_r; reflexivity|reflexivity].
Qed.

(** [main] in the middle of [first], the thread u, already started, in the middle of its body *)
Lemma meet_first x y a b hx hy u :
  In (x, a) (points (first P)) -> In (y, b) (points (body P u)) -> u <> main P -> starts x u = true ->
  locks [] [] x = Some hx -> locks hx [] y = Some hy ->
  exists s, reachable P s /\ next_is s (main P) a /\ next_is s u b.
Proof.
  intros Ix Iy D S Lx Ly. destruct (points_run _ _ _ Ix) as (rx & Rx). destruct (points_run _ _ _ Iy) as (ry & Ry).
  destruct (run_prefix (main P) [] x _ [] hx (a :: rx) (RInit P _ (Init P _ Rx))) as (s & R & E & U & N & H & O & A).
  - cbn. apply on_same. - exact Lx. - constructor. - intros l. cbn. split; [discriminate|contradiction]. - intros l v _ F. discriminate F.
  - destruct (run_prefix u hx y (Rcs (on P (todo s) u (y ++ b :: ry)) (holder s) (alive s)) [] hy (b :: ry)) as (s' & R' & E' & U' & _).
    + apply (RMore P _ _ R). apply XStart; [rewrite (U u D); cbn; rewrite on_other by exact D; reflexivity|rewrite A, S; reflexivity|exact Ry].
    + cbn. apply on_same. + exact Ly. + constructor.
    + intros l. cbn. split; [|contradiction]. intros F. exfalso. apply (O l u D) in F. discriminate F.
    + intros l v Dv F. cbn in F. destruct (tid_dec P v (main P)) as [->|Dm]; [apply H; exact F|]. apply (O l v Dm) in F. discriminate F.
    + exists s'. split; [exact R'|]. split; [|exists ry; exact E']. exists rx. rewrite U' by (intros X; apply D; symmetry; exact X). cbn. rewrite on_other by (intros X; apply D; symmetry; exact X). exact E.
Qed.
(** two threads in the middle of their bodies, [first] being over *)
Lemma meet_later x y a b hx hy t u :
  In (x, a) (points (body P t)) -> In (y, b) (points (body P u)) -> t <> u ->
  (t = main P \/ starts (quick (first P)) t = true) -> (u = main P \/ starts (quick (first P)) u = true) ->
  locks [] [] (quick (first P)) = Some [] -> locks [] [] x = Some hx -> locks hx [] y = Some hy ->
  exists s, reachable P s /\ next_is s t a /\ next_is s u b /\ forall l, In l hx -> holder s l = Some t.
Proof.
  intros Ix Iy D St Su L0 Lx Ly. destruct (points_run _ _ _ Ix) as (rx & Rx). destruct (points_run _ _ _ Iy) as (ry & Ry).
  destruct (run_prefix (main P) [] (quick (first P)) _ [] [] [] (RInit P _ (Init P _ (quick_runs (first P))))) as (s & R & E & U & N & H & O & A).
  - cbn. rewrite app_nil_r. apply on_same. - exact L0. - constructor. - intros l. cbn. split; [discriminate|contradiction]. - intros l v _ F. discriminate F.
  - assert (T : forall v, todo s v = []). { intros v. destruct (tid_dec P v (main P)) as [->|Dv]; [exact E|]. rewrite (U v Dv). cbn. rewrite on_other by exact Dv. reflexivity. }
    assert (Hs : forall l, holder s l = None).
    { intros l. destruct (holder s l) as [v|] eqn:F; [|reflexivity]. exfalso. destruct (tid_dec P v (main P)) as [->|Dv]; [apply H in F; contradiction|]. apply (O l v Dv) in F. discriminate F. }
    assert (Al : forall v, v = main P \/ starts (quick (first P)) v = true -> alive s v = true).
    { intros v [->|S]; rewrite A; [cbn; rewrite on_same; apply orb_true_r|rewrite S; reflexivity]. }
    destruct (run_prefix t [] x (Rcs (on P (todo s) t (x ++ a :: rx)) (holder s) (alive s)) [] hx (a :: rx)) as (s1 & R1 & E1 & U1 & N1 & H1 & O1 & A1).
    + apply (RMore P _ _ R). apply XStart; [apply T|apply Al; exact St|exact Rx].
    + cbn. apply on_same. + exact Lx. + constructor.
    + intros l. cbn. rewrite Hs. split; [discriminate|contradiction]. + intros l v _ F. cbn in F. rewrite Hs in F. discriminate F.
    + destruct (run_prefix u hx y (Rcs (on P (todo s1) u (y ++ b :: ry)) (holder s1) (alive s1)) [] hy (b :: ry)) as (s' & R' & E' & U' & _ & _ & O' & _).
      * apply (RMore P _ _ R1). apply XStart; [rewrite (U1 u (not_eq_sym D)); cbn; rewrite (on_other P _ t _ u (not_eq_sym D)); apply T| |exact Ry].
        rewrite A1. cbn. rewrite (Al u Su). apply orb_true_r.
      * cbn. apply on_same. * exact Ly. * constructor.
      * intros l. cbn. split; [|contradiction]. intros F. exfalso. apply (O1 l u) in F; [|congruence]. cbn in F. rewrite Hs in F. discriminate F.
      * intros l v Dv F. cbn in F. destruct (tid_dec P v t) as [->|Dt]; [apply H1; exact F|]. apply (O1 l v Dt) in F. cbn in F. rewrite Hs in F. discriminate F.
      * exists s'. split; [exact R'|]. split; [|split; [exists ry; exact E'|]].
        -- exists rx. rewrite (U' t D). cbn. rewrite (on_other P _ u _ t D). exact E1.
        -- intros l I. apply (O' l t D). cbn. apply H1. exact I.
Qed.

(** ** A test that finds a race if it can *)
Context (var_dec : forall a b : var, {a = b} + {a <> b}).
Definition is_wr (v : var) (a : act) : bool := match a with Wr w => if var_dec w v then true else false | _ => false end.
Definition is_rw (v : var) (a : act) : bool := match a with Wr w | Rd w => if var_dec w v then true else false | _ => false end.
Definition clash (v : var) (a b : act) : bool := (is_wr v a && is_rw v b) || (is_rw v a && is_wr v b).
Definition compatible (x y : list act) : bool := match locks [] [] x with Some h => match locks h [] y with Some _ => true | None => false end | None => false end.
Definition find_first (v : var) (u : tid) : bool :=
  if tid_dec P u (main P) then false else
  existsb (fun x => existsb (fun y => clash v (snd x) (snd y) && starts (fst x) u && compatible (fst x) (fst y)) (points (body P u))) (points (first P)).
Definition started (t : tid) : bool := (if tid_dec P t (main P) then true else false) || starts (quick (first P)) t.
Definition find_later (v : var) (t u : tid) : bool :=
  if tid_dec P t u then false else started t && started u && match locks [] [] (quick (first P)) with Some [] => true | _ => false end &&
  existsb (fun x => existsb (fun y => clash v (snd x) (snd y) && compatible (fst x) (fst y)) (points (body P u))) (points (body P t)).
Lemma compatible_locks x y : compatible x y = true -> exists hx hy, locks [] [] x = Some hx /\ locks hx [] y = Some hy.
Proof.
  unfold compatible. destruct (locks [] [] x) as [hx|]; [|discriminate]. destruct (locks hx [] y) as [hy|] eqn:E; [|discriminate]. intros _. exists hx, hy. split; [reflexivity|exact E].
Qed.
Lemma is_wr_eq v a : is_wr v a = true -> a = Wr v.
Proof. destruct a as [| | |w|]; cbn; try discriminate. destruct (var_dec w v) as [->|]; [reflexivity|discriminate]. Qed.
Lemma is_rw_eq v a : is_rw v a = true -> a = Rd v \/ a = Wr v.
Proof. destruct a as [| |w|w|]; cbn; try discriminate; (destruct (var_dec w v) as [->|]; [auto|discriminate]). Qed.
Lemma clash_race s t u v a b : t <> u -> next_is s t a -> next_is s u b -> clash v a b = true -> race s v.
Proof.
  intros D A B C. unfold clash in C. apply orb_prop in C as [C|C]; apply andb_prop in C as [C E].
  - apply is_wr_eq in C. apply is_rw_eq in E. subst a. exists t, u. split; [exact D|split; [exact A|]]. destruct E as [-> | ->]; auto.
  - apply is_wr_eq in E. apply is_rw_eq in C. subst b. exists u, t. split; [congruence|split; [exact B|]]. destruct C as [-> | ->]; auto.
Qed.
Theorem find_first_race v u : find_first v u = true -> exists s, reachable P s /\ race s v.
Proof.
  unfold find_first. destruct (tid_dec P u (main P)) as [|D]; [discriminate|]. intros F. apply existsb_exists in F as ((x & a) & Ix & F). apply existsb_exists in F as ((y & b) & Iy & F).
  cbn in F. apply andb_prop in F as [F C]. apply andb_prop in F as [F S]. destruct (compatible_locks _ _ C) as (hx & hy & Lx & Ly).
  destruct (meet_first x y a b hx hy u Ix Iy D S Lx Ly) as (s & R & A & B). exists s. split; [exact R|].
  apply (clash_race s (main P) u v a b); [congruence|exact A|exact B|exact F].
Qed.
Theorem find_later_race v t u : find_later v t u = true -> exists s, reachable P s /\ race s v.
Proof.
  unfold find_later. destruct (tid_dec P t u) as [|D]; [discriminate|]. intros F. apply andb_prop in F as [F E]. apply andb_prop in F as [F L]. apply andb_prop in F as [St Su].
  apply existsb_exists in E as ((x & a) & Ix & E). apply existsb_exists in E as ((y & b) & Iy & E). cbn in E. apply andb_prop in E as [E C].
  destruct (compatible_locks _ _ C) as (hx & hy & Lx & Ly).
  assert (Sx : forall w, started w = true -> w = main P \/ starts (quick (first P)) w = true).
  { intros w S. unfold started in S. destruct (tid_dec P w (main P)) as [->|]; [left; reflexivity|right; exact S]. }
  destruct (locks [] [] (quick (first P))) as [[|k h]|] eqn:L0; try discriminate L.
  destruct (meet_later x y a b hx hy t u Ix Iy D (Sx t St) (Sx u Su) L0 Lx Ly) as (s & R & A & B & _). exists s. split; [exact R|].
  exact (clash_race s t u v a b D A B E).
Qed.
(** t is about to do a, with the mutex k, and u about to do b *)
Definition is_act (a b : act) : bool := match a with Rd v => match b with Rd w => if var_dec v w then true else false | _ => false end | Wr v => is_wr v b | _ => false end.
Definition find_holding (t u : tid) (k : lock) (a b : act) : bool :=
  if tid_dec P t u then false else started t && started u && match locks [] [] (quick (first P)) with Some [] => true | _ => false end &&
  existsb (fun x => existsb (fun y => is_act a (snd x) && is_act b (snd y) && compatible (fst x) (fst y) &&
    match locks [] [] (fst x) with Some h => has P h k | None => false end) (points (body P u))) (points (body P t)).
Lemma is_act_eq a b : is_act a b = true -> b = a.
Proof.
  destruct a as [| |v|v|]; cbn; try discriminate; [|apply is_wr_eq]. destruct b as [| |w| |]; try discriminate. destruct (var_dec v w) as [->|]; [reflexivity|discriminate].
Qed.
Theorem find_holding_meet t u k a b : find_holding t u k a b = true -> exists s, reachable P s /\ holder s k = Some t /\ next_is s t a /\ next_is s u b.
Proof.
  unfold find_holding. destruct (tid_dec P t u) as [|D]; [discriminate|]. intros F. apply andb_prop in F as [F E]. apply andb_prop in F as [F L]. apply andb_prop in F as [St Su].
  apply existsb_exists in E as ((x & a') & Ix & E). apply existsb_exists in E as ((y & b') & Iy & E). cbn in E. apply andb_prop in E as [E K]. apply andb_prop in E as [E C].
  apply andb_prop in E as [Ea Eb]. apply is_act_eq in Ea. apply is_act_eq in Eb. subst a' b'. destruct (compatible_locks _ _ C) as (hx & hy & Lx & Ly).
  assert (Sx : forall w, started w = true -> w = main P \/ starts (quick (first P)) w = true).
  { intros w S. unfold started in S. destruct (tid_dec P w (main P)) as [->|]; [left; reflexivity|right; exact S]. }
  destruct (locks [] [] (quick (first P))) as [[|k0 h]|] eqn:L0; try discriminate L.
  destruct (meet_later x y a b hx hy t u Ix Iy D (Sx t St) (Sx u Su) L0 Lx Ly) as (s & R & A & B & H). exists s. split; [exact R|split; [|split; [exact A|exact B]]].
  apply H. rewrite Lx in K. unfold has in K. destruct (in_dec (lock_dec P) k hx) as [I|]; [exact I|discriminate K].
Qed.
End Meet.
