From Coq Require Import ZArith Reals List Bool String Lia Lra.
From Flocq Require Import Core BinarySingleNaN.
From Verif Require Import Num F32Err TfModel TfSpec.
Import ListNotations.
Local Open Scope Z_scope.

Section P.
Variable X : Type.
Variable lerp : X -> X -> f32 -> X.
Implicit Types q l : list (stf X).

Lemma increasing_app q x : increasing (q ++ [x]) <-> increasing q /\ forall y, In y q -> st_time y < st_time x.
Proof.
  induction q as [|y q IH]; cbn.
  - tauto.
  - rewrite IH. split.
    + intros (H1 & H2 & H3). repeat split; auto.
      * intros z Hz. apply H1. apply in_or_app. now left.
      * intros z [<-|Hz]; [apply H1; apply in_or_app; right; now left|auto].
    + intros ((H1 & H2) & H3). repeat split; auto.
      intros z Hz. apply in_app_or in Hz. destruct Hz as [Hz|[<-|[]]]; auto.
Qed.

Lemma last_stf_app q x : last_stf X (q ++ [x]) = Some x.
Proof. unfold last_stf. now rewrite rev_app_distr. Qed.
Lemma last_stf_none q : last_stf X q = None <-> q = [].
Proof.
  unfold last_stf. destruct (rev q) eqn:E; split; intros; try reflexivity; try discriminate.
  - rewrite <- (rev_involutive q), E. reflexivity.
  - subst q. discriminate.
Qed.

(** newest *)
Lemma newest_app l x : newest (l ++ [x]) =
  match newest l with None => Some (st_time x) | Some n => Some (Z.max n (st_time x)) end.
Proof. unfold newest. now rewrite fold_left_app. Qed.
Lemma newest_none l : newest l = None <-> l = [].
Proof.
  destruct l as [|x l] using rev_ind; [tauto|]. rewrite newest_app.
  split; [destruct (newest l); discriminate|]. intros E. destruct l; discriminate.
Qed.
Lemma newest_max l n : newest l = Some n -> forall x, In x l -> st_time x <= n.
Proof.
  revert n. induction l as [|y l IH] using rev_ind; intros n; [discriminate|].
  rewrite newest_app. intros E x Hx. apply in_app_or in Hx. destruct Hx as [Hx|[<-|[]]].
  - destruct (newest l) as [k|] eqn:Hk; [|apply newest_none in Hk; subst l; destruct Hx].
    specialize (IH k eq_refl x Hx). injection E as <-. lia.
  - destruct (newest l); injection E as <-; lia.
Qed.
Lemma newest_increasing_app l x : increasing (l ++ [x]) -> newest (l ++ [x]) = Some (st_time x).
Proof.
  intros H. apply increasing_app in H. destruct H as (_ & H). rewrite newest_app.
  destruct (newest l) as [n|] eqn:E; [|reflexivity]. f_equal.
  assert (Hl : exists y, In y l /\ st_time y = n).
  { clear H. revert n E. induction l as [|y l IH] using rev_ind; [discriminate|]. intros n. rewrite newest_app.
    destruct (newest l) as [k|] eqn:Ek.
    - intros [= <-]. destruct (Z.le_gt_cases k (st_time y)).
      + exists y. split; [apply in_or_app; right; now left|lia].
      + destruct (IH k eq_refl) as (z & Hz & Ez). exists z. split; [apply in_or_app; now left|lia].
    - intros [= <-]. exists y. split; [apply in_or_app; right; now left|reflexivity]. }
  destruct Hl as (y & Hy & <-). specialize (H y Hy). lia.
Qed.

(** records *)
Definition opt_max (a : option Z) (x : Z) : option Z := match a with None => Some x | Some n => Some (Z.max n x) end.
Lemma records_from_app n l x : records_from n (l ++ [x]) =
  records_from n l ++
   (if match fold_left (fun a y => opt_max a (st_time y)) l n with None => true | Some k => k <? st_time x end then [x] else []).
Proof.
  revert n. induction l as [|y l IH]; intros n; cbn [records_from app fold_left].
  - destruct (match n with None => true | Some k => k <? st_time x end); reflexivity.
  - destruct n as [k|]; cbn [opt_max].
    + destruct (Z.ltb_spec k (st_time y)).
      * rewrite IH. cbn [app]. replace (Z.max k (st_time y)) with (st_time y) by lia. reflexivity.
      * rewrite IH. replace (Z.max k (st_time y)) with k by lia. reflexivity.
    + rewrite IH. reflexivity.
Qed.
Lemma records_app l x : records (l ++ [x]) =
  records l ++ (if match newest l with None => true | Some k => k <? st_time x end then [x] else []).
Proof. unfold records. rewrite records_from_app. reflexivity. Qed.
Lemma records_newest l : newest (records l) = newest l.
Proof.
  induction l as [|x l IH] using rev_ind; [reflexivity|]. rewrite records_app, newest_app.
  destruct (newest l) as [n|] eqn:E.
  - destruct (Z.ltb_spec n (st_time x)); cbn [app]; rewrite ?app_nil_r, ?newest_app, IH; [reflexivity|]. f_equal. lia.
  - rewrite newest_app, IH. reflexivity.
Qed.
Lemma records_increasing l : increasing (records l).
Proof.
  induction l as [|x l IH] using rev_ind; [exact I|]. rewrite records_app.
  destruct (newest l) as [n|] eqn:E.
  - destruct (Z.ltb_spec n (st_time x)); [|now rewrite app_nil_r]. apply increasing_app. split; [exact IH|].
    intros y Hy. rewrite <- (records_newest l) in E. pose proof (newest_max _ _ E y Hy). lia.
  - apply newest_none in E. subst l. cbn. split; auto. intros ? [].
Qed.

Lemma filter_all (f : stf X -> bool) q : (forall x, In x q -> f x = true) -> filter f q = q.
Proof.
  induction q as [|x q IH]; cbn; intros H; [reflexivity|]. rewrite (H x (or_introl eq_refl)). f_equal. apply IH. auto.
Qed.
(** pop_old on an increasing queue keeps exactly the recent elements *)
Lemma pop_old_spec size q x : 0 <= size -> increasing (q ++ [x]) ->
  pop_old X size (st_time x) (q ++ [x]) = Some (filter (fun y => st_time x - st_time y <=? size) (q ++ [x])).
Proof.
  intros Hs. induction q as [|y q IH]; intros H; cbn [app pop_old].
  - destruct (Z.ltb_spec size (st_time x - st_time x)); [lia|]. cbn. destruct (Z.leb_spec (st_time x - st_time x) size); [reflexivity|lia].
  - cbn [app increasing] in H. destruct H as (H1 & H2). destruct (Z.ltb_spec size (st_time x - st_time y)).
    + rewrite IH by exact H2. cbn [filter]. destruct (Z.leb_spec (st_time x - st_time y) size); [lia|reflexivity].
    + f_equal. symmetry. cbn [filter]. destruct (Z.leb_spec (st_time x - st_time y) size); [|lia]. f_equal.
      apply filter_all. intros z Hz. apply Z.leb_le. specialize (H1 z Hz). lia.
Qed.
Lemma increasing_filter f q : increasing q -> increasing (filter f q).
Proof.
  induction q as [|x q IH]; cbn; [auto|]. intros (H1 & H2). destruct (f x); [|auto]. cbn. split; [|auto].
  intros y Hy. apply filter_In in Hy. apply H1. tauto.
Qed.
Lemma recent_last size l x : 0 <= size -> increasing (l ++ [x]) ->
  last_stf X (recent size (l ++ [x])) = Some x.
Proof.
  intros Hs H. unfold recent. rewrite (newest_increasing_app _ _ H), filter_app. cbn [filter].
  destruct (Z.leb_spec (st_time x - st_time x) size); [|lia]. apply last_stf_app.
Qed.

Lemma filter_filter_le size n m l : n <= m ->
  filter (fun y : stf X => m - st_time y <=? size) (filter (fun y => n - st_time y <=? size) l) =
  filter (fun y => m - st_time y <=? size) l.
Proof.
  intros Hnm. induction l as [|y l IH]; [reflexivity|]. cbn [filter].
  destruct (Z.leb_spec (n - st_time y) size); cbn [filter]; destruct (Z.leb_spec (m - st_time y) size); try rewrite IH; try reflexivity; lia.
Qed.

(** one insertion *)
Lemma insert_spec b s t x : 0 <= tb_size b ->
  forall l, stored b s t = recent (tb_size b) (records l) ->
  exists b', insertTransform X b s t x = Some (b', match newest l with None => true | Some n => n <? st_time x end) /\
   tb_size b' = tb_size b /\
   stored b' s t = recent (tb_size b) (records (l ++ [x])) /\
   forall s' t', getKey s' t' <> getKey s t -> tb_map b' (getKey s' t') = tb_map b (getKey s' t').
Proof.
  intros Hs l Hst. unfold insertTransform. unfold stored in Hst.
  set (q := match tb_map b (getKey s t) with Some q => q | None => [] end) in *. rewrite records_app.
  assert (Hlast : match last_stf X q with None => true | Some l => st_time l <? st_time x end =
                  match newest l with None => true | Some n => n <? st_time x end).
  { rewrite <- (records_newest l). rewrite Hst. pose proof (records_increasing l) as Hinc.
    destruct (records l) as [|y r _] using rev_ind; [reflexivity|].
    rewrite recent_last, newest_increasing_app by assumption. reflexivity. }
  rewrite Hlast. destruct (match newest l with None => true | Some n => n <? st_time x end) eqn:En.
  - assert (Hinc : increasing (q ++ [x])).
    { apply increasing_app. split; [rewrite Hst; apply increasing_filter, records_increasing|].
      intros y Hy. rewrite Hst in Hy. apply filter_In in Hy. destruct Hy as (Hy & _).
      destruct (newest l) as [n|] eqn:E2.
      + rewrite <- records_newest in E2. pose proof (newest_max _ _ E2 y Hy). apply Z.ltb_lt in En. lia.
      + apply newest_none in E2. subst l. destruct Hy. }
    assert (Hinc2 : increasing (records l ++ [x])).
    { pose proof (records_increasing (l ++ [x])) as R. rewrite records_app, En in R. exact R. }
    rewrite pop_old_spec by assumption. eexists. split; [reflexivity|]. cbn [tb_size tb_map]. split; [reflexivity|]. split.
    + unfold stored. cbn [tb_map]. unfold upd. rewrite String.eqb_refl.
      unfold recent at 1. rewrite (newest_increasing_app _ _ Hinc2). rewrite !filter_app. f_equal.
      rewrite Hst. unfold recent. rewrite records_newest. destruct (newest l) as [n|] eqn:E2.
      * apply filter_filter_le. apply Z.ltb_lt in En. lia.
      * apply newest_none in E2. subst l. reflexivity.
    + intros s' t' Hne. unfold upd. destruct (String.eqb_spec (getKey s' t') (getKey s t)); [contradiction|reflexivity].
  - eexists. split; [reflexivity|]. cbn [tb_size tb_map]. split; [reflexivity|]. split.
    + unfold stored. cbn [tb_map]. unfold upd. rewrite String.eqb_refl, app_nil_r. exact Hst.
    + intros s' t' Hne. unfold upd. destruct (String.eqb_spec (getKey s' t') (getKey s t)); [contradiction|reflexivity].
Qed.

Lemma offered_app s t (l : list (ins X)) (i : ins X) : offered s t (l ++ [i]) =
  offered s t l ++ (if String.eqb (getKey (fst (fst i)) (snd (fst i))) (getKey s t) then [snd i] else []).
Proof. unfold offered. rewrite filter_app, map_app. cbn. destruct (String.eqb _ _); reflexivity. Qed.

Lemma tb_run_app b (l : list (ins X)) (i : ins X) : tb_run X b (l ++ [i]) =
  match tb_run X b l with
  | Some b' => match insertTransform X b' (fst (fst i)) (snd (fst i)) (snd i) with Some (b2, _) => Some b2 | None => None end
  | None => None end.
Proof.
  revert b. induction l as [|((s, t), x) l IH]; intros b; cbn [app tb_run].
  - destruct i as ((s, t), x). cbn. destruct (insertTransform X b s t x) as [(b', r)|]; reflexivity.
  - destruct (insertTransform X b s t x) as [(b', r)|]; [apply IH|reflexivity].
Qed.

(** C16: after any history the buffer holds the recent records of every frame pair *)
Theorem run_spec size (l : list (ins X)) : 0 <= size ->
  exists b, tb_run X (tb_new X size) l = Some b /\ tb_size b = size /\
  forall s t, stored b s t = recent size (records (offered s t l)).
Proof.
  intros Hs. induction l as [|((s0, t0), x) l IH] using rev_ind.
  - exists (tb_new X size). repeat split.
  - destruct IH as (b & E & Sz & St). rewrite tb_run_app, E. cbn [fst snd].
    destruct (insert_spec b s0 t0 x ltac:(lia) (offered s0 t0 l)) as (b' & I & Sz' & St' & Oth); [rewrite Sz; apply St|].
    rewrite I. exists b'. split; [reflexivity|]. split; [congruence|]. intros s t. rewrite offered_app. cbn [fst snd].
    destruct (String.eqb_spec (getKey s0 t0) (getKey s t)) as [K|K].
    + assert (Hso : offered s t l = offered s0 t0 l) by (unfold offered; now rewrite K).
      rewrite Hso, <- Sz. rewrite <- St'. unfold stored. now rewrite K.
    + rewrite app_nil_r, <- St. unfold stored. rewrite Oth; [reflexivity|congruence].
Qed.

Lemma run_sorted_bounded size (l : list (ins X)) b s t : 0 <= size -> tb_run X (tb_new X size) l = Some b ->
  increasing (stored b s t) /\
  (forall x y, In x (stored b s t) -> In y (stored b s t) -> st_time y - st_time x <= size).
Proof.
  intros Hs E. destruct (run_spec size l Hs) as (b' & E' & _ & St). rewrite E in E'. injection E' as <-.
  rewrite St. split; [apply increasing_filter, records_increasing|].
  intros x y Hx Hy. apply filter_In in Hx, Hy. destruct Hx as (Hx & Rx), Hy as (Hy & _).
  destruct (newest (records (offered s t l))) as [n|] eqn:E2.
  - pose proof (newest_max _ _ E2 y Hy). apply Z.leb_le in Rx. lia.
  - apply newest_none in E2. rewrite E2 in Hx. destruct Hx.
Qed.
Lemma insert_accepts size (l : list (ins X)) b s t x b' r : 0 <= size -> tb_run X (tb_new X size) l = Some b ->
  insertTransform X b s t x = Some (b', r) ->
  (r = true <-> forall y, In y (offered s t l) -> st_time y < st_time x) /\
  (r = false -> forall s' t', stored b' s' t' = stored b s' t') /\
  (forall s' t', getKey s' t' <> getKey s t -> stored b' s' t' = stored b s' t').
Proof.
  intros Hs E I. destruct (run_spec size l Hs) as (b2 & E' & Sz & St). rewrite E in E'. injection E' as <-.
  destruct (insert_spec b s t x ltac:(lia) (offered s t l)) as (b3 & I' & Sz' & St' & Oth); [rewrite Sz; apply St|].
  rewrite I in I'. injection I' as <- ->. split; [|split].
  - split.
    + intros H y Hy. destruct (newest (offered s t l)) as [n|] eqn:En.
      * pose proof (newest_max _ _ En y Hy). apply Z.ltb_lt in H. lia.
      * apply newest_none in En. rewrite En in Hy. destruct Hy.
    + intros H. destruct (newest (offered s t l)) as [n|] eqn:En; [|reflexivity]. apply Z.ltb_lt.
      assert (Hex : exists y, In y (offered s t l) /\ st_time y = n).
      { clear -En. revert n En. induction (offered s t l) as [|y k IH] using rev_ind; [discriminate|]. intros n. rewrite newest_app.
        destruct (newest k) as [m|] eqn:Ek.
        - intros [= <-]. destruct (Z.le_gt_cases m (st_time y)).
          + exists y. split; [apply in_or_app; right; now left|lia].
          + destruct (IH m eq_refl) as (z & Hz & Ez). exists z. split; [apply in_or_app; now left|lia].
        - intros [= <-]. exists y. split; [apply in_or_app; right; now left|reflexivity]. }
      destruct Hex as (y & Hy & <-). auto.
  - intros H s' t'. destruct (String.eqb_spec (getKey s' t') (getKey s t)) as [K|K].
    + unfold stored. rewrite K. fold (stored b' s t). fold (stored b s t). rewrite St'. rewrite records_app.
      destruct (newest (offered s t l)) as [n|] eqn:En; [|discriminate]. rewrite H, app_nil_r, Sz, <- St. reflexivity.
    + unfold stored. now rewrite Oth.
  - intros s' t' K. unfold stored. now rewrite Oth.
Qed.

(** ---------------- lookup *)
Lemma increasing_mid (a : list (stf X)) e b : increasing (a ++ e :: b) ->
  (forall y, In y a -> st_time y < st_time e) /\ (forall y, In y b -> st_time e < st_time y).
Proof.
  induction a as [|y a IH]; cbn.
  - intros (H1 & H2). split; [intros ? []|auto].
  - intros (H1 & H2). destruct (IH H2) as (I1 & I2). split; [|auto].
    intros z [<-|Hz]; [apply H1; apply in_or_app; right; now left|auto].
Qed.

Lemma scan_spec time : forall rest prev out after q,
  q = rev rest ++ prev :: after -> increasing q -> time <= st_time prev ->
  match scan X lerp time prev rest out with
  | (true, o) => exists a e f c, q = a ++ e :: f :: c /\ st_time e <= time <= st_time f /\
                   o = Stf time (lerp (st_val e) (st_val f) (tau (st_time e) (st_time f) time))
  | (false, o) => o = out /\ forall e, In e rest -> time < st_time e
  end.
Proof.
  induction rest as [|it rest IH]; intros prev out after q Eq Hinc Hp; cbn [scan].
  - split; [reflexivity|]. intros ? [].
  - cbn [rev] in Eq. rewrite <- app_assoc in Eq. cbn [app] in Eq.
    destruct (Z.leb_spec (st_time it) time) as [L|L].
    + unfold interpolateTransform. destruct (Z.ltb_spec (st_time prev) time); [lia|]. destruct (Z.ltb_spec time (st_time it)); [lia|]. cbn [orb].
      exists (rev rest), it, prev, after. repeat split; try assumption.
    + specialize (IH it out (prev :: after) q Eq Hinc ltac:(lia)).
      destruct (scan X lerp time it rest out) as ([|], o).
      * exact IH.
      * destruct IH as (-> & F). split; [reflexivity|]. intros e [<-|He]; auto.
Qed.

Lemma get_spec size (l : list (ins X)) b s t time out : 0 <= size -> tb_run X (tb_new X size) l = Some b ->
  let q := stored b s t in
  match getTransform X lerp b s t time out with
  | (true, o) => exists a e f c, q = a ++ e :: f :: c /\ st_time e <= time <= st_time f /\
                   o = Stf time (lerp (st_val e) (st_val f) (tau (st_time e) (st_time f) time))
  | (false, o) => o = out /\
      ~ (exists i j e f, i <> j /\ nth_error q i = Some e /\ nth_error q j = Some f /\ st_time e <= time <= st_time f)
  end.
Proof.
  intros Hs E q. destruct (run_sorted_bounded size l b s t Hs E) as (Hinc & _). fold q in Hinc.
  unfold getTransform. subst q. unfold stored in *. destruct (tb_map b (getKey s t)) as [q|].
  2:{ split; [reflexivity|]. intros (i & j & e & f & _ & H & _). destruct i; discriminate. }
  destruct (rev q) as [|back rest] eqn:Er.
  { assert (q = []) by (rewrite <- (rev_involutive q), Er; reflexivity). subst q.
    split; [reflexivity|]. intros (i & j & e & f & _ & H & _). destruct i; discriminate. }
  assert (Eq : q = rev rest ++ [back]) by (rewrite <- (rev_involutive q), Er; reflexivity).
  destruct q as [|front q']; [destruct (rev rest); discriminate|]. set (q := front :: q') in *.
  assert (Hback : forall y, In y q -> st_time y <= st_time back).
  { intros y Hy. rewrite Eq in Hinc, Hy. apply increasing_app in Hinc. destruct Hinc as (_ & Hm).
    apply in_app_or in Hy. destruct Hy as [Hy|[<-|[]]]; [specialize (Hm y Hy); lia|lia]. }
  assert (Hfront : forall y, In y q -> st_time front <= st_time y).
  { intros y Hy. cbn in Hinc. destruct Hinc as (Hm & _). destruct Hy as [<-|Hy]; [lia|specialize (Hm y Hy); lia]. }
  destruct (Z.ltb_spec (st_time back) time) as [L|L].
  { split; [reflexivity|]. intros (i & j & e & f & _ & _ & H & _ & H2). apply nth_error_In in H. specialize (Hback f H). lia. }
  destruct (Z.ltb_spec time (st_time front)) as [L2|L2].
  { split; [reflexivity|]. intros (i & j & e & f & _ & H & _ & H2 & _). apply nth_error_In in H. specialize (Hfront e H). lia. }
  pose proof (scan_spec time rest back out [] q Eq Hinc L) as Sc.
  destruct (scan X lerp time back rest out) as ([|], o); [exact Sc|]. destruct Sc as (-> & F). split; [reflexivity|].
  assert (rest = []) as ->.
  { destruct rest as [|y rest _] using rev_ind; [reflexivity|]. exfalso.
    rewrite rev_app_distr in Eq. cbn in Eq. injection Eq as Ef _. subst y.
    specialize (F front ltac:(apply in_or_app; right; now left)). lia. }
  cbn in Eq. intros (i & j & e & f & Hij & H1 & H2 & _). rewrite Eq in H1, H2.
  destruct i as [|[|i]], j as [|[|j]]; cbn in *; try discriminate. congruence.
Qed.

(** with neighbours bracketing the query the lookup succeeds *)
Lemma get_success_iff size (l : list (ins X)) b s t time out : 0 <= size -> tb_run X (tb_new X size) l = Some b ->
  (fst (getTransform X lerp b s t time out) = true <->
   exists i j e f, i <> j /\ nth_error (stored b s t) i = Some e /\ nth_error (stored b s t) j = Some f /\ st_time e <= time <= st_time f).
Proof.
  intros Hs E. pose proof (get_spec size l b s t time out Hs E) as G. cbv zeta in G.
  destruct (getTransform X lerp b s t time out) as ([|], o); cbn [fst].
  - split; [intros _|reflexivity]. destruct G as (a & e & f & c & Eq & H & _).
    exists (List.length a), (S (List.length a)), e, f. split; [lia|]. rewrite Eq.
    rewrite !nth_error_app2 by lia. replace (S (List.length a) - List.length a)%nat with 1%nat by lia. rewrite Nat.sub_diag. auto.
  - destruct G as (_ & G). split; [discriminate|]. intros H. contradiction.
Qed.
End P.

(** tau is a proper interpolation weight *)
Lemma f32_ofZ_rnd (z : Z) : (Z.abs z <= 2 ^ 100)%Z -> is_finite (f32_ofZ z) = true /\ B2R (f32_ofZ z) = rnd (IZR z).
Proof.
  intros H. unfold f32_ofZ.
  pose proof (binary_normalize_correct 24 128 _ _ mode_NE z 0 false) as C.
  cbn [round_mode] in C. change (SpecFloat.fexp 24 128) with (FLT_exp (-149) 24) in C.
  assert (E : F2R (Float radix2 z 0) = IZR z) by (unfold F2R; simpl; ring).
  rewrite E in C.
  assert (HB : (Rabs (IZR z) <= bpow radix2 100)%R).
  { rewrite <- abs_IZR. change (bpow radix2 100) with (IZR (2 ^ 100)). apply IZR_le. exact H. }
  rewrite (rnd_no_overflow _ HB) in C. destruct C as (C1 & C2 & _). split; [exact C2|exact C1].
Qed.

Lemma tau_range e l t : e < l -> l - e <= 2 ^ 63 -> e <= t <= l ->
  is_finite (tau e l t) = true /\ (0 <= B2R (tau e l t) <= 1)%R /\
  (t = e -> B2R (tau e l t) = 0%R) /\ (t = l -> B2R (tau e l t) = 1%R).
Proof.
  intros Hel Hb Ht. unfold tau. assert (P : 2 ^ 63 <= 2 ^ 100) by (apply Z.pow_le_mono_r; lia).
  destruct (f32_ofZ_rnd (t - e) ltac:(lia)) as (F1 & V1). destruct (f32_ofZ_rnd (l - e) ltac:(lia)) as (F2 & V2).
  assert (VR : Valid_rnd ZnearestE) by apply valid_rnd_N.
  assert (VE : Valid_exp (FLT_exp (-149) 24)) by (apply FLT_exp_valid; reflexivity).
  assert (R0 : (rnd 0 = 0)%R) by (apply round_0; exact VR).
  assert (R1 : (rnd 1 = 1)%R).
  { apply round_generic; [exact VR|]. change 1%R with (bpow radix2 0). apply generic_format_bpow. unfold FLT_exp. lia. }
  assert (L1 : (0 <= B2R (f32_ofZ (t - e)))%R).
  { rewrite V1, <- R0. apply round_le; try assumption. apply IZR_le. lia. }
  assert (L2 : (1 <= B2R (f32_ofZ (l - e)))%R).
  { rewrite V2, <- R1 at 1. apply round_le; try assumption. apply IZR_le. lia. }
  assert (L3 : (B2R (f32_ofZ (t - e)) <= B2R (f32_ofZ (l - e)))%R).
  { rewrite V1, V2. apply round_le; try assumption. apply IZR_le. lia. }
  set (a := B2R (f32_ofZ (t - e))) in *. set (d := B2R (f32_ofZ (l - e))) in *.
  assert (Q : (0 <= a / d <= 1)%R).
  { split; [apply Rmult_le_pos; [assumption|apply Rlt_le, Rinv_0_lt_compat; lra]|].
    apply Rmult_le_reg_r with d; [lra|]. unfold Rdiv. rewrite Rmult_assoc, Rinv_l by lra. lra. }
  assert (B1 : (1 <= bpow radix2 100)%R) by (change 1%R with (bpow radix2 0); apply bpow_le; lia).
  destruct (f32_div_R (f32_ofZ (t - e)) (f32_ofZ (l - e)) F1) as (F & V).
  { fold d. lra. }
  { fold a d. apply Rabs_le. lra. }
  fold a d in V. rewrite V. split; [exact F|]. split; [|split].
  - split; [rewrite <- R0|rewrite <- R1]; apply round_le; try assumption; lra.
  - intros Et. assert (Ha : (a = 0)%R) by (rewrite V1, Et, Z.sub_diag; exact R0). rewrite Ha. unfold Rdiv. now rewrite Rmult_0_l.
  - intros Et. assert (Ha : (a = d)%R) by (unfold a, d; rewrite Et; reflexivity). rewrite Ha. unfold Rdiv. now rewrite Rinv_r by lra.
Qed.

(** the translation produced by the code (transform_buffer.cpp:26), over the reals *)
Definition lerp_origin (o1 o2 : R) (w : R) : R := (o1 * (1 - w) + o2 * w)%R.

(** ---------------- frame pair keys *)
Section Keys.
Local Open Scope string_scope.
Lemma append_assoc a b c : (a ++ (b ++ c) = (a ++ b) ++ c)%string.
Proof. induction a; cbn; congruence. Qed.
Lemma append_inj_l a b c : (a ++ b = a ++ c)%string -> b = c.
Proof. induction a; cbn; [auto|]. intros [= H]. auto. Qed.
Lemma append_nil_r a : (a ++ "")%string = a.
Proof. induction a; cbn; congruence. Qed.
Lemma append_length a b : String.length (a ++ b) = (String.length a + String.length b)%nat.
Proof. induction a; cbn; congruence. Qed.
(** src ++ "_" contains no "_to_" *)
Definition no_to (src : string) : Prop := forall a b, (src ++ "_" <> a ++ "_to_" ++ b)%string.
Lemma append_split a b c d : (a ++ b = c ++ d)%string -> (String.length a <= String.length c)%nat ->
  exists e, c = (a ++ e)%string /\ b = (e ++ d)%string.
Proof.
  revert c. induction a as [|x a IH]; intros c; cbn [append String.length].
  - intros -> _. exists c. auto.
  - destruct c as [|y c]; cbn [append String.length]; [lia|]. intros [= -> H] L.
    destruct (IH c H ltac:(lia)) as (e & -> & ->). exists e. auto.
Qed.
Lemma key_case s1 t1 s2 t2 : no_to s2 -> (String.length s1 <= String.length s2)%nat -> getKey s1 t1 = getKey s2 t2 -> s1 = s2 /\ t1 = t2.
Proof.
  unfold getKey. intros N L E. destruct (append_split _ _ _ _ E L) as (e & -> & E2).
  destruct e as [|c1 [|c2 [|c3 [|c4 e]]]].
  - split; [now rewrite append_nil_r|]. cbn in E2. now injection E2.
  - cbn in E2. discriminate.
  - cbn in E2. discriminate.
  - cbn in E2. inversion E2; subst. exfalso. apply (N s1 ""). rewrite <- append_assoc. reflexivity.
  - cbn in E2. inversion E2; subst. exfalso. apply (N s1 (e ++ "_")%string). rewrite <- append_assoc. reflexivity.
Qed.
Lemma keys_distinct s1 t1 s2 t2 : no_to s1 -> no_to s2 -> getKey s1 t1 = getKey s2 t2 -> s1 = s2 /\ t1 = t2.
Proof.
  intros N1 N2 E. destruct (Nat.le_gt_cases (String.length s1) (String.length s2)).
  - eapply key_case; eauto.
  - destruct (key_case s2 t2 s1 t1 N1 ltac:(lia) (eq_sym E)). auto.
Qed.
(** decision procedure for [no_to], to check concrete frame names *)
Fixpoint has_to (s : string) : bool :=
  String.prefix "_to_" s || match s with EmptyString => false | String _ s' => has_to s' end.
Lemma prefix_app p b : String.prefix p (p ++ b) = true.
Proof. induction p as [|c p IH]; cbn; [destruct b; reflexivity|]. destruct (Ascii.ascii_dec c c); congruence. Qed.
Lemma has_to_no s : has_to (s ++ "_") = false -> no_to s.
Proof.
  intros H a b E. rewrite E in H. clear E. revert H. induction a as [|c a IH].
  - cbn. destruct b; discriminate.
  - cbn [append has_to]. rewrite orb_false_iff. intros (_ & H). auto.
Qed.
End Keys.

Lemma key_collision (X : Type) (x : X) :
  exists s1 t1 s2 t2 b, (s1, t1) <> (s2, t2) /\
    tb_run X (tb_new X 10) [(s1, t1, Stf 0 x); (s1, t1, Stf 2 x)] = Some b /\
    forall lerp out, fst (getTransform X lerp b s2 t2 1 out) = true.
Proof.
  exists "a_to_b"%string, "c"%string, "a"%string, "b_to_c"%string. eexists. split; [intros [= H]; discriminate|].
  split; [reflexivity|]. intros lerp out. reflexivity.
Qed.
