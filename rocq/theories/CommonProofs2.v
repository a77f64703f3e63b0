From Coq Require Import ZArith Reals List Bool Lra Lia.
From Flocq Require Import Core BinarySingleNaN.
From Verif Require Import Num CommonModel CommonSpec CommonProofs.
Import ListNotations.

(* ---------------------------------------------------------------- binary32 cell round trip *)
Definition zseq (n : Z) : list Z := map Z.of_nat (seq 0 (Z.to_nat n)).
Lemma in_zseq n k : (0 <= k < n)%Z -> In k (zseq n).
Proof.
  intros H. unfold zseq. apply in_map_iff. exists (Z.to_nat k). split; [lia|].
  apply in_seq. lia.
Qed.
Definition chk_e (res e : Z) : bool :=
  let w := wrapAngleToPlusMinus180 F32 (ofZ F32 (e * res + res / 2 - 90)) in
  negb (ltb F32 (ofZ F32 90) w) && negb (ltb F32 w (ofZ F32 (-90))) &&
  Z.eqb (clampIndex (f32_cast (floorv F32 (add F32 (div F32 w (ofZ F32 res)) (div F32 (ofZ F32 90) (ofZ F32 res))))) (180 / res)) e.
Definition chk_z (res z : Z) : bool :=
  let w := wrapAngleToPlusMinus180 F32 (ofZ F32 (z * res + res / 2 - 180)) in
  Z.eqb (clampIndex (f32_cast (floorv F32 (add F32 (div F32 w (ofZ F32 res)) (div F32 (ofZ F32 180) (ofZ F32 res))))) (360 / res)) z.
Definition chk_res (res : Z) : bool :=
  forallb (chk_e res) (zseq (180 / res)) && forallb (chk_z res) (zseq (360 / res)).
Lemma chk_all : forallb chk_res (map Z.succ (zseq 180)) = true.
Proof. vm_compute. reflexivity. Qed.

Lemma histogramIndex_roundtrip_F32 (e z res : Z) (rad : f32) :
  (1 <= res <= 180)%Z -> (0 <= e < 180 / res)%Z -> (0 <= z < 360 / res)%Z ->
  polarToHistogramIndex F32 (f32_cast : F32 -> Z) (histogramIndexToPolar F32 e z res rad) res = (z, e).
Proof.
  intros Hr He Hz.
  assert (HC : chk_res res = true).
  { pose proof chk_all as H. rewrite forallb_forall in H. apply H.
    apply in_map_iff. exists (Z.pred res). split; [lia|]. apply in_zseq. lia. }
  unfold chk_res in HC. apply andb_true_iff in HC as [H1 H2].
  rewrite forallb_forall in H1, H2. specialize (H1 e (in_zseq _ _ He)). specialize (H2 z (in_zseq _ _ Hz)).
  unfold chk_e in H1. unfold chk_z in H2.
  apply andb_true_iff in H1 as [H1 H1c]. apply andb_true_iff in H1 as [H1a H1b].
  unfold polarToHistogramIndex, histogramIndexToPolar, wrapPolar. cbn [pe pz pr].
  set (we := wrapAngleToPlusMinus180 F32 (ofZ F32 (e * res + res / 2 - 90))) in *.
  set (wz := wrapAngleToPlusMinus180 F32 (ofZ F32 (z * res + res / 2 - 180))) in *.
  apply negb_true_iff in H1a, H1b. rewrite H1a, H1b. cbn [pe pz pr].
  apply Z.eqb_eq in H1c, H2. rewrite H1c, H2. reflexivity.
Qed.

(* ---------------------------------------------------------------- compaction *)
Section Compact.
Context (N : num).

Lemma set_nth_app {A} (l : list A) (x y : A) r : set_nth (length l) x (l ++ y :: r) = Some (l ++ x :: r).
Proof. induction l as [|a l IH]; cbn; [reflexivity|]. rewrite IH. reflexivity. Qed.

(** the six running extremes over a list of points numbered from [j] *)
Fixpoint ext6_fold (l : list (vec3 N)) (j : nat) (s : ext6 N) : ext6 N :=
  match l with [] => s | p :: r => ext6_fold r (S j) (ext6_step N s p (Z.of_nat j)) end.

Lemma removeNaN_loop_spec rest : forall kept junk s,
  exists junk',
  removeNaN_loop N (length rest) (kept ++ junk ++ rest) (length kept + length junk) (length kept) s =
  Some ((kept ++ filter (finite3 N) rest) ++ junk', (length kept + length (filter (finite3 N) rest))%nat,
        ext6_fold (filter (finite3 N) rest) (length kept) s).
Proof.
  induction rest as [|p rest IH]; intros kept junk s.
  - cbn. exists junk. rewrite !app_nil_r, Nat.add_0_r. reflexivity.
  - cbn [length removeNaN_loop filter].
    rewrite (app_assoc kept junk (p :: rest)).
    rewrite nth_error_app2 by (rewrite app_length; lia).
    rewrite app_length, Nat.sub_diag. cbn [nth_error].
    destruct (finite3 N p) eqn:F.
    + assert (HS : exists junk1, set_nth (length kept) p ((kept ++ junk) ++ p :: rest) =
                     Some ((kept ++ [p]) ++ junk1 ++ rest) /\ length junk1 = length junk).
      { destruct junk as [|q junk].
        - exists []. rewrite app_nil_r, set_nth_app. rewrite <- app_assoc. split; reflexivity.
        - exists (junk ++ [p]). rewrite <- app_assoc. cbn [app]. rewrite set_nth_app.
          rewrite <- !app_assoc. cbn. split; [reflexivity|]. rewrite app_length. cbn. lia. }
      destruct HS as (junk1 & -> & L1).
      assert (HN : nth_error ((kept ++ [p]) ++ junk1 ++ rest) (length kept) = Some p).
      { rewrite <- app_assoc. rewrite nth_error_app2 by lia. rewrite Nat.sub_diag. reflexivity. }
      rewrite HN.
      destruct (IH (kept ++ [p]) junk1 (ext6_step N s p (Z.of_nat (length kept)))) as [junk' HIH].
      exists junk'. rewrite app_length in HIH. cbn [length] in HIH.
      replace (S (length kept + length junk)) with (length kept + 1 + length junk1)%nat by lia.
      replace (S (length kept)) with (length kept + 1)%nat by lia. rewrite HIH.
      cbn [length ext6_fold]. rewrite <- !app_assoc. cbn [app].
      replace (length kept + 1)%nat with (S (length kept)) by lia.
      rewrite Nat.add_succ_r. reflexivity.
    + destruct (IH kept (junk ++ [p]) s) as [junk' HIH].
      exists junk'. rewrite app_length in HIH. cbn [length] in HIH.
      replace (kept ++ (junk ++ [p]) ++ rest) with ((kept ++ junk) ++ p :: rest) in HIH
        by (rewrite <- !app_assoc; reflexivity).
      replace (S (length kept + length junk)) with (length kept + (length junk + 1))%nat by lia.
      exact HIH.
Qed.

(** one coordinate of the scan *)
Definition scan1 (cmp : N -> N -> bool) (get : vec3 N -> N) (acc : N * Z) (p : vec3 N) (j : Z) : N * Z :=
  if cmp (fst acc) (get p) then (get p, j) else acc.
Fixpoint scan (cmp : N -> N -> bool) (get : vec3 N -> N) (l : list (vec3 N)) (j : nat) (acc : N * Z) : N * Z :=
  match l with [] => acc | p :: r => scan cmp get r (S j) (scan1 cmp get acc p (Z.of_nat j)) end.

Lemma ext6_fold_scan l : forall j s,
  let r := ext6_fold l j s in
  (x_max N r, i_x_max N r) = scan (ltb N) vx l j (x_max N s, i_x_max N s) /\
  (y_max N r, i_y_max N r) = scan (ltb N) vy l j (y_max N s, i_y_max N s) /\
  (z_max N r, i_z_max N r) = scan (ltb N) vz l j (z_max N s, i_z_max N s) /\
  (x_min N r, i_x_min N r) = scan (fun a b => ltb N b a) vx l j (x_min N s, i_x_min N s) /\
  (y_min N r, i_y_min N r) = scan (fun a b => ltb N b a) vy l j (y_min N s, i_y_min N s) /\
  (z_min N r, i_z_min N r) = scan (fun a b => ltb N b a) vz l j (z_min N s, i_z_min N s).
Proof.
  induction l as [|p l IH]; intros j s; cbn [ext6_fold scan]; [repeat split; reflexivity|].
  specialize (IH (S j) (ext6_step N s p (Z.of_nat j))). cbv zeta in IH |- *.
  destruct IH as (A & B & C & D & E & F).
  assert (X : forall (b : bool) (u v : N) (a c : Z), (if b then (u, a) else (v, c)) = ((if b then u else v), (if b then a else c)))
    by (intros [|]; reflexivity).
  unfold scan1; cbn [fst]. rewrite !X. repeat split; assumption.
Qed.

(** invariant of a scan for a comparison that is a strict weak order on the scanned values *)
Lemma scan_spec (cmp : N -> N -> bool) (get : vec3 N -> N) (ok : N -> Prop)
  (Htr : forall b u v, ok b -> ok u -> ok v -> cmp b v = true -> cmp b u = false -> cmp v u = false)
  (Hirr : forall v, cmp v v = false) (init : N) (Hinit : ok init) :
  forall l pre b i,
  (forall p, In p (pre ++ l) -> ok (get p)) -> ok b ->
  (forall p, In p pre -> cmp b (get p) = false) ->
  (i = (-1)%Z /\ b = init \/
   (0 <= i)%Z /\ exists q, nth_error (pre ++ l) (Z.to_nat i) = Some q /\ In q pre /\ b = get q /\ cmp init (get q) = true) ->
  (forall u, ok u -> cmp b u = true -> cmp init u = true) ->
  let r := scan cmp get l (length pre) (b, i) in
  (snd r = (-1)%Z /\ (forall p, In p (pre ++ l) -> cmp init (get p) = false)) \/
  ((0 <= snd r)%Z /\ exists q, nth_error (pre ++ l) (Z.to_nat (snd r)) = Some q /\ cmp init (get q) = true /\
     forall p, In p (pre ++ l) -> cmp (get q) (get p) = false).
Proof.
  induction l as [|p l IH]; intros pre b i Hok Hb Hseen Hi Hinit'; cbn [scan].
  - cbn [snd]. rewrite app_nil_r in *. destruct Hi as [[-> ->]|(Hi & q & Hq & _ & -> & Hc)].
    + left. split; [reflexivity| exact Hseen].
    + right. split; [exact Hi|]. exists q. repeat split; assumption.
  - replace (pre ++ p :: l) with ((pre ++ [p]) ++ l) in * by (rewrite <- app_assoc; reflexivity).
    replace (S (length pre)) with (length (pre ++ [p])) by (rewrite app_length; cbn; lia).
    assert (Hp : ok (get p)) by (apply Hok; rewrite <- app_assoc; apply in_or_app; right; left; reflexivity).
    unfold scan1; cbn [fst]. destruct (cmp b (get p)) eqn:E.
    + apply IH; try assumption.
      * intros x Hx. apply in_app_or in Hx as [Hx|[<-|[]]]; [|apply Hirr].
        apply (Htr b); try assumption; [|apply Hseen; exact Hx].
        apply Hok. rewrite <- app_assoc. apply in_or_app. left. exact Hx.
      * right. split; [lia|]. exists p. rewrite Nat2Z.id.
        repeat split.
        -- rewrite <- app_assoc. rewrite nth_error_app2 by lia. rewrite Nat.sub_diag. reflexivity.
        -- apply in_or_app. right. left. reflexivity.
        -- apply Hinit'; assumption.
      * intros u Hu Hcu. apply Hinit'; [exact Hu|].
        destruct (cmp b u) eqn:Eu; [reflexivity|].
        rewrite (Htr b u (get p) Hb Hu Hp E Eu) in Hcu. discriminate.
    + apply IH; try assumption.
      * intros x Hx. apply in_app_or in Hx as [Hx|[<-|[]]]; [apply Hseen; exact Hx| exact E].
      * destruct Hi as [Hi|(Hi & q & Hq & Hin & Hb' & Hc)]; [left; exact Hi|].
        right. split; [exact Hi|]. exists q. repeat split; try assumption.
        apply in_or_app. left. exact Hin.
Qed.

Lemma push_if_spec pts i m (beats : vec3 N -> vec3 N -> bool) (within : vec3 N -> bool) :
  (i = (-1)%Z /\ (forall p, In p pts -> within p = false)) \/
  ((0 <= i)%Z /\ exists q, nth_error pts (Z.to_nat i) = Some q /\ within q = true /\
     forall p, In p pts -> beats p q = false) ->
  exists o, push_if N pts i (Some m) = Some (m ++ opt_list o) /\ extreme_of beats within pts o.
Proof.
  intros [[-> H]|(Hi & q & Hq & Hw & Hb)]; unfold push_if.
  - exists None. cbn. rewrite app_nil_r. split; [reflexivity| exact H].
  - destruct (Z.leb_spec 0 i); [|lia]. rewrite Hq. exists (Some q). split; [reflexivity|].
    cbn. split; [eapply nth_error_In; eassumption|]. split; assumption.
Qed.
End Compact.

Lemma f32_ltb_weak (b u v : f32) :
  is_nan b = false -> is_nan u = false -> is_nan v = false ->
  f32_ltb b v = true -> f32_ltb b u = false -> f32_ltb v u = false.
Proof.
  intros Nb Nu Nv H1 H2. apply f32_ltb_true in H1 as (_ & _ & H1).
  destruct (f32_ltb v u) eqn:E; [|reflexivity]. apply f32_ltb_true in E as (_ & _ & E).
  assert (f32_ltb b u = true); [|congruence]. apply f32_ltb_true. repeat split; try assumption. lra.
Qed.
Lemma f32_gtb_weak (b u v : f32) :
  is_nan b = false -> is_nan u = false -> is_nan v = false ->
  f32_ltb v b = true -> f32_ltb u b = false -> f32_ltb u v = false.
Proof.
  intros Nb Nu Nv H1 H2. apply f32_ltb_true in H1 as (_ & _ & H1).
  destruct (f32_ltb u v) eqn:E; [|reflexivity]. apply f32_ltb_true in E as (_ & _ & E).
  assert (f32_ltb u b = true); [|congruence]. apply f32_ltb_true. repeat split; try assumption. lra.
Qed.
Lemma finite_not_nan (x : f32) : is_finite x = true -> is_nan x = false.
Proof. destruct x; cbn; congruence. Qed.

Lemma ext_point l (get : vec3 F32 -> F32) (cmp : F32 -> F32 -> bool) (init : F32)
  (Hcmp : cmp = f32_ltb \/ cmp = (fun a b => f32_ltb b a)) (Hni : is_nan init = false) :
  (forall p, In p l -> is_nan (get p) = false) ->
  let r := scan F32 cmp get l 0 (init, (-1)%Z) in
  (snd r = (-1)%Z /\ (forall p, In p l -> cmp init (get p) = false)) \/
  ((0 <= snd r)%Z /\ exists q, nth_error l (Z.to_nat (snd r)) = Some q /\ cmp init (get q) = true /\
     forall p, In p l -> cmp (get q) (get p) = false).
Proof.
  intros Hl. apply (scan_spec F32 cmp get (fun x => is_nan x = false)) with (pre := []) (b := init) (init := init); auto.
  - intros b u v Hb Hu Hv. destruct Hcmp as [-> | ->]; [apply f32_ltb_weak | apply f32_gtb_weak]; assumption.
  - intros v. destruct Hcmp as [-> | ->]; apply f32_ltb_irrefl.
  - intros p [].
Qed.

Definition beats_max (get : vec3 F32 -> F32) (p q : vec3 F32) : bool := ltb F32 (get q) (get p).
Definition beats_min (get : vec3 F32 -> F32) (p q : vec3 F32) : bool := ltb F32 (get p) (get q).

Lemma removeNaN_spec (c : cloud F32) :
  exists c' xM yM zM xm ym zm,
    let pts := filter (finite3 F32) (c_points F32 c) in
    removeNaNAndGetMaxima F32 c =
      Some (c', opt_list xM ++ opt_list yM ++ opt_list zM ++ opt_list xm ++ opt_list ym ++ opt_list zm) /\
    c_points F32 c' = pts /\ c_width F32 c' = Z.of_nat (length pts) /\ c_height F32 c' = 1%Z /\ c_dense F32 c' = true /\
    extreme_of (beats_max vx) (fun p => ltb F32 (ofZ F32 (-9999)) (vx p)) pts xM /\
    extreme_of (beats_max vy) (fun p => ltb F32 (ofZ F32 (-9999)) (vy p)) pts yM /\
    extreme_of (beats_max vz) (fun p => ltb F32 (ofZ F32 (-9999)) (vz p)) pts zM /\
    extreme_of (beats_min vx) (fun p => ltb F32 (vx p) (ofZ F32 9999)) pts xm /\
    extreme_of (beats_min vy) (fun p => ltb F32 (vy p) (ofZ F32 9999)) pts ym /\
    extreme_of (beats_min vz) (fun p => ltb F32 (vz p) (ofZ F32 9999)) pts zm.
Proof.
  unfold removeNaNAndGetMaxima.
  destruct (removeNaN_loop_spec F32 (c_points F32 c) [] [] (ext6_init F32)) as [junk HL].
  cbn [app length Nat.add] in HL. rewrite HL. clear HL.
  set (pts := filter (finite3 F32) (c_points F32 c)).
  replace (firstn (length pts) (pts ++ junk)) with pts
    by (rewrite firstn_app, Nat.sub_diag, firstn_all; cbn; rewrite app_nil_r; reflexivity).
  assert (HF : forall p, In p pts -> finite3 F32 p = true) by (intros p Hp; apply filter_In in Hp; apply Hp).
  assert (Hx : forall p, In p pts -> is_nan (vx p : f32) = false).
  { intros p Hp. apply HF in Hp. unfold finite3 in Hp. apply andb_true_iff in Hp as [Hp _].
    apply andb_true_iff in Hp as [Hp _]. apply finite_not_nan. exact Hp. }
  assert (Hy : forall p, In p pts -> is_nan (vy p : f32) = false).
  { intros p Hp. apply HF in Hp. unfold finite3 in Hp. apply andb_true_iff in Hp as [Hp _].
    apply andb_true_iff in Hp as [_ Hp]. apply finite_not_nan. exact Hp. }
  assert (Hz : forall p, In p pts -> is_nan (vz p : f32) = false).
  { intros p Hp. apply HF in Hp. unfold finite3 in Hp. apply andb_true_iff in Hp as [_ Hp].
    apply finite_not_nan. exact Hp. }
  clearbody pts. clear HF junk.
  pose proof (ext6_fold_scan F32 pts 0 (ext6_init F32)) as HS. cbv zeta in HS.
  set (s := ext6_fold F32 pts 0 (ext6_init F32)) in *.
  destruct HS as (A & B & C & D & E & F).
  assert (NM : is_nan (ofZ F32 (-9999) : f32) = false) by (vm_compute; reflexivity).
  assert (Nm : is_nan (ofZ F32 9999 : f32) = false) by (vm_compute; reflexivity).
  unfold ext6_init in A, B, C, D, E, F. cbn [x_max i_x_max y_max i_y_max z_max i_z_max x_min i_x_min y_min i_y_min z_min i_z_min] in A, B, C, D, E, F.
  pose proof (ext_point pts vx f32_ltb (ofZ F32 (-9999)) (or_introl eq_refl) NM Hx) as A'.
  pose proof (ext_point pts vy f32_ltb (ofZ F32 (-9999)) (or_introl eq_refl) NM Hy) as B'.
  pose proof (ext_point pts vz f32_ltb (ofZ F32 (-9999)) (or_introl eq_refl) NM Hz) as C'.
  pose proof (ext_point pts vx (fun a b => f32_ltb b a) (ofZ F32 9999) (or_intror eq_refl) Nm Hx) as D'.
  pose proof (ext_point pts vy (fun a b => f32_ltb b a) (ofZ F32 9999) (or_intror eq_refl) Nm Hy) as E'.
  pose proof (ext_point pts vz (fun a b => f32_ltb b a) (ofZ F32 9999) (or_intror eq_refl) Nm Hz) as F'.
  cbv zeta in A', B', C', D', E', F'.
  change (scan F32 f32_ltb) with (scan F32 (ltb F32)) in A', B', C'.
  change (scan F32 (fun a b : F32 => f32_ltb b a)) with (scan F32 (fun a b => ltb F32 b a)) in D', E', F'.
  rewrite <- A in A'. rewrite <- B in B'. rewrite <- C in C'. rewrite <- D in D'. rewrite <- E in E'. rewrite <- F in F'.
  cbn [snd] in *.
  destruct (push_if_spec F32 pts (i_x_max F32 s) [] (beats_max vx) (fun p => ltb F32 (ofZ F32 (-9999)) (vx p)) A') as (xM & PA & XA).
  destruct (push_if_spec F32 pts (i_y_max F32 s) ([] ++ opt_list xM) (beats_max vy) (fun p => ltb F32 (ofZ F32 (-9999)) (vy p)) B') as (yM & PB & XB).
  destruct (push_if_spec F32 pts (i_z_max F32 s) (([] ++ opt_list xM) ++ opt_list yM) (beats_max vz) (fun p => ltb F32 (ofZ F32 (-9999)) (vz p)) C') as (zM & PC & XC).
  destruct (push_if_spec F32 pts (i_x_min F32 s) ((([] ++ opt_list xM) ++ opt_list yM) ++ opt_list zM) (beats_min vx) (fun p => ltb F32 (vx p) (ofZ F32 9999)) D') as (xm & PD & XD).
  destruct (push_if_spec F32 pts (i_y_min F32 s) (((([] ++ opt_list xM) ++ opt_list yM) ++ opt_list zM) ++ opt_list xm) (beats_min vy) (fun p => ltb F32 (vy p) (ofZ F32 9999)) E') as (ym & PE & XE).
  destruct (push_if_spec F32 pts (i_z_min F32 s) ((((([] ++ opt_list xM) ++ opt_list yM) ++ opt_list zM) ++ opt_list xm) ++ opt_list ym) (beats_min vz) (fun p => ltb F32 (vz p) (ofZ F32 9999)) F') as (zm & PF & XF).
  rewrite PA, PB, PC, PD, PE, PF.
  exists (Cloud F32 pts (Z.of_nat (length pts)) 1 true), xM, yM, zM, xm, ym, zm.
  cbn [c_points c_width c_height c_dense]. split.
  - rewrite <- !app_assoc. reflexivity.
  - repeat split; assumption.
Qed.

(* ---------------------------------------------------------------- field of view estimate *)
Lemma updateFOV_step (N : num) (G : trig N) (f : fov N) (m : list (vec3 N)) :
  let f' := updateFOVFromMaxima N G f m in
  (h_fov_deg f' = h_fov_deg f /\ yaw_deg f' = yaw_deg f \/ ltb N (h_fov_deg f) (h_fov_deg f') = true) /\
  (v_fov_deg f' = v_fov_deg f /\ pitch_deg f' = pitch_deg f \/ ltb N (v_fov_deg f) (v_fov_deg f') = true).
Proof.
  unfold updateFOVFromMaxima.
  destruct (fold_left (fovBounds_step N G) m _) as [[[h_min h_max] v_min] v_max].
  set (hd := minv N _ _). set (vd := minv N (sub N v_max v_min) _). clearbody hd vd.
  destruct (ltb N (h_fov_deg f) hd) eqn:Eh; cbn [h_fov_deg v_fov_deg yaw_deg pitch_deg].
  - destruct (ltb N (v_fov_deg f) vd) eqn:Ev; cbn [h_fov_deg v_fov_deg yaw_deg pitch_deg]; split; auto.
  - destruct (ltb N (v_fov_deg f) vd) eqn:Ev; cbn [h_fov_deg v_fov_deg yaw_deg pitch_deg]; split; auto.
Qed.
Lemma updateFOV_history (G : trig F32) (f : fov F32) (ms : list (list (vec3 F32))) :
  is_nan (h_fov_deg f : f32) = false -> is_nan (v_fov_deg f : f32) = false ->
  let f' := fold_left (updateFOVFromMaxima F32 G) ms f in
  leb F32 (h_fov_deg f) (h_fov_deg f') = true /\ leb F32 (v_fov_deg f) (v_fov_deg f') = true.
Proof.
  revert f. induction ms as [|m ms IH]; intros f Hh Hv; cbn [fold_left].
  - cbn. split; apply f32_leb_true; repeat split; try assumption; lra.
  - destruct (updateFOV_step F32 G f m) as [Sh Sv]. set (f1 := updateFOVFromMaxima F32 G f m) in *.
    assert (Lh : is_nan (h_fov_deg f1 : f32) = false /\ (f32_ext (h_fov_deg f) <= f32_ext (h_fov_deg f1))%R).
    { destruct Sh as [[-> _]|Sh]; [split; [assumption|lra]|].
      apply f32_ltb_true in Sh as (_ & H & H'). split; [assumption|lra]. }
    assert (Lv : is_nan (v_fov_deg f1 : f32) = false /\ (f32_ext (v_fov_deg f) <= f32_ext (v_fov_deg f1))%R).
    { destruct Sv as [[-> _]|Sv]; [split; [assumption|lra]|].
      apply f32_ltb_true in Sv as (_ & H & H'). split; [assumption|lra]. }
    destruct Lh as [Nh Lh], Lv as [Nv Lv]. destruct (IH f1 Nh Nv) as [Ih Iv].
    apply f32_leb_true in Ih as (_ & N1 & Ih). apply f32_leb_true in Iv as (_ & N2 & Iv).
    split; apply f32_leb_true; repeat split; try assumption; lra.
Qed.

(* ---------------------------------------------------------------- frame conversions *)
Lemma NED_ENU_involution_F32 (v : vec3 F32) : toENU F32 (toNED F32 v) = v /\ toNED F32 (toENU F32 v) = v.
Proof. destruct v as [x y z]. unfold toENU, toNED; cbn. rewrite Bopp_involutive. split; reflexivity. Qed.

Local Open Scope R_scope.
Lemma yaw_roundtrip_R (y : R) :
  yawToENUdeg Rn (yawToNEDdeg Rn y) = y /\ yawToNEDdeg Rn (yawToENUdeg Rn y) = y /\
  yawToENUrad Rn (yawToNEDrad Rn y) = y /\ yawToNEDrad Rn (yawToENUrad Rn y) = y.
Proof. unfold yawToENUdeg, yawToNEDdeg, yawToENUrad, yawToNEDrad; rn. repeat split; lra. Qed.

Lemma quat_ned_enu : quaternionFromRPY Rn Rtrig (NED_ENU_RPY Rn) = Q4 Rn 0 (sqrt 2 / 2) (sqrt 2 / 2) 0.
Proof.
  unfold quaternionFromRPY, NED_ENU_RPY, qmul, qaxis_x, qaxis_y, qaxis_z. rn. cbn [Rtrig t_sin t_cos qw qx qy qz vx vy vz].
  replace (PI / 2 / 2) with (PI / 4) by field. replace (0 / 2) with 0 by field.
  rewrite cos_PI4, sin_PI4, cos_PI2, sin_PI2, cos_0, sin_0.
  assert (H : 1 / sqrt 2 = sqrt 2 / 2).
  { assert (0 < sqrt 2) by (apply sqrt_lt_R0; lra). assert (sqrt 2 * sqrt 2 = 2) by (apply sqrt_sqrt; lra).
    replace (1 / sqrt 2) with (sqrt 2 / (sqrt 2 * sqrt 2)) by (field; lra). rewrite H0. reflexivity. }
  rewrite H. tR. f_equal; ring.
Qed.
Lemma quat_aircraft : quaternionFromRPY Rn Rtrig (AIRCRAFT_BASELINK_RPY Rn) = Q4 Rn 0 1 0 0.
Proof.
  unfold quaternionFromRPY, AIRCRAFT_BASELINK_RPY, qmul, qaxis_x, qaxis_y, qaxis_z. rn. cbn [Rtrig t_sin t_cos qw qx qy qz vx vy vz].
  replace (0 / 2) with 0 by field.
  rewrite cos_PI2, sin_PI2, cos_0, sin_0. tR. f_equal; ring.
Qed.
Lemma qmul_assoc (a b c : quat Rn) : qmul Rn a (qmul Rn b c) = qmul Rn (qmul Rn a b) c.
Proof.
  destruct a as [a0 a1 a2 a3], b as [b0 b1 b2 b3], c as [c0 c1 c2 c3].
  unfold qmul; rn; cbn [qw qx qy qz]; tR. f_equal; ring.
Qed.
Lemma qmul_ned_sq : qmul Rn (Q4 Rn 0 (sqrt 2 / 2) (sqrt 2 / 2) 0) (Q4 Rn 0 (sqrt 2 / 2) (sqrt 2 / 2) 0) = Q4 Rn (-1) 0 0 0.
Proof.
  assert (S : sqrt 2 * sqrt 2 = 2) by (apply sqrt_sqrt; lra).
  set (s := sqrt 2) in *. clearbody s.
  unfold qmul; rn; cbn [qw qx qy qz]; tR. f_equal; nra.
Qed.
Lemma qmul_air_sq : qmul Rn (Q4 Rn 0 1 0 0) (Q4 Rn 0 1 0 0) = Q4 Rn (-1) 0 0 0.
Proof. unfold qmul; rn; cbn [qw qx qy qz]; tR. f_equal; ring. Qed.
Lemma qmul_neg_neg (q : quat Rn) : qmul Rn (qmul Rn (Q4 Rn (-1) 0 0 0) q) (Q4 Rn (-1) 0 0 0) = q.
Proof. destruct q as [w x y z]. unfold qmul; rn; cbn [qw qx qy qz]; tR. f_equal; ring. Qed.
Lemma orientation_roundtrip (q : quat Rn) :
  orientationToENU Rn Rtrig (orientationToNED Rn Rtrig q) = q /\
  orientationToNED Rn Rtrig (orientationToENU Rn Rtrig q) = q.
Proof.
  unfold orientationToENU, orientationToNED. rewrite quat_ned_enu, quat_aircraft.
  pose proof qmul_ned_sq as H1. pose proof qmul_air_sq as H2.
  set (n := Q4 Rn 0 (sqrt 2 / 2) (sqrt 2 / 2) 0) in *. set (a := Q4 Rn 0 1 0 0) in *. clearbody n a.
  split.
  - rewrite <- (qmul_neg_neg q) at 2. rewrite <- H1 at 1. rewrite <- H2. rewrite !qmul_assoc. reflexivity.
  - rewrite <- (qmul_neg_neg q) at 2. rewrite <- H1 at 1. rewrite <- H2. rewrite !qmul_assoc. reflexivity.
Qed.

Lemma createPose_yaw (yaw : R) : - PI < yaw <= PI ->
  getYawFromQuaternion Rn Rtrig (createPoseQuat Rn Rtrig yaw) = yaw * 180 / PI /\
  getPitchFromQuaternion Rn Rtrig (createPoseQuat Rn Rtrig yaw) = 0.
Proof.
  intros Hy. unfold getYawFromQuaternion, getPitchFromQuaternion, createPoseQuat, qmul, qaxis_x, qaxis_y, qaxis_z, RAD_TO_DEG.
  rn. cbn [Rtrig t_sin t_cos t_atan2 t_asin qw qx qy qz].
  replace (0 / 2) with 0 by field. rewrite cos_0, sin_0. tR.
  set (c := cos (yaw / 2)). set (s := sin (yaw / 2)).
  assert (Hs : sin yaw = 2 * s * c) by (unfold s, c; rewrite <- sin_2a; f_equal; field).
  assert (Hc : cos yaw = 1 - 2 * s * s).
  { unfold s. rewrite <- cos_2a_sin. f_equal. field. }
  pose proof PI_RGT_0 as HP. split.
  - match goal with |- Ratan2 ?a ?b * _ = _ => replace a with (1 * sin yaw) by (rewrite Hs; ring); replace b with (1 * cos yaw) by (rewrite Hc; ring) end.
    rewrite Ratan2_polar by (try assumption; lra). field. lra.
  - match goal with |- (if R_leb 1 (Rabs ?a) then _ else _) * _ = _ => replace a with 0 by ring end.
    rewrite Rabs_R0. destruct (R_leb_spec 1 0); [lra|]. rewrite asin_0. ring.
Qed.

Lemma circ_interval (y h p : R) :
  0 <= h -> -180 <= y - h / 2 -> y + h / 2 < 180 -> -180 <= p < 180 ->
  ((exists d, is_circular_distance p y d /\ d <= h / 2) <-> y - h / 2 <= p <= y + h / 2).
Proof.
  intros Hh Hl Hu Hp. split.
  - intros (d & [[k Hk] _] & Hd).
    assert (Habs : Rabs (p - y + 360 * IZR k) <= h / 2) by lra.
    apply Rabs_le_inv in Habs.
    assert (-1 < IZR k < 1) by (split; lra).
    assert (k = 0)%Z. { destruct H as [H1 H2]. apply lt_IZR in H1. apply lt_IZR in H2. lia. }
    subst k. split; lra.
  - intros [H1 H2]. exists (indexAngleDifference Rn p y). split.
    + apply indexAngleDifference_circular. split; lra.
    + apply Rle_trans with (Rabs (p - y)).
      * unfold indexAngleDifference; rn. rewrite !minv_Rn. unfold Rmin. repeat destruct (Rle_dec _ _); lra.
      * apply Rabs_le. split; lra.
Qed.
Lemma pointInsideFOV_circle (f : fov Rn) (p : polar Rn) :
  0 <= h_fov_deg f -> -180 <= yaw_deg f - h_fov_deg f / 2 -> yaw_deg f + h_fov_deg f / 2 < 180 ->
  -180 <= pz p < 180 ->
  (pointInsideFOV Rn f p = true <->
   (exists d, is_circular_distance (pz p) (yaw_deg f) d /\ d <= h_fov_deg f / 2) /\
   Rabs (pe p - pitch_deg f) <= v_fov_deg f / 2).
Proof.
  intros Hh Hl Hu Hp. rewrite circ_interval by assumption.
  unfold pointInsideFOV; rn. tR. rewrite !wrap180_id by (split; lra).
  rewrite !andb_true_iff, !R_leb_true. split.
  - intros [[[A B] C] D]. split; [split; assumption|]. apply Rabs_le. split; lra.
  - intros [[A B] C]. apply Rabs_le_inv in C. repeat split; lra.
Qed.

Lemma polarToHistogramIndex_nan (cast : F32 -> Z) (r : F32) (res : Z) :
  (1 <= res <= 180)%Z -> (cast (nanv F32) <= 0)%Z ->
  polarToHistogramIndex F32 cast (Pol (nanv F32) (nanv F32) r) res = (0%Z, 0%Z).
Proof.
  intros Hr Hc.
  assert (W : wrapPolar F32 (Pol (nanv F32) (nanv F32) r) = Pol (nanv F32) (nanv F32) r) by (vm_compute; reflexivity).
  unfold polarToHistogramIndex. rewrite W. cbn [pe pz].
  assert (E : forall u v : F32, floorv F32 (add F32 (div F32 (nanv F32) u) v) = nanv F32).
  { intros u v. cbn [nanv div add floorv F32]. reflexivity. }
  rewrite !E.
  assert (1 <= 180 / res)%Z by (apply Z.div_le_lower_bound; lia).
  assert (1 <= 360 / res)%Z by (apply Z.div_le_lower_bound; lia).
  assert (C : forall n, (1 <= n)%Z -> clampIndex (cast (nanv F32)) n = 0%Z).
  { intros n Hn. unfold clampIndex. destruct (Z.leb_spec n (cast (nanv F32))); [lia|].
    destruct (Z.ltb_spec (cast (nanv F32)) 0); lia. }
  rewrite !C by assumption. reflexivity.
Qed.

Lemma wrap180_F32_refuted :
  exists a : f32, is_finite a = true /\ ltb F32 a (ofZ F32 180) = true /\ ltb F32 (ofZ F32 0) a = true /\
    ltb F32 (wrapAngleToPlusMinus180 F32 a) (ofZ F32 (-180)) = true.
Proof. exists (f32_me 11796479 (-16)). repeat split; vm_compute; reflexivity. Qed.

Lemma pointInsideFOV_F32_refuted :
  exists (f : fov F32) (p : polar F32),
    yaw_deg f = pz p /\ pitch_deg f = pe p /\
    ltb F32 (ofZ F32 0) (h_fov_deg f) = true /\ ltb F32 (ofZ F32 0) (v_fov_deg f) = true /\
    leb F32 (ofZ F32 (-180)) (pz p) = true /\ ltb F32 (pz p) (ofZ F32 180) = true /\
    pointInsideFOV F32 f p = false.
Proof.
  exists (Fov (ofZ F32 170) (ofZ F32 0) (ofZ F32 60) (ofZ F32 40)), (Pol (ofZ F32 0) (ofZ F32 170) (ofZ F32 1)).
  split; [reflexivity|]. split; [reflexivity|]. repeat split; vm_compute; reflexivity.
Qed.

Lemma waypoint_message_spec (pos : vec3 F32) (yaw : F32) (lin : vec3 F32) (wz : F32) :
  let m := transformToTrajectory F32 pos yaw lin wz in
  tr_type F32 m = 0%Z /\ tr_valid F32 m = [true; false; false; false; false] /\
  length (tr_points F32 m) = 5%nat /\
  (exists p1, nth_error (tr_points F32 m) 0 = Some p1 /\ pt_pos F32 p1 = pos /\ pt_vel F32 p1 = lin /\
     pt_yaw F32 p1 = yaw /\ pt_yawrate F32 p1 = opp F32 wz) /\
  (forall i q, (1 <= i)%nat -> nth_error (tr_points F32 m) i = Some q ->
     (forall v, In v [vx (pt_pos F32 q); vy (pt_pos F32 q); vz (pt_pos F32 q); vx (pt_vel F32 q); vy (pt_vel F32 q);
        vz (pt_vel F32 q); vx (pt_acc F32 q); vy (pt_acc F32 q); vz (pt_acc F32 q); pt_yaw F32 q; pt_yawrate F32 q] ->
        finiteb F32 v = false)) /\
  (forall h, In h (tr_horizon F32 m) -> finiteb F32 h = false).
Proof.
  cbv zeta. repeat split.
  - eexists. repeat split; reflexivity.
  - intros i q Hi Hq.
    assert (q = unusedPoint F32) as ->.
    { destruct i as [|[|[|[|[|i]]]]]; [lia| | | | |]; cbn in Hq; try congruence. destruct i; discriminate. }
    intros v Hv. cbn in Hv. repeat (destruct Hv as [<-|Hv]; [reflexivity|]). contradiction.
  - intros h Hh. cbn in Hh. repeat (destruct Hh as [<-|Hh]; [reflexivity|]). contradiction.
Qed.
Lemma bezier_message_spec (old : list (ptarget F32)) (cps : list (vec3 F32 * F32)) (d : F32) :
  length old = 5%nat -> length cps = 5%nat ->
  let m := transformToBezier F32 old cps d in
  tr_type F32 m = 1%Z /\ tr_valid F32 m = [true; true; true; true; true] /\
  nth_error (tr_horizon F32 m) 4 = Some d /\
  (forall i h, (i < 4)%nat -> nth_error (tr_horizon F32 m) i = Some h -> finiteb F32 h = false) /\
  (forall i c, nth_error cps i = Some c -> exists q, nth_error (tr_points F32 m) i = Some q /\
     vx (pt_pos F32 q) = vy (fst c) /\ vy (pt_pos F32 q) = vx (fst c) /\ vz (pt_pos F32 q) = opp F32 (vz (fst c))).
Proof.
  intros Ho Hc. cbv zeta. repeat split.
  - intros i h Hi Hh. destruct i as [|[|[|[|i]]]]; [| | | |lia]; cbn in Hh; injection Hh as <-; reflexivity.
  - intros i c Hi. unfold transformToBezier; cbn [tr_points].
    assert (Hlt : (i < length cps)%nat) by (apply nth_error_Some; congruence).
    destruct (nth_error old i) as [o|] eqn:Eo.
    2:{ apply nth_error_None in Eo. lia. }
    assert (EC : nth_error (combine old cps) i = Some (o, c)).
    { clear Ho Hc Hlt. revert cps i Hi Eo. induction old as [|a old IH]; intros [|b cps] [|i] Hi Eo; cbn in *; try discriminate.
      - congruence.
      - apply IH; assumption. }
    rewrite (map_nth_error _ _ _ EC). cbn [fst snd]. eexists. split; [reflexivity|]. repeat split; reflexivity.
Qed.
Lemma fcu_roundtrip_refuted : exists p pos : vec3 Rn,
  polarFCUToCartesian Rn Rtrig (cartesianToPolarFCU Rn Rtrig p pos) pos <> p.
Proof.
  exists (V3 (1 : Rn) (0 : Rn) (1 : Rn)), (V3 (0 : Rn) (0 : Rn) (0 : Rn)).
  rewrite fcu_roundtrip_mirror. cbn [vx vy vz]. intros H. injection H as H. lra.
Qed.
