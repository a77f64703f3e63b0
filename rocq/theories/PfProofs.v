(** Proofs about processPointcloud (C23, C24). *)
From Coq Require Import ZArith List Bool Lia.
From Verif Require Import Num Mat CommonModel CommonProofs HistModel PfModel PfSpec.
Import ListNotations.
Local Open Scope Z_scope.

Lemma foldM_concat {A S} (f : S -> A -> option S) ls : forall s,
  foldM (fun s cl => foldM f s cl) s ls = foldM f s (concat ls).
Proof.
  induction ls as [|l ls IH]; intros s; cbn; [reflexivity|]. rewrite foldM_app. destruct (foldM f s l); auto.
Qed.
Lemma same_cell_true a b : same_cell a b = true <-> a = b.
Proof.
  destruct a as [a1 a2], b as [b1 b2]. unfold same_cell; cbn. rewrite andb_true_iff, !Z.eqb_eq. split.
  - intros [-> ->]; reflexivity.
  - intros [= -> ->]; auto.
Qed.
Lemma same_cell_refl a : same_cell a a = true.
Proof. now apply same_cell_true. Qed.
Lemma count_app {A} (f : A -> bool) l l' : count f (l ++ l') = count f l + count f l'.
Proof. unfold count. rewrite filter_app, app_length. lia. Qed.
Lemma count_nonneg {A} (f : A -> bool) l : 0 <= count f l.
Proof. unfold count. lia. Qed.
Lemma count_one {A} (f : A -> bool) a : count f [a] = if f a then 1 else 0.
Proof. unfold count; cbn. destruct (f a); reflexivity. Qed.

Lemma NoDup_app {A} (l l' : list A) : NoDup l -> NoDup l' -> (forall x, In x l -> In x l' -> False) -> NoDup (l ++ l').
Proof.
  induction l as [|a l IH]; intros H H' Hd; cbn; [assumption|]. inversion H; subst. constructor.
  - intros Hin. apply in_app_or in Hin. destruct Hin; [auto|]. eapply Hd; [left; reflexivity|eassumption].
  - apply IH; auto. intros x Hx Hx'. eapply Hd; [right; exact Hx|exact Hx'].
Qed.

Section Pc.
Context (N : num) (G : trig N) (cast : N -> Z).
Variables (position : vec3 N) (min_range max_range : N) (min_num : Z).
Local Notation cellof := (fineIndex N G cast position).
Local Notation ok := (accepted N position min_range max_range).
Local Notation hits' := (hits N G cast position min_range max_range).

Lemma fine_range p : 0 <= fst (cellof p) < 180 /\ 0 <= snd (cellof p) < 90.
Proof.
  destruct (cellof p) as [x y] eqn:E. unfold fineIndex in E.
  apply polarToHistogramIndex_range in E; [|cbv; intuition congruence].
  change (360 / FINE_RES) with 180 in E. change (180 / FINE_RES) with 90 in E. cbn. lia.
Qed.

Definition dims (m : mat Z) : Prop := rows m = 90 /\ cols m = 180.
Definition ccell (m : mat Z) (c : Z * Z) : Z := cell m (snd c) (fst c).
Definition fresh_of (seen : list (vec3 N)) (q : xyzi N) : Prop :=
  age q = ofZ N 0 /\ In (pt q) seen /\ ok (pt q) = true /\ 1 <= min_num <= hits' seen (cellof (pt q)).

Lemma new_step_eq m out p : pc_new_step N G cast position min_range max_range min_num (m, out) p =
  if ok p then
    match mget m (snd (cellof p)) (fst (cellof p)) with
    | None => None
    | Some n => match mset m (snd (cellof p)) (fst (cellof p)) (n + 1) with
                | None => None
                | Some m' => Some (m', if n + 1 =? min_num then out ++ [XYZI p (ofZ N 0)] else out)
                end
    end
  else Some (m, out).
Proof.
  unfold pc_new_step, accepted, sqr. rewrite <- (andb_assoc _ (ltb N (mul N min_range min_range) _)).
  destruct (negb (isnanb N (vx p)) && negb (isnanb N (vy p)) && negb (isnanb N (vz p))); cbn [andb]; [|reflexivity].
  destruct (ltb N (mul N min_range min_range) (distSq N position p) && ltb N (distSq N position p) (mul N max_range max_range)); [|reflexivity].
  destruct (cellof p) as [ix iy]; reflexivity.
Qed.

Record pc_inv (seen : list (vec3 N)) (m : mat Z) (out : list (xyzi N)) : Prop := {
  pi_dims : dims m;
  pi_cnt : forall c, 0 <= fst c < 180 -> 0 <= snd c < 90 -> ccell m c = hits' seen c;
  pi_nodup : NoDup (map (fun q => cellof (pt q)) out);
  pi_fresh : forall q, In q out -> fresh_of seen q;
  pi_all : forall c, 1 <= min_num <= hits' seen c -> exists q, In q out /\ cellof (pt q) = c }.

Lemma hits_snoc seen p c : hits' (seen ++ [p]) c = hits' seen c + (if ok p && same_cell (cellof p) c then 1 else 0).
Proof. unfold hits. now rewrite count_app, count_one. Qed.

Lemma new_step_inv seen m out p : pc_inv seen m out ->
  exists m' out', pc_new_step N G cast position min_range max_range min_num (m, out) p = Some (m', out') /\
    pc_inv (seen ++ [p]) m' out'.
Proof.
  intros [D C ND F A]. rewrite new_step_eq. destruct (ok p) eqn:Hok.
  2:{ exists m, out. split; [reflexivity|].
      assert (Hh : forall c, hits' (seen ++ [p]) c = hits' seen c) by (intros c; rewrite hits_snoc, Hok; cbn; lia).
      split; auto.
      - intros c H1 H2. now rewrite Hh, C.
      - intros q Hq. destruct (F q Hq) as (a & b & c & d). repeat split; auto; try (rewrite Hh; tauto); try tauto.
        apply in_or_app; auto.
      - intros c. rewrite Hh. apply A. }
  destruct (fine_range p) as [Rx Ry]. destruct D as [D1 D2].
  rewrite mget_some by lia. destruct (mset_some m (snd (cellof p)) (fst (cellof p)) (cell m (snd (cellof p)) (fst (cellof p)) + 1)) as [m' E]; try lia.
  rewrite E. exists m', (if cell m (snd (cellof p)) (fst (cellof p)) + 1 =? min_num then out ++ [XYZI p (ofZ N 0)] else out).
  split; [reflexivity|].
  apply mset_inv in E. destruct E as (_ & _ & R' & C' & Hat & Hoth).
  assert (Hc : cell m (snd (cellof p)) (fst (cellof p)) = hits' seen (cellof p)) by (apply (C (cellof p)); auto).
  assert (Hat' : hits' (seen ++ [p]) (cellof p) = hits' seen (cellof p) + 1)
    by (rewrite hits_snoc, Hok, same_cell_refl; reflexivity).
  assert (Hne : forall c, c <> cellof p -> hits' (seen ++ [p]) c = hits' seen c).
  { intros c Hn. rewrite hits_snoc, Hok. destruct (same_cell (cellof p) c) eqn:S; [|cbn; lia].
    apply same_cell_true in S. congruence. }
  assert (Hmono : forall c, hits' seen c <= hits' (seen ++ [p]) c).
  { intros c. rewrite hits_snoc. destruct (_ && _); lia. }
  assert (Hfr : forall q, fresh_of seen q -> fresh_of (seen ++ [p]) q).
  { intros q (a & b & c & d1 & d2). repeat split; auto; [apply in_or_app; auto| specialize (Hmono (cellof (pt q))); lia]. }
  split.
  - split; congruence.
  - intros c H1 H2. destruct (same_cell c (cellof p)) eqn:S.
    + apply same_cell_true in S. subst c. unfold ccell. rewrite Hat, Hat', Hc. reflexivity.
    + assert (c <> cellof p) by (intros ->; rewrite same_cell_refl in S; discriminate).
      rewrite Hne by assumption. rewrite <- C by assumption. apply Hoth.
      destruct c as [c1 c2]. destruct (Z.eq_dec c2 (snd (cellof p))); [|auto].
      destruct (Z.eq_dec c1 (fst (cellof p))); [|auto]. exfalso. apply H. rewrite (surjective_pairing (cellof p)). congruence.
  - destruct (Z.eqb_spec (cell m (snd (cellof p)) (fst (cellof p)) + 1) min_num) as [Em|Em]; [|assumption].
    rewrite map_app. cbn [map pt]. apply NoDup_app.
    + assumption.
    + repeat constructor; auto.
    + intros c Hin [<-|[]]. apply in_map_iff in Hin. destruct Hin as (q & Eq & Hq).
      destruct (F q Hq) as (_ & _ & _ & Hm). rewrite Eq in Hm. lia.
  - destruct (Z.eqb_spec (cell m (snd (cellof p)) (fst (cellof p)) + 1) min_num) as [Em|Em]; [|auto].
    intros q Hq. apply in_app_or in Hq. destruct Hq as [Hq|[<-|[]]]; [auto|].
    repeat split; cbn [pt]; auto; [apply in_or_app; right; now left| |].
    + pose proof (count_nonneg (fun p0 => ok p0 && same_cell (cellof p0) (cellof p)) seen). unfold hits in Hc. lia.
    + lia.
  - intros c Hc'. destruct (same_cell c (cellof p)) eqn:S.
    + apply same_cell_true in S. subst c. rewrite Hat' in Hc'.
      destruct (Z.eqb_spec (cell m (snd (cellof p)) (fst (cellof p)) + 1) min_num) as [Em|Em].
      * exists (XYZI p (ofZ N 0)). split; [apply in_or_app; right; now left|reflexivity].
      * destruct (A (cellof p)) as (q & Hq & Eq); [lia|]. exists q; auto.
    + assert (c <> cellof p) by (intros ->; rewrite same_cell_refl in S; discriminate).
      rewrite Hne in Hc' by assumption. destruct (A c Hc') as (q & Hq & Eq). exists q. split; [|assumption].
      destruct (_ =? min_num); [apply in_or_app; auto|auto].
Qed.

Lemma new_fold_inv pts : forall seen m out, pc_inv seen m out ->
  exists m' out', foldM (pc_new_step N G cast position min_range max_range min_num) (m, out) pts = Some (m', out') /\
    pc_inv (seen ++ pts) m' out'.
Proof.
  induction pts as [|p pts IH]; intros seen m out H.
  - exists m, out. rewrite app_nil_r. auto.
  - destruct (new_step_inv seen m out p H) as (m1 & out1 & E & H1). cbn [foldM]. rewrite E.
    destruct (IH _ _ _ H1) as (m' & out' & E' & H'). exists m', out'. rewrite <- app_assoc in H'. auto.
Qed.

(* second loop *)
Variables (fovs : list (fov N)) (yaw pitch max_age elapsed : N).
Definition keepable (seen : list (vec3 N)) (o : xyzi N) : Prop :=
  ltb N (distSq N position (pt o)) (mul N max_range max_range) = true /\ ltb N (age o) max_age = true /\
  pointInsideFOVs N fovs (fcuDirection N G yaw pitch position (pt o)) = false /\
  hits' seen (cellof (pt o)) < min_num.
Definition kept_of (seen : list (vec3 N)) (old : list (xyzi N)) (q : xyzi N) : Prop :=
  exists o, In o old /\ keepable seen o /\ pt q = pt o /\ age q = add N (age o) elapsed.

Record po_inv (seen : list (vec3 N)) (fr : list (xyzi N)) (old : list (xyzi N)) (m : mat Z) (rem : list (xyzi N)) : Prop := {
  po_dims : dims m;
  po_cnt : forall c, 0 <= fst c < 180 -> 0 <= snd c < 90 ->
     (exists q, In q rem /\ cellof (pt q) = c) /\ ccell m c = min_num \/
     (~ exists q, In q rem /\ cellof (pt q) = c) /\ ccell m c = hits' seen c;
  po_nodup : NoDup (map (fun q => cellof (pt q)) rem);
  po_kept : forall q, In q rem -> kept_of seen old q;
  po_all : forall o, In o old -> keepable seen o -> exists q, In q rem /\ cellof (pt q) = cellof (pt o) }.

Lemma old_step_inv seen fr old m rem o : po_inv seen fr old m rem ->
  exists m' rem', pc_old_step N G cast fovs yaw pitch position max_range max_age elapsed min_num (m, fr ++ rem) o = Some (m', fr ++ rem') /\
    po_inv seen fr (old ++ [o]) m' rem'.
Proof.
  intros [D C ND K A].
  assert (Hskip : ~ (keepable seen o /\ ~ exists q, In q rem /\ cellof (pt q) = cellof (pt o)) ->
                  po_inv seen fr (old ++ [o]) m rem).
  { intros Hn. split; auto.
    - intros q Hq. destruct (K q Hq) as (o' & Ho & H). exists o'. split; [apply in_or_app; auto|exact H].
    - intros o' Ho' Hk. apply in_app_or in Ho'. destruct Ho' as [Ho'|[<-|[]]]; [auto|].
      destruct (fine_range (pt o)) as [Rx Ry].
      destruct (C (cellof (pt o)) Rx Ry) as [[He _]|[He _]]; [exact He|tauto]. }
  unfold pc_old_step. unfold sqr.
  destruct (ltb N (distSq N position (pt o)) (mul N max_range max_range)) eqn:Hd.
  2:{ exists m, rem. split; [reflexivity|]. apply Hskip. intros [(H1 & _) _]. congruence. }
  destruct (fine_range (pt o)) as [Rx Ry]. destruct D as [D1 D2].
  destruct (cellof (pt o)) as [ix iy] eqn:Ec. cbn [fst snd] in Rx, Ry.
  rewrite mget_some by lia.
  destruct ((cell m iy ix <? min_num) && ltb N (age o) max_age && negb (pointInsideFOVs N fovs (fcuDirection N G yaw pitch position (pt o)))) eqn:B.
  2:{ exists m, rem. split; [reflexivity|]. apply Hskip. intros [(H1 & H2 & H3 & H4) H5].
      rewrite H2, H3 in B. rewrite Ec in H4.
      destruct (C (ix, iy) Rx Ry) as [[He _]|[_ He]]; [tauto|]. unfold ccell in He; cbn in He. rewrite He in B.
      destruct (Z.ltb_spec (hits' seen (ix, iy)) min_num); [cbn in B; discriminate|lia]. }
  apply andb_true_iff in B. destruct B as [B B3]. apply andb_true_iff in B. destruct B as [B1 B2].
  apply Z.ltb_lt in B1. apply negb_true_iff in B3.
  destruct (mset_some m iy ix min_num) as [m' E]; try lia. rewrite E.
  exists m', (rem ++ [XYZI (pt o) (add N (age o) elapsed)]). rewrite app_assoc. split; [reflexivity|].
  apply mset_inv in E. destruct E as (_ & _ & R' & C' & Hat & Hoth).
  assert (Hk : keepable seen o /\ ~ exists q, In q rem /\ cellof (pt q) = (ix, iy)).
  { destruct (C (ix, iy) Rx Ry) as [[_ He]|[Hn He]]; unfold ccell in He; cbn in He; [lia|].
    split; [|exact Hn]. repeat split; auto. rewrite Ec. lia. }
  destruct Hk as [Hk Hnew].
  assert (Hoth' : forall c, c <> (ix, iy) -> ccell m' c = ccell m c).
  { intros [c1 c2] Hn. apply Hoth. cbn. destruct (Z.eq_dec c2 iy); [|auto]. destruct (Z.eq_dec c1 ix); [congruence|auto]. }
  split.
  - split; congruence.
  - intros c H1 H2. destruct (same_cell c (ix, iy)) eqn:S.
    + apply same_cell_true in S. subst c. left. split; [|exact Hat]. eexists. split; [apply in_or_app; right; left; reflexivity|exact Ec].
    + assert (Hn : c <> (ix, iy)) by (intros ->; rewrite same_cell_refl in S; discriminate).
      rewrite (Hoth' c Hn). destruct (C c H1 H2) as [[(q & Hq & Eq) He]|[He1 He2]].
      * left. split; [exists q; split; [apply in_or_app; auto|auto]|exact He].
      * right. split; [|exact He2]. intros (q & Hq & Eq). apply in_app_or in Hq. destruct Hq as [Hq|[<-|[]]]; [eauto|].
        cbn [pt] in Eq. congruence.
  - rewrite map_app. apply NoDup_app; [assumption|repeat constructor; auto|].
    intros c Hin [<-|[]]. apply in_map_iff in Hin. destruct Hin as (q & Eq & Hq). cbn [pt] in Eq.
    apply Hnew. exists q. split; [auto|congruence].
  - intros q Hq. apply in_app_or in Hq. destruct Hq as [Hq|[<-|[]]].
    + destruct (K q Hq) as (o' & Ho & H). exists o'. split; [apply in_or_app; auto|exact H].
    + exists o. split; [apply in_or_app; right; now left|]. auto.
  - intros o' Ho' Hk'. apply in_app_or in Ho'. destruct Ho' as [Ho'|[<-|[]]].
    + destruct (A o' Ho' Hk') as (q & Hq & Eq). exists q. split; [apply in_or_app; auto|auto].
    + eexists. split; [apply in_or_app; right; left; reflexivity|reflexivity].
Qed.

Lemma old_fold_inv seen fr l : forall old m rem, po_inv seen fr old m rem ->
  exists m' rem', foldM (pc_old_step N G cast fovs yaw pitch position max_range max_age elapsed min_num) (m, fr ++ rem) l = Some (m', fr ++ rem') /\
    po_inv seen fr (old ++ l) m' rem'.
Proof.
  induction l as [|o l IH]; intros old m rem H.
  - exists m, rem. rewrite app_nil_r. auto.
  - destruct (old_step_inv seen fr old m rem o H) as (m1 & rem1 & E & H1). cbn [foldM]. rewrite E.
    destruct (IH _ _ _ H1) as (m' & rem' & E' & H'). exists m', rem'. rewrite <- app_assoc in H'. auto.
Qed.

Lemma processPointcloud_spec old clouds : clouds <> [] ->
  exists fr rem, processPointcloud N G cast old clouds fovs yaw pitch position min_range max_range max_age elapsed min_num = Some (fr ++ rem) /\
    NoDup (map (fun q => cellof (pt q)) (fr ++ rem)) /\
    (forall q, In q fr -> fresh_of (concat clouds) q) /\
    (forall c, 1 <= min_num <= hits' (concat clouds) c -> exists q, In q fr /\ cellof (pt q) = c) /\
    (forall q, In q rem -> kept_of (concat clouds) old q) /\
    (forall o, In o old -> keepable (concat clouds) o -> exists q, In q rem /\ cellof (pt q) = cellof (pt o)).
Proof.
  intros Hne. unfold processPointcloud. rewrite foldM_concat.
  change (Z.quot 180 FINE_RES) with 90. change (Z.quot 360 FINE_RES) with 180.
  destruct (new_fold_inv (concat clouds) [] (Mat 90 180 (fun _ _ => 0)) []) as (m1 & fr & E1 & I1).
  { split.
    - split; reflexivity.
    - reflexivity.
    - constructor.
    - intros q [].
    - intros c H. unfold hits, count in H; cbn in H. lia. }
  rewrite E1. cbn [app] in I1. destruct I1 as [D C ND F A].
  destruct (old_fold_inv (concat clouds) fr old [] m1 []) as (m2 & rem & E2 & I2).
  { split.
    - exact D.
    - intros c H1 H2. right. split; [intros (q & [] & _)|auto].
    - constructor.
    - intros q [].
    - intros q []. }
  rewrite app_nil_r in E2. rewrite E2. destruct I2 as [D2 C2 ND2 K2 A2]. cbn [app] in *.
  exists fr, rem. split; [destruct clouds; [congruence|reflexivity]|].
  split; [|auto].
  rewrite map_app. apply NoDup_app; auto.
  intros c H1 H2. apply in_map_iff in H1, H2. destruct H1 as (q1 & <- & Q1). destruct H2 as (q2 & Eq & Q2).
  destruct (F q1 Q1) as (_ & _ & _ & Hh). destruct (K2 q2 Q2) as (o & _ & (_ & _ & _ & Hk) & Ep & _).
  rewrite <- Ep, Eq in Hk. lia.
Qed.
End Pc.
