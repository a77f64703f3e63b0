(** Proofs about the look-ahead tree (C31, C32, C64). *)
From Coq Require Import ZArith List Bool Lia Arith.
From Verif Require Import Num Mat CommonModel HistModel PfModel StarModel StarSpec.
Import ListNotations.

Lemma nth_set_nth {A} (l : list A) : forall i a j, nth_error (set_nth l i a) j =
  if (j =? i)%nat then (if (i <? length l)%nat then Some a else None) else nth_error l j.
Proof.
  induction l as [|b l IH]; intros i a j; cbn [set_nth].
  - destruct j; cbn; destruct i; cbn; try reflexivity; destruct (j =? i)%nat; reflexivity.
  - destruct i as [|i]; cbn [set_nth].
    + destruct j; cbn; reflexivity.
    + destruct j as [|j]; cbn; [reflexivity|]. rewrite IH. cbn. destruct (j =? i)%nat; [|reflexivity].
      replace (S i <? S (length l))%nat with (i <? length l)%nat by reflexivity. reflexivity.
Qed.
Lemma length_set_nth {A} (l : list A) : forall i a, length (set_nth l i a) = length l.
Proof. induction l as [|b l IH]; intros [|i] a; cbn; auto. Qed.
Lemma nth_upd {A} (l : list A) i f j : nth_error (upd_nth l i f) j =
  if (j =? i)%nat then option_map f (nth_error l i) else nth_error l j.
Proof.
  unfold upd_nth. destruct (nth_error l i) as [a|] eqn:E.
  - rewrite nth_set_nth. destruct (Nat.eqb_spec j i) as [->|]; [|reflexivity].
    assert (i < length l)%nat by (apply nth_error_Some; congruence). destruct (Nat.ltb_spec i (length l)); [reflexivity|lia].
  - destruct (Nat.eqb_spec j i) as [->|]; [exact E|reflexivity].
Qed.
Lemma length_upd {A} (l : list A) i f : length (upd_nth l i f) = length l.
Proof. unfold upd_nth. destruct (nth_error l i); [apply length_set_nth|reflexivity]. Qed.
Lemma nth_snoc {A} (l : list A) a i : nth_error (l ++ [a]) i = if (i =? length l)%nat then Some a else nth_error l i.
Proof.
  destruct (Nat.eqb_spec i (length l)) as [->|Hne].
  - rewrite nth_error_app2 by lia. now rewrite Nat.sub_diag.
  - destruct (Nat.lt_ge_cases i (length l)); [now rewrite nth_error_app1|].
    rewrite (proj2 (nth_error_None l i)) by lia. apply nth_error_None. rewrite app_length. cbn. lia.
Qed.

Section Star.
Context (N : num) (G : trig N) (huge : N) (cands : vec3 N -> vec3 N -> option (list (candidate N))) (P : star_params N).
Notation tree_t := (list (tnode N)).
Notation root_chain := (root_chain N).
Notation dist_to t p := (v3norm N (v3sub N (n_pos t) p)).

Notation child_of := (child_of N G huge cands P).
Record tinv (tree : tree_t) (parents closed : list nat) (bound : Z) : Prop := {
  ti_root : exists t, nth_error tree 0 = Some t /\ n_pos t = sp_position P /\ n_vel t = sp_velocity P /\ n_depth t = 0%nat;
  ti_par : forall i t, (0 < i)%nat -> nth_error tree i = Some t ->
     (n_origin t < i)%nat /\ In (n_origin t) parents /\ exists o, nth_error tree (n_origin t) = Some o /\ child_of o t;
  ti_closed : forall i t, nth_error tree i = Some t -> (n_closed t = true <-> In i closed);
  ti_nodup : NoDup closed;
  ti_bound : forall i, In i closed -> (i < length tree)%nat;
  ti_len : (Z.of_nat (length tree) <= bound)%Z;
  ti_space : forall i j s t, (i < j)%nat -> nth_error tree i = Some s -> nth_error tree j = Some t ->
     ltb N (v3norm N (v3sub N (n_pos s) (n_pos t))) (cst N 1 5) = false;
  ti_near : forall i t, In i closed -> (0 < i)%nat -> nth_error tree i = Some t ->
     ltb N (dist_to t (sp_position P)) (max_path_length P) = true;
  ti_rooto : forall t, nth_error tree 0 = Some t -> n_origin t = 0%nat }.

Lemma addChild_inv tree parents closed bound origin o children c children' tree' :
  tinv tree parents closed (bound + children) -> In origin parents -> nth_error tree origin = Some o ->
  (exists cs, cands (n_pos o) (n_vel o) = Some cs /\ In c cs) -> (children <= children_per_node P)%Z ->
  addChild N G P origin (n_pos o) (children, tree) c = Some (children', tree') ->
  tinv tree' parents closed (bound + children') /\ nth_error tree' origin = Some o /\ (children' <= children_per_node P)%Z.
Proof.
  intros I Ho Eo Hc Hch E. unfold addChild in E.
  set (loc := polarHistogramToCartesian N G (Pol (c_e c) (c_z c) (tree_node_distance P)) (n_pos o)) in *.
  destruct (Z.ltb_spec children (children_per_node P)) as [Hlt|Hge]; cbn [andb] in E; [|injection E as <- <-; auto].
  destruct (closeNode N tree loc) eqn:Ec; cbn [negb] in E; [injection E as <- <-; auto|].
  rewrite Eo in E. injection E as <- <-.
  set (nt := TN loc _ _ _ _ _ _) in *.
  assert (Hl : (origin < length tree)%nat) by (apply nth_error_Some; congruence).
  assert (Hpos : (0 < length tree)%nat) by lia.
  assert (Hold : forall i t, nth_error tree i = Some t -> nth_error (tree ++ [nt]) i = Some t).
  { intros i t E. rewrite nth_snoc. destruct (Nat.eqb_spec i (length tree)) as [->|]; [|exact E].
    assert (length tree < length tree)%nat by (apply nth_error_Some; congruence). lia. }
  split; [|split; [now apply Hold|lia]]. destruct I. split.
  - destruct ti_root0 as (t & Et & H). exists t. split; [now apply Hold|exact H].
  - intros i t Hi Et. rewrite nth_snoc in Et. destruct (Nat.eqb_spec i (length tree)) as [->|].
    + injection Et as <-. cbn [n_origin nt]. split; [exact Hl|]. split; [exact Ho|]. exists o. split; [now apply Hold|].
      destruct Hc as (cs & Hcs & Hin). exists c, cs. cbn [n_pos n_vel n_heur n_total n_depth]. repeat split; auto.
    + destruct (ti_par0 i t Hi Et) as (H1 & H2 & o' & H3 & H4). split; [exact H1|]. split; [exact H2|]. exists o'. split; [now apply Hold|exact H4].
  - intros i t Et. rewrite nth_snoc in Et. destruct (Nat.eqb_spec i (length tree)) as [->|]; [|now apply ti_closed0].
    injection Et as <-. cbn [n_closed nt]. split; [discriminate|]. intros X. apply ti_bound0 in X. lia.
  - exact ti_nodup0.
  - intros i X. rewrite app_length. apply ti_bound0 in X. lia.
  - rewrite app_length. cbn [length]. lia.
  - intros i j s t Hij Es Et. rewrite nth_snoc in Es, Et. destruct (Nat.eqb_spec j (length tree)) as [->|].
    + injection Et as <-. destruct (Nat.eqb_spec i (length tree)) as [->|]; [lia|]. cbn [n_pos nt].
      unfold closeNode in Ec. destruct (ltb N (v3norm N (v3sub N (n_pos s) loc)) (cst N 1 5)) eqn:X; [|reflexivity].
      exfalso. assert (existsb (fun t => ltb N (v3norm N (v3sub N (n_pos t) loc)) (cst N 1 5)) tree = true) by (apply existsb_exists; exists s; split; [eapply nth_error_In, Es|exact X]).
      congruence.
    + destruct (Nat.eqb_spec i (length tree)) as [->|].
      * assert (j < length tree)%nat by (apply nth_error_Some; congruence). lia.
      * eauto.
  - intros i t Hi H0 Et. rewrite nth_snoc in Et. destruct (Nat.eqb_spec i (length tree)) as [->|]; [|eauto].
    apply ti_bound0 in Hi. lia.
  - intros t Et. rewrite nth_snoc in Et. destruct (Nat.eqb_spec 0 (length tree)); [lia|auto].
Qed.
Lemma addChildren_inv parents closed bound origin o cs0 : In origin parents -> cands (n_pos o) (n_vel o) = Some cs0 ->
  forall cs tree children children' tree', incl cs cs0 ->
  tinv tree parents closed (bound + children) -> nth_error tree origin = Some o -> (children <= children_per_node P)%Z ->
  foldM (addChild N G P origin (n_pos o)) (children, tree) cs = Some (children', tree') ->
  tinv tree' parents closed (bound + children') /\ nth_error tree' origin = Some o /\ (children' <= children_per_node P)%Z.
Proof.
  intros Ho Hcs0. induction cs as [|c cs IH]; intros tree children children' tree' Hincl I Eo Hch E; cbn [foldM] in E.
  - injection E as <- <-. auto.
  - destruct (addChild N G P origin (n_pos o) (children, tree) c) as [[ch1 t1]|] eqn:E1; [|discriminate].
    destruct (addChild_inv tree parents closed bound origin o children c ch1 t1 I Ho Eo) as (I1 & Eo1 & H1); auto.
    { exists cs0. split; [exact Hcs0|]. apply Hincl. now left. }
    eapply IH; eauto. intros x Hx. apply Hincl. now right.
Qed.
Lemma addChildren_total origin o cs : forall children tree, nth_error tree origin = Some o ->
  exists r, foldM (addChild N G P origin (n_pos o)) (children, tree) cs = Some r.
Proof.
  induction cs as [|c cs IH]; intros children tree Eo; cbn [foldM]; [eauto|].
  unfold addChild at 1. destruct (_ && _); [|now apply IH]. rewrite Eo. apply IH.
  rewrite nth_snoc. destruct (Nat.eqb_spec origin (length tree)) as [->|]; [|exact Eo].
  assert (length tree < length tree)%nat by (apply nth_error_Some; congruence). lia.
Qed.

(** updates that leave everything but total cost and flag alone *)
Definition same_node (f : tnode N -> tnode N) : Prop := forall t, n_pos (f t) = n_pos t /\ n_vel (f t) = n_vel t /\
  n_heur (f t) = n_heur t /\ n_origin (f t) = n_origin t /\ n_depth (f t) = n_depth t.

Lemma combine_seq_nth {A} (l : list A) : forall k i a, In (i, a) (combine (seq k (length l)) l) <-> (k <= i)%nat /\ nth_error l (i - k) = Some a.
Proof.
  induction l as [|b l IH]; intros k i a; cbn [combine seq length In].
  - split; [tauto|]. intros (_ & H). destruct (i - k)%nat; discriminate.
  - rewrite IH. split.
    + intros [[= <- <-]|(H1 & H2)]; [split; [lia|rewrite Nat.sub_diag; reflexivity]|].
      split; [lia|]. replace (i - k)%nat with (S (i - S k)) by lia. exact H2.
    + intros (H1 & H2). destruct (Nat.eq_dec i k) as [->|Hne].
      * left. rewrite Nat.sub_diag in H2. injection H2 as ->. reflexivity.
      * right. split; [lia|]. replace (i - k)%nat with (S (i - S k)) in H2 by lia. exact H2.
Qed.
Lemma pick_spec tree origin o b : pick N huge P tree origin = (o, b) ->
  b = true -> exists t, nth_error tree o = Some t /\ n_closed t = false /\ ltb N (dist_to t (sp_position P)) (max_path_length P) = true.
Proof.
  unfold pick.
  match goal with |- context [fold_left ?f ?l ?s] =>
    assert (K : forall l' st, incl l' l -> (let '(_, o, b) := st in b = true -> exists t, nth_error tree o = Some t /\ n_closed t = false /\ ltb N (dist_to t (sp_position P)) (max_path_length P) = true) ->
       let '(_, o, b) := fold_left f l' st in b = true -> exists t, nth_error tree o = Some t /\ n_closed t = false /\ ltb N (dist_to t (sp_position P)) (max_path_length P) = true) end.
  { induction l' as [|(i, t) l' IH]; intros ((mc, o0), b0) Hin H; cbn [fold_left]; [exact H|].
    apply IH; [intros x Hx; apply Hin; now right|].
    destruct (n_closed t) eqn:E1; cbn [negb andb]; [exact H|]. destruct (ltb N (n_total t) mc); cbn [andb]; [|exact H].
    destruct (ltb N (v3norm N (v3sub N (n_pos t) (sp_position P))) (max_path_length P)) eqn:E2; [|exact H].
    intros _. exists t. split; [|auto]. assert (X : In (i, t) (combine (seq 0 (length tree)) tree)) by (apply Hin; now left).
    apply combine_seq_nth in X. rewrite Nat.sub_0_r in X. apply X. }
  specialize (K _ (huge, origin, false) (incl_refl _)). cbv beta iota zeta in K. specialize (K ltac:(discriminate)).
  destruct (fold_left _ _ _) as ((mc, o'), b'). intros [= <- <-]. exact K.
Qed.

Record sinv (s : star_state N) : Prop := {
  si_tree : tinv (ss_tree s) (ss_closed s) (ss_closed s) (1 + Z.of_nat (length (ss_closed s)) * Z.max 0 (children_per_node P));
  si_go : ss_go s = true -> exists t, nth_error (ss_tree s) (ss_origin s) = Some t /\ n_closed t = false /\
     ((0 < ss_origin s)%nat -> ltb N (dist_to t (sp_position P)) (max_path_length P) = true) }.

Lemma init_inv : sinv (starInit N P).
Proof.
  split; cbn.
  - split; cbn.
    + eexists. repeat split.
    + intros [|i] t H E; [lia|]. destruct i; discriminate.
    + intros [|i] t E; cbn in E; [injection E as <-; cbn; split; [discriminate|tauto]|destruct i; discriminate].
    + constructor.
    + tauto.
    + lia.
    + intros i [|j] s t Hij Es Et; [lia|]. destruct j; discriminate.
    + tauto.
    + intros t [= <-]. reflexivity.
  - intros _. eexists. split; [reflexivity|]. split; [reflexivity|]. lia.
Qed.

Lemma upd_inv tree parents closed closed' bound og o f :
  tinv tree parents closed bound -> nth_error tree og = Some o -> same_node f ->
  (n_total (f o) = n_total o \/ (cands (n_pos o) (n_vel o) = Some [] /\ n_total (f o) = huge /\ ~ In og parents)) ->
  NoDup closed' -> (forall i, In i closed' -> (i < length tree)%nat) -> (n_closed (f o) = true <-> In og closed') ->
  (forall i, i <> og -> (In i closed' <-> In i closed)) ->
  (In og closed' -> (0 < og)%nat -> ltb N (dist_to o (sp_position P)) (max_path_length P) = true) ->
  tinv (upd_nth tree og f) parents closed' bound.
Proof.
  intros I Eo Hf Htot Hnd Hb Hfl Hcl Hnear.
  destruct (Hf o) as (F1 & F2 & F3 & F4 & F5).
  assert (Hg : forall i t, nth_error (upd_nth tree og f) i = Some t -> exists t0, nth_error tree i = Some t0 /\
                n_pos t = n_pos t0 /\ n_vel t = n_vel t0 /\ n_heur t = n_heur t0 /\ n_origin t = n_origin t0 /\ n_depth t = n_depth t0 /\
                (i = og /\ t0 = o /\ t = f o \/ i <> og /\ t = t0)).
  { intros i t Et. rewrite nth_upd in Et. destruct (Nat.eqb_spec i og) as [->|Hne].
    - rewrite Eo in Et. cbn in Et. injection Et as <-. exists o. repeat split; auto.
    - exists t. repeat split; auto. }
  assert (Hn : forall i t0, nth_error tree i = Some t0 -> exists t, nth_error (upd_nth tree og f) i = Some t /\
                n_pos t = n_pos t0 /\ n_vel t = n_vel t0 /\ n_heur t = n_heur t0 /\ n_depth t = n_depth t0 /\ (n_total t = n_total t0 \/ i = og)).
  { intros i t0 Et. rewrite nth_upd. destruct (Nat.eqb_spec i og) as [->|Hne].
    - rewrite Eo in *. injection Et as <-. exists (f o). cbn. repeat split; auto.
    - exists t0. repeat split; auto. }
  destruct I. split.
  - destruct ti_root0 as (t & Et & Hp & Hv & Hd). destruct (Hn 0%nat t Et) as (t' & Et' & Q1 & Q2 & Q3 & Q4 & _).
    exists t'. rewrite Q1, Q2, Q4. auto.
  - intros i t Hi Et. destruct (Hg i t Et) as (t0 & Et0 & G1 & G2 & G3 & G4 & G5 & G6).
    destruct (ti_par0 i t0 Hi Et0) as (H1 & H2 & o' & H3 & (c & cs & C1 & C2 & C3 & C4 & C5 & C6 & C7)).
    rewrite G4. split; [exact H1|]. split; [exact H2|].
    destruct (Hn _ _ H3) as (o2 & Eo2 & Q1 & Q2 & Q3 & Q4 & Q5). exists o2. split; [exact Eo2|].
    exists c, cs. rewrite Q1, Q2, Q3, Q4, G1, G2, G3, G5.
    do 5 (split; [assumption|]). split; [|exact C7].
    assert (Qt : n_total o2 = n_total o').
    { destruct Q5 as [Q5|Q5]; [exact Q5|]. destruct Htot as [Ht|(_ & _ & Ht)]; [|congruence].
      rewrite nth_upd, Q5, Nat.eqb_refl, Eo in Eo2. cbn in Eo2. injection Eo2 as <-. rewrite Q5, Eo in H3. injection H3 as <-. exact Ht. }
    rewrite Qt. destruct G6 as [(-> & -> & ->)|(Hne & ->)]; [|exact C6].
    destruct Htot as [Ht|(Hc & Ht & _)]; [rewrite Ht; exact C6|right; auto].
  - intros i t Et. destruct (Hg i t Et) as (t0 & Et0 & _ & _ & _ & _ & _ & [(-> & -> & ->)|(Hne & ->)]); [exact Hfl|].
    rewrite (Hcl i Hne). now apply ti_closed0.
  - exact Hnd.
  - intros i Hi. rewrite length_upd. auto.
  - rewrite length_upd. exact ti_len0.
  - intros i j s t Hij Es Et. destruct (Hg i s Es) as (s0 & Es0 & -> & _). destruct (Hg j t Et) as (t0 & Et0 & -> & _). eauto.
  - intros i t Hi H0 Et. destruct (Hg i t Et) as (t0 & Et0 & -> & _ & _ & _ & _ & [(-> & -> & _)|(Hne & _)]); [auto|].
    apply Hcl in Hi; [eauto|exact Hne].
  - intros t Et. destruct (Hg 0%nat t Et) as (t0 & Et0 & _ & _ & _ & -> & _). auto.
Qed.
Lemma tinv_mono tree p closed b b' : (b <= b')%Z -> tinv tree p closed b -> tinv tree p closed b'.
Proof. intros H I. destruct I. split; auto. lia. Qed.

Definition closeNodeFlag (t : tnode N) := TN (n_pos t) (n_vel t) (n_total t) (n_heur t) (n_origin t) true (n_depth t).
Lemma expand_inv s : (0 <= children_per_node P)%Z -> sinv s -> ss_go s = true ->
  match expandOnce N G huge cands P s with
  | Some s' => sinv s' /\ ss_closed s' = ss_closed s ++ [ss_origin s]
  | None => exists o, nth_error (ss_tree s) (ss_origin s) = Some o /\ cands (n_pos o) (n_vel o) = None
  end.
Proof.
  intros Hcpn [I Hgo] Eg. destruct (Hgo Eg) as (o & Eo & Cl & Hnear). clear Hgo.
  unfold expandOnce. rewrite Eo.
  destruct (cands (n_pos o) (n_vel o)) as [cs|] eqn:Ecs; [|eauto].
  set (og := ss_origin s) in *. set (cl := ss_closed s) in *. rewrite Z.max_r in I by lia.
  set (B := (1 + Z.of_nat (length cl) * children_per_node P)%Z) in *.
  assert (Hl : (og < length (ss_tree s))%nat) by (apply nth_error_Some; congruence).
  assert (Hnotin : ~ In og cl) by (intros X; apply (ti_closed _ _ _ _ I og o Eo) in X; congruence).
  assert (Hp : forall t b, tinv t cl cl b -> tinv t (cl ++ [og]) cl b).
  { intros t b I0. destruct I0. split; auto. intros i t0 Hi Et. destruct (ti_par0 i t0 Hi Et) as (H1 & H2 & H3). split; [exact H1|]. split; [apply in_or_app; auto|exact H3]. }
  assert (T1 : exists t1 o1, match cs with
                   | [] => Some (upd_nth (ss_tree s) og (fun t => TN (n_pos t) (n_vel t) huge (n_heur t) (n_origin t) (n_closed t) (n_depth t)))
                   | _ => option_map snd (foldM (addChild N G P og (n_pos o)) (0%Z, ss_tree s) cs) end = Some t1 /\
               tinv t1 (cl ++ [og]) cl (B + children_per_node P) /\ nth_error t1 og = Some o1 /\ n_pos o1 = n_pos o).
  { destruct cs as [|c cs'].
    - eexists. eexists. split; [reflexivity|]. rewrite nth_upd, Nat.eqb_refl, Eo. cbn [option_map].
      split; [|split; reflexivity]. apply Hp. apply tinv_mono with B; [lia|].
      eapply upd_inv; try exact I; try exact Eo.
      + intros t. cbn. auto.
      + right. cbn. auto.
      + apply I.
      + apply I.
      + cbn. rewrite Cl. split; [discriminate|contradiction].
      + tauto.
      + intros X. contradiction.
    - destruct (addChildren_total og o (c :: cs') 0%Z (ss_tree s) Eo) as ([ch t1] & E1). exists t1.
      destruct (addChildren_inv (cl ++ [og]) cl B og o (c :: cs')) with (cs := c :: cs') (tree := ss_tree s) (children := 0%Z) (children' := ch) (tree' := t1) as (I1 & E2 & H2); auto.
      + apply in_or_app. right. now left.
      + intros x Hx. exact Hx.
      + rewrite Z.add_0_r. apply Hp, I.
      + exists o. rewrite E1. split; [reflexivity|]. split; [|auto]. apply tinv_mono with (B + ch)%Z; [lia|exact I1]. }
  destruct T1 as (t1 & o1 & -> & I1 & Eo1 & Hpos1).
  assert (I2 : tinv (upd_nth t1 og closeNodeFlag) (cl ++ [og]) (cl ++ [og]) (B + children_per_node P)).
  { eapply upd_inv; try exact I1; try exact Eo1.
    - intros t. cbn. auto.
    - left. reflexivity.
    - apply NoDup_Add with (a := og) (l := cl); [|split; [apply I|exact Hnotin]]. rewrite <- (app_nil_r cl) at 1. apply Add_app.
    - intros i Hi. apply in_app_or in Hi. destruct Hi as [Hi|[<-|[]]]; [now apply (ti_bound _ _ _ _ I1)|apply nth_error_Some; congruence].
    - cbn. split; [|reflexivity]. intros _. apply in_or_app. right. now left.
    - intros i Hne. rewrite in_app_iff. cbn. intuition congruence.
    - intros _ H0. rewrite Hpos1. auto. }
  fold closeNodeFlag.
  destruct (pick N huge P (upd_nth t1 og closeNodeFlag) og) as [o' go] eqn:Epk. split; [|reflexivity]. split; cbn [ss_tree ss_closed ss_go ss_origin].
  - rewrite app_length, Z.max_r by lia. cbn [length]. eapply tinv_mono; [|exact I2]. unfold B. lia.
  - intros Hg. destruct (pick_spec _ _ _ _ Epk Hg) as (t & Et & Ht & Hn). exists t. auto.
Qed.

Lemma loop_inv n : forall s s', (0 <= children_per_node P)%Z -> sinv s -> expandLoop N G huge cands P n s = Some s' ->
  sinv s' /\ (length (ss_closed s') <= length (ss_closed s) + n)%nat.
Proof.
  induction n as [|n IH]; intros s s' Hc I E; cbn [expandLoop] in E.
  - injection E as <-. split; [exact I|lia].
  - destruct (ss_go s) eqn:Eg; [|injection E as <-; split; [exact I|lia]].
    pose proof (expand_inv s Hc I Eg) as X. destruct (expandOnce N G huge cands P s) as [s1|]; [|discriminate]. destruct X as (I1 & L1).
    destruct (IH s1 s' Hc I1 E) as (I2 & L2). split; [exact I2|]. rewrite L1, app_length in L2. cbn in L2. lia.
Qed.
(** the only way the construction can be undefined is an undefined candidate computation *)
Lemma loop_total n : forall s, (0 <= children_per_node P)%Z -> sinv s -> (forall p v, cands p v <> None) ->
  expandLoop N G huge cands P n s <> None.
Proof.
  induction n as [|n IH]; intros s Hc I Ht; cbn [expandLoop]; [discriminate|]. destruct (ss_go s) eqn:Eg; [|discriminate].
  pose proof (expand_inv s Hc I Eg) as X. destruct (expandOnce N G huge cands P s) as [s1|]; [now apply IH|].
  destruct X as (o & _ & X). now apply Ht in X.
Qed.

(** deepest open node *)
Lemma deepest_spec (tree : tree_t) : tree <> [] ->
  (deepest N tree < length tree)%nat /\
  (deepest N tree = 0%nat \/ exists t, nth_error tree (deepest N tree) = Some t /\ n_closed t = false) /\
  forall d, nth_error tree (deepest N tree) = Some d -> forall i t, nth_error tree i = Some t -> n_closed t = false -> (n_depth t <= n_depth d)%nat \/ (deepest N tree = 0%nat /\ n_depth t = 0%nat).
Proof.
  intros Hne. unfold deepest.
  match goal with |- context [fold_left ?f ?l ?s] =>
    assert (K : forall l' st done, l = done ++ l' ->
      (snd st = 0%nat /\ fst st = 0%nat \/ exists t, nth_error tree (snd st) = Some t /\ n_closed t = false /\ n_depth t = fst st) ->
      (forall i t, In (i, t) done -> n_closed t = false -> (n_depth t <= fst st)%nat) ->
      let st' := fold_left f l' st in
      (snd st' = 0%nat /\ fst st' = 0%nat \/ exists t, nth_error tree (snd st') = Some t /\ n_closed t = false /\ n_depth t = fst st') /\
      (forall i t, In (i, t) l -> n_closed t = false -> (n_depth t <= fst st')%nat)) end.
  { induction l' as [|(i, t) l' IH]; intros (md, mi) done El H1 H2; cbn [fold_left].
    - rewrite app_nil_r in El. subst done. split; [exact H1|exact H2].
    - apply IH with (done := done ++ [(i, t)]); [rewrite <- app_assoc; exact El| |].
      + destruct (n_closed t) eqn:Ec; cbn [negb andb]; [exact H1|]. destruct (Nat.ltb_spec md (n_depth t)); [|exact H1].
        right. exists t. cbn [fst snd]. split; [|auto].
        assert (X : In (i, t) (combine (seq 0 (length tree)) tree)) by (rewrite El; apply in_or_app; right; now left).
        apply combine_seq_nth in X. rewrite Nat.sub_0_r in X. apply X.
      + intros i' t' Hin Hc. apply in_app_or in Hin. cbn [fst] in *.
        destruct (n_closed t) eqn:Ec; cbn [negb andb].
        * destruct Hin as [Hin|[[= <- <-]|[]]]; [eauto|congruence].
        * destruct (Nat.ltb_spec md (n_depth t)); cbn [fst]; (destruct Hin as [Hin|[[= <- <-]|[]]]; [specialize (H2 i' t' Hin Hc); lia|lia]). }
  specialize (K _ (0%nat, 0%nat) [] eq_refl (or_introl (conj eq_refl eq_refl)) ltac:(intros i t [])). cbv zeta in K.
  destruct (fold_left _ _ _) as [md mi]. cbn [fst snd] in *. destruct K as (K1 & K2). split; [|split].
  - destruct K1 as [(-> & _)|(t & Et & _)]; [destruct tree; [congruence|cbn; lia]|]. apply nth_error_Some. congruence.
  - destruct K1 as [(-> & _)|(t & Et & Hc & _)]; [now left|right; eauto].
  - intros d Ed i t Et Hc. specialize (K2 i t). rewrite combine_seq_nth in K2. rewrite Nat.sub_0_r in K2. specialize (K2 (conj (Nat.le_0_l i) Et) Hc).
    destruct K1 as [(-> & ->)|(t' & Et' & _ & Hd)]; [right; split; [reflexivity|lia]|left]. rewrite Ed in Et'. injection Et' as <-. lia.
Qed.

Lemma extract_spec tree parents closed b : tinv tree parents closed b -> forall fuel i, (i < length tree)%nat -> (i <= fuel)%nat ->
  exists l, root_chain tree i l /\ extractPath N fuel tree i = Some (map n_pos l).
Proof.
  intros I. destruct (ti_root _ _ _ _ I) as (r & Er & _).
  induction fuel as [|fuel IH]; intros i Hi Hf.
  - assert (i = 0%nat) by lia. subst i. exists [r]. split; [now constructor|]. cbn. destruct tree; [discriminate|]. cbn in Er. injection Er as ->. reflexivity.
  - destruct i as [|i].
    + exists [r]. split; [now constructor|]. cbn. destruct tree; [discriminate|]. cbn in Er. injection Er as ->. reflexivity.
    + destruct (nth_error tree (S i)) as [t|] eqn:Et; [|apply nth_error_None in Et; lia].
      destruct (ti_par _ _ _ _ I (S i) t ltac:(lia) Et) as (H1 & _ & o & H3 & _).
      destruct (IH (n_origin t)) as (l & R & E); [lia|lia|]. exists (t :: l). split; [econstructor; eauto; lia|].
      cbn [extractPath]. rewrite Et, E. reflexivity.
Qed.
Lemma chain_length tree parents closed b i l t : tinv tree parents closed b -> root_chain tree i l -> nth_error tree i = Some t -> length l = S (n_depth t).
Proof.
  intros I R. revert t. induction R as [r Er|i t' l Hi Et' R IH]; intros t Et.
  - destruct (ti_root _ _ _ _ I) as (r' & Er' & _ & _ & Hd). assert (r' = t) by congruence. subst. cbn. lia.
  - rewrite Et' in Et. injection Et as <-. destruct (ti_par _ _ _ _ I i t' Hi Et') as (_ & _ & o & Eo & (c & cs & H)).
    cbn [length]. rewrite (IH o Eo). destruct H as (_ & _ & _ & _ & _ & _ & ->). lia.
Qed.
Lemma chain_last tree parents closed b i l : tinv tree parents closed b -> root_chain tree i l ->
  exists l' r, l = l' ++ [r] /\ n_pos r = sp_position P.
Proof.
  intros I R. induction R as [r Er|i t' l Hi Et' R IH].
  - destruct (ti_root _ _ _ _ I) as (r' & Er' & Hp & _). exists [], r. split; [reflexivity|]. congruence.
  - destruct IH as (l' & r & -> & Hr). exists (t' :: l'), r. auto.
Qed.
Lemma chain_edges tree parents closed b i l : tinv tree parents closed b -> root_chain tree i l ->
  forall k u v, nth_error l k = Some u -> nth_error l (S k) = Some v -> child_of v u.
Proof.
  intros I R. induction R as [r Er|i t' l Hi Et' R IH]; intros k u v Eu Ev.
  - destruct k; discriminate.
  - destruct k as [|k]; cbn in Eu, Ev; [|eauto]. injection Eu as <-.
    destruct (ti_par _ _ _ _ I i t' Hi Et') as (_ & _ & o & Eo & Hch).
    inversion R; subst; cbn in Ev; injection Ev as <-; congruence.
Qed.

Lemma build_inv r : (0 <= children_per_node P)%Z -> buildLookAheadTree N G huge cands P = Some r ->
  exists l, tinv (r_tree r) (r_closed r) (r_closed r) (1 + Z.of_nat (length (r_closed r)) * children_per_node P) /\
    (length (r_closed r) <= Z.to_nat (n_expanded_nodes P))%nat /\
    root_chain (r_tree r) (deepest N (r_tree r)) l /\ r_path r = map n_pos l.
Proof.
  intros Hc E. unfold buildLookAheadTree in E. destruct (expandLoop _ _ _ _ _ _ _) as [s|] eqn:El; [|discriminate].
  destruct (loop_inv _ _ _ Hc init_inv El) as ([I _] & L). rewrite Z.max_r in I by lia. cbn [starInit ss_closed length] in L.
  assert (Hne : ss_tree s <> []). { destruct (ti_root _ _ _ _ I) as (t & Et & _). intros X. rewrite X in Et. discriminate. }
  destruct (deepest_spec (ss_tree s) Hne) as (Hd & _).
  destruct (extract_spec _ _ _ _ I (length (ss_tree s)) (deepest N (ss_tree s)) Hd ltac:(lia)) as (l & R & X).
  rewrite X in E. injection E as <-. cbn. exists l. split; [exact I|]. split; [lia|]. split; [exact R|reflexivity].
Qed.
Lemma build_total : (0 <= children_per_node P)%Z -> (forall p v, cands p v <> None) ->
  exists r, buildLookAheadTree N G huge cands P = Some r.
Proof.
  intros Hc Ht. unfold buildLookAheadTree.
  pose proof (loop_total (Z.to_nat (n_expanded_nodes P)) (starInit N P) Hc init_inv Ht) as X.
  destruct (expandLoop _ _ _ _ _ _ _) as [s|] eqn:El; [clear X|congruence].
  destruct (loop_inv _ _ _ Hc init_inv El) as ([I _] & L).
  assert (Hne : ss_tree s <> []). { destruct (ti_root _ _ _ _ I) as (t & Et & _). intros X. rewrite X in Et. discriminate. }
  destruct (deepest_spec (ss_tree s) Hne) as (Hd & _).
  destruct (extract_spec _ _ _ _ I (length (ss_tree s)) (deepest N (ss_tree s)) Hd ltac:(lia)) as (l & R & X). rewrite X. eauto.
Qed.
End Star.
