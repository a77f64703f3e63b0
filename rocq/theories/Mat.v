(** Dense matrices (Eigen::MatrixXf / MatrixXi) with bounds-checked element access.

    An access outside the matrix is undefined behaviour in the C++ (an Eigen assertion in debug
    builds) and is the outcome [None] here. *)
From Coq Require Import ZArith List Bool Lia FinFun.
Import ListNotations.
Local Open Scope Z_scope.

Record mat (A : Type) := Mat { rows : Z; cols : Z; cell : Z -> Z -> A }.
Arguments Mat {A} _ _ _.
Arguments rows {A} _.
Arguments cols {A} _.
Arguments cell {A} _ _ _.

(** the integers 0 .. n-1 in increasing order: [for (int i = 0; i < n; i++)] *)
Definition zrange (n : Z) : list Z := map Z.of_nat (seq 0 (Z.to_nat n)).

Definition inb {A} (m : mat A) (i j : Z) : bool :=
  (0 <=? i) && (i <? rows m) && (0 <=? j) && (j <? cols m).
(** M(i,j) as an rvalue *)
Definition mget {A} (m : mat A) (i j : Z) : option A := if inb m i j then Some (cell m i j) else None.
(** M(i,j) = v *)
Definition mset {A} (m : mat A) (i j : Z) (v : A) : option (mat A) :=
  if inb m i j
  then Some (Mat (rows m) (cols m) (fun i' j' => if (i' =? i) && (j' =? j) then v else cell m i' j'))
  else None.
(** M.fill(v) *)
Definition mfill {A} (m : mat A) (v : A) : mat A := Mat (rows m) (cols m) (fun _ _ => v).

(** [Matrix tmp(r, c); for i<r for j<c tmp(i,j) = f i j;]  ([d] only fills the space outside) *)
Definition mbuild {A} (d : A) (r c : Z) (f : Z -> Z -> option A) : option (mat A) :=
  if forallb (fun i => forallb (fun j => match f i j with Some _ => true | None => false end) (zrange c)) (zrange r)
  then Some (Mat r c (fun i j => match f i j with Some v => v | None => d end))
  else None.

(** same dimensions and same elements *)
Definition meq {A} (m m' : mat A) : Prop :=
  rows m = rows m' /\ cols m = cols m' /\
  forall i j, 0 <= i < rows m -> 0 <= j < cols m -> cell m i j = cell m' i j.

Lemma in_zrange n i : In i (zrange n) <-> 0 <= i < n.
Proof.
  unfold zrange. rewrite in_map_iff. split.
  - intros (k & E & H). apply in_seq in H. lia.
  - intros H. exists (Z.to_nat i). split; [lia|]. apply in_seq. lia.
Qed.
Lemma length_zrange n : length (zrange n) = Z.to_nat n.
Proof. unfold zrange. now rewrite map_length, seq_length. Qed.
Lemma NoDup_zrange n : NoDup (zrange n).
Proof. unfold zrange. apply FinFun.Injective_map_NoDup; [intros a b; lia|apply seq_NoDup]. Qed.
Lemma zrange_nil n : n <= 0 -> zrange n = [].
Proof. intros H. unfold zrange. replace (Z.to_nat n) with 0%nat by lia. reflexivity. Qed.
Lemma zrange_S n : 0 <= n -> zrange (n + 1) = zrange n ++ [n].
Proof.
  intros H. unfold zrange. replace (Z.to_nat (n + 1)) with (S (Z.to_nat n)) by lia.
  rewrite seq_S, map_app. cbn [map]. f_equal. f_equal. lia.
Qed.

Lemma inb_true {A} (m : mat A) i j : inb m i j = true <-> 0 <= i < rows m /\ 0 <= j < cols m.
Proof. unfold inb. rewrite !andb_true_iff, !Z.leb_le, !Z.ltb_lt. lia. Qed.
Lemma mget_some {A} (m : mat A) i j : 0 <= i < rows m -> 0 <= j < cols m -> mget m i j = Some (cell m i j).
Proof. intros Hi Hj. unfold mget. now rewrite (proj2 (inb_true m i j) (conj Hi Hj)). Qed.
Lemma mget_inv {A} (m : mat A) i j v : mget m i j = Some v ->
  0 <= i < rows m /\ 0 <= j < cols m /\ cell m i j = v.
Proof.
  unfold mget. destruct (inb m i j) eqn:E; [|discriminate]. apply inb_true in E. intros [= <-]. tauto.
Qed.
Lemma mget_none {A} (m : mat A) i j : mget m i j = None <-> ~ (0 <= i < rows m /\ 0 <= j < cols m).
Proof.
  unfold mget. destruct (inb m i j) eqn:E.
  - apply inb_true in E. split; [discriminate|tauto].
  - split; [|reflexivity]. intros _ H. apply inb_true in H. congruence.
Qed.

Lemma mbuild_some {A} (d : A) r c f :
  (forall i j, 0 <= i < r -> 0 <= j < c -> f i j <> None) ->
  mbuild d r c f = Some (Mat r c (fun i j => match f i j with Some v => v | None => d end)).
Proof.
  intros H. unfold mbuild. destruct (forallb _ _) eqn:E; [reflexivity|].
  exfalso. rewrite <- not_true_iff_false in E. apply E.
  apply forallb_forall. intros i Hi. apply forallb_forall. intros j Hj.
  apply in_zrange in Hi, Hj. specialize (H i j Hi Hj). destruct (f i j); [reflexivity|congruence].
Qed.
Lemma mbuild_inv {A} (d : A) r c f m : mbuild d r c f = Some m ->
  rows m = r /\ cols m = c /\ forall i j, 0 <= i < r -> 0 <= j < c -> f i j = Some (cell m i j).
Proof.
  unfold mbuild. destruct (forallb _ _) eqn:E; [|discriminate]. intros [= <-]. cbn [rows cols cell].
  repeat split. intros i j Hi Hj. rewrite forallb_forall in E.
  specialize (E i (proj2 (in_zrange _ _) Hi)). rewrite forallb_forall in E.
  specialize (E j (proj2 (in_zrange _ _) Hj)). destruct (f i j); [reflexivity|discriminate].
Qed.
Lemma mset_inv {A} (m m' : mat A) i j v : mset m i j v = Some m' ->
  0 <= i < rows m /\ 0 <= j < cols m /\ rows m' = rows m /\ cols m' = cols m /\ cell m' i j = v /\
  forall i' j', (i' <> i \/ j' <> j) -> cell m' i' j' = cell m i' j'.
Proof.
  unfold mset. destruct (inb m i j) eqn:E; [|discriminate]. apply inb_true in E. intros [= <-].
  cbn [rows cols cell]. rewrite !Z.eqb_refl. repeat split; try tauto.
  intros i' j' H. destruct (Z.eqb_spec i' i), (Z.eqb_spec j' j); try reflexivity; cbn; tauto.
Qed.
Lemma mset_some {A} (m : mat A) i j v : 0 <= i < rows m -> 0 <= j < cols m -> exists m', mset m i j v = Some m'.
Proof. intros Hi Hj. unfold mset. rewrite (proj2 (inb_true m i j) (conj Hi Hj)). eauto. Qed.

(** option-threading folds: loops whose body may be undefined behaviour *)
Fixpoint foldM {A S} (f : S -> A -> option S) (s : S) (l : list A) : option S :=
  match l with
  | [] => Some s
  | a :: l' => match f s a with Some s' => foldM f s' l' | None => None end
  end.
Lemma foldM_app {A S} (f : S -> A -> option S) s l l' :
  foldM f s (l ++ l') = match foldM f s l with Some s' => foldM f s' l' | None => None end.
Proof. revert s. induction l as [|a l IH]; intros s; cbn; [reflexivity|]. destruct (f s a); [apply IH|reflexivity]. Qed.
Lemma foldM_inv {A S} (P : S -> Prop) (f : S -> A -> option S) l :
  (forall s a s', In a l -> P s -> f s a = Some s' -> P s') ->
  forall s s', P s -> foldM f s l = Some s' -> P s'.
Proof.
  induction l as [|a l IH]; intros Hf s s' Hs E; cbn in E; [congruence|].
  destruct (f s a) eqn:F; [|discriminate]. eapply IH; [|eapply Hf; [left; reflexivity|exact Hs|exact F]|exact E].
  intros; eapply Hf; eauto. now right.
Qed.
Lemma foldM_total {A S} (P : S -> Prop) (f : S -> A -> option S) l :
  (forall s a, In a l -> P s -> exists s', f s a = Some s' /\ P s') ->
  forall s, P s -> exists s', foldM f s l = Some s' /\ P s'.
Proof.
  induction l as [|a l IH]; intros Hf s Hs; cbn; [eauto|].
  destruct (Hf s a (or_introl eq_refl) Hs) as (s' & -> & Hs'). apply IH; [|exact Hs'].
  intros; apply Hf; auto. now right.
Qed.
