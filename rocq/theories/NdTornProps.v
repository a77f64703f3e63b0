(** C115: whether what the planner copies is something that was sent. *)
From Coq Require Import Arith List Bool Lia ZArith.
From Verif Require Import NdTorn.
Import ListNotations.

Lemma put_word_same {A} (f : nat -> A) i x : put_word f i x i = x.
Proof. unfold put_word. rewrite Nat.eqb_refl. reflexivity. Qed.
Lemma put_word_other {A} (f : nat -> A) i x k : k <> i -> put_word f i x k = f k.
Proof. intros D. unfold put_word. destruct (Nat.eqb_spec k i); [contradiction|reflexivity]. Qed.

(** C115. Under a mutex every copy is one of the vectors that were stored, whatever the schedule and however many words a vector has. *)
Definition one_of {A} (w : nat) (l : list (nat -> A)) (c : nat -> A) : Prop := exists m, In m l /\ forall i, i < w -> c i = m i.
Definition locked_inv {A} (w : nat) (s : torn A) : Prop :=
  (storing s = None \/ copying s = None) /\
  match storing s with
  | None => one_of w (stored s) (words s)
  | Some (m, k) => In m (stored s) /\ forall i, i < k -> words s i = m i
  end /\
  (match copying s with Some (c, k) => k <= w /\ forall i, i < k -> c i = words s i | None => True end) /\
  forall c, In c (copies s) -> one_of w (stored s) c.
Lemma one_of_more {A} w l (c x : nat -> A) : one_of w l c -> one_of w (x :: l) c.
Proof. intros (m & I & E). exists m. split; [right; exact I|exact E]. Qed.
Theorem C115_locked_copies_are_whole :
  forall (A : Type) (w : nat) (v0 : nat -> A) (s : torn A) (c : nat -> A),
  torn_reachable w true v0 s -> In c (copies s) -> exists m, In m (stored s) /\ forall i, i < w -> c i = m i.
Proof.
  intros A w v0 s c R. assert (I : locked_inv w s); [|exact (proj2 (proj2 (proj2 I)) c)]. clear c.
  induction R as [|s s' R IH St].
  { split; [left; reflexivity|split; [|split; [exact I|intros c []]]]. cbn. exists v0. split; [left; reflexivity|reflexivity]. }
  destruct IH as (E & S & C & G). destruct St as [s m Es Ec|s m i Es L|s m Es|s c Ec Es|s c i Ec L|s c Ec]; unfold locked_inv; cbn.
  - rewrite (Ec eq_refl). split; [right; reflexivity|split; [split; [left; reflexivity|intros i L; lia]|split; [exact I|]]].
    intros c Ic. apply one_of_more. exact (G c Ic).
  - rewrite Es in E, S. destruct E as [E|E]; [discriminate E|]. rewrite E. split; [right; reflexivity|split; [|split; [exact I|exact G]]].
    split; [exact (proj1 S)|]. intros j Lj. destruct (Nat.eq_dec j i) as [->|D]; [apply put_word_same|]. rewrite put_word_other by exact D. apply (proj2 S). lia.
  - rewrite Es in E, S. destruct E as [E|E]; [discriminate E|]. rewrite E. split; [left; reflexivity|split; [|split; [exact I|exact G]]].
    exists m. exact S.
  - rewrite (Es eq_refl) in *. split; [left; reflexivity|split; [exact S|split; [|exact G]]]. split; [lia|intros i L; lia].
  - rewrite Ec in C, E. destruct E as [E|E]; [|discriminate E]. rewrite E in *. split; [left; reflexivity|split; [exact S|split; [|exact G]]].
    split; [lia|]. intros j Lj. destruct (Nat.eq_dec j i) as [->|D]; [apply put_word_same|]. rewrite put_word_other by exact D. apply (proj2 C). lia.
  - rewrite Ec in C, E. destruct E as [E|E]; [|discriminate E]. rewrite E in *. split; [left; reflexivity|split; [exact S|split; [exact I|]]].
    intros c' [<-|Ic]; [|exact (G c' Ic)]. destruct S as (m & Im & Em). exists m. split; [exact Im|]. intros i L. rewrite (proj2 C i L). exact (Em i L).
Qed.
Print Assumptions C115_locked_copies_are_whole.

(** Without one every single word of a copy is one of the vectors' ... *)
Definition word_inv {A} (w : nat) (s : torn A) : Prop :=
  (forall i, exists m, In m (stored s) /\ words s i = m i) /\
  (match storing s with Some (m, k) => In m (stored s) | None => True end) /\
  (match copying s with Some (c, k) => forall i, i < k -> exists m, In m (stored s) /\ c i = m i | None => True end) /\
  forall c, In c (copies s) -> forall i, i < w -> exists m, In m (stored s) /\ c i = m i.
Theorem C115_each_word_was_sent :
  forall (A : Type) (w : nat) (excl : bool) (v0 : nat -> A) (s : torn A) (c : nat -> A) (i : nat),
  torn_reachable w excl v0 s -> In c (copies s) -> i < w -> exists m, In m (stored s) /\ c i = m i.
Proof.
  intros A w ex v0 s c i R. assert (I : word_inv w s); [|intros Ic L; exact (proj2 (proj2 (proj2 I)) c Ic i L)]. clear c i.
  induction R as [|s s' R IH St].
  { split; [|split; [exact I|split; [exact I|intros c []]]]. intros i. exists v0. split; [left; reflexivity|reflexivity]. }
  destruct IH as (W & S & C & G). assert (More : forall (m : nat -> A) i x, (exists n, In n (stored s) /\ x = n i) -> exists n, In n (m :: stored s) /\ x = n i).
  { intros m i x (n & In_ & E). exists n. split; [right; exact In_|exact E]. }
  destruct St as [s m Es Ec|s m i Es L|s m Es|s c Ec Es|s c i Ec L|s c Ec]; unfold word_inv; cbn.
  - split; [intros i; apply More, W|split; [left; reflexivity|split; [|intros c Ic i L; apply More; exact (G c Ic i L)]]].
    destruct (copying s) as [[c k]|]; [|exact I]. intros i L. apply More. exact (C i L).
  - rewrite Es in S. split; [|split; [exact S|split; [exact C|exact G]]]. intros j. destruct (Nat.eq_dec j i) as [->|D].
    + exists m. split; [exact S|apply put_word_same]. + rewrite put_word_other by exact D. apply W.
  - split; [exact W|split; [exact I|split; [exact C|exact G]]].
  - split; [exact W|split; [exact S|split; [intros i L; lia|exact G]]].
  - split; [exact W|split; [exact S|split; [|exact G]]]. rewrite Ec in C. intros j Lj. destruct (Nat.eq_dec j i) as [->|D].
    + rewrite put_word_same. apply W. + rewrite put_word_other by exact D. apply C. lia.
  - split; [exact W|split; [exact S|split; [exact I|]]]. rewrite Ec in C. intros c' [<-|Ic] i L; [exact (C i L)|exact (G c' Ic i L)].
Qed.
Print Assumptions C115_each_word_was_sent.

(** ... but "the planner's goal is one that was sent, its position one that the vehicle reported" is false: the goal (0, 0, 5) is replaced by (100, 100, 5), the
    planner gets (100, 0, 5). *)
Open Scope Z_scope.
Definition goal_a (i : nat) : Z := match i with O => 0 | 1%nat => 0 | _ => 5 end.
Definition goal_b (i : nat) : Z := match i with O => 100 | 1%nat => 100 | _ => 5 end.
Ltac next R t := let R' := fresh "R" in
  match type of R with torn_reachable ?w ?e ?v ?s =>
    epose proof (TornMore w e v s _ R ltac:(eapply t; first [reflexivity|lia|discriminate|intros; reflexivity])) as R' end; cbn [words storing copying stored copies] in R'; clear R; rename R' into R.
Lemma lt03 : (0 < 3)%nat. Proof. lia. Qed.
Lemma lt13 : (1 < 3)%nat. Proof. lia. Qed.
Lemma lt23 : (2 < 3)%nat. Proof. lia. Qed.
Theorem C115_unprotected_goal_is_torn_refuted :
  exists (s : torn Z) (c : nat -> Z), torn_reachable 3 false goal_a s /\ stored s = [goal_b; goal_a] /\ In c (copies s) /\
    c 0%nat = 100 /\ c 1%nat = 0 /\ c 2%nat = 5 /\ ~ exists m, In m (stored s) /\ forall i, (i < 3)%nat -> c i = m i.
Proof.
  pose proof (TornInit 3 false goal_a) as R.
  next R (fun s => StoreBegins 3 false s goal_b). next R (@StoreWord Z).
  next R (fun s => CopyBegins 3 false s goal_a). next R (@CopyWord Z). next R (@CopyWord Z).
  next R (@CopyWord Z). next R (@CopyEnds Z).
  eexists _, _. split; [exact R|]. split; [reflexivity|]. split; [left; reflexivity|]. split; [reflexivity|split; [reflexivity|split; [reflexivity|]]].
  intros (m & I & E). cbn in I. destruct I as [<-|[<-|[]]]; [specialize (E 1%nat lt13)|specialize (E 0%nat lt03)]; discriminate E.
Qed.
Print Assumptions C115_unprotected_goal_is_torn_refuted.

(** Non-vacuity: under a mutex the new goal is copied. *)
Example C115_copied : exists (s : torn Z), torn_reachable 1 true (fun _ => 0) s /\ exists c, In c (copies s) /\ c 0%nat = 7.
Proof.
  pose proof (TornInit 1 true (fun _ => 0)) as R.
  next R (fun s => StoreBegins 1 true s (fun _ => 7)). next R (@StoreWord Z). next R (@StoreEnds Z).
  next R (fun s => CopyBegins 1 true s (fun _ => 0)). next R (@CopyWord Z). next R (@CopyEnds Z).
  eexists. split; [exact R|]. eexists. split; [left; reflexivity|reflexivity].
Qed.
