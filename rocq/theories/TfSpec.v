(** Specification vocabulary for the transform buffer. *)
From Coq Require Import ZArith List Bool String.
From Verif Require Import Num TfModel.
Import ListNotations.
Local Open Scope Z_scope.

Section S.
Variable X : Type.

(** transforms offered for the frame pair (s,t), in order of arrival *)
Definition offered (s t : string) (l : list (ins X)) : list (stf X) :=
  map snd (filter (fun i => String.eqb (getKey (fst (fst i)) (snd (fst i))) (getKey s t)) l).

(** those that were newer than everything offered before *)
Fixpoint records_from (newest : option Z) (l : list (stf X)) : list (stf X) :=
  match l with
  | [] => []
  | x :: l' =>
      if (match newest with None => true | Some n => n <? st_time x end)
      then x :: records_from (Some (st_time x)) l'
      else records_from newest l'
  end.
Definition records := records_from None.

(** the newest time stamp of a list *)
Definition newest (l : list (stf X)) : option Z :=
  fold_left (fun a x => match a with None => Some (st_time x) | Some n => Some (Z.max n (st_time x)) end) l None.

(** elements not older than [size] with respect to the newest one *)
Definition recent (size : Z) (l : list (stf X)) : list (stf X) :=
  filter (fun x => match newest l with Some n => n - st_time x <=? size | None => true end) l.

Fixpoint increasing (l : list (stf X)) : Prop :=
  match l with
  | [] => True
  | x :: l' => (forall y, In y l' -> st_time x < st_time y) /\ increasing l'
  end.

(** what the buffer holds for a frame pair (nothing if the pair is unknown) *)
Definition stored (b : tfbuf X) (s t : string) : list (stf X) :=
  match tb_map b (getKey s t) with Some q => q | None => [] end.
End S.
Arguments offered {X}. Arguments records {X}. Arguments records_from {X}. Arguments newest {X}.
Arguments recent {X}. Arguments increasing {X}. Arguments stored {X}.
