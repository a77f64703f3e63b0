(** Model of avoidance/include/avoidance/usm.h. *)
From Coq Require Import List Bool.
Import ListNotations.

(** usm.h:40 *)
Inductive transition := REPEAT | NEXT1 | NEXT2 | NEXT3 | NEXT4 | ERROR.
Definition transition_eqb (a b : transition) : bool :=
  match a, b with
  | REPEAT, REPEAT | NEXT1, NEXT1 | NEXT2, NEXT2 | NEXT3, NEXT3 | NEXT4, NEXT4 | ERROR, ERROR => true
  | _, _ => false
  end.

Section Usm.
Variable S : Type.                             (* StateEnum *)
Variable C : Type.                             (* everything else the derived class owns *)
Variable S_eqb : S -> S -> bool.
Variable runCurrentState : S -> C -> transition * C.     (* usm.h:51, virtual *)

(** usm.h:78-94: a switch over states of switches over transitions; falling out returns [error].
    (C++ rejects duplicate case labels, so the first match is the only one.) *)
Definition usm_table := list (S * list (transition * S)).
Fixpoint usm_map (t : transition) (m : list (transition * S)) : option S :=
  match m with
  | [] => None
  | (t', s') :: m' => if transition_eqb t' t then Some s' else usm_map t m'
  end.
Fixpoint chooseNextState (tab : usm_table) (error : S) (s : S) (t : transition) : S :=
  match tab with
  | [] => error
  | (s0, m) :: tab' =>
      if S_eqb s0 s then match usm_map t m with Some s' => s' | None => error end
      else chooseNextState tab' error s t
  end.

(** usm.h:64-67 *)
Definition iterateOnce (choose : S -> transition -> S) (s : S) (c : C) : S * C :=
  let (t, c') := runCurrentState s c in
  (match t with REPEAT => s | _ => choose s t end, c').

(** n calls of iterateOnce *)
Fixpoint iterate (choose : S -> transition -> S) (n : nat) (s : S) (c : C) : S * C :=
  match n with
  | O => (s, c)
  | Datatypes.S n' => let (s', c') := iterateOnce choose s c in iterate choose n' s' c'
  end.
End Usm.
