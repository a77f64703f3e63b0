(** Model of avoidance/include/avoidance/histogram.h and avoidance/src/histogram.cpp. *)
From Coq Require Import ZArith List Bool.
From Verif Require Import Num Mat CommonModel.
Import ListNotations.
Local Open Scope Z_scope.

Section Hist.
Variable N : num.

(** histogram.h:18-22 *)
Record hist := Hist { h_res : Z; h_zdim : Z; h_edim : Z; h_dist : mat N }.

(** Outcome of an operation that may throw std::logic_error. [UB] never occurs silently: it is [None]. *)
Inductive outcome (A : Type) := Ok (a : A) | Throw.
Arguments Ok {A} _.
Arguments Throw {A}.

(** histogram.cpp:50 *)
Definition h_setZero (h : hist) : hist := Hist (h_res h) (h_zdim h) (h_edim h) (mfill (h_dist h) (ofZ N 0)).
(** histogram.cpp:5-8. The constructor divides by [res] (UB for 0) and Eigen rejects negative sizes. *)
Definition h_new (res : Z) : option hist :=
  if res =? 0 then None
  else let z := Z.quot 360 res in let e := Z.quot 180 res in
       if (z <? 0) || (e <? 0) then None
       else Some (h_setZero (Hist res z e (Mat e z (fun _ _ => ofZ N 0)))).

(** histogram.cpp:10-28. [floor(i / 2)] with ints is truncating division. *)
Definition h_upsample (h : hist) : option (outcome hist) :=
  if negb (h_res h =? ALPHA_RES * 2) then Some Throw
  else let e := 2 * h_edim h in let z := 2 * h_zdim h in
       match mbuild (ofZ N 0) e z (fun i j => mget (h_dist h) (Z.quot i 2) (Z.quot j 2)) with
       | Some m => Some (Ok (Hist (Z.quot (h_res h) 2) z e m))
       | None => None
       end.

(** histogram.cpp:44: mean of a 2x2 block; Eigen adds the coefficients of a (column-major) block
    column by column and divides by their number. *)
Definition block_mean (m : mat N) (i j : Z) : option N :=
  match mget m i j, mget m (i + 1) j, mget m i (j + 1), mget m (i + 1) (j + 1) with
  | Some a, Some b, Some c, Some d => Some (div N (add N (add N (add N a b) c) d) (ofZ N 4))
  | _, _, _, _ => None
  end.
(** histogram.cpp:30-48 *)
Definition h_downsample (h : hist) : option (outcome hist) :=
  if negb (h_res h =? ALPHA_RES) then Some Throw
  else let e := Z.quot (h_edim h) 2 in let z := Z.quot (h_zdim h) 2 in
       match mbuild (ofZ N 0) e z (fun i j => block_mean (h_dist h) (2 * i) (2 * j)) with
       | Some m => Some (Ok (Hist (2 * h_res h) z e m))
       | None => None
       end.

(** histogram.h:29-34. [%] is the C remainder; a zero dimension is UB. *)
Definition wrapIndex (h : hist) (x y : Z) : option (Z * Z) :=
  if (h_edim h =? 0) || (h_zdim h =? 0) then None
  else let x1 := Z.rem x (h_edim h) in let x2 := if x1 <? 0 then x1 + h_edim h else x1 in
       let y1 := Z.rem y (h_zdim h) in let y2 := if y1 <? 0 then y1 + h_zdim h else y1 in
       Some (x2, y2).
(** histogram.h:46-49 *)
Definition h_get (h : hist) (x y : Z) : option N :=
  match wrapIndex h x y with Some (x', y') => mget (h_dist h) x' y' | None => None end.
(** histogram.h:58: no wrapping on writes *)
Definition h_set (h : hist) (x y : Z) (v : N) : option hist :=
  match mset (h_dist h) x y v with
  | Some m => Some (Hist (h_res h) (h_zdim h) (h_edim h) m)
  | None => None
  end.

(** histogram.cpp:52-62: both loops stop as soon as the counter is non-zero *)
Definition h_isEmpty (h : hist) : option bool :=
  match foldM (fun (c : Z) e =>
     if c =? 0 then
       foldM (fun (c : Z) z =>
         if c =? 0 then match mget (h_dist h) e z with
                        | Some d => Some (if ltb N (flt_min N) d then c + 1 else c)
                        | None => None end
         else Some c) c (zrange (h_zdim h))
     else Some c) 0 (zrange (h_edim h)) with
  | Some c => Some (c =? 0)
  | None => None
  end.

(** Operations of the public interface, for histories. *)
Inductive hop := HSet (x y : Z) (v : N) | HZero | HUp | HDown.
Definition h_step (h : hist) (o : hop) : option (outcome hist) :=
  match o with
  | HSet x y v => match h_set h x y v with Some h' => Some (Ok h') | None => None end
  | HZero => Some (Ok (h_setZero h))
  | HUp => h_upsample h
  | HDown => h_downsample h
  end.
(** a thrown exception leaves the object as it was (the check is the first statement) *)
Fixpoint h_run (h : hist) (os : list hop) : option hist :=
  match os with
  | [] => Some h
  | o :: os' => match h_step h o with
                | Some (Ok h') => h_run h' os'
                | Some Throw => h_run h os'
                | None => None
                end
  end.
End Hist.
Arguments Ok {A} _.
Arguments Throw {A}.
Arguments Hist {N} _ _ _ _.
Arguments h_res {N} _.
Arguments h_zdim {N} _.
Arguments h_edim {N} _.
Arguments h_dist {N} _.
Arguments HSet {N} _ _ _.
Arguments HZero {N}.
Arguments HUp {N}.
Arguments HDown {N}.
