(** Specification vocabulary for the avoidance library properties. *)
From Coq Require Import ZArith Reals List Bool.
From Verif Require Import Num CommonModel.
Import ListNotations.
Local Open Scope R_scope.

(** Mathematical two-argument arc tangent: the angle in (-pi, pi] of the vector (x, y). *)
Definition Ratan2 (y x : R) : R :=
  if Rlt_dec 0 x then atan (y / x)
  else if Rlt_dec x 0 then (if Rle_dec 0 y then atan (y / x) + PI else atan (y / x) - PI)
  else if Rlt_dec 0 y then PI / 2 else if Rlt_dec y 0 then - (PI / 2) else 0.
Definition Rtrig : trig Rn :=
  {| t_sin := (sin : Rn -> Rn); t_cos := (cos : Rn -> Rn); t_atan2 := (Ratan2 : Rn -> Rn -> Rn);
     t_asin := (asin : Rn -> Rn) |}.

(** a and b denote the same heading (in units where a full turn is [turn]) *)
Definition same_heading (turn a b : R) : Prop := exists k : Z, a = b + turn * IZR k.

(** Cartesian unit direction denoted by elevation/azimuth in degrees in the histogram convention:
    azimuth 0 = +y, clockwise; elevation up. *)
Definition hist_direction (e z : R) : R * R * R :=
  (cos (e * PI / 180) * sin (z * PI / 180), cos (e * PI / 180) * cos (z * PI / 180), sin (e * PI / 180)).

(** circular distance of two headings in degrees: the least |a - b + 360 k| *)
Definition is_circular_distance (a b d : R) : Prop :=
  (exists k : Z, d = Rabs (a - b + 360 * IZR k)) /\ (forall k : Z, d <= Rabs (a - b + 360 * IZR k)).

(** static_cast<int> of a float whose truncation is representable *)
From Flocq Require Import BinarySingleNaN.
Definition f32_cast (x : f32) : Z := Btrunc x.

(** [o] is an element of [l] that satisfies [within] and that no element of [l] beats; it is absent
    only if no element satisfies [within]. *)
Definition extreme_of {A} (beats : A -> A -> bool) (within : A -> bool) (l : list A) (o : option A) : Prop :=
  match o with
  | None => forall p, In p l -> within p = false
  | Some q => In q l /\ within q = true /\ forall p, In p l -> beats p q = false
  end.
Definition opt_list {A} (o : option A) : list A := match o with Some x => [x] | None => [] end.

