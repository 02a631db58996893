(** Specification for C98 and C99: the values of doubles as real numbers (Flocq), and intervals,
    boxes and points with such coordinates. *)

From Coq Require Import Reals Floats.
From Flocq Require Import IEEE754.BinarySingleNaN IEEE754.PrimFloat.
From Verif Require Import NumModel VecModel LinModel.
Local Open Scope R_scope.

(** The value of a double; infinities and NaN have no value (0 by convention, always excluded by
    [number]). *)
Definition val (x : float) : R := B2R (Prim2B x).
Definition number (x : float) : Prop := is_finite (Prim2B x) = true.

Definition val3 (p : V3 float) : V3 R := mkV3 (val (vx p)) (val (vy p)) (val (vz p)).
Definition number3 (p : V3 float) : Prop := number (vx p) /\ number (vy p) /\ number (vz p).
Definition box_number (b : box float) : Prop := number3 (b_min b) /\ number3 (b_max b).
Definition val_box (b : box float) : box R := mkBox (val3 (b_min b)) (val3 (b_max b)).

(** Coordinates up to M. *)
Definition within3 (M : R) (p : V3 float) : Prop :=
  Rabs (val (vx p)) <= M /\ Rabs (val (vy p)) <= M /\ Rabs (val (vz p)) <= M.
Definition within_box (M : R) (b : box float) : Prop := within3 M (b_min b) /\ within3 M (b_max b).
(** The box has a side of length D. *)
Definition has_side (b : box float) (D : R) : Prop :=
  D = val (vx (b_max b)) - val (vx (b_min b)) \/
  D = val (vy (b_max b)) - val (vy (b_min b)) \/
  D = val (vz (b_max b)) - val (vz (b_min b)).

(** Two coordinates are equal or differ by 2^-500 at least. *)
Definition gap (x y : float) : Prop := val y - val x = 0 \/ powerRZ 2 (-500) <= Rabs (val y - val x).
Definition gap3 (p q : V3 float) : Prop := gap (vx p) (vx q) /\ gap (vy p) (vy q) /\ gap (vz p) (vz q).
(** A coordinate is zero or 2^-500 at least. *)
Definition sizable (x : float) : Prop := val x = 0 \/ powerRZ 2 (-500) <= Rabs (val x).
Definition sizable3 (v : V3 float) : Prop := sizable (vx v) /\ sizable (vy v) /\ sizable (vz v).
(** x is y up to the relative error e. *)
Definition close (e x y : R) : Prop := Rabs (x - y) <= e * Rabs y.

(** The tolerance e is a positive number and not lost in the coordinate x: at least 2^-52 of it. *)
Definition reach (x e : float) : Prop :=
  number x /\ number e /\ Rabs (val x) <= powerRZ 2 1022 /\ 0 < val e <= powerRZ 2 1022 /\
  Rabs (val x) * powerRZ 2 (-52) <= val e.
