(** Specification for C119: how accurate logarithms are, and how far numbers are from the mean. *)

From Coq Require Import ZArith Reals Floats.
From Verif Require Import NumModel DblSpec RngSpec.
Local Open Scope R_scope.

(** logarithms of numbers from (0, 1], up to 2^-50 of their values *)
Definition accurate_log (log : float -> float) : Prop :=
  forall r, number r -> 0 < val r <= 1 -> number (log r) /\ Rabs (val (log r) - ln (val r)) <= powerRZ 2 (-50) * Rabs (ln (val r)).
(** v is a number, and at most 12.2 standard deviations from the mean, but for roundings *)
Definition near_mean (M : R) (mean stddev v : float) : Prop :=
  number v /\ Rabs (val v - val mean) <= 122 / 10 * Rabs (val stddev) + powerRZ 2 (-48) * M.
(** v is the number of a standard normal distribution for the coordinate c of a point whose distance from the centre has the
    square S: v^2 = - 2 (c^2 / S) ln S, and v has the sign of c (method of Marsaglia and Bray) *)
Definition polar_number (S c v : R) : Prop := Rabs (v * v * S - c * c * (-2 * ln S)) <= powerRZ 2 (-41) * S /\ 0 <= c * v.
(** X and Y are the coordinates of the point of the square [-1, 1]^2 that four values of the engine stand for *)
Definition square_of (x1 x2 x3 x4 : Z) (X Y : R) : Prop :=
  Rabs (X - (2 * digits x1 x2 - 1)) <= powerRZ 2 (-48) /\ Rabs (Y - (2 * digits x3 x4 - 1)) <= powerRZ 2 (-48).
(** the point is out of the disk, or its centre *)
Definition out_of_disk (X Y : R) : Prop := X * X + Y * Y = 0 \/ 1 - powerRZ 2 (-51) <= X * X + Y * Y.
