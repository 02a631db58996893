(** Specification for C104: points, directions and tolerances in double precision. *)

From Coq Require Import Reals Floats.
From Verif Require Import NumModel VecModel LinModel GeoSpec DblSpec.
Local Open Scope R_scope.

(** a bound for coordinates that is not extremely small or large *)
Definition moderate (M : R) : Prop := powerRZ 2 (-400) <= M <= powerRZ 2 400.
(** a point whose coordinates are numbers up to M *)
Definition point_upto (M : R) (p : V3 float) : Prop := number3 p /\ within3 M p.
(** a direction, as made by the library (C99): numbers, and of length 1 up to 2^-50 *)
Definition direction (d : V3 float) : Prop := number3 d /\ Rabs (norm (val3 d) - 1) <= powerRZ 2 (-50).
(** a tolerance *)
Definition tolerance (e : float) : Prop := number e /\ moderate (val e).
(** the answer b decides whether the distance D is below e, unless they differ by less than r and
    a rounding error of e *)
Definition decides (b : bool) (D e r : R) : Prop :=
  (D + r <= (1 - powerRZ 2 (-50)) * e -> b = true) /\ ((1 + powerRZ 2 (-50)) * e + r <= D -> b = false).
