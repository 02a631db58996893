(** Specification for C106: cylinders and spheres in double precision. *)

From Coq Require Import Reals Floats.
From Verif Require Import NumModel VecModel GeoSpec DblSpec LinDblSpec.
Local Open Scope R_scope.

(** y is the foot of the perpendicular from p to the line through s and t *)
Definition foot (s t p y : pt) : Prop := on_line s (psub t s) y /\ dot (psub p y) (psub t s) = 0.
(** a radius up to M *)
Definition radius_upto (M : R) (r : float) : Prop := number r /\ 0 <= val r <= M.
(** a radius extended by a tolerance the way the library does it: the squares are added *)
Definition widened (r e : R) : R := R_sqrt.sqrt (r * r + e * e).
(** the answer b decides whether both D1 is below e1 and D2 is below e2, unless one of them differs by less than rho
    and a rounding error *)
Definition decides_both (b : bool) (D1 e1 D2 e2 rho : R) : Prop :=
  let lo := 1 - powerRZ 2 (-50) in let hi := 1 + powerRZ 2 (-50) in
  (D1 + rho <= lo * e1 -> D2 + rho <= lo * e2 -> b = true) /\
  (hi * e1 + rho <= D1 \/ hi * e2 + rho <= D2 -> b = false).
(** lengths that make a default tolerance *)
Definition lengths_upto (M : R) (r h : float) : Prop := radius_upto M r /\ radius_upto M h /\ powerRZ 2 (-300) <= val r + val h.
(** the default tolerance e is T, up to a rounding error *)
Definition default_is (e : float) (T : R) : Prop := tolerance e /\ Rabs (val e - T) <= powerRZ 2 (-50) * T.
(** p lies within the circular cylinder around the segment from a to b, at least m beyond the radius r *)
Definition beyond_wall (m : R) (a b : pt) (r : R) (p : pt) : Prop :=
  exists y, on_segment a b y /\ dot (psub p y) (psub b a) = 0 /\ r + m <= dist p y.
(** the two end points of an axis *)
Definition axis_upto (M : R) (s t : V3 float) : Prop := point_upto M s /\ point_upto M t /\ gap3 s t /\ val3 s <> val3 t.
