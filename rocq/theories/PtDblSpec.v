(** Specification for C108: frames, points of circles and ellipses and sampled points in double precision. *)

From Coq Require Import Reals Floats.
From Verif Require Import NumModel VecModel LinModel RoundModel GeoSpec DblSpec LinDblSpec RndDblSpec.
Local Open Scope R_scope.

(** the point with the coordinates x, y and z in the frame u, v, w at c *)
Definition frame_point (c u v w : pt) (x y z : R) : pt := padd c (padd (pscale x u) (padd (pscale y v) (pscale z w))).
(** an ellipse, circle or disk with the centre and the two half axes up to M *)
Definition ellipse_upto (M : R) (e : ell float) : Prop :=
  point_upto M (e_c e) /\ direction (e_maj e) /\ direction (e_min e) /\ direction (e_n e) /\ radius_upto M (e_a e) /\ radius_upto M (e_b e).
(** u, v and w are directions that are orthogonal to each other up to d *)
Definition frame (d : R) (u v w : V3 float) : Prop :=
  direction u /\ direction v /\ direction w /\
  Rabs (dot (val3 u) (val3 v)) <= d /\ Rabs (dot (val3 u) (val3 w)) <= d /\ Rabs (dot (val3 v) (val3 w)) <= d.
(** a coordinate is zero or 2^-100 at least *)
Definition plain (x : float) : Prop := val x = 0 \/ powerRZ 2 (-100) <= Rabs (val x).
Definition plain3 (v : V3 float) : Prop := plain (vx v) /\ plain (vy v) /\ plain (vz v).
(** p is at most r beyond the circular cylinder with the axis from c in the direction n, the radius a and the height h:
    w is its offset from the axis, t its height *)
Definition near_cylinder (r : R) (c n : pt) (a h : R) (p : pt) : Prop :=
  exists t w, p = padd c (padd (pscale t n) w) /\ dot w n = 0 /\ - r <= t <= h + r /\ norm w <= a + r.
(** the angle at the fraction x of the way from the angle s to the angle t, in the positive sense of rotation *)
Definition arc_angle (s t x : R) : R := s + (if Rlt_dec s t then t - s else 2 * PI - s + t) * x.
