(** Specification for C110: disks, ellipses and circles contain points in double precision. *)

From Coq Require Import Reals Floats.
From Verif Require Import NumModel VecModel LinModel RoundModel GeoSpec DblSpec LinDblSpec RndDblSpec PtDblSpec.
Local Open Scope R_scope.

(** seen along the normal, p is on the rim of the disk with the centre c, the axes u and v and the half axes a and b
    after that is scaled by k *)
Definition factor (c u v : pt) (a b : R) (p : pt) (k : R) : Prop :=
  0 <= k /\ k * k = (dot u (psub p c) / a) ^ 2 + (dot v (psub p c) / b) ^ 2.
Definition ell_factor (e : ell float) (p : V3 float) (k : R) : Prop :=
  factor (val3 (e_c e)) (val3 (e_maj e)) (val3 (e_min e)) (val (e_a e)) (val (e_b e)) (val3 p) k.
(** the half axes are m at least, which is not below 2^-40 M *)
Definition axes_from (m M : R) (e : ell float) : Prop :=
  powerRZ 2 (-40) * M <= m /\ m <= val (e_a e) /\ m <= val (e_b e).
(** the plane of an ellipse, circle or disk *)
Definition in_plane (e : ell float) : pt -> Prop := on_plane (val3 (e_c e)) (val3 (e_n e)).
