(** Specification for C112: angles of points of ellipses, and arcs, in double precision. *)

From Coq Require Import Reals Floats.
From Verif Require Import NumModel VecModel LinModel RoundModel GeoSpec DblSpec LinDblSpec RndDblSpec PtDblSpec.
Local Open Scope R_scope.

(** What is assumed of std::atan: an error of about one unit in the last place (the C library documents a smaller one). *)
Definition accurate_atan (T : Trig float) : Prop :=
  forall x, number x -> number (natan x) /\ Rabs (val (natan x) - atan (val x)) <= powerRZ 2 (-52).
(** the point of the ellipse with the angle phi, as a point of the real space *)
Definition true_point (e : ell float) (phi : R) : pt :=
  frame_point (val3 (e_c e)) (val3 (e_maj e)) (val3 (e_min e)) (val3 (e_n e)) (val (e_a e) * cos phi) (val (e_b e) * sin phi) 0.
(** an ellipse with the half axes m at least, which is not below 2^-18 M, and axes that are orthogonal up to 2^-47 *)
Definition round_ellipse (m M : R) (e : ell float) : Prop :=
  ellipse_upto M e /\ frame (powerRZ 2 (-47)) (e_maj e) (e_min e) (e_n e) /\
  powerRZ 2 (-18) * M <= m /\ m <= val (e_a e) /\ m <= val (e_b e).
(** the angle phi is not close to a multiple of a right angle *)
Definition off (d phi : R) : Prop := d <= Rabs (cos phi) /\ d <= Rabs (sin phi).
(** two angles that differ by a multiple of the full angle *)
Definition same_angle (phi psi : R) : Prop := cos phi = cos psi /\ sin phi = sin psi.
(** the angle phi is between s and t in the positive sense of rotation, or at most w beyond *)
Definition between (w s t phi : R) : Prop :=
  if Rlt_dec t s then s - w <= phi \/ phi <= t + w else s - w <= phi <= t + w.
(** what the functions of the C library return (glibc 2.39), for c112_source_refuted *)
Definition library_values (T : Trig float) : Prop :=
  natan 0x1.ad7f29ac00026p-24%float = 0x1.ad7f29ac0000dp-24%float /\ natan 0x1.0000000040800p-20%float = 0x1.00000000402abp-20%float /\
  ncos 0x1.ad7f29ac0000dp-24%float = 0x1.fffffffffffd3p-1%float /\ nsin 0x1.ad7f29ac0000dp-24%float = 0x1.ad7f29ac00000p-24%float.
