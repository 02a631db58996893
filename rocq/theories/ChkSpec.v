(** Specification for C116: values drawn by a polygon sampler, and polygons in a plane. *)

From Coq Require Import ZArith Reals Floats List.
From Verif Require Import NumModel VecModel LinModel RoundModel SampModel GeoSpec RoundSpec SampSpec DblSpec LinDblSpec PolySpec SdDblSpec SpDblSpec.
Import ListNotations.
Local Open Scope R_scope.

(** the values drawn: angles that are not astronomic, lengths up to a fifth of M, and at most 999 corners, such that the
    number of corners times M is at most 400000 *)
Record drawn_lengths (M : R) (d : poly_draws float) : Prop := mkLengths
  { dl_strike : usual_angle (d_strike d); dl_dip : usual_angle (d_dip d);
    dl_unit : forall i, unitary (d_unit d i);
    dl_slen : forall i, number (d_slen d i) /\ Rabs (val (d_slen d i)) <= M / 5;
    dl_dlen : forall i, number (d_dlen d i) /\ Rabs (val (d_dlen d i)) <= M / 5;
    dl_num : forall i, (d_num d i <= 999)%Z /\ IZR (d_num d i) * M <= 400000 }.
(** the point is off the plane of the ellipse by less than eps, and in that plane its coordinates satisfy the equation of the
    ellipse up to eps *)
Definition near_ellipse (eps : R) (e : ell R) (p : pt) : Prop := exists x y z,
  p = padd (at_coords (e_c e) (e_maj e) (e_min e) x y) (pscale z (e_n e)) /\ Rabs z < eps /\ Rabs ((x / e_a e) ^ 2 + (y / e_b e) ^ 2 - 1) < eps.
