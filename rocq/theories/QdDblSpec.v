(** Specification for C118: the quadrilateral for a strike, a dip and lengths. *)

From Coq Require Import ZArith Reals Floats.
From Verif Require Import NumModel VecModel LinModel RoundModel PolyModel GeoSpec SampSpec DblSpec.
Local Open Scope R_scope.

(** a length up to M *)
Definition length_upto (M : R) (x : float) : Prop := number x /\ Rabs (val x) <= M.
(** The corners of q are those of the quadrilateral in the plane with strike s and dip d through c, up to r: the first and the
    third one are half of x1 from c against the direction of the dip, the second and the fourth one half of x2 along it; the
    first and the third one are y1 apart in the direction of the strike, the second and the fourth one y2. *)
Definition corners_near (r : R) (s d : R) (c : pt) (x1 x2 y1 y2 : R) (q : quad float) : Prop :=
  dist (val3 (q_0 q)) (padd c (in_plane s d (- (x1 / 2)) (- (y1 / 2)))) <= r /\
  dist (val3 (q_1 q)) (padd c (in_plane s d (x2 / 2) (- (y2 / 2)))) <= r /\
  dist (val3 (q_2 q)) (padd c (in_plane s d (- (x1 / 2)) (y1 / 2))) <= r /\
  dist (val3 (q_3 q)) (padd c (in_plane s d (x2 / 2) (y2 / 2))) <= r.
