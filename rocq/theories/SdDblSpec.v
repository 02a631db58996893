(** Specification for C114: rotations and sampled disks in double precision. *)

From Coq Require Import Reals Floats.
From Verif Require Import NumModel VecModel SampModel GeoSpec SampSpec DblSpec LinDblSpec.
Local Open Scope R_scope.

(** the vector v turned by the angle t about the unit vector u (the formula of Rodrigues) *)
Definition turn (u : pt) (t : R) (v : pt) : pt :=
  padd (padd (pscale (cos t) v) (pscale (sin t) (mkV3 (vy u * vz v - vz u * vy v) (vz u * vx v - vx u * vz v) (vx u * vy v - vy u * vx v))))
       (pscale ((1 - cos t) * dot u v) u).
(** an angle for which the trigonometric functions are accurate *)
Definition usual_angle (t : float) : Prop := number t /\ Rabs (val t) <= powerRZ 2 20.
(** the axes of a disk turned by a about the first, by b about the second and by g about the third coordinate axis *)
Definition disk_major (b g : R) : pt := turn_z g (turn_y b (mkV3 1 0 0)).
Definition disk_minor (a b g : R) : pt := turn_z g (turn_y b (turn_x a (mkV3 0 1 0))).
(** v is the first of the values drawn that is positive *)
Definition first_positive (s : draws float) (v : float) : Prop :=
  exists i, s i = v /\ 0 < val v /\ forall j, (j < i)%nat -> val (s j) <= 0.
