(** Specification for C103. *)

From Coq Require Import Reals Floats.
From Verif Require Import NumModel VecModel LinModel RoundModel GeoSpec LinSpec DblSpec.
Local Open Scope R_scope.

(** a random number from [0, 1) *)
Definition canonical (u : float) : Prop := number u /\ 0 <= val u < 1.
(** the ends of the box are ordered *)
Definition ordered (b : box float) : Prop :=
  val (vx (b_min b)) <= val (vx (b_max b)) /\ val (vy (b_min b)) <= val (vy (b_max b)) /\ val (vz (b_min b)) <= val (vz (b_max b)).
(** the point p is in the cylinder of radius r about the segment from a to b, at least m below its
    surface *)
Definition below_surface (m : R) (a b : pt) (r : R) (p : pt) : Prop :=
  exists y, on_segment a b y /\ dot (psub p y) (psub b a) = 0 /\ dist p y <= r - m.
