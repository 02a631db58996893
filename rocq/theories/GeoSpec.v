(** Specification vocabulary for the geometry: plain analytic geometry over the reals, written
    without reference to the functions of the model (only the coordinate record is shared). *)

From Coq Require Import Reals List.
From Verif Require Import NumModel VecModel.
Local Open Scope R_scope.

Notation pt := (V3 R).

Definition dot (u v : pt) : R := vx u * vx v + vy u * vy v + vz u * vz v.
Definition norm (u : pt) : R := sqrt (dot u u).
Definition psub (p q : pt) : pt := mkV3 (vx p - vx q) (vy p - vy q) (vz p - vz q).
Definition padd (p q : pt) : pt := mkV3 (vx p + vx q) (vy p + vy q) (vz p + vz q).
Definition pscale (c : R) (p : pt) : pt := mkV3 (c * vx p) (c * vy p) (c * vz p).
Definition dist (p q : pt) : R := norm (psub p q).
Definition zero3 : pt := mkV3 0 0 0.

(** determinant of the matrix with columns u, v, w (rule of Sarrus) *)
Definition det3 (u v w : pt) : R :=
  vx u * vy v * vz w + vx v * vy w * vz u + vx w * vy u * vz v
  - vz u * vy v * vx w - vz v * vy w * vx u - vz w * vy u * vx v.

Definition unit3 (u : pt) : Prop := dot u u = 1.
Definition ortho (u v : pt) : Prop := dot u v = 0.

(** the line through p with direction d, the segment from p to q, the plane through p with
    normal n *)
Definition on_line (p d x : pt) : Prop := exists t, x = padd p (pscale t d).
Definition on_segment (p q x : pt) : Prop :=
  exists t, 0 <= t <= 1 /\ x = padd (pscale (1 - t) p) (pscale t q).
Definition on_plane (p n x : pt) : Prop := dot n (psub x p) = 0.

(** d is the distance of x from the set S (attained) *)
Definition dist_to (S : pt -> Prop) (x : pt) (d : R) : Prop :=
  (exists y, S y /\ dist x y = d) /\ forall y, S y -> d <= dist x y.
(** y is a point of S closest to x *)
Definition closest (S : pt -> Prop) (x y : pt) : Prop :=
  S y /\ forall z, S z -> dist x y <= dist x z.

(** closed intervals *)
Definition in_interval (i : R * R) (x : R) : Prop := fst i <= x <= snd i.
