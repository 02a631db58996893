(** Specification for C105: areas in double precision. *)

From Coq Require Import Reals Floats List.
From Verif Require Import NumModel VecModel GeoSpec PolySpec DblSpec.
Import ListNotations.
Local Open Scope R_scope.

(** points with finite coordinates that differ by at most S *)
Definition spread (S : R) (ps : list (V3 float)) : Prop :=
  (forall p, In p ps -> number3 p) /\
  (forall p q, In p ps -> In q ps -> Rabs (val (vx p) - val (vx q)) <= S /\ Rabs (val (vy p) - val (vy q)) <= S /\ Rabs (val (vz p) - val (vz q)) <= S).
(** a size that is not extremely small or large *)
Definition medium (S : R) : Prop := powerRZ 2 (-200) <= S <= powerRZ 2 200.

(** the area of a triangle: half the length of the vector product of two sides *)
Definition xprod (u v : pt) : pt :=
  mkV3 (vy u * vz v - vz u * vy v) (vz u * vx v - vx u * vz v) (vx u * vy v - vy u * vx v).
Definition triangle_area (a b c : pt) : R := norm (xprod (psub b a) (psub c a)) / 2.
(** the areas of the triangles between p and the edges *)
Definition area_seen (cs : list pt) (p : pt) : R := sum (map (fun ab => triangle_area (fst ab) (snd ab) p) (edges cs)).
(** the areas of the triangles between the first corner and the other edges *)
Definition area_fan (cs : list pt) : R :=
  match cs with [] => 0 | c0 :: r => sum (map (fun ab => triangle_area c0 (fst ab) (snd ab)) (chain r)) end.

(** the rounding error of the area of n triangles *)
Definition area_error (n S : R) : R := (2 * n * n + 40 * n) * powerRZ 2 (-53) * (S * S).

(** the answer b to whether the convex figure with the corners cs contains p: yes, if p is so close (h) to a point of
    the figure that the area changes by less than the square of the tolerance e; no, if p lies beyond the edges by
    more than that *)
Definition finds (b : bool) (S : R) (N : pt) (cs : list pt) (p : pt) (e : R) : Prop :=
  let n := INR (length cs) in
  (forall x h, hull cs x -> dist p x <= h -> n * S * h + area_error n S <= (1 - powerRZ 2 (-50)) * (e * e) -> b = true) /\
  ((1 + powerRZ 2 (-50)) * (e * e) + area_error n S <= overhang N cs p -> b = false).
