(** Specification for C117: the hollow cylinder that points are sampled in. *)

From Coq Require Import Reals.
From Verif Require Import GeoSpec.
Local Open Scope R_scope.

(** p is in the hollow cylinder with bottom centre c, axis direction n, inner radius a, outer radius b and height h, up to the distance r along the axis and across it *)
Definition near_ring (r : R) (c n : pt) (a b h : R) (p : pt) : Prop :=
  exists t w, p = padd c (padd (pscale t n) w) /\ dot w n = 0 /\ - r <= t <= h + r /\ a - r <= norm w <= b + r.
