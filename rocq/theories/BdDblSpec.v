(** Specification for C109: boundaries of quadrilaterals and polygons, and lengths, in double precision. *)

From Coq Require Import ZArith Reals Floats List.
From Verif Require Import Base ConstraintsModel NumModel VecModel LinModel RoundModel PolyModel DistModel IntModel AngModel EvalModel
  GeoSpec PolySpec DistSpec DblSpec LinDblSpec.
Import ListNotations.
Local Open Scope R_scope.

(** the corners of a quadrilateral or polygon, in turn *)
Definition cornered (f : face float) (cs : list (V3 float)) : Prop :=
  match f with
  | FQuad q => cs = [q_2 q; q_0 q; q_1 q; q_3 q]
  | FPoly pg => make_poly cs = Ok pg
  | FDisk _ => False
  end.
(** an edge that is not short compared to its coordinates *)
Definition side (M : R) (a b : V3 float) : Prop :=
  point_upto M a /\ point_upto M b /\ gap3 a b /\
  let L := norm (psub (val3 b) (val3 a)) in powerRZ 2 (-300) <= L /\ powerRZ 2 (-42) * M <= L / 10000000.
Definition outline (M : R) (cs : list (V3 float)) : Prop :=
  forall a b, In a cs -> In b cs -> In (val3 a, val3 b) (edges (map val3 cs)) -> side M a b.

(** the boundary is at least r away from p; it is closer than r *)
Definition clear_of (cs : list (V3 float)) (r : R) (p : V3 float) : Prop :=
  forall y, boundary (map val3 cs) y -> r <= dist (val3 p) y.
Definition near_to (cs : list (V3 float)) (r : R) (p : V3 float) : Prop :=
  exists y, boundary (map val3 cs) y /\ dist (val3 p) y < r.

(** constraints that bound only the distance to the boundaries, only the length, by m, with the tolerance e for intersections *)
Definition boundary_only (e m : float) : constraints float := crun n0 [SetEps e; SetMinIsDistance m].
Definition length_only (e m : float) : constraints float := crun n0 [SetEps e; SetMinMagnitude m].
(** the ends of a point or a segment of the intersection of two faces *)
Definition ends {X Y Z W V : Type} (i : piece (V3 float) X Y Z W V) : list (V3 float) :=
  match i with PPoint p => [p] | PSegment s t => [s; t] | _ => [] end.
