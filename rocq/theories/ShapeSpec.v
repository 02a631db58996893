(** Specification of the shapes: the sets of points they stand for. *)

From Coq Require Import Reals List.
From Verif Require Import Base NumModel VecModel LinModel RoundModel PolyModel ShapeModel GeoSpec LinSpec RoundSpec PolySpec.
Import ListNotations.
Local Open Scope R_scope.

(** the point of an ellipse at the parameter u *)
Definition conic_at (c : conic R) (u : R) : pt :=
  at_coords (fr_o (co_f c)) (fr_x (co_f c)) (fr_y (co_f c)) (co_a c * cos u) (co_b c * sin u).

(** the set of points of a shape; a face with straight edges is assumed to be convex *)
Definition shape_pts (s : shape R) (x : pt) : Prop :=
  match s with
  | ShVertex p => x = p
  | ShLine p q => on_segment p q x
  | ShCurve c u0 u1 => exists u, u0 <= u <= u1 /\ x = conic_at c u
  | ShDisk c => exists k u, 0 <= k <= 1 /\
      x = at_coords (fr_o (co_f c)) (fr_x (co_f c)) (fr_y (co_f c)) (k * (co_a c * cos u)) (k * (co_b c * sin u))
  | ShFace w => hull (map fst w) x
  | ShLateral f r h => lateral_cyl (fr_o f) (fr_z f) r h x
  | ShCylinder f r h => solid_cyl (fr_o f) (fr_z f) r h x
  | ShBox p q => in_box (mkBox p q) x
  | ShBall c r => ball c r x
  end.

(** the conversion succeeds, and the shape has exactly the points of S *)
Definition represents (s : outcome (shape R)) (S : pt -> Prop) : Prop :=
  exists sh, s = Ok sh /\ forall x, shape_pts sh x <-> S x.

(** the edges form a closed chain: each edge starts where the previous one ends *)
Definition closed_chain (w : list (pt * pt)) : Prop :=
  w <> [] /\ forall l1 e e' l2, w ++ firstn 1 w = l1 ++ e :: e' :: l2 -> snd e = fst e'.

(** OpenCascade finds the plane of the edges between points in one plane *)
Definition plane_found (fp : list (pt * pt) -> bool) : Prop :=
  forall N cs, convex_ccw N cs -> forall w, (forall e, In e w -> In (fst e) cs /\ In (snd e) cs) -> fp w = true.

(** the points of an arc: from the angle s in the positive sense of rotation up to the angle t *)
Definition on_arc (e : ell R) (s t : R) (x : pt) : Prop :=
  exists phi, 0 <= phi < 2 * PI /\ between s t phi /\ x = ell_at e phi.
