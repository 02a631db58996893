(** Specification of the Python functions: the sets described by the objects and their
    boundaries, lengths of arcs, numbers of Python. *)

From Coq Require Import ZArith Reals List String.
From Coquelicot Require Import Coquelicot.
From Verif Require Import Base NumModel VecModel LinModel RoundModel PolyModel PyBindModel
  GeoSpec LinSpec PolySpec RoundSpec DistSpec.
Import ListNotations.
Local Open Scope R_scope.

(** The points of a geometry and of its boundary.  The cases are those with a boundary;
    quadrilaterals and polygons are described by the hull of their corners, which is right for
    convex ones. *)
Definition points_of {S} (g : geo R S) (p : pt) : Prop :=
  match g with
  | GQuad q => hull (around (q_0 q) (q_1 q) (q_2 q) (q_3 q)) p
  | GPolygon pg => hull (po_cs pg) p
  | GBox b => in_box b p
  | GDisk d => in_disk 1 d p
  | GSurface c => cyl_lateral_set c p
  | _ => False
  end.
Definition boundary_of {S} (g : geo R S) (p : pt) : Prop :=
  match g with
  | GQuad q => boundary (around (q_0 q) (q_1 q) (q_2 q) (q_3 q)) p
  | GPolygon pg => boundary (po_cs pg) p
  | GBox b => on_bounding_face b p
  | GDisk d => on_ellipse d p
  | GSurface c => on_circle (e_c (c_bot c)) (e_n (c_bot c)) (e_a (c_bot c)) p \/
                  on_circle (e_c (c_top c)) (e_n (c_bot c)) (e_a (c_bot c)) p
  | _ => False
  end.

(** the length of the arc from the angle s to the angle t, in the positive sense of rotation *)
Definition arc_length (a b s t : R) : R :=
  if Rlt_dec s t then RInt (speed a b) s t else RInt (speed a b) s (t + 2 * PI).
(** the points of an arc *)
Definition on_arc (c : arc R) (p : pt) : Prop := exists phi, between (a_s c) (a_t c) phi /\ p = ell_at (a_ell c) phi.

(** the real number denoted by a number of Python *)
Definition number {S} (v : pyval R S) (x : R) : Prop :=
  v = PFloat x \/ exists z, v = PInt z /\ x = IZR z.

(** the coordinates of points and vectors *)
Definition coords_of {S} (g : geo R S) : option (list R) :=
  match g with
  | GPoint1 x | GVector1 x => Some [x]
  | GPoint2 x y | GVector2 x y => Some [x; y]
  | GPoint p | GVector p => Some [vx p; vy p; vz p]
  | _ => None
  end.
Definition a_point {S} (g : geo R S) : Prop :=
  match g with GPoint1 _ | GPoint2 _ _ | GPoint _ => True | _ => False end.
Definition a_vector {S} (g : geo R S) : Prop :=
  match g with GVector1 _ | GVector2 _ _ | GVector _ => True | _ => False end.

(** the geometries with a boundary, as made by the constructors *)
Definition bounded {S} (g : geo R S) : Prop :=
  match g with
  | GQuad _ | GPolygon _ => True
  | GBox b => box_ok b
  | GDisk d => ell_ok d
  | GSurface c => cyl_ok c
  | _ => False
  end.
(** OpenCascade has shapes for p and g and finds their distance *)
Definition occ_exact {S} (oc : @occ R S) (p : pt) (g : geo R S) (set : pt -> Prop) : Prop :=
  exists sp sg, oc_shape oc (GPoint p) = Ok sp /\ oc_shape oc g = Ok sg /\
    forall d, dist_to set p d -> oc_dist oc sp sg = Ok d.
(** the interior of a box *)
Definition strictly_inside (b : box R) (p : pt) : Prop :=
  vx (b_min b) < vx p < vx (b_max b) /\ vy (b_min b) < vy p < vy (b_max b) /\ vz (b_min b) < vz p < vz (b_max b).
