(** Intersection angles.  The paths below are relative to /repo/frackit/intersection/.

    Shapes of OpenCascade are represented by what the code asks of them: a surface by its
    derivatives and by the projection of points, a curve by its parameter range and values. *)

From Coq Require Import ZArith List Bool.
From Verif Require Import Base NumModel VecModel LinModel RoundModel PolyModel DistModel IntModel.
Import ListNotations.
Local Open Scope num_scope.

(** The surface of a TopoDS_Face: Geom_Surface::D1 (the two partial derivatives at the parameters
    u and v) and GeomAPI_ProjectPointOnSurf (LowerDistance, and the two LowerDistanceParameters) *)
Record surface (A : Type) := mkSurf
  { sf_d1 : A -> A -> V3 A * V3 A; sf_proj : V3 A -> A * (A * A) }.
Arguments mkSurf {A} _ _.
Arguments sf_d1 {A} _ _ _.
Arguments sf_proj {A} _ _.

(** The curve of a TopoDS_Edge: FirstParameter, LastParameter, Value *)
Record curve (A : Type) := mkCurve { cv_first : A; cv_last : A; cv_value : A -> V3 A }.
Arguments mkCurve {A} _ _ _.
Arguments cv_first {A} _.
Arguments cv_last {A} _.
Arguments cv_value {A} _ _.

(** The geometries and the pieces of intersections for which angles are defined *)
Inductive ageo (A : Type) :=
| GPlane (p : plane A)
| GFace (f : face A)
| GSurf (c : cyl A)
| GShape (s : surface A).
Arguments GPlane {A} _.
Arguments GFace {A} _.
Arguments GSurf {A} _.
Arguments GShape {A} _.

Inductive apiece (A : Type) :=
| PcEmpty
| PcPoint (p : V3 A)
| PcSeg (s : segment A)
| PcLine (l : line A)
| PcArc (a : arc A)
| PcEll (e : ell A)
| PcEdge (c : curve A)
| PcFace.
Arguments PcEmpty {A}.
Arguments PcPoint {A} _.
Arguments PcSeg {A} _.
Arguments PcLine {A} _.
Arguments PcArc {A} _.
Arguments PcEll {A} _.
Arguments PcEdge {A} _.
Arguments PcFace {A}.

Section Cos.
Context {A : Type} `{Num A}.

(** intersectionangle.hh:117: the argument of acos *)
Definition plane_cos (p1 p2 : plane A) : A := nabs (sprod (pl_n p1) (pl_n p2)).

End Cos.

Section Ang.
Context {A : Type} `{Num A} `{Trig A}.
(** std::numeric_limits<ctype>::max() *)
Variable top : A.

(** intersectionangle.hh:108-118: two planes *)
Definition plane_angle (p1 p2 : plane A) : A := nacos (plane_cos p1 p2).

(** intersectionangle.hh:240, 284-285, 421, 451: the sample parameters *)
Definition params5 : list A := [n0; nlit 1 4; nlit 1 2; nlit 3 4; n1].
Definition params9 : list A :=
  [n0; nlit 1 8; nlit 1 4; nlit 3 8; nlit 1 2; nlit 5 8; nlit 3 4; nlit 7 8; n1].

(** intersectionangle.hh:244-252, 287-295, 423-431, 453-461: the minimum over the samples *)
Definition min_over (f : A -> A) (params : list A) : A :=
  fold_left (fun m t => nmin m (f t)) params top.

(** intersectionangle.hh:170-309: a planar geometry and a cylinder surface *)
Definition face_surf_angle (pl : plane A) (c : cyl A) (i : apiece A) : outcome A :=
  let at_point p := plane_angle pl (surf_tangent c p) in
  match i with
  | PcPoint p => Ok (at_point p)
  | PcSeg s => Ok (at_point (s_src s))
  | PcArc a => Ok (min_over (fun t => at_point (arc_point a t)) params5)
  | PcEll e => Ok (min_over (fun t => at_point (ell_point e t)) params9)
  | _ => Throw RuntimeError
  end.

(** intersectionangle.hh:337-353: the tangent plane of a face shape at a point *)
Definition shape_tangent (s : surface A) (p : V3 A) : plane A :=
  let '(_, (u, v)) := sf_proj s p in
  let '(b1, b2) := sf_d1 s u v in
  plane_pn p (to_dir (cross b1 b2)).

(** intersectionangle.hh:317-356, 412-432: two face shapes *)
Definition shape_point_angle (s1 s2 : surface A) (p : V3 A) : A :=
  plane_angle (shape_tangent s1 p) (shape_tangent s2 p).

(** intersectionangle.hh:365-390: a planar geometry and a face shape.  Line 383 passes the
    projection instead of paramU; it is converted to its distance. *)
Definition face_shape_point_angle (pl : plane A) (s : surface A) (p : V3 A) : A :=
  let '(d, (u, v)) := sf_proj s p in
  let '(b1, b2) := sf_d1 s d v in
  plane_angle pl (plane_pn p (to_dir (cross b1 b2))).

(** intersectionangle.hh:412-432, 441-462: the points along an edge *)
Definition edge_angle (f : V3 A -> A) (c : curve A) : A :=
  min_over (fun t => f (cv_value c (cv_first c + t * (cv_last c - cv_first c)))) params5.

(** intersectionangle.hh:88-99 (not implemented), 126-130, 139-160: two planar geometries;
    176-180, 191-195, 209-213, 231-235, 279-283, 318-326: cylinder surfaces; 328-510: shapes.
    The supporting planes of faces are those of IntModel. *)
Definition int_angle (g1 g2 : ageo A) (i : apiece A) : outcome A :=
  match g1, g2, i with
  | GPlane p1, GPlane p2, PcLine _ => Ok (plane_angle p1 p2)
  | GFace f1, GFace f2, PcPoint _ => Ok (plane_angle (face_plane f1) (face_plane f2))
  | GFace f1, GFace f2, PcSeg _ => Ok (plane_angle (face_plane f1) (face_plane f2))
  | GFace f, GSurf c, i => face_surf_angle (face_plane f) c i
  | GSurf c, GFace f, i => face_surf_angle (face_plane f) c i
  | GShape s1, GShape s2, PcPoint p => Ok (shape_point_angle s1 s2 p)
  | GShape s1, GShape s2, PcEdge c => Ok (edge_angle (shape_point_angle s1 s2) c)
  | GFace f, GShape s, PcPoint p => Ok (face_shape_point_angle (face_plane f) s p)
  | GShape s, GFace f, PcPoint p => Ok (face_shape_point_angle (face_plane f) s p)
  | GFace f, GShape s, PcEdge c => Ok (edge_angle (face_shape_point_angle (face_plane f) s) c)
  | GShape s, GFace f, PcEdge c => Ok (edge_angle (face_shape_point_angle (face_plane f) s) c)
  | _, GShape _, PcFace => Ok n0
  | GShape _, _, PcFace => Ok n0
  | _, _, _ => Throw RuntimeError
  end.

(** intersectionangle.hh:524-535: a vector of intersections *)
Definition int_angles (g1 g2 : ageo A) (is : list (apiece A)) : outcome A :=
  fold_left (fun r i => obind r (fun m => obind (int_angle g1 g2 i) (fun x => Ok (nmin m x)))) is (Ok top).

End Ang.
