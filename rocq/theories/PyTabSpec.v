(** Specification of the Python functions, class by class. *)

From Coq Require Import Reals String List.
From Verif Require Import Base NumModel VecModel LinModel RoundModel PolyModel PyBindModel GeoSpec.
Import ListNotations.
Local Open Scope R_scope.

(** The type of the shape of an object (none for vectors, directions, lines, planes, triangles
    and hollow cylinders). *)
Definition shape_type {S} (g : geo R S) : option wrapper :=
  match g with
  | GPoint1 _ | GPoint2 _ _ | GPoint _ => Some WVertex
  | GSegment _ | GArc _ => Some WEdge
  | GCircle _ | GEllipse _ => Some WWire
  | GDisk _ | GQuad _ | GPolygon _ | GSurface _ => Some WFace
  | GBox _ | GCylinder _ | GSphere _ => Some WSolid
  | GWrap w _ => Some w
  | _ => None
  end.
(** The objects with a bounding box: those with a shape, except points. *)
Definition has_bbox {S} (g : geo R S) : Prop :=
  match g with
  | GPoint1 _ | GPoint2 _ _ | GPoint _ => False
  | _ => shape_type g <> None
  end.
(** The objects that computeLength (1), computeArea (2) and computeVolume (3) accept. *)
Definition measured {S} (g : geo R S) : option nat :=
  match g with
  | GVector _ | GSegment _ | GCircle _ | GEllipse _ | GArc _ | GWrap WEdge _ | GWrap WWire _ => Some 1%nat
  | GDisk _ | GTriangle _ | GQuad _ | GPolygon _ | GSurface _ | GWrap WFace _ | GWrap WShell _ => Some 2%nat
  | GBox _ | GCylinder _ | GHollow _ | GSphere _ | GWrap WSolid _ => Some 3%nat
  | _ => None
  end.
