(** Geometries behind pointers to the abstract base class Geometry:
    /repo/frackit/geometryutilities/applyongeometry.hh and assign.hh, and their callers. *)

From Coq Require Import String.
From stdpp Require Import prelude list.
From Verif Require Import Base ConstraintsModel.
Local Open Scope string_scope.

(** The classes that derive from Geometry. *)
Inductive gclass :=
| KBox | KCircle | KCylinder | KCylinderSurface | KDirection (wd : nat) | KDisk | KEllipse
| KEllipseArc | KHollowCylinder | KLine (wd : nat) | KPlane | KPoint (wd : nat) | KPolygon
| KQuadrilateral | KSegment (wd : nat) | KSphere | KTriangle | KVector (wd : nat).
Global Instance gclass_dec : EqDecision gclass.
Proof. solve_decision. Defined.

(** std::to_string of the world dimension, which is 1, 2 or 3 *)
Definition wd_string (wd : nat) : string :=
  match wd with 1 => "1" | 2 => "2" | _ => "3" end%nat.
(** the overrides of name(): geometry/box.hh:86, circle.hh:85, cylinder.hh:126,
    cylindersurface.hh:102, direction.hh:81, 141, 205, disk.hh:80, ellipse.hh:75,
    ellipsearc.hh:104, hollowcylinder.hh:115, line.hh:80, plane.hh:129, point.hh:80,
    polygon.hh:131, quadrilateral.hh:120, segment.hh:84, sphere.hh:67, triangle.hh:103,
    vector.hh:104 *)
Definition class_name (k : gclass) : string :=
  match k with
  | KBox => "Box" | KCircle => "Circle_3d" | KCylinder => "Cylinder"
  | KCylinderSurface => "CylinderSurface" | KDirection wd => String.append "Direction_" (String.append (wd_string wd) "d")
  | KDisk => "Disk" | KEllipse => "Ellipse_3d" | KEllipseArc => "EllipseArc_3d"
  | KHollowCylinder => "HollowCylinder" | KLine wd => String.append "Line_" (String.append (wd_string wd) "d")
  | KPlane => "Plane_3d" | KPoint wd => String.append "Point_" (String.append (wd_string wd) "d") | KPolygon => "Polygon_3d"
  | KQuadrilateral => "Quadrilateral_3d" | KSegment wd => String.append "Segment_" (String.append (wd_string wd) "d")
  | KSphere => "Sphere" | KTriangle => "Triangle_3d" | KVector wd => String.append "Vector_" (String.append (wd_string wd) "d")
  end.

Section Dyn.
Context {G : Type}.

(** An object: what name() returns, the class a dynamic_cast finds (none of those of the library
    for classes of the user), and the geometry. *)
Record object := mkObject { o_name : string; o_class : option gclass; o_geo : G }.
(** a pointer *)
Definition ptr := option object.

(** assign.hh:43-57, for a target of class k: the names are compared, then the result of
    dynamic_cast is dereferenced.  None: false is returned and the target is unchanged. *)
Definition assign (p : ptr) (k : gclass) : outcome (option G) :=
  match p with
  | None => UB
  | Some o => if String.eqb (class_name k) (o_name o)
              then if bool_decide (o_class o = Some k) then Ok (Some (o_geo o)) else UB
              else Ok None
  end.

(** applyongeometry.hh:57-82 *)
Definition apply_on {R} (f : G → outcome R) (p : ptr) : outcome R :=
  match p with
  | None => UB
  | Some o =>
    if String.eqb (o_name o) "Disk" then
      obind (assign p KDisk) (λ r, match r with Some g => f g | None => Throw RuntimeError end)
    else if String.eqb (o_name o) "Quadrilateral_3d" then
      obind (assign p KQuadrilateral) (λ r, match r with Some g => f g | None => Throw RuntimeError end)
    else Throw RuntimeError
  end.

(** constraints.hh:188-218, on arguments that are geometries or pointers *)
Inductive arg := AObj (g : G) | APtr (p : ptr).
Definition with_arg {R} (f : G → outcome R) (a : arg) : outcome R :=
  match a with AObj g => f g | APtr p => apply_on f p end.
Section Constraints.
Context {num : Type} (ltb geb : num → num → bool) {Pt Arc Ell Edge Face : Type}
  (K : kernel num G Pt Arc Ell Edge Face).
Definition evaluate_args (c : constraints num) (a1 a2 : arg) : outcome bool :=
  match a1, a2 with
  | APtr p1, AObj g2 => apply_on (λ g1, evaluate ltb geb K c g1 g2) p1
  | AObj g1, APtr p2 => apply_on (λ g2, evaluate ltb geb K c g1 g2) p2
  | APtr p1, APtr p2 => apply_on (λ g1, apply_on (λ g2, evaluate ltb geb K c g1 g2) p2) p1
  | AObj g1, AObj g2 => evaluate ltb geb K c g1 g2
  end.
(** constraints.hh:229-235, 246-248, 259-265 *)
Definition evaluate_args_set (c : constraints num) (es : list arg) (e : arg) : outcome bool :=
  all_of (λ x, evaluate_args c x e) es.
Definition evaluate_args_sets (c : constraints num) (es1 es2 : list arg) : outcome bool :=
  all_of (λ e1, evaluate_args_set c es2 e1) es1.
End Constraints.

(** magnitude/containedmagnitude.hh:120-132; [mag] is computeContainedMagnitude of the geometry
    with the domain *)
Definition contained_magnitude_ptr {num} (mag : G → outcome num) (p : ptr) : outcome num :=
  apply_on mag p.
End Dyn.
Arguments object G : clear implicits.
Arguments ptr G : clear implicits.
Arguments arg G : clear implicits.
