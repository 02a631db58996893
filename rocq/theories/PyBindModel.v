(** The Python module frackit.geometry: overload resolution of pybind11, the registered
    overloads and the functions of /repo/python/frackit/geometry/__init__.py and
    /repo/python/frackit/occutilities/__init__.py. *)

From Coq Require Import ZArith String List Bool.
From Verif Require Import Base NumModel VecModel LinModel RoundModel PolyModel DistModel.
Import ListNotations.
Local Open Scope list_scope.
Local Open Scope num_scope.

(** python/geometry/brepwrapper.hh:124-131: the wrappers around the shapes of OpenCascade *)
Inductive wrapper := WShape | WVertex | WEdge | WWire | WFace | WShell | WSolid | WCompound.

(** The instances of the classes registered in python/geometry/*.hh.  [S] are the shapes of
    OpenCascade.  Segments and lines in one and two dimensions are left out. *)
Inductive geo (A S : Type) :=
| GPoint1 (x : A) | GPoint2 (x y : A) | GPoint (p : V3 A)
| GVector1 (x : A) | GVector2 (x y : A) | GVector (v : V3 A)
| GDirection1 (x : A) | GDirection2 (x y : A) | GDirection (d : V3 A)
| GSegment (s : segment A) | GLine (l : line A) | GPlane (pl : plane A)
| GCircle (c : ell A) | GEllipse (e : ell A) | GArc (c : arc A)
| GDisk (d : ell A) | GTriangle (t : tri A) | GQuad (q : quad A) | GPolygon (pg : poly A)
| GBox (b : box A) | GCylinder (c : cyl A) | GSurface (c : cyl A) | GHollow (h : hollow A)
| GSphere (s : sphere A)
| GWrap (w : wrapper) (s : S).
Arguments GPoint1 {A S} _.
Arguments GPoint2 {A S} _ _.
Arguments GPoint {A S} _.
Arguments GVector1 {A S} _.
Arguments GVector2 {A S} _ _.
Arguments GVector {A S} _.
Arguments GDirection1 {A S} _.
Arguments GDirection2 {A S} _ _.
Arguments GDirection {A S} _.
Arguments GSegment {A S} _.
Arguments GLine {A S} _.
Arguments GPlane {A S} _.
Arguments GCircle {A S} _.
Arguments GEllipse {A S} _.
Arguments GArc {A S} _.
Arguments GDisk {A S} _.
Arguments GTriangle {A S} _.
Arguments GQuad {A S} _.
Arguments GPolygon {A S} _.
Arguments GBox {A S} _.
Arguments GCylinder {A S} _.
Arguments GSurface {A S} _.
Arguments GHollow {A S} _.
Arguments GSphere {A S} _.
Arguments GWrap {A S} _ _.

(** the registered classes *)
Inductive cls :=
| CPoint1 | CPoint2 | CPoint | CVector1 | CVector2 | CVector
| CDirection1 | CDirection2 | CDirection | CSegment | CLine | CPlane
| CCircle | CEllipse | CArc | CDisk | CTriangle | CQuad | CPolygon
| CBox | CCylinder | CSurface | CHollow | CSphere | CWrap (w : wrapper).
Definition wrapper_code (w : wrapper) : nat :=
  match w with
  | WShape => 0 | WVertex => 1 | WEdge => 2 | WWire => 3
  | WFace => 4 | WShell => 5 | WSolid => 6 | WCompound => 7
  end.
Definition cls_code (c : cls) : nat :=
  match c with
  | CPoint1 => 0 | CPoint2 => 1 | CPoint => 2 | CVector1 => 3 | CVector2 => 4 | CVector => 5
  | CDirection1 => 6 | CDirection2 => 7 | CDirection => 8 | CSegment => 9 | CLine => 10
  | CPlane => 11 | CCircle => 12 | CEllipse => 13 | CArc => 14 | CDisk => 15 | CTriangle => 16
  | CQuad => 17 | CPolygon => 18 | CBox => 19 | CCylinder => 20 | CSurface => 21 | CHollow => 22
  | CSphere => 23 | CWrap w => 24 + wrapper_code w
  end.

Definition class_of {A S} (g : geo A S) : cls :=
  match g with
  | GPoint1 _ => CPoint1 | GPoint2 _ _ => CPoint2 | GPoint _ => CPoint
  | GVector1 _ => CVector1 | GVector2 _ _ => CVector2 | GVector _ => CVector
  | GDirection1 _ => CDirection1 | GDirection2 _ _ => CDirection2 | GDirection _ => CDirection
  | GSegment _ => CSegment | GLine _ => CLine | GPlane _ => CPlane
  | GCircle _ => CCircle | GEllipse _ => CEllipse | GArc _ => CArc
  | GDisk _ => CDisk | GTriangle _ => CTriangle | GQuad _ => CQuad | GPolygon _ => CPolygon
  | GBox _ => CBox | GCylinder _ => CCylinder | GSurface _ => CSurface | GHollow _ => CHollow
  | GSphere _ => CSphere
  | GWrap w _ => CWrap w
  end.

(** The base classes.  The only registered class that derives from another class for which
    overloads exist is EllipseArc_3 (python/geometry/ellipsearc.hh:44); the abstract bases
    Geometry, PointBase, VectorBase and EllipticalGeometry occur in no overload. *)
Definition is_a (d c : cls) : bool :=
  Nat.eqb (cls_code d) (cls_code c) || match d, c with CArc, CEllipse => true | _, _ => false end.

(** the reference to the base class that the C++ function receives *)
Definition upcast {A S} (c : cls) (g : geo A S) : geo A S :=
  match c, g with CEllipse, GArc a => GEllipse (a_ell a) | _, _ => g end.

(** The values of Python that occur as arguments. *)
Inductive pyval (A S : Type) :=
| PObj (g : geo A S) | PFloat (x : A) | PInt (z : Z) | PBool (b : bool) | PNone
| PList (l : list (pyval A S)).
Arguments PObj {A S} _.
Arguments PFloat {A S} _.
Arguments PInt {A S} _.
Arguments PBool {A S} _.
Arguments PNone {A S}.
Arguments PList {A S} _.

(** The parameter types of the bound functions and the values they receive. *)
Inductive ptype := TObj (c : cls) | TNum | TBool | TList.
Inductive cval (A S : Type) := VObj (g : geo A S) | VNum (x : A) | VBool (b : bool) | VList (l : list (pyval A S)).
Arguments VObj {A S} _.
Arguments VNum {A S} _.
Arguments VBool {A S} _.
Arguments VList {A S} _.

Record param (A S : Type) := mkParam { pr_name : string; pr_type : ptype; pr_default : option (cval A S) }.
Arguments mkParam {A S} _ _ _.
Arguments pr_name {A S} _.
Arguments pr_type {A S} _.
Arguments pr_default {A S} _.
(** a parameter without name is called "" (no keyword argument has this name) *)
Definition req {A S} (name : string) (t : ptype) : param A S := mkParam name t None.
Definition opt {A S} (name : string) (t : ptype) (d : cval A S) : param A S := mkParam name t (Some d).

Definition overload (A S R : Type) : Type := (list (param A S) * (list (cval A S) -> outcome R))%type.

Section PyBind.
Context {A S : Type} `{Num A}.

(** The casters of pybind11 (pybind11/cast.h): load(src, convert) for references to classes,
    for double, bool and py::list.  Without conversion a double takes a float only and a bool
    takes True and False only; with conversion a double takes numbers, and a bool takes None
    and everything that has a truth value.  No implicit conversions are registered in
    frackit/python.  Not modelled: integers too large for double, numpy scalars and objects
    with __float__ or __bool__. *)
Definition cast (conv : bool) (t : ptype) (v : pyval A S) : option (cval A S) :=
  match t, v with
  | TObj c, PObj g => if is_a (class_of g) c then Some (VObj (upcast c g)) else None
  | TNum, PFloat x => Some (VNum x)
  | TNum, PInt z => if conv then Some (VNum (nlit z 1)) else None
  | TNum, PBool b => if conv then Some (VNum (if b then n1 else n0)) else None
  | TBool, PBool b => Some (VBool b)
  | TBool, PNone => if conv then Some (VBool false) else None
  | TBool, PInt z => if conv then Some (VBool (negb (Z.eqb z 0))) else None
  | TBool, PFloat x => if conv then Some (VBool (negb (x =? n0))) else None
  | TList, PList l => Some (VList l)
  | _, _ => None
  end.

Fixpoint kw_get (k : string) (kw : list (string * pyval A S)) : option (pyval A S) :=
  match kw with
  | [] => None
  | (k', v) :: r => if String.eqb k k' then Some v else kw_get k r
  end.
Fixpoint kw_del (k : string) (kw : list (string * pyval A S)) : list (string * pyval A S) :=
  match kw with
  | [] => []
  | (k', v) :: r => if String.eqb k k' then r else (k', v) :: kw_del k r
  end.

(** cpp_function::dispatcher (pybind11/pybind11.h): positional arguments first, then keyword
    arguments, then defaults; an overload with arguments left over is skipped *)
Fixpoint bind (conv : bool) (ps : list (param A S)) (args : list (pyval A S))
  (kw : list (string * pyval A S)) : option (list (cval A S)) :=
  match ps, args with
  | [], [] => match kw with [] => Some [] | _ => None end
  | [], _ :: _ => None
  | p :: ps, v :: args =>
      match kw_get (pr_name p) kw, cast conv (pr_type p) v with
      | None, Some c => option_map (cons c) (bind conv ps args kw)
      | _, _ => None
      end
  | p :: ps, [] =>
      match kw_get (pr_name p) kw with
      | Some v => match cast conv (pr_type p) v with
                  | Some c => option_map (cons c) (bind conv ps [] (kw_del (pr_name p) kw))
                  | None => None
                  end
      | None => match pr_default p with
                | Some d => option_map (cons d) (bind conv ps [] kw)
                | None => None
                end
      end
  end.

(** the first pass over the overloads, in the order of their registration, does without
    conversions, the second one allows them; without a match a TypeError is raised *)
Fixpoint first_match {R} (conv : bool) (ovs : list (overload A S R)) args kw : option (outcome R) :=
  match ovs with
  | [] => None
  | (ps, f) :: r => match bind conv ps args kw with
                    | Some vs => Some (f vs)
                    | None => first_match conv r args kw
                    end
  end.
Definition call {R} (ovs : list (overload A S R)) args kw : outcome R :=
  match first_match false ovs args kw with
  | Some r => r
  | None => match first_match true ovs args kw with
            | Some r => r
            | None => Throw TypeError
            end
  end.

(** try: x  except: y.  Undefined behaviour is not caught. *)
Definition try_except {R} (x y : outcome R) : outcome R :=
  match x with Throw _ => y | _ => x end.

(** overloads that take objects only *)
Definition fn1 {R} (c : cls) (f : geo A S -> outcome R) : overload A S R :=
  ([req "" (TObj c)], fun vs => match vs with [VObj g] => f g | _ => UB end).
Definition fn2 {R} (c d : cls) (f : geo A S -> geo A S -> outcome R) : overload A S R :=
  ([req "" (TObj c); req "" (TObj d)],
   fun vs => match vs with [VObj g; VObj h] => f g h | _ => UB end).

(** the methods contains() *)
Section Contains.
(** python/geometry/segment.hh:68-73, ellipse.hh:59-64, ellipsearc.hh:65-70, disk.hh:55-60,
    triangle.hh:65-70, quadrilateral.hh:66-71, polygon.hh:66-71: the overload with the default
    tolerance and a flag comes first *)
Definition flag_contains (flag : string) (d : V3 A -> bool -> outcome bool)
  (e : V3 A -> A -> bool -> outcome bool) : list (overload A S bool) :=
  [ ([req "point" (TObj CPoint); opt flag TBool (VBool true)],
     fun vs => match vs with [VObj (GPoint p); VBool b] => d p b | _ => UB end);
    ([req "point" (TObj CPoint); req "eps" TNum; opt flag TBool (VBool true)],
     fun vs => match vs with [VObj (GPoint p); VNum x; VBool b] => e p x b | _ => UB end) ].
(** box.hh:69-72, circle.hh:61-64, cylinder.hh:69-72, cylindersurface.hh:68-71,
    hollowcylinder.hh:75-78, sphere.hh:53-56, line.hh:57-60 *)
Definition plain_contains (d : V3 A -> bool) (e : V3 A -> A -> bool) : list (overload A S bool) :=
  [ ([req "point" (TObj CPoint)],
     fun vs => match vs with [VObj (GPoint p)] => Ok (d p) | _ => UB end);
    ([req "point" (TObj CPoint); req "eps" TNum],
     fun vs => match vs with [VObj (GPoint p); VNum x] => Ok (e p x) | _ => UB end) ].
(** plane.hh:71-72 *)
Definition plane_contains_py (e : V3 A -> A -> bool) : list (overload A S bool) :=
  [ ([req "point" (TObj CPoint); opt "eps" TNum (VNum confusion)],
     fun vs => match vs with [VObj (GPoint p); VNum x] => Ok (e p x) | _ => UB end) ].
End Contains.

Context `{Trig A}.

(** contains(point, eps) and contains(point) of the C++ classes, for the geometries with the flag
    (segment.hh, ellipse.hh, ellipsearc.hh, disk.hh, triangle.hh, quadrilateral.hh, polygon.hh:
    see the models of these functions) *)
Definition flag_eps (c_abs : A -> A) (g : geo A S) : option (V3 A -> A -> bool -> outcome bool) :=
  match g with
  | GSegment s => Some (fun p x b => Ok (seg_contains s p x b))
  | GEllipse e => Some (fun p x b => Ok (ell_contains e p x b))
  | GArc c => Some (arc_contains c)
  | GDisk d => Some (fun p x b => Ok (disk_contains d p x b))
  | GTriangle t => Some (fun p x b => Ok (tri_contains c_abs t p x b))
  | GQuad q => Some (fun p x b => Ok (quad_contains q p x b))
  | GPolygon pg => Some (poly_contains pg)
  | _ => None
  end.
Definition flag_default (c_abs : A -> A) (g : geo A S) : option (V3 A -> bool -> outcome bool) :=
  match g with
  | GSegment s => Some (fun p b => Ok (seg_contains_default s p b))
  | GEllipse e => Some (fun p b => Ok (ell_contains_default e p b))
  | GArc c => Some (arc_contains_default c)
  | GDisk d => Some (fun p b => Ok (disk_contains_default d p b))
  | GTriangle t => Some (tri_contains_default c_abs t)
  | GQuad q => Some (fun p b => Ok (quad_contains_default q p b))
  | GPolygon pg => Some (poly_contains_default pg)
  | _ => None
  end.
(** and for the geometries without it (circle.hh, box.hh, cylinder.hh, cylindersurface.hh,
    hollowcylinder.hh, sphere.hh, line.hh, plane.hh) *)
Definition plain_eps (g : geo A S) : option (V3 A -> A -> bool) :=
  match g with
  | GCircle c => Some (circle_contains c)
  | GBox b => Some (box_contains b)
  | GCylinder c => Some (cyl_contains c)
  | GSurface c => Some (surf_contains c)
  | GHollow h => Some (hollow_contains h)
  | GSphere s => Some (sphere_contains s)
  | GLine l => Some (line_contains l)
  | GPlane pl => Some (plane_contains pl)
  | _ => None
  end.
Definition plain_default (g : geo A S) : option (V3 A -> bool) :=
  match g with
  | GCircle c => Some (circle_contains_default c)
  | GBox b => Some (box_contains_default b)
  | GCylinder c => Some (cyl_contains_default c)
  | GSurface c => Some (surf_contains_default c)
  | GHollow h => Some (hollow_contains_default h)
  | GSphere s => Some (sphere_contains_default s)
  | GLine l => Some (line_contains_default l)
  | _ => None
  end.
(** the name of the flag in the bindings *)
Definition flag_name (g : geo A S) : string :=
  match g with
  | GSegment _ => "checkIfOnLine"
  | GArc _ | GDisk _ => "checkIfOnEllipse"
  | _ => "checkIfOnPlane"
  end.
(** g.contains(...) *)
Definition py_contains (c_abs : A -> A) (g : geo A S) args kw : outcome bool :=
  match flag_default c_abs g, flag_eps c_abs g, plain_default g, plain_eps g with
  | Some d, Some e, _, _ => call (flag_contains (flag_name g) d e) args kw
  | _, _, Some d, Some e => call (plain_contains d e) args kw
  | _, _, None, Some e => call (plane_contains_py e) args kw
  | _, _, _, _ => Throw TypeError
  end.

(** OpenCascade: the shape of a geometry (occ/breputilities.hh:156-351), the magnitude of a
    shape (magnitude/length.hh:62-90, area.hh, volume.hh), the length of an arc that is not a
    full ellipse (length.hh:112-118), the distance of two shapes (distance/distance.hh:97-110)
    and the bounding box of a shape (geometryutilities/getboundingbox.hh).  Any of these calls
    may throw. *)
Record occ := mkOcc
  { oc_shape : geo A S -> outcome S;
    oc_magnitude : wrapper -> S -> outcome A;
    oc_arc_length : arc A -> outcome A;
    oc_dist : S -> S -> outcome A;
    oc_bbox : S -> outcome (box A) }.
Context (oc : occ).

(** occ/breputilities.hh:156-351: the type of the shape of a geometry *)
Definition shape_kind (g : geo A S) : wrapper :=
  match g with
  | GSegment _ | GArc _ => WEdge
  | GCircle _ | GEllipse _ => WWire
  | GDisk _ | GQuad _ | GPolygon _ | GSurface _ => WFace
  | GBox _ | GCylinder _ | GSphere _ => WSolid
  | GWrap w _ => w
  | _ => WVertex
  end.
(** python/occutilities/breputilities.hh:99-110 *)
Definition get_shape_of (g : geo A S) : outcome (geo A S) :=
  match g with
  | GWrap _ _ => Ok g
  | _ => obind (oc_shape oc g) (fun s => Ok (GWrap (shape_kind g) s))
  end.
(** python/occutilities/breputilities.hh:251-265, 317-343: the overloads of getShape.
    registerWrappedShapeConversions registers the last type first. *)
Definition shape_classes : list cls :=
  [CPoint1; CPoint2; CPoint; CSegment; CCircle; CEllipse; CArc; CQuad; CPolygon; CDisk; CBox;
   CCylinder; CSurface; CSphere;
   CWrap WCompound; CWrap WSolid; CWrap WShell; CWrap WFace; CWrap WWire; CWrap WEdge;
   CWrap WVertex; CWrap WShape].
Definition py_get_shape (v : pyval A S) : outcome (geo A S) :=
  call (map (fun c => fn1 c get_shape_of) shape_classes) [v] [].

(** python/geometry/brepwrappers.hh:44-55: OCCShapeWrapper(wrapper) *)
Definition wrapper_classes : list cls :=
  map CWrap [WShape; WVertex; WEdge; WWire; WFace; WShell; WSolid; WCompound].
Definition py_shape_wrapper (v : pyval A S) : outcome (geo A S) :=
  call (map (fun c => fn1 c (fun g => match g with GWrap _ s => Ok (GWrap WShape s) | _ => UB end))
            wrapper_classes) [v] [].
(** OCCShapeWrapper(getShape(geo)) *)
Definition py_wrap (v : pyval A S) : outcome (geo A S) :=
  obind (py_get_shape v) (fun w => py_shape_wrapper (PObj w)).

(** magnitude/magnitude.hh:48-78, length.hh:54-56, 96-118, area.hh, volume.hh: computeMagnitude *)
Definition magnitude (g : geo A S) : outcome A :=
  match g with
  | GVector v => Ok (vlen v)
  | GSegment s => Ok (length_segment s)
  | GCircle c => Ok (length_circle c)
  | GEllipse e => Ok (length_ellipse e)
  | GArc c => if a_full c then Ok (length_full_arc c) else oc_arc_length oc c
  | GDisk d => Ok (disk_area d)
  | GTriangle t => Ok (t_area t)
  | GQuad q => Ok (q_area q)
  | GPolygon pg => poly_get_area pg
  | GSurface c => Ok (surf_area c)
  | GCylinder c => Ok (cyl_volume c)
  | GHollow h => Ok (hollow_volume h)
  | GBox b => Ok (box_volume b)
  | GSphere s => Ok (sphere_volume s)
  | GWrap w s => oc_magnitude oc w s
  | _ => UB
  end.
(** python/geometry/magnitude.hh:82-105 *)
Definition magnitude_classes : list cls :=
  [CVector; CSegment; CCircle; CEllipse; CArc; CDisk; CTriangle; CQuad; CPolygon; CSurface;
   CCylinder; CHollow; CBox; CSphere;
   CWrap WEdge; CWrap WWire; CWrap WFace; CWrap WShell; CWrap WSolid].
Definition py_magnitude (v : pyval A S) : outcome A :=
  call (map (fun c => fn1 c magnitude) magnitude_classes) [v] [].

(** geometry/dimension.hh:48-125, python/geometry/registerdimensionproperties.hh:29-42: the
    property myDimension; OCCShapeWrapper, OCCCompoundWrapper and other objects have none *)
Definition my_dimension (v : pyval A S) : option nat :=
  match v with
  | PObj g =>
      match g with
      | GPoint1 _ | GPoint2 _ _ | GPoint _ | GWrap WVertex _ => Some 0
      | GVector1 _ | GVector2 _ _ | GVector _ | GDirection1 _ | GDirection2 _ _ | GDirection _
      | GSegment _ | GLine _ | GCircle _ | GEllipse _ | GArc _
      | GWrap WEdge _ | GWrap WWire _ => Some 1
      | GPlane _ | GDisk _ | GTriangle _ | GQuad _ | GPolygon _ | GSurface _
      | GWrap WFace _ | GWrap WShell _ => Some 2
      | GBox _ | GCylinder _ | GHollow _ | GSphere _ | GWrap WSolid _ => Some 3
      | GWrap WShape _ | GWrap WCompound _ => None
      end
  | _ => None
  end%nat.
(** __init__.py:98-137: computeLength, computeArea, computeVolume *)
Definition py_dim_magnitude (dim : nat) (v : pyval A S) : outcome A :=
  match my_dimension v with
  | None => Throw TypeError
  | Some d => if Nat.eqb d dim then py_magnitude v else Throw TypeError
  end.
Definition py_length : pyval A S -> outcome A := py_dim_magnitude 1.
Definition py_area : pyval A S -> outcome A := py_dim_magnitude 2.
Definition py_volume : pyval A S -> outcome A := py_dim_magnitude 3.

(** geometryutilities/getboundingbox.hh:39-41 and python/geometry/getboundingbox.hh:63-87: the box of
    the shape *)
Definition bounding_box (g : geo A S) : outcome (box A) :=
  obind (get_shape_of g) (fun w => match w with GWrap _ s => oc_bbox oc s | _ => UB end).
Definition bbox_classes : list cls :=
  [CBox; CCylinder; CSurface; CDisk; CSphere; CCircle; CEllipse; CArc; CPolygon; CQuad; CSegment;
   CWrap WShape; CWrap WVertex; CWrap WEdge; CWrap WWire; CWrap WFace; CWrap WShell; CWrap WSolid;
   CWrap WCompound].
Definition py_bounding_box (v : pyval A S) : outcome (box A) :=
  call (map (fun c => fn1 c bounding_box) bbox_classes) [v] [].

(** distance/distance.hh: computeDistance of two geometries (97-110 for shapes; 155-213 for
    points, lines and segments) *)
Definition distance (g1 g2 : geo A S) : outcome A :=
  match g1, g2 with
  | GPoint p, GPoint q => Ok (dist_points p q)
  | GPoint p, GLine l | GLine l, GPoint p => Ok (dist_line p l)
  | GPoint p, GSegment s | GSegment s, GPoint p => Ok (dist_segment p s)
  | _, _ => obind (get_shape_of g1) (fun w1 => obind (get_shape_of g2) (fun w2 =>
            match w1, w2 with GWrap _ s1, GWrap _ s2 => oc_dist oc s1 s2 | _, _ => UB end))
  end.
(** python/geometry/distance.hh:42-67 *)
Definition distance_table : list (overload A S A) :=
  [ fn2 CPoint CPoint distance; fn2 CSegment CPoint distance; fn2 CPoint CSegment distance;
    fn2 (CWrap WShape) (CWrap WShape) distance ].
(** __init__.py:149-153: doComputation *)
Definition py_distance1 (geo1 geo2 : pyval A S) : outcome A :=
  try_except (call distance_table [geo1; geo2] [])
    (obind (py_wrap geo1) (fun w1 => obind (py_wrap geo2) (fun w2 =>
       call distance_table [PObj w1; PObj w2] []))).
(** min(l) *)
Definition py_min (l : list A) : outcome A :=
  match l with
  | [] => Throw ValueError
  | x :: r => Ok (fold_left nmin r x)
  end.
Fixpoint traverse {X R} (f : X -> outcome R) (l : list X) : outcome (list R) :=
  match l with
  | [] => Ok []
  | x :: r => obind (f x) (fun y => obind (traverse f r) (fun ys => Ok (y :: ys)))
  end.
(** __init__.py:141-156: computeDistance *)
Definition py_distance (geo1 geo2 : pyval A S) : outcome A :=
  match geo2 with
  | PList l => obind (traverse (py_distance1 geo1) l) py_min
  | _ => py_distance1 geo1 geo2
  end.

(** python/geometry/distancetoboundary.hh:40-42: Detail::computeDistanceToBoundary calls
    Frackit::computeDistance; 61-97: the overloads *)
Definition boundary_table : list (overload A S A) :=
  [ fn2 CPoint CQuad distance; fn2 CPoint CPolygon distance; fn2 CPoint CBox distance;
    fn2 (CWrap WShape) CDisk distance; fn2 (CWrap WShape) CSurface distance;
    fn2 (CWrap WShape) (CWrap WFace) distance; fn2 (CWrap WShape) CQuad distance;
    fn2 (CWrap WShape) CPolygon distance; fn2 (CWrap WShape) (CWrap WSolid) distance ].
(** __init__.py:160-173: computeDistanceToBoundary *)
Definition py_distance_boundary (geo1 geo2 : pyval A S) : outcome A :=
  try_except (call boundary_table [geo1; geo2] [])
    (obind (py_wrap geo1) (fun w1 => call boundary_table [PObj w1; geo2] [])).

(** The constructors of the dimension-specific classes. *)
Section Constructors.

(** python/geometry/point.hh:88-104, vector.hh:84-100: the first entries of the list, zeros if it
    is shorter; casting an entry that is no number throws *)
Definition list_num (v : pyval A S) : outcome A :=
  match cast true TNum v with Some (VNum x) => Ok x | _ => Throw RuntimeError end.
Definition list_coords (dim : nat) (l : list (pyval A S)) : outcome (list A) :=
  obind (traverse list_num (firstn dim l)) (fun xs => Ok (xs ++ repeat n0 (dim - length xs))).

Definition mk1 (f : A -> geo A S) (xs : list A) : outcome (geo A S) :=
  match xs with [x] => Ok (f x) | _ => UB end.
Definition mk2 (f : A -> A -> geo A S) (xs : list A) : outcome (geo A S) :=
  match xs with [x; y] => Ok (f x y) | _ => UB end.
Definition mk3 (f : V3 A -> geo A S) (xs : list A) : outcome (geo A S) :=
  match xs with [x; y; z] => Ok (f (mkV3 x y z)) | _ => UB end.
Definition nums (vs : list (cval A S)) : list A :=
  flat_map (fun v => match v with VNum x => [x] | _ => [] end) vs.
(** construction from nothing, from a list and from coordinates
    (point.hh:87-112, vector.hh:81, 84-108) *)
Definition coordinate_table (dim : nat) (mk : list A -> outcome (geo A S)) : list (overload A S (geo A S)) :=
  [ ([], fun _ => mk (repeat n0 dim));
    ([req "coordinates" TList],
     fun vs => match vs with [VList l] => obind (list_coords dim l) mk | _ => UB end);
    (map (fun n => req n TNum) (firstn dim ["x"%string; "y"%string; "z"%string]), fun vs => mk (nums vs)) ].

Definition py_point1 args kw := call (coordinate_table 1 (mk1 GPoint1)) args kw.
Definition py_point2 args kw := call (coordinate_table 2 (mk2 GPoint2)) args kw.
Definition py_point3 args kw := call (coordinate_table 3 (mk3 GPoint)) args kw.

(** vector.hh:82-83: from two points, from a direction; these overloads stand between the default
    constructor and the list *)
Definition vector_table (dim : nat) (p d : cls) (mk : list A -> outcome (geo A S)) : list (overload A S (geo A S)) :=
  match coordinate_table dim mk with
  | o :: r =>
    o :: ([req "source" (TObj p); req "target" (TObj p)],
          fun vs => match vs with
                    | [VObj (GPoint1 x); VObj (GPoint1 x')] => mk [x' - x]
                    | [VObj (GPoint2 x y); VObj (GPoint2 x' y')] => mk [x' - x; y' - y]
                    | [VObj (GPoint q); VObj (GPoint r)] => mk [vx r - vx q; vy r - vy q; vz r - vz q]
                    | _ => UB
                    end)
      :: ([req "direction" (TObj d)],
          fun vs => match vs with
                    | [VObj (GDirection1 x)] => mk [x]
                    | [VObj (GDirection2 x y)] => mk [x; y]
                    | [VObj (GDirection u)] => mk [vx u; vy u; vz u]
                    | _ => UB
                    end)
      :: r
  | [] => []
  end.
Definition py_vector1 args kw := call (vector_table 1 CPoint1 CDirection1 (mk1 GVector1)) args kw.
Definition py_vector2 args kw := call (vector_table 2 CPoint2 CDirection2 (mk2 GVector2)) args kw.
Definition py_vector3 args kw := call (vector_table 3 CPoint CDirection (mk3 GVector)) args kw.

(** python/geometry/direction.hh:45-46; direction.hh: the vector is divided by its length.  The
    default constructor leaves the coordinates at zero. *)
Definition py_direction1 args kw : outcome (geo A S) :=
  call [ ([], fun _ => Ok (GDirection1 n0));
         ([req "vector" (TObj CVector1)],
          fun vs => match vs with [VObj (GVector1 x)] => Ok (GDirection1 (x / nsqrt (n0 + x * x))) | _ => UB end) ] args kw.
Definition py_direction2 args kw : outcome (geo A S) :=
  call [ ([], fun _ => Ok (GDirection2 n0 n0));
         ([req "vector" (TObj CVector2)],
          fun vs => match vs with
                    | [VObj (GVector2 x y)] => let l := nsqrt (n0 + x * x + y * y) in Ok (GDirection2 (x / l) (y / l))
                    | _ => UB end) ] args kw.
Definition py_direction3 args kw : outcome (geo A S) :=
  call [ ([], fun _ => Ok (GDirection (mkV3 n0 n0 n0)));
         ([req "vector" (TObj CVector)],
          fun vs => match vs with [VObj (GVector v)] => Ok (GDirection (to_dir v)) | _ => UB end) ] args kw.
(** python/geometry/circle.hh:53-54 *)
Definition py_circle3 args kw : outcome (geo A S) :=
  call [ ([req "center" (TObj CPoint); req "normal" (TObj CDirection); req "radius" TNum],
          fun vs => match vs with
                    | [VObj (GPoint c); VObj (GDirection n); VNum r] => Ok (GCircle (make_circle c n r))
                    | _ => UB end) ] args kw.

(** the property worldDimension *)
Definition world_dimension (v : pyval A S) : option nat :=
  match v with
  | PObj (GPoint1 _) | PObj (GVector1 _) | PObj (GDirection1 _) => Some 1
  | PObj (GPoint2 _ _) | PObj (GVector2 _ _) | PObj (GDirection2 _ _) => Some 2
  | PObj _ => Some 3
  | _ => None
  end%nat.

(** __init__.py:14-36: Point(...).  "raise Exception" is modelled as RuntimeError, the IndexError
    of args[0] as OutOfRange. *)
Definition py_point (args : list (pyval A S)) kw : outcome (geo A S) :=
  match (length args + length kw)%nat with
  | 0 => Throw RuntimeError
  | 1 => match args with
         | [] => Throw OutOfRange
         | PList l :: _ => match length l with
                           | 1 => py_point1 args kw
                           | 2 => py_point2 args kw
                           | _ => py_point3 args kw
                           end
         | _ => py_point1 args kw
         end
  | 2 => py_point2 args kw
  | _ => py_point3 args kw
  end%nat.

(** __init__.py:47-50: makeVector *)
Definition make_vector (dim : nat) args kw : outcome (geo A S) :=
  match dim with
  | 1 => py_vector1 args kw
  | 2 => py_vector2 args kw
  | _ => py_vector3 args kw
  end%nat.
(** __init__.py:39-69: Vector(...) *)
Definition py_vector (args : list (pyval A S)) kw : outcome (geo A S) :=
  let num := (length args + length kw)%nat in
  match num with
  | 0 => Throw RuntimeError
  | 1 => match args with
         | [] => Throw OutOfRange
         | PList l :: _ => make_vector (length l) args kw
         | v :: _ => match world_dimension v with
                     | Some d => make_vector d args kw
                     | None => Throw RuntimeError
                     end
         end
  | 2 => match args with
         | v :: _ => match world_dimension v with
                     | Some d => make_vector d args kw
                     | None => make_vector num args kw
                     end
         | [] => make_vector num args kw
         end
  | _ => make_vector num args kw
  end%nat.

(** __init__.py:73-81: Direction(...); the IndexError of args[0] is caught *)
Definition py_direction (args : list (pyval A S)) kw : outcome (geo A S) :=
  if negb (Nat.eqb (length args + length kw) 1) then Throw RuntimeError
  else match args with
       | [] => Throw RuntimeError
       | v :: _ => match world_dimension v with
                   | None => Throw RuntimeError
                   | Some 1 => py_direction1 args kw
                   | Some 2 => py_direction2 args kw
                   | Some _ => py_direction3 args kw
                   end
       end%nat.

(** __init__.py:86-94: Circle(...); NotImplementedError is a RuntimeError *)
Definition py_circle (args : list (pyval A S)) kw : outcome (geo A S) :=
  if negb (Nat.eqb (length args + length kw) 3) then Throw RuntimeError
  else match args with
       | [] => Throw RuntimeError
       | v :: _ => match world_dimension v with
                   | None | Some 1 | Some 2 => Throw RuntimeError
                   | Some _ => py_circle3 args kw
                   end
       end%nat.

End Constructors.
End PyBind.
