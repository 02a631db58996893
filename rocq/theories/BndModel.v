(** Distances of shapes and geometries to the boundaries of geometries: the functions of
    /repo/frackit/distance/distancetoboundary.hh that call OpenCascade.  Distances of points to
    quadrilaterals, polygons and boxes are in DistModel. *)

From Coq Require Import ZArith List Bool.
From Verif Require Import Base NumModel VecModel LinModel RoundModel PolyModel DistModel.
Import ListNotations.
Local Open Scope num_scope.

(** Shapes of OpenCascade: H are shapes (TopoDS_Shape), G the geometries of the library *)
Record bnd_ops (A H G : Type) := mkBndOps {
  bo_dist : H -> H -> outcome A;          (* distance.hh:66-79: computeDistance(shape1, shape2) *)
  bo_geo : G -> H;                        (* occ/breputilities.hh:147-349: getShape of a geometry *)
  bo_segment : segment A -> H;            (* breputilities.hh:168-173: getShape of a segment *)
  bo_ellipse : ell A -> H;                (* breputilities.hh:219-248: getShape of ellipses and circles *)
  bo_wire : H -> H;                       (* BRepTools::OuterWire *)
  bo_shell : H -> H;                      (* BRepClass3d::OuterShell *)
}.
Arguments bo_dist {A H G} _ _ _.
Arguments bo_geo {A H G} _ _.
Arguments bo_segment {A H G} _ _.
Arguments bo_ellipse {A H G} _ _.
Arguments bo_wire {A H G} _ _.
Arguments bo_shell {A H G} _ _.

Section Bnd.
Context {A H G : Type} `{Num A}.
Variable top : A.
Variable O : bnd_ops A H G.

(** The second argument: geometries, face shapes, solids, anything else *)
Inductive target :=
| TDisk (d : ell A) | TQuad (q : quad A) | TPoly (p : poly A) | TSurf (c : cyl A)
| TFace (f : H) | TSolid (s : H) | TOther (g : G).

(** distancetoboundary.hh:91-105: geometry and disk; 180-200: geometry and cylinder surface;
    312-327: geometry and face; 338-354: geometry and solid; 66-79: all other pairs of geometries
    (it throws; it is chosen for quadrilaterals and polygons, unless the geometry is a point and no
    deflection is passed).  The optional arguments (deflection, flag and algorithm of OpenCascade)
    are those of bo_dist. *)
Definition geo_to_boundary (g : G) (t : target) : outcome A :=
  match t with
  | TDisk d => bo_dist O (bo_geo O g) (bo_ellipse O (disk_ellipse d))
  | TSurf c =>
      obind (bo_dist O (bo_geo O g) (bo_ellipse O (c_bot c))) (fun d1 =>
      obind (bo_dist O (bo_geo O g) (bo_ellipse O (c_top c))) (fun d2 => Ok (nmin d1 d2)))
  | TFace f => bo_dist O (bo_geo O g) (bo_wire O f)
  | TSolid s => bo_dist O (bo_geo O g) (bo_shell O s)
  | TQuad _ | TPoly _ | TOther _ => Throw RuntimeError
  end.

(** distancetoboundary.hh:260-277, 286-303: the minimum over the edges *)
Definition edges_to (h : H) (n : nat) (edge : nat -> outcome (segment A)) : outcome A :=
  fold_left (fun m i => obind m (fun m => obind (edge i) (fun e =>
    obind (bo_dist O h (bo_segment O e)) (fun d => Ok (nmin m d))))) (seq 0 n) (Ok top).

(** distancetoboundary.hh:211-224: shape and disk; 237-250: shape and face; 260-277, 286-303.
    There is no function for shapes and cylinder surfaces, solids or other geometries: such calls
    do not compile (None). *)
Definition shape_to_boundary (h : H) (t : target) : option (outcome A) :=
  match t with
  | TDisk d => Some (bo_dist O h (bo_ellipse O (disk_ellipse d)))
  | TFace f => Some (bo_dist O h (bo_wire O f))
  | TQuad q => Some (edges_to h 4 (quad_edge q))
  | TPoly p => Some (edges_to h (length (po_cs p)) (poly_edge p))
  | TSurf _ | TSolid _ | TOther _ => None
  end.
End Bnd.
Arguments target A H G : clear implicits.
