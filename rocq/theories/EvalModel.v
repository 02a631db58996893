(** The constraints of EntityNetworkConstraints (ConstraintsModel) on disks, quadrilaterals,
    polygons and lateral cylinder surfaces: which functions the templates of
    /repo/frackit/entitynetwork/constraints.hh select for these geometries. *)

From Coq Require Import ZArith List Bool.
From Verif Require Import Base ConstraintsModel.
From Verif Require Import NumModel VecModel LinModel RoundModel PolyModel DistModel IntModel AngModel CylIntModel.
Import ListNotations.
Local Open Scope num_scope.

(** The geometries for which the constraints are evaluated here. *)
Inductive ent (A : Type) := EFace (f : face A) | ESurf (c : cyl A).
Arguments EFace {A} _.
Arguments ESurf {A} _.

(** What is computed by OpenCascade *)
Record ent_ops (A : Type) := mkEntOps {
  eo_int : IntModel.kernel A;                        (* intersections of faces *)
  eo_cyl : cyl_kernel A;                             (* of cylinder surfaces and faces *)
  eo_dist : ent A -> ent A -> outcome A;             (* distance/distance.hh:68-79, 97-110 *)
  eo_point_curve : V3 A -> ell A -> outcome A;       (* the same, a point and an ellipse or circle *)
  eo_curve_curve : ell A -> ell A -> outcome A;      (* the same, two ellipses or circles *)
  eo_arc_length : arc A -> outcome A;                (* magnitude/length.hh:62-69, 112-118 *)
}.
Arguments eo_int {A} _.
Arguments eo_cyl {A} _.
Arguments eo_dist {A} _ _ _.
Arguments eo_point_curve {A} _ _ _.
Arguments eo_curve_curve {A} _ _ _.
Arguments eo_arc_length {A} _ _.

Section Eval.
Context {A : Type} `{Num A} `{Trig A}.
(** std::numeric_limits<ctype>::max() *)
Variable top : A.
Variable O : ent_ops A.

(** Edges and faces of shapes do not occur in the intersections of these geometries. *)
Definition ent_piece : Type := piece (V3 A) (arc A) (ell A) Empty_set Empty_set (ent A).

(** intersection/intersectiontraits.hh:150-276: the alternatives of the variants as pieces; lines,
    planes, edges and faces of shapes are not among the alternatives for these geometries *)
Definition of_isect (g : ent A) (i : isect A) : ent_piece :=
  match i with
  | IsEmpty => PEmpty
  | IsPoint p => PPoint p
  | IsSeg s => PSegment (s_src s) (s_tgt s)
  | IsLine _ | IsPlane _ => PFull g
  end.
Definition of_apiece (g : ent A) (i : apiece A) : ent_piece :=
  match i with
  | PcEmpty => PEmpty
  | PcPoint p => PPoint p
  | PcSeg s => PSegment (s_src s) (s_tgt s)
  | PcArc a => PArc a
  | PcEll e => PEllipse e
  | PcLine _ | PcEdge _ | PcFace => PFull g
  end.
Definition to_apiece (i : ent_piece) : apiece A :=
  match i with
  | PEmpty => PcEmpty
  | PPoint p => PcPoint p
  | PSegment s t => PcSeg (mkSeg s t)
  | PArc a => PcArc a
  | PEllipse e => PcEll e
  | PEdge e => match e with end
  | PFace f => match f with end
  | PFull _ => PcFace
  end.

(** precision/defaultepsilon.hh:91-126 *)
Definition ent_eps (g : ent A) : outcome A :=
  match g with
  | EFace (FDisk d) => Ok (eps_disk d)
  | EFace (FQuad q) => Ok (eps_quad q)
  | EFace (FPoly p) => eps_poly p
  | ESurf c => Ok (eps_surf c)
  end.

(** intersection/intersect.hh:81-92 (not implemented), 202-380 *)
Definition ent_intersect_eps (g1 g2 : ent A) (eps : A) : outcome (list ent_piece) :=
  match g1, g2 with
  | EFace f1, EFace f2 => obind (int_faces (eo_int O) f1 f2 eps) (fun i => Ok [of_isect g1 i])
  | EFace f, ESurf c | ESurf c, EFace f =>
      obind (int_cyl_face (eo_int O) (eo_cyl O) c f eps) (fun is => Ok (map (of_apiece g1) is))
  | ESurf _, ESurf _ => Throw RuntimeError
  end.
(** intersection/intersect.hh:507-514: the default tolerance is the smaller one *)
Definition ent_intersect (eps : option A) (g1 g2 : ent A) : outcome (list ent_piece) :=
  match eps with
  | Some eps => ent_intersect_eps g1 g2 eps
  | None =>
      obind (ent_eps g1) (fun eps1 => obind (ent_eps g2) (fun eps2 =>
      ent_intersect_eps g1 g2 (nmin eps1 eps2)))
  end.

(** intersection/intersectionangle.hh:139-309, 513-535: the result for two faces is a
    variant, the one for a cylinder surface and a face is a vector of variants *)
Definition ent_ageo (g : ent A) : ageo A := match g with EFace f => GFace f | ESurf c => GSurf c end.
Definition ent_angle (g1 g2 : ent A) (is : list ent_piece) : outcome A :=
  match g1, g2, is with
  | EFace f1, EFace f2, [i] => int_angle top (GFace f1) (GFace f2) (to_apiece i)
  | EFace _, EFace _, _ => Throw RuntimeError
  | _, _, _ => int_angles top (ent_ageo g1) (ent_ageo g2) (map to_apiece is)
  end.

(** magnitude/magnitude.hh:56-58, magnitude/length.hh:54-56, 104-106, 112-118 *)
Definition ent_magnitude (i : ent_piece) : outcome A :=
  match i with
  | PSegment s t => Ok (length_segment (mkSeg s t))
  | PArc a => eo_arc_length O a
  | PEllipse e => Ok (length_ellipse e)
  | _ => Throw RuntimeError
  end.

(** distance/pointongeometry.hh:60-65 for ellipses *)
Definition on_curve (p : V3 A) (e : ell A) (eps : A) : outcome bool :=
  obind (eo_point_curve O p e) (fun d => Ok (d <? eps)).

(** distance/pointonboundary.hh:74-78, 88-116 (DistModel), 125-133, 155-157 *)
Definition ent_on_boundary (p : V3 A) (g : ent A) : outcome bool :=
  match g with
  | EFace (FDisk d) => on_curve p (disk_ellipse d) (eps_disk d)
  | EFace (FQuad q) => on_quad_boundary_default p q
  | EFace (FPoly pg) => on_poly_boundary_default p pg
  | ESurf c =>
      obind (on_curve p (c_top c) (eps_surf c)) (fun b : bool =>
      if b then Ok true else on_curve p (c_bot c) (eps_surf c))
  end.

(** distance/distancetoboundary.hh:91-105, 114-147 (DistModel), 180-200, for points *)
Definition ent_dist_boundary (p : V3 A) (g : ent A) : outcome A :=
  match g with
  | EFace (FDisk d) => eo_point_curve O p (disk_ellipse d)
  | EFace (FQuad q) => dist_quad_boundary top p q
  | EFace (FPoly pg) => dist_poly_boundary top p pg
  | ESurf c =>
      obind (eo_point_curve O p (c_bot c)) (fun d1 =>
      obind (eo_point_curve O p (c_top c)) (fun d2 => Ok (nmin d1 d2)))
  end.

(** distance/distancetoboundary.hh:66-79, 91-105, 180-200, for ellipses: there is no overload for
    quadrilaterals and polygons, the generic function throws *)
Definition ent_ellipse_boundary (e : ell A) (g : ent A) : outcome A :=
  match g with
  | EFace (FDisk d) => eo_curve_curve O e (disk_ellipse d)
  | EFace (FQuad _) | EFace (FPoly _) => Throw RuntimeError
  | ESurf c =>
      obind (eo_curve_curve O e (c_bot c)) (fun d1 =>
      obind (eo_curve_curve O e (c_top c)) (fun d2 => Ok (nmin d1 d2)))
  end.

(** The functions of constraints.hh for these geometries.  The fourth parameters of
    constraints_impl/distancetoboundary.hh:128 are 0, 1/4, ..., 1. *)
Definition ent_kernel : ConstraintsModel.kernel A (ent A) (V3 A) (arc A) (ell A) Empty_set Empty_set :=
  ConstraintsModel.mkKernel ent_intersect (eo_dist O) ent_angle ent_magnitude
    ent_on_boundary ent_dist_boundary ent_ellipse_boundary
    (fun a i => arc_point a (nlit (Z.of_nat i) 4)) a_src a_tgt
    (fun e : Empty_set => match e with end) (fun e : Empty_set => match e with end)
    (fun _ => 2%Z).

(** entitynetwork/constraints.hh:216-217, 274-317: evaluate(geo1, geo2) *)
Definition ent_evaluate (c : constraints A) (g1 g2 : ent A) : outcome bool :=
  evaluate (fun x y => x <? y) (fun x y => y <=? x) ent_kernel c g1 g2.

End Eval.
