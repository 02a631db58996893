(** The constraints of EntityNetworkConstraints (ConstraintsModel) if face shapes of OpenCascade
    (TopoDS_Face) are among the entities, e.g. the faces of a domain: which functions the templates
    of /repo/frackit/entitynetwork/constraints.hh select.  Paths are relative to /repo/frackit. *)

From Coq Require Import ZArith List Bool.
From Verif Require Import Base ConstraintsModel.
From Verif Require Import NumModel VecModel LinModel RoundModel PolyModel DistModel IntModel AngModel CylIntModel EvalModel FaceFaceModel.
Import ListNotations.
Local Open Scope num_scope.

(** A geometry of the library or a face shape. *)
Inductive sent (A F : Type) := SGeo (g : ent A) | SShape (f : F).
Arguments SGeo {A F} _.
Arguments SShape {A F} _.

(** What is computed by OpenCascade *)
Record shape_ops (A F E W : Type) := mkShapeOps {
  so_ent : ent_ops A;                                (* for geometries of the library *)
  so_shapes : shape_kernel A F E W;                  (* intersections of face shapes *)
  so_face : face A -> F;                             (* occ/breputilities.hh: getShape *)
  so_surf : cyl A -> F;
  so_surf_box : cyl A -> box A;                      (* getBoundingBox *)
  so_surface : F -> surface A;                       (* occ/geomutilities.hh:109-110, with projections *)
  so_curve : E -> curve A;                           (* occ/geomutilities.hh:95-103 *)
  so_first : E -> V3 A;                              (* TopExp::FirstVertex, LastVertex *)
  so_last : E -> V3 A;
  so_length : E -> outcome A;                        (* magnitude/length.hh:62-77 *)
  so_area : F -> outcome A;                          (* magnitude/area.hh *)
  so_outer : F -> W;                                 (* BRepTools::OuterWire *)
  so_wire_box : W -> box A;                          (* getBoundingBox *)
  so_dist : F -> F -> outcome A;                     (* distance/distance.hh:68-79 *)
  so_point_wire : V3 A -> W -> outcome A;            (* the same, a point and a wire *)
  so_ellipse_wire : ell A -> W -> outcome A;         (* the same, an ellipse and a wire *)
}.
Arguments so_ent {A F E W} _.
Arguments so_shapes {A F E W} _.
Arguments so_face {A F E W} _ _.
Arguments so_surf {A F E W} _ _.
Arguments so_surf_box {A F E W} _ _.
Arguments so_surface {A F E W} _ _.
Arguments so_curve {A F E W} _ _.
Arguments so_first {A F E W} _ _.
Arguments so_last {A F E W} _ _.
Arguments so_length {A F E W} _ _.
Arguments so_area {A F E W} _ _.
Arguments so_outer {A F E W} _ _.
Arguments so_wire_box {A F E W} _ _.
Arguments so_dist {A F E W} _ _ _.
Arguments so_point_wire {A F E W} _ _ _.
Arguments so_ellipse_wire {A F E W} _ _ _.

Section ShEval.
Context {A : Type} `{Num A} `{Trig A} {F E W : Type}.
(** std::numeric_limits<ctype>::max() *)
Variable top : A.
Variable S : shape_ops A F E W.

Definition sh_piece : Type := piece (V3 A) (arc A) (ell A) E F (sent A F).

(** intersection/intersectiontraits.hh:278-333: the alternatives of the variants *)
Definition of_spiece (i : spiece A F E) : sh_piece :=
  match i with SpEmpty => PEmpty | SpPoint p => PPoint p | SpEdge e => PEdge e | SpFace f => PFace f end.
Definition of_ent_piece (i : @ent_piece A) : sh_piece :=
  match i with
  | PEmpty => PEmpty
  | PPoint p => PPoint p
  | PSegment s t => PSegment s t
  | PArc a => PArc a
  | PEllipse e => PEllipse e
  | PEdge e => match e with end
  | PFace f => match f with end
  | PFull g => PFull (SGeo g)
  end.
(** the pieces of two geometries of the library have no edges and faces of shapes *)
Definition to_ent_piece (i : sh_piece) : @ent_piece A :=
  match i with
  | PPoint p => PPoint p
  | PSegment s t => PSegment s t
  | PArc a => PArc a
  | PEllipse e => PEllipse e
  | PFull (SGeo g) => PFull g
  | _ => PEmpty
  end.

(** precision/defaultepsilon.hh:151-157: the diagonal of the bounding box *)
Definition eps_box (b : box A) : A := seg_len (mkSeg (b_min b) (b_max b)) * confusion.
(** precision/defaultepsilon.hh:91-126 and the above *)
Definition sh_eps (g : sent A F) : outcome A :=
  match g with
  | SGeo g => ent_eps g
  | SShape f => Ok (eps_box (sk_box (so_shapes S) f))
  end.

(** intersection/intersect.hh:202-380 (EvalModel), 390-498 *)
Definition sh_intersect_eps (g1 g2 : sent A F) (eps : A) : outcome (list sh_piece) :=
  match g1, g2 with
  | SGeo g1, SGeo g2 => obind (ent_intersect_eps (so_ent S) g1 g2 eps) (fun is => Ok (map of_ent_piece is))
  | SGeo (EFace f), SShape s | SShape s, SGeo (EFace f) =>
      Ok (map of_spiece (int_geo_face (so_shapes S) (so_face S) f s eps))
  | SGeo (ESurf c), SShape s | SShape s, SGeo (ESurf c) =>
      Ok (map of_spiece (int_surf_face (so_shapes S) (so_surf S) (so_surf_box S) c s eps))
  | SShape s1, SShape s2 => Ok (map of_spiece (int_face_face (so_shapes S) s1 s2 eps))
  end.
(** intersection/intersect.hh:507-514 *)
Definition sh_intersect (eps : option A) (g1 g2 : sent A F) : outcome (list sh_piece) :=
  match eps with
  | Some eps => sh_intersect_eps g1 g2 eps
  | None =>
      obind (sh_eps g1) (fun eps1 => obind (sh_eps g2) (fun eps2 =>
      sh_intersect_eps g1 g2 (nmin eps1 eps2)))
  end.

(** intersection/intersectionangle.hh:317-356, 365-462, 471-535 *)
Definition sh_ageo (g : sent A F) : ageo A :=
  match g with SGeo g => ent_ageo g | SShape f => GShape (so_surface S f) end.
Definition sh_apiece (i : sh_piece) : apiece A :=
  match i with
  | PEdge e => PcEdge (so_curve S e)
  | PFace _ => PcFace
  | PPoint p => PcPoint p
  | _ => PcEmpty
  end.
Definition sh_angle (g1 g2 : sent A F) (is : list sh_piece) : outcome A :=
  match g1, g2 with
  | SGeo g1, SGeo g2 => ent_angle top g1 g2 (map to_ent_piece is)
  | _, _ => int_angles top (sh_ageo g1) (sh_ageo g2) (map sh_apiece is)
  end.

(** magnitude/magnitude.hh:48-78, length.hh, area.hh *)
Definition sh_magnitude (i : sh_piece) : outcome A :=
  match i with
  | PEdge e => so_length S e
  | PFace f => so_area S f
  | _ => ent_magnitude (so_ent S) (to_ent_piece i)
  end.

(** distance/pointonboundary.hh:136-146: the tolerance that is passed is not used, the one of
    pointongeometry.hh:74-76 for the outer wire is; distance/pointongeometry.hh:60-65 *)
Definition on_shape_boundary (p : V3 A) (f : F) (eps : A) : outcome bool :=
  obind (so_point_wire S p (so_outer S f)) (fun d => Ok (d <? eps_box (so_wire_box S (so_outer S f)))).
(** distance/pointonboundary.hh:155-157 *)
Definition sh_on_boundary (p : V3 A) (g : sent A F) : outcome bool :=
  match g with
  | SGeo g => ent_on_boundary (so_ent S) p g
  | SShape f => on_shape_boundary p f (eps_box (sk_box (so_shapes S) f))
  end.

(** distance/distancetoboundary.hh:312-327: the outer wire, for points *)
Definition sh_dist_boundary (p : V3 A) (g : sent A F) : outcome A :=
  match g with
  | SGeo g => ent_dist_boundary top (so_ent S) p g
  | SShape f => so_point_wire S p (so_outer S f)
  end.
(** the same, for ellipses *)
Definition sh_ellipse_boundary (e : ell A) (g : sent A F) : outcome A :=
  match g with
  | SGeo g => ent_ellipse_boundary (so_ent S) e g
  | SShape f => so_ellipse_wire S e (so_outer S f)
  end.

(** distance/distance.hh:68-79, 97-110, 119-145 *)
Definition sh_shape (g : sent A F) : F :=
  match g with SGeo (EFace f) => so_face S f | SGeo (ESurf c) => so_surf S c | SShape f => f end.
Definition sh_distance (g1 g2 : sent A F) : outcome A :=
  match g1, g2 with
  | SGeo g1, SGeo g2 => eo_dist (so_ent S) g1 g2
  | _, _ => so_dist S (sh_shape g1) (sh_shape g2)
  end.

(** geometry/dimension.hh: faces have dimension 2 *)
Definition sh_kernel : ConstraintsModel.kernel A (sent A F) (V3 A) (arc A) (ell A) E F :=
  ConstraintsModel.mkKernel sh_intersect sh_distance sh_angle sh_magnitude
    sh_on_boundary sh_dist_boundary sh_ellipse_boundary
    (fun a i => arc_point a (nlit (Z.of_nat i) 4)) a_src a_tgt (so_first S) (so_last S)
    (fun _ => 2%Z).

(** entitynetwork/constraints.hh:216-217, 274-317: evaluate(geo1, geo2) *)
Definition sh_evaluate (c : constraints A) (g1 g2 : sent A F) : outcome bool :=
  evaluate (fun x y => x <? y) (fun x y => y <=? x) sh_kernel c g1 g2.

End ShEval.
