(** C102: distances of geometries and shapes to boundaries. *)

From Coq Require Import Reals List.
From Verif Require Import Base NumModel VecModel LinModel RoundModel PolyModel IntModel DistModel BndModel GeoSpec LinSpec RoundSpec PolySpec
  DistSpec IntSpec EvalSpec BndSpec BndProofs BndExamples.
Import ListNotations.
Local Open Scope R_scope.

(** The distance of a shape to the boundary of a disk, quadrilateral, polygon or face without holes
    is the smallest distance of their points, *)
Theorem c102_shape_partial : forall (H G : Type) (O : bnd_ops R H G) (pts outer whole : H -> pt -> Prop) top h (t : target R H G) d,
  computes O pts outer h t -> unpierced outer whole t ->
  set_dist (pts h) (target_bound whole t) d -> d <= top ->
  match t with
  | TDisk _ | TQuad _ | TPoly _ | TFace _ => shape_to_boundary top O h t = Some (Ok d)
  | TSurf _ | TSolid _ | TOther _ => shape_to_boundary top O h t = None
  end.
Proof. exact @shape_bound. Qed.
Print Assumptions c102_shape_partial.

(** and so is the distance of a geometry to the boundary of a disk, cylinder surface, face without
    holes or solid without cavities; for quadrilaterals and polygons an error is raised. *)
Theorem c102_geometry_partial : forall (H G : Type) (O : bnd_ops R H G) (pts outer whole : H -> pt -> Prop) g (t : target R H G) d,
  computes O pts outer (bo_geo O g) t -> unpierced outer whole t ->
  set_dist (pts (bo_geo O g)) (target_bound whole t) d ->
  match t with
  | TDisk _ | TSurf _ | TFace _ | TSolid _ => geo_to_boundary O g t = Ok d
  | TQuad _ | TPoly _ | TOther _ => geo_to_boundary O g t = Throw RuntimeError
  end.
Proof. exact @geo_bound. Qed.
Print Assumptions c102_geometry_partial.

(** If OpenCascade cannot compute a distance, an error is raised and no number returned. *)
Theorem c102_failure : forall (H G : Type) (O : bnd_ops R H G) top h (t : target R H G),
  (forall h', bo_dist O h h' = Throw RuntimeError) ->
  match t with
  | TDisk _ | TFace _ | TQuad _ => shape_to_boundary top O h t = Some (Throw RuntimeError)
  | TPoly p => (exists cs, make_poly cs = Ok p) -> shape_to_boundary top O h t = Some (Throw RuntimeError)
  | TSurf _ | TSolid _ | TOther _ => shape_to_boundary top O h t = None
  end /\
  forall g, bo_geo O g = h -> geo_to_boundary O g t = Throw RuntimeError.
Proof. exact @gives_up. Qed.
Print Assumptions c102_failure.

(** The shape of a rod is at the distance 3 from the boundary of a square; for the rod itself the
    same function raises an error. *)
Theorem c102_quadrilateral_refuted :
  computes kern pts_of outer_of Rod (TQuad sq) /\ set_dist (pts_of Rod) (edge_set (FQuad sq)) 3 /\
  forall top, 3 <= top -> shape_to_boundary top kern (bo_geo kern GRod) (TQuad sq) = Some (Ok 3) /\
    geo_to_boundary kern GRod (TQuad sq) = Throw RuntimeError.
Proof. exact (conj sq_computes (conj sq_dist sq_lemma)). Qed.
Print Assumptions c102_quadrilateral_refuted.

(** A point in a hollow ball is 1/2 away from its boundary, the computed distance is 5/2; *)
Theorem c102_cavity_refuted :
  computes kern pts_of outer_of (bo_geo kern GSpot) (TSolid Hollow) /\
  set_dist (pts_of (bo_geo kern GSpot)) (target_bound (G:=geom) whole_of (TSolid Hollow)) (1 / 2) /\
  geo_to_boundary kern GSpot (TSolid Hollow) = Ok (5 / 2).
Proof. exact hollow_lemma. Qed.
Print Assumptions c102_cavity_refuted.

(** the same in a plate with a hole. *)
Theorem c102_hole_refuted :
  computes kern pts_of outer_of (bo_geo kern GSpot) (TFace Plate) /\
  set_dist (pts_of (bo_geo kern GSpot)) (target_bound (G:=geom) whole_of (TFace Plate)) (1 / 2) /\
  geo_to_boundary kern GSpot (TFace Plate) = Ok (5 / 2).
Proof. exact plate_lemma. Qed.
Print Assumptions c102_hole_refuted.

(** The hypotheses hold for a point in a solid ball, and for the rod above. *)
Example c102_case : computes kern pts_of outer_of Spot (TSolid Ball) /\ unpierced (G:=geom) outer_of whole_of (TSolid Ball) /\
  set_dist (eq spot) (whole_of Ball) (5 / 2).
Proof. exact ball_computes. Qed.
