(** C62: intersection angles. *)

From Coq Require PrimFloat.
From Coq Require Import Reals Lra List.
From Verif Require Import Base NumModel VecModel LinModel RoundModel PolyModel DistModel IntModel AngModel
  GeoSpec LinSpec RoundSpec AngSpec AngProofs AngProofs2 AngExamples.
Import ListNotations.
Local Open Scope R_scope.

(** The angle of two planes is the acute angle between their normals; measured in the planes it
    is the angle between the directions perpendicular to the common line. *)
Theorem c62_planes : forall p1 p2 : plane R, unit3 (pl_n p1) -> unit3 (pl_n p2) ->
  forall top l, exists theta, int_angle top (GPlane p1) (GPlane p2) (PcLine l) = Ok theta /\
    0 <= theta <= PI / 2 /\
    angle_between (pl_n p1) (pl_n p2) theta /\ dihedral (pl_n p1) (pl_n p2) theta /\
    (theta = 0 <-> pl_n p1 = pl_n p2 \/ pl_n p1 = pscale (-1) (pl_n p2)) /\
    (theta = PI / 2 <-> ortho (pl_n p1) (pl_n p2)).
Proof. exact planes_angle. Qed.
Print Assumptions c62_planes.

Example c62_planes_case : let p := plane_pn (mkV3 0 0 0) (mkV3 0 0 1) : plane R in
  let q := plane_pn (mkV3 0 0 0) (mkV3 (3/5) 0 (4/5)) in
  unit3 (pl_n p) /\ unit3 (pl_n q) /\ cos (plane_angle p q) = 4 / 5.
Proof. exact plane_case. Qed.

(** It depends neither on the orientation of the normals nor on the support points and bases. *)
Theorem c62_orientation : forall (p1 p2 : plane R) s1 s2 b1 b2 n1 n2 q1 q2,
  Rabs s1 = 1 -> Rabs s2 = 1 -> n1 = pscale s1 (pl_n p1) -> n2 = pscale s2 (pl_n p2) ->
  plane_angle (mkPlane q1 (fst b1) (snd b1) n1) (mkPlane q2 (fst b2) (snd b2) n2) = plane_angle p1 p2.
Proof. exact plane_angle_flip. Qed.
Print Assumptions c62_orientation.

(** The order of the two geometries does not matter, for any kind of intersection. *)
Theorem c62_symmetric : forall top (g1 g2 : ageo R) i, int_angle top g1 g2 i = int_angle top g2 g1 i.
Proof. exact int_angle_sym. Qed.
Print Assumptions c62_symmetric.
Theorem c62_symmetric_pieces : forall top (g1 g2 : ageo R) is, int_angles top g1 g2 is = int_angles top g2 g1 is.
Proof. exact int_angles_sym. Qed.
Print Assumptions c62_symmetric_pieces.

(** Two planar geometries that meet in a point or a segment: the angle of their planes. *)
Theorem c62_faces : forall top (f1 f2 : face R) i, face_dir_ok f1 -> face_dir_ok f2 ->
  (exists p, i = PcPoint p) \/ (exists s, i = PcSeg s) ->
  exists theta, int_angle top (GFace f1) (GFace f2) i = Ok theta /\
    angle_between (face_normal f1) (face_normal f2) theta /\
    dihedral (face_normal f1) (face_normal f2) theta.
Proof. exact faces_angle. Qed.
Print Assumptions c62_faces.
Example c62_faces_case : face_dir_ok cut_face /\ face_normal cut_face = mkV3 sq2 0 sq2.
Proof. split; apply cut_face_ok. Qed.

(** A planar geometry and a cylinder surface: the angle with the tangent plane at the point ... *)
Theorem c62_surface_point : forall top (f : face R) c p, face_dir_ok f -> surf_ok c -> cyl_lateral_set c p ->
  exists theta, int_angle top (GFace f) (GSurf c) (PcPoint p) = Ok theta /\ angle_at (face_normal f) c p theta.
Proof. exact surf_point_angle. Qed.
Print Assumptions c62_surface_point.
Example c62_surface_point_case : surf_ok tube /\ cyl_lateral_set tube (mkV3 1 0 4).
Proof. split; [exact tube_ok|exact point_case]. Qed.

(** ... along a segment of the surface, where it is the same at every point, ... *)
Theorem c62_surface_segment : forall top (f : face R) c s, face_dir_ok f -> surf_ok c ->
  cyl_lateral_set c (s_src s) -> on_line (s_src s) (e_n (c_bot c)) (s_tgt s) ->
  exists theta, int_angle top (GFace f) (GSurf c) (PcSeg s) = Ok theta /\
    forall p, on_segment (s_src s) (s_tgt s) p -> angle_at (face_normal f) c p theta.
Proof. exact surf_segment_angle. Qed.
Print Assumptions c62_surface_segment.
Example c62_surface_segment_case : let s := mkSeg (mkV3 1 0 4) (mkV3 1 0 6) in
  cyl_lateral_set tube (s_src s) /\ on_line (s_src s) (e_n (c_bot tube)) (s_tgt s).
Proof. exact segment_case. Qed.

(** ... and the smallest angle along an ellipse of the surface: sampling loses nothing. *)
Theorem c62_surface_ellipse : forall top (f : face R) c e, PI / 2 <= top -> face_dir_ok f -> surf_ok c -> ell_ok e ->
  face_normal f = e_n e \/ face_normal f = pscale (-1) (e_n e) ->
  (forall p, on_ellipse e p -> cyl_lateral_set c p) ->
  exists theta, int_angle top (GFace f) (GSurf c) (PcEll e) = Ok theta /\
    smallest_angle (face_normal f) c (on_ellipse e) theta.
Proof. exact surf_ellipse_angle. Qed.
Print Assumptions c62_surface_ellipse.
Example c62_surface_ellipse_case : face_dir_ok cut_face /\ surf_ok tube /\ ell_ok cut_ell /\
  face_normal cut_face = e_n cut_ell /\ (forall p, on_ellipse cut_ell p -> cyl_lateral_set tube p) /\
  int_angle 100 (GFace cut_face) (GSurf tube) (PcEll cut_ell) = Ok (PI / 4).
Proof. exact ellipse_case. Qed.

(** For an arc it is the smallest of the angles at five points (missing: at all points, which is
    false, see below). *)
Theorem c62_surface_arc_partial : forall top (f : face R) c (a : arc R), PI / 2 <= top -> face_dir_ok f -> surf_ok c ->
  ell_ok (a_ell a) ->
  (forall tau, 0 <= tau <= 1 -> cyl_lateral_set c (arc_at (a_ell a) (a_s a) (a_t a) tau)) ->
  exists theta, int_angle top (GFace f) (GSurf c) (PcArc a) = Ok theta /\
    smallest_angle (face_normal f) c
      (fun p => exists tau, In tau [0; 1 / 4; 1 / 2; 3 / 4; 1] /\ p = arc_at (a_ell a) (a_s a) (a_t a) tau) theta.
Proof. exact surf_arc_angle. Qed.
Print Assumptions c62_surface_arc_partial.
Example c62_surface_arc_case : face_dir_ok cut_face /\ surf_ok tube /\ exists a, make_arc cut_ell (ell_at cut_ell (PI / 2)) (ell_at cut_ell (5 * (PI / 4))) = Ok a /\
  ell_ok (a_ell a) /\ forall tau, cyl_lateral_set tube (arc_at (a_ell a) (a_s a) (a_t a) tau).
Proof. exact arc_case. Qed.

(** An arc with a point where the angle is smaller than the one returned. *)
Theorem c62_surface_arc_refuted : forall top, PI / 2 <= top -> exists a theta tau t,
  make_arc cut_ell (ell_at cut_ell (PI / 2)) (ell_at cut_ell (5 * (PI / 4))) = Ok a /\
  (forall tau, cyl_lateral_set tube (arc_at (a_ell a) (a_s a) (a_t a) tau)) /\
  int_angle top (GFace cut_face) (GSurf tube) (PcArc a) = Ok theta /\
  0 <= tau <= 1 /\ angle_at (face_normal cut_face) tube (arc_at (a_ell a) (a_s a) (a_t a) tau) t /\ t < theta.
Proof. exact arc_angle_refuted. Qed.
Print Assumptions c62_surface_arc_refuted.

(** Two face shapes of OpenCascade: the angle of the tangent planes. *)
Theorem c62_shapes : forall top s1 s2 S1 S2 N1 N2 p, shape_ok s1 S1 N1 -> shape_ok s2 S2 N2 -> S1 p -> S2 p ->
  exists theta, int_angle top (GShape s1) (GShape s2) (PcPoint p) = Ok theta /\ angle_between (N1 p) (N2 p) theta.
Proof. exact shapes_point_angle. Qed.
Print Assumptions c62_shapes.

(** A planar geometry and a face shape: the same if the shape is flat ... *)
Theorem c62_face_shape_partial : forall top (f : face R) s S N p,
  face_dir_ok f -> shape_ok s S N -> flat s -> S p ->
  exists theta, int_angle top (GFace f) (GShape s) (PcPoint p) = Ok theta /\ angle_between (face_normal f) (N p) theta.
Proof. exact face_shape_flat. Qed.
Print Assumptions c62_face_shape_partial.
Example c62_shapes_case :
  flat (mkSurf (fun _ _ : R => (mkV3 1 0 0, mkV3 0 1 0)) (fun p => (0, (vx p, vy p)))) /\
  shape_ok (mkSurf (fun _ _ : R => (mkV3 1 0 0, mkV3 0 1 0)) (fun p => (0, (vx p, vy p)))) (fun p => vz p = 0) (fun _ => mkV3 0 0 1).
Proof. exact flat_case. Qed.

(** ... but not in general: for the face touching the unit cylinder at (0, 1, 0) the angle is
    reported to be pi / 2 instead of 0, because the derivatives are evaluated at the wrong
    parameter. *)
Theorem c62_face_shape_refuted : forall top, exists theta,
  int_angle top (GFace wall) (GShape wall_shape) (PcPoint wall_point) = Ok theta /\ theta = PI / 2 /\
  face_dir_ok wall /\
  shape_ok wall_shape (fun p => p = wall_point) (fun p => mkV3 (vx p) (vy p) 0) /\
  angle_between (face_normal wall) (mkV3 (vx wall_point) (vy wall_point) 0) 0.
Proof. exact d1_refuted. Qed.
Print Assumptions c62_face_shape_refuted.

(** Along an edge: the smallest of the angles at five points of the edge. *)
Theorem c62_shapes_edge : forall top s1 s2 (c : curve R), PI <= top ->
  exists theta, int_angle top (GShape s1) (GShape s2) (PcEdge c) = Ok theta /\
  let point tau := PcPoint (cv_value c (cv_first c + tau * (cv_last c - cv_first c))) in
  (exists tau, In tau [0; 1 / 4; 1 / 2; 3 / 4; 1] /\ int_angle top (GShape s1) (GShape s2) (point tau) = Ok theta) /\
  (forall tau x, In tau [0; 1 / 4; 1 / 2; 3 / 4; 1] -> int_angle top (GShape s1) (GShape s2) (point tau) = Ok x -> theta <= x).
Proof. exact shapes_edge_angle. Qed.
Print Assumptions c62_shapes_edge.
Theorem c62_face_shape_edge : forall top f s (c : curve R), PI <= top ->
  exists theta, int_angle top (GFace f) (GShape s) (PcEdge c) = Ok theta /\
  let point tau := PcPoint (cv_value c (cv_first c + tau * (cv_last c - cv_first c))) in
  (exists tau, In tau [0; 1 / 4; 1 / 2; 3 / 4; 1] /\ int_angle top (GFace f) (GShape s) (point tau) = Ok theta) /\
  (forall tau x, In tau [0; 1 / 4; 1 / 2; 3 / 4; 1] -> int_angle top (GFace f) (GShape s) (point tau) = Ok x -> theta <= x).
Proof. exact face_shape_edge_angle. Qed.
Print Assumptions c62_face_shape_edge.

(** Geometries that overlap in a face: zero. *)
Theorem c62_overlap : forall top (g : ageo R) s, int_angle top g (GShape s) PcFace = Ok 0.
Proof. exact overlap_angle. Qed.
Print Assumptions c62_overlap.

(** There is an angle exactly for the combinations listed in the specification; all others,
    among them a cylinder surface and a face shape meeting in a point or an edge, throw. *)
Theorem c62_supported : forall top (g1 g2 : ageo R) i,
  (has_angle g1 g2 i -> exists theta, int_angle top g1 g2 i = Ok theta) /\
  (~ has_angle g1 g2 i -> int_angle top g1 g2 i = Throw RuntimeError).
Proof. exact int_angle_total. Qed.
Print Assumptions c62_supported.
Example c62_supported_case : forall (c : cyl R) s p, ~ has_angle (GSurf c) (GShape s) (PcPoint p).
Proof. intros c s p. discriminate. Qed.

(** Several pieces: the smallest of the angles of the pieces; a piece without an angle makes the
    whole query throw. *)
Theorem c62_pieces : forall top (g1 g2 : ageo R) is xs, is <> [] ->
  Forall2 (fun i x => int_angle top g1 g2 i = Ok x) is xs -> (forall x, In x xs -> x <= top) ->
  exists m, int_angles top g1 g2 is = Ok m /\ In m xs /\ forall x, In x xs -> m <= x.
Proof. exact int_angles_spec. Qed.
Print Assumptions c62_pieces.
Example c62_pieces_case : Forall2 (fun i x => int_angle 100 (GFace cut_face) (GSurf tube) i = Ok x)
  [PcEll cut_ell] [PI / 4] /\ PI / 4 <= 100.
Proof. exact pieces_case. Qed.
Theorem c62_pieces_throw : forall top (g1 g2 : ageo R) is i, In i is -> ~ has_angle g1 g2 i ->
  int_angles top g1 g2 is = Throw RuntimeError.
Proof. exact int_angles_throw. Qed.
Print Assumptions c62_pieces_throw.
Example c62_pieces_throw_case : ~ has_angle (GFace cut_face) (GFace wall) (PcEll cut_ell) /\ ~ has_angle (GShape wall_shape) (GSurf tube) (PcPoint wall_point).
Proof. split; [intros [[p E]|[s E]]; discriminate|discriminate]. Qed.

(** No pieces: the largest number is returned, which is not an angle. *)
Theorem c62_no_pieces_refuted : forall top (g1 g2 : ageo R), int_angles top g1 g2 [] = Ok top.
Proof. exact int_angles_nil. Qed.
Print Assumptions c62_no_pieces_refuted.

(** In double arithmetic the angle between the plane with the normal (1, 1, 1) and itself is not
    a number: the product of the unit normals is rounded to a number above one. *)
Theorem c62_double_refuted : forall T : Trig PrimFloat.float,
  (forall x, PrimFloat.ltb PrimFloat.one x = true -> nacos x = PrimFloat.nan) ->
  plane_angle plane111 plane111 = PrimFloat.nan.
Proof. exact angle_nan. Qed.
Print Assumptions c62_double_refuted.
