(** C85: the shapes of geometries. *)

From Coq Require Import Reals Lra List.
From Verif Require Import Base NumModel VecModel LinModel RoundModel PolyModel ShapeModel GeoSpec LinSpec RoundSpec PolySpec ShapeSpec
  PolyExamples ShapeProofs ShapeExamples.
Import ListNotations.
Local Open Scope R_scope.

(** The shape of an ellipse, a circle, a disk has the points of the geometry. *)
Theorem c85_ellipse : forall e, ell_ok e -> e_b e <= e_a e -> represents (shape_ellipse e) (on_ellipse e).
Proof. exact ellipse_shape. Qed.
Print Assumptions c85_ellipse.
Example c85_ellipse_case : ell_ok oval /\ e_b oval <= e_a oval.
Proof. exact oval_ok. Qed.
Theorem c85_circle : forall c n r, unit3 n -> 0 < r -> represents (shape_circle (make_circle c n r)) (on_circle c n r).
Proof. exact circle_shape. Qed.
Print Assumptions c85_circle.
Theorem c85_disk : forall e, ell_ok e -> e_b e <= e_a e -> represents (shape_disk e) (in_disk 1 e).
Proof. exact disk_shape. Qed.
Print Assumptions c85_disk.

(** Finding: the constructors accept "minor" axes that are longer than the "major" ones; such
    ellipses and disks have no shape. *)
Theorem c85_axes_refuted : forall e, ell_ok e -> e_a e < e_b e ->
  shape_ellipse e = Throw RuntimeError /\ shape_disk e = Throw RuntimeError.
Proof. exact swapped_axes_shape. Qed.
Print Assumptions c85_axes_refuted.
Example c85_axes_case : exists e, ell_ok e /\ e_a e < e_b e /\ on_ellipse e (mkV3 0 2 0) /\ in_disk 1 e (mkV3 0 1 0).
Proof. exact tall_case. Qed.

(** The shape of an arc has the points from the source to the target. *)
Theorem c85_arc_partial : forall e src tgt c, ell_ok e -> e_b e <= e_a e -> on_ellipse e src -> on_ellipse e tgt ->
  make_arc e src tgt = Ok c -> a_full c = false -> a_s c <> a_t c ->
  represents (shape_arc c) (on_arc e (a_s c) (a_t c)).
Proof. exact arc_shape. Qed.
Print Assumptions c85_arc_partial.
Example c85_arc_case : exists c, on_ellipse oval (ell_at oval (3 * PI / 2)) /\ on_ellipse oval (ell_at oval (PI / 2)) /\
  make_arc oval (ell_at oval (3 * PI / 2)) (ell_at oval (PI / 2)) = Ok c /\ a_full c = false /\ a_s c <> a_t c.
Proof. exact arc_shape_case. Qed.
(** Full ellipses that start on the major axis have a shape. *)
Theorem c85_full_arc_partial : forall e, ell_ok e -> e_b e <= e_a e -> exists c, make_arc e (ell_at e 0) (ell_at e 0) = Ok c /\
  represents (shape_arc c) (on_ellipse e).
Proof. exact full_arc_major. Qed.
Print Assumptions c85_full_arc_partial.
(** Finding: full ellipses that start elsewhere cannot be converted. *)
Theorem c85_full_arc_throws : forall e p c, ell_ok e -> e_b e <= e_a e -> on_ellipse e p -> make_arc e p p = Ok c ->
  1 / 10 ^ 10 <= a_s c -> shape_arc c = Throw RuntimeError.
Proof. exact (fun e p c Hok Hab Hp Hm => proj1 (full_arc_shape e p c Hok Hab Hp Hm)). Qed.
Print Assumptions c85_full_arc_throws.
Theorem c85_full_arc_refuted : forall e, ell_ok e -> e_b e <= e_a e -> exists c, make_arc e (ell_at e (PI / 2)) (ell_at e (PI / 2)) = Ok c /\
  a_full c = true /\ shape_arc c = Throw RuntimeError.
Proof. exact full_arc_throws. Qed.
Print Assumptions c85_full_arc_refuted.

(** Segments; their ends have to differ. *)
Theorem c85_segment : forall s, (s_src s <> s_tgt s -> represents (shape_segment s) (on_segment (s_src s) (s_tgt s))) /\
  (s_src s = s_tgt s -> shape_segment s = Throw RuntimeError).
Proof. exact segment_shape. Qed.
Print Assumptions c85_segment.

(** Quadrilaterals and polygons: the wire goes around the corners, and the face has the points of
    the geometry if it is convex. *)
Theorem c85_wires : forall fp, (forall (q : quad R) sh, shape_quad fp q = Ok sh -> sh = ShFace (edges [q_0 q; q_1 q; q_3 q; q_2 q])) /\
  (forall (pg : poly R) sh, shape_poly fp pg = Ok sh -> sh = ShFace (edges (po_cs pg))).
Proof. exact wires. Qed.
Print Assumptions c85_wires.
Theorem c85_quadrilateral_partial : forall fp N q, plane_found fp -> convex_ccw N (around (q_0 q) (q_1 q) (q_2 q) (q_3 q)) ->
  proper_edges (around (q_0 q) (q_1 q) (q_2 q) (q_3 q)) ->
  shape_quad fp q = Ok (ShFace (edges [q_0 q; q_1 q; q_3 q; q_2 q])) /\
  represents (shape_quad fp q) (hull (around (q_0 q) (q_1 q) (q_2 q) (q_3 q))).
Proof. exact quad_shape. Qed.
Print Assumptions c85_quadrilateral_partial.
Example c85_quadrilateral_case : convex_ccw ez (around (q_0 square_quad) (q_1 square_quad) (q_2 square_quad) (q_3 square_quad)) /\
  proper_edges (around (q_0 square_quad) (q_1 square_quad) (q_2 square_quad) (q_3 square_quad)).
Proof. exact square_quad_case. Qed.
Theorem c85_polygon_partial : forall fp N pg, plane_found fp -> convex_ccw N (po_cs pg) -> proper_edges (po_cs pg) ->
  shape_poly fp pg = Ok (ShFace (edges (po_cs pg))) /\ represents (shape_poly fp pg) (hull (po_cs pg)).
Proof. exact poly_shape. Qed.
Print Assumptions c85_polygon_partial.
Example c85_polygon_case : plane_found (fun _ => true) /\ convex_ccw ez (po_cs penta_poly) /\ proper_edges (po_cs penta_poly).
Proof. exact (conj all_planes (conj penta_convex penta_proper)). Qed.
(** Corners that coincide with the next one are reported. *)
Theorem c85_double_corner : forall fp pg c, (2 <= length (po_cs pg))%nat -> In (c, c) (edges (po_cs pg)) -> shape_poly fp pg = Throw RuntimeError.
Proof. exact poly_shape_throws. Qed.
Print Assumptions c85_double_corner.
Example c85_double_corner_case : forall fp, shape_poly fp (mkPoly [fl 0 0; fl 1 0; fl 1 0; fl 0 1] (mkPlane zero3 zero3 zero3 zero3) zero3 0 true) = Throw RuntimeError.
Proof. exact double_corner. Qed.

(** Cylinder surfaces, cylinders, boxes, spheres and points. *)
Theorem c85_surface : forall c, cyl_ok c -> ell_ok (c_bot c) -> represents (shape_surface c) (cyl_lateral_set c).
Proof. exact surface_shape. Qed.
Print Assumptions c85_surface.
Theorem c85_cylinder : forall c, cyl_ok c -> 0 < e_a (c_bot c) -> represents (shape_cylinder c) (cyl_solid c).
Proof. exact cylinder_shape. Qed.
Print Assumptions c85_cylinder.
Example c85_cylinder_case : cyl_ok barrel /\ 0 < e_a (c_bot barrel) /\ ell_ok (c_bot barrel).
Proof. exact barrel_case. Qed.
Theorem c85_box : forall b, vx (b_min b) < vx (b_max b) -> vy (b_min b) < vy (b_max b) -> vz (b_min b) < vz (b_max b) ->
  represents (shape_box b) (in_box b).
Proof. exact box_shape. Qed.
Print Assumptions c85_box.
Theorem c85_flat_box : forall b, box_ok b -> vx (b_min b) = vx (b_max b) \/ vy (b_min b) = vy (b_max b) \/ vz (b_min b) = vz (b_max b) ->
  shape_box b = Throw RuntimeError.
Proof. exact flat_box_shape. Qed.
Print Assumptions c85_flat_box.
Theorem c85_sphere : forall s, 0 < sp_r s -> represents (shape_sphere s) (ball (sp_c s) (sp_r s)).
Proof. exact sphere_shape. Qed.
Print Assumptions c85_sphere.
Theorem c85_point : forall p, represents (shape_point p) (eq p).
Proof. exact point_shape. Qed.
Print Assumptions c85_point.
(** points on a line and in a plane *)
Theorem c85_flat_points : forall x y, represents (shape_point (gp_point1 x)) (eq (mkV3 x 0 0)) /\
  represents (shape_point (gp_point2 x y)) (eq (mkV3 x y 0)).
Proof. exact flat_points. Qed.
Print Assumptions c85_flat_points.
Example c85_solids_case : represents (shape_box (mkBox (mkV3 0 0 0) (mkV3 1 2 3))) (in_box (mkBox (mkV3 0 0 0) (mkV3 1 2 3))) /\ in_box (mkBox (mkV3 0 0 0) (mkV3 1 2 3)) (mkV3 1 1 2) /\
  shape_box (mkBox (mkV3 0 0 0) (mkV3 1 2 0)) = Throw RuntimeError /\ ball (mkV3 1 1 1) 2 (mkV3 1 2 1).
Proof.
  split; [apply box_shape; cbn; lra|]. split; [unfold in_box; cbn; lra|]. split; [apply flat_box_shape; [unfold box_ok; cbn; lra|cbn; auto]|].
  exact ball_case.
Qed.
