(** C58, C59, C63, C72, C73: distances, boundaries, default tolerances and lengths, over the reals. *)

From Coq Require Import Reals List.
From Coquelicot Require Import Coquelicot.
From Verif Require Import Base NumModel VecModel LinModel RoundModel PolyModel DistModel GeoSpec LinSpec
  PolySpec DistSpec PolyProofs PolyBridge QuadProofs PolyExamples DistProofs LenProofs.
Import ListNotations.
Local Open Scope R_scope.

(** *** C58 *)

Theorem c58_points : forall p q : pt, dist_points p q = dist p q.
Proof. exact dist_points_eq. Qed.
Print Assumptions c58_points.

Theorem c58_line : forall p (l : line R), unit3 (l_dir l) ->
  dist_to (on_line (l_sup l) (l_dir l)) p (dist_line p l).
Proof. exact dist_line_ok. Qed.
Print Assumptions c58_line.

(** The result for segments is never too large, and it is too small by at most 10^-7 times the
    length of the segment; *)
Theorem c58_segment : forall (s : segment R) p, s_src s <> s_tgt s -> forall d,
  dist_to (on_segment (s_src s) (s_tgt s)) p d ->
  dist_segment p s <= d <= dist_segment p s + dist (s_src s) (s_tgt s) / 10000000.
Proof. exact dist_segment_bounds. Qed.
Print Assumptions c58_segment.

(** it is exact unless the projection of the point is within this tolerance but not on the
    segment, *)
Theorem c58_segment_exact : forall (s : segment R) p, s_src s <> s_tgt s -> forall d,
  dist_to (on_segment (s_src s) (s_tgt s)) p d ->
  (forall x, closest (on_line (s_src s) (psub (s_tgt s) (s_src s))) p x ->
     on_segment (s_src s) (s_tgt s) x \/
     forall y, on_segment (s_src s) (s_tgt s) y -> dist (s_src s) (s_tgt s) / 10000000 <= dist x y) ->
  dist_segment p s = d.
Proof. exact dist_segment_exact. Qed.
Print Assumptions c58_segment_exact.

Theorem c58_segment_zero : forall (s : segment R) p, s_src s <> s_tgt s ->
  on_segment (s_src s) (s_tgt s) p -> dist_segment p s = 0.
Proof. exact dist_segment_zero. Qed.
Print Assumptions c58_segment_zero.

(** and not exact in general: a point 5 cm beyond the end of a segment of 1000 km. *)
Theorem c58_tolerance_is_visible : let s := mkSeg (mkV3 0 0 0) (mkV3 1000000 0 0) in
  let p := mkV3 (1000000 + 5 / 100) 0 0 in
  dist_segment p s = 0 /\ forall y, on_segment (s_src s) (s_tgt s) y -> 5 / 100 <= dist p y.
Proof. exact dist_tolerance. Qed.
Print Assumptions c58_tolerance_is_visible.

Example c58_case : let s := mkSeg (mkV3 0 0 0) (mkV3 4 0 0) in
  dist_segment (mkV3 7 4 0) s = 5 /\ dist_segment (mkV3 1 2 0) s = 2.
Proof. exact dist_case. Qed.

(** *** C59 *)

(** The distance to a list of geometries is the smallest of the distances, if one of them does
    not exceed the largest number; *)
Theorem c59_list : forall (G : Type) top (f : G -> R) gs, (exists g, In g gs /\ f g <= top) ->
  is_min (dist_list top f gs) (map f gs).
Proof. exact @dist_list_min. Qed.
Print Assumptions c59_list.

(** for the empty list the largest number is returned. *)
Theorem c59_empty_list : forall (G : Type) top (f : G -> R), dist_list top f [] = top.
Proof. exact @dist_list_empty. Qed.
Print Assumptions c59_empty_list.

Theorem c59_polygon : forall cs pg p top M d, make_poly cs = Ok pg -> proper_edges cs ->
  edges_below M cs -> dist_to (boundary cs) p d -> d <= top ->
  exists m, dist_poly_boundary top p pg = Ok m /\ m <= d <= m + M / 10000000.
Proof. exact poly_boundary_dist. Qed.
Print Assumptions c59_polygon.

Theorem c59_polygon_zero : forall cs pg p top, make_poly cs = Ok pg -> proper_edges cs -> 0 <= top ->
  boundary cs p -> dist_poly_boundary top p pg = Ok 0.
Proof. exact poly_boundary_zero. Qed.
Print Assumptions c59_polygon_zero.

Theorem c59_quadrilateral : forall p0 p1 p2 p3 p top M d, proper_edges (around p0 p1 p2 p3) ->
  edges_below M (around p0 p1 p2 p3) -> dist_to (boundary (around p0 p1 p2 p3)) p d -> d <= top ->
  exists m, dist_quad_boundary top p (make_quad p0 p1 p2 p3) = Ok m /\ m <= d <= m + M / 10000000.
Proof. exact quad_boundary_dist. Qed.
Print Assumptions c59_quadrilateral.

Theorem c59_quadrilateral_zero : forall p0 p1 p2 p3 p top, proper_edges (around p0 p1 p2 p3) -> 0 <= top ->
  boundary (around p0 p1 p2 p3) p -> dist_quad_boundary top p (make_quad p0 p1 p2 p3) = Ok 0.
Proof. exact quad_boundary_zero. Qed.
Print Assumptions c59_quadrilateral_zero.

(** The distance used in these theorems exists. *)
Theorem c59_distance_exists : forall cs p, (3 <= length cs)%nat -> proper_edges cs ->
  exists d, dist_to (boundary cs) p d.
Proof. exact boundary_dist_exists. Qed.
Print Assumptions c59_distance_exists.

(** Boxes, if the kernel computes the distances to the faces. *)
Theorem c59_box : forall (b : box R) p top fd d, box_ok b ->
  (forall i f, box_face_quad b i = Ok f -> dist_to (on_parallelogram (q_0 f) (q_1 f) (q_2 f)) p (fd f p)) ->
  dist_to (on_bounding_face b) p d -> d <= top -> dist_box_boundary top fd p b = Ok d.
Proof. exact box_boundary_dist. Qed.
Print Assumptions c59_box.

(** Cylinder surfaces, if the kernel computes the distances to the circles. *)
Theorem c59_surface : forall (cd : pt -> ell R -> R) p (c : cyl R) (S : ell R -> pt -> Prop),
  dist_to (S (c_bot c)) p (cd p (c_bot c)) -> dist_to (S (c_top c)) p (cd p (c_top c)) ->
  dist_to (fun x => S (c_bot c) x \/ S (c_top c) x) p (dist_surf_boundary cd p c).
Proof. exact surf_boundary_dist. Qed.
Print Assumptions c59_surface.

(** Points within eps of the boundary are on the boundary, and no others up to the tolerance of
    the distance. *)
Theorem c73_on_polygon_boundary : forall cs pg p eps M d, make_poly cs = Ok pg -> proper_edges cs ->
  edges_below M cs -> dist_to (boundary cs) p d ->
  exists r, on_poly_boundary p pg eps = Ok r /\ (d < eps -> r = true) /\ (r = true -> d < eps + M / 10000000).
Proof. exact poly_on_boundary. Qed.
Print Assumptions c73_on_polygon_boundary.

Theorem c73_on_quadrilateral_boundary : forall p0 p1 p2 p3 p eps M d, proper_edges (around p0 p1 p2 p3) ->
  edges_below M (around p0 p1 p2 p3) -> dist_to (boundary (around p0 p1 p2 p3)) p d ->
  exists r, on_quad_boundary p (make_quad p0 p1 p2 p3) eps = Ok r /\
    (d < eps -> r = true) /\ (r = true -> d < eps + M / 10000000).
Proof. exact quad_on_boundary. Qed.
Print Assumptions c73_on_quadrilateral_boundary.

Example c59_case : proper_edges square /\ edges_below 1 square /\ boundary square (fl (1 / 2) 0).
Proof. exact (conj square_proper boundary_case). Qed.

Example c59_box_case : box_ok cube /\ dist_to (on_bounding_face cube) mid (1 / 2) /\
  forall i f, box_face_quad cube i = Ok f -> dist_to (on_parallelogram (q_0 f) (q_1 f) (q_2 f)) mid (1 / 2).
Proof. exact cube_case. Qed.

(** *** C63 *)

Theorem c63_positive :
  (forall s : segment R, s_src s <> s_tgt s -> 0 < eps_segment s) /\
  (forall c : ell R, 0 < e_a c -> 0 < eps_circle c) /\
  (forall e : ell R, 0 < e_a e -> 0 < e_b e -> 0 < eps_ellipse e /\ 0 < eps_disk e) /\
  (forall c : cyl R, 0 < cyl_radius c -> 0 < c_h c -> 0 < eps_surf c) /\
  (forall b : box R, b_min b <> b_max b -> exists e, eps_box b = Ok e /\ 0 < e) /\
  (forall s : sphere R, 0 < sp_r s -> 0 < eps_sphere s).
Proof. exact eps_positive. Qed.
Print Assumptions c63_positive.

Theorem c63_scaling : forall k, 0 < k ->
  (forall s : segment R, eps_segment (scaled_seg k s) = k * eps_segment s) /\
  (forall c : ell R, eps_circle (scaled_ell k c) = k * eps_circle c) /\
  (forall e : ell R, eps_ellipse (scaled_ell k e) = k * eps_ellipse e /\
                     eps_disk (scaled_ell k e) = k * eps_disk e) /\
  (forall c : cyl R, eps_surf (scaled_cyl k c) = k * eps_surf c) /\
  (forall b : box R, eps_box (scaled_box k b) = omapo (Rmult k) (eps_box b)) /\
  (forall s : sphere R, eps_sphere (scaled_sphere k s) = k * eps_sphere s).
Proof. exact eps_scaling. Qed.
Print Assumptions c63_scaling.

Theorem c63_quadrilateral_positive : forall p0 p1 p2 p3, noncollinear p0 p1 p3 \/ noncollinear p0 p3 p2 ->
  0 < eps_quad (make_quad p0 p1 p2 p3).
Proof. exact eps_quad_pos. Qed.
Print Assumptions c63_quadrilateral_positive.

Theorem c63_quadrilateral_scaling : forall k p0 p1 p2 p3, 0 < k ->
  eps_quad (make_quad (pscale k p0) (pscale k p1) (pscale k p2) (pscale k p3)) = k * eps_quad (make_quad p0 p1 p2 p3).
Proof. exact eps_quad_scale. Qed.
Print Assumptions c63_quadrilateral_scaling.

(** Polygons: for convex ones only, ... *)
Theorem c63_polygon_partial : forall N cs pg, convex_ccw N cs -> proper_edges cs -> make_poly cs = Ok pg ->
  exists e, eps_poly pg = Ok e /\ 0 < e.
Proof. exact eps_poly_pos. Qed.
Print Assumptions c63_polygon_partial.

Theorem c63_polygon_scaling_partial : forall k N cs pg pg', 0 < k -> convex_ccw N cs -> proper_edges cs ->
  make_poly cs = Ok pg -> make_poly (map (pscale k) cs) = Ok pg' -> eps_poly pg' = omapo (Rmult k) (eps_poly pg).
Proof. exact eps_poly_scale. Qed.
Print Assumptions c63_polygon_scaling_partial.

(** ... for others the default tolerance throws, and so do the functions that use it. *)
Theorem c63_polygon_refuted : forall (cs : list pt) pg, make_poly cs = Ok pg -> po_convex pg = false ->
  eps_poly pg = Throw RuntimeError /\ forall p, on_poly_boundary_default p pg = Throw RuntimeError.
Proof. exact eps_poly_throws. Qed.
Print Assumptions c63_polygon_refuted.

Example c63_polygon_refuted_case : exists pg, make_poly dart3 = Ok pg /\ po_convex pg = false.
Proof. exact dart3_flag. Qed.

(** Geometries without an overload (cylinders, hollow cylinders, triangles, ellipse arcs) have
    the same default tolerance whatever their size. *)
Theorem c63_no_overload_refuted : forall (G : Type) (g : G), eps_generic g = 1 / 10000000.
Proof. exact @eps_generic_const. Qed.
Print Assumptions c63_no_overload_refuted.

Example c63_case : convex_ccw ez square /\ proper_edges square /\ 0 < eps_segment (mkSeg (mkV3 0 0 0) (mkV3 4 0 0)).
Proof. exact (conj square_convex (conj square_proper eps_case)). Qed.

(** *** C72 *)

Theorem c72_segment : forall s : segment R, length_segment s = dist (s_src s) (s_tgt s).
Proof. exact seg_len_eq. Qed.
Print Assumptions c72_segment.

Theorem c72_circle : forall (c n : pt) r, 0 <= r -> length_circle (make_circle c n r) = perimeter r r.
Proof. exact circle_length. Qed.
Print Assumptions c72_circle.

(** The length of ellipses that are not circles is always too small, *)
Theorem c72_ellipse_refuted : forall e : ell R, 0 < e_a e -> 0 < e_b e -> e_a e <> e_b e ->
  length_ellipse e < perimeter (e_a e) (e_b e).
Proof. exact ellipse_length. Qed.
Print Assumptions c72_ellipse_refuted.

Theorem c72_full_arc_refuted : forall c : arc R, 0 < e_a (a_ell c) -> 0 < e_b (a_ell c) ->
  e_a (a_ell c) <> e_b (a_ell c) -> length_full_arc c < perimeter (e_a (a_ell c)) (e_b (a_ell c)).
Proof. exact full_arc_length. Qed.
Print Assumptions c72_full_arc_refuted.

(** by more than 20 percent for thin ones. *)
Theorem c72_thin_ellipse_refuted : forall e : ell R, 0 < e_a e -> 0 < e_b e <= e_a e / 100 ->
  length_ellipse e < 8 / 10 * perimeter (e_a e) (e_b e).
Proof. exact thin_ellipse_length. Qed.
Print Assumptions c72_thin_ellipse_refuted.

(** The magnitude contained in a domain is the sum over the pieces. *)
Theorem c72_contained : forall (G P : Type) dim (pieces : G -> list P) mag (g : G), (0 < dim)%nat ->
  contained_magnitude dim pieces mag g = sum (map mag (pieces g)).
Proof. exact @contained_sum. Qed.
Print Assumptions c72_contained.

Example c72_case : length_ellipse (make_ell zero3 (mkV3 1 0 0) (mkV3 0 1 0) 100 1) < 8 / 10 * perimeter 100 1 /\
  length_segment (mkSeg (mkV3 0 0 0) (mkV3 3 4 0)) = 5 /\
  contained_magnitude 1 (fun l : list R => l) (fun x => x) [1; 2; 4] = 7.
Proof. exact length_case. Qed.
