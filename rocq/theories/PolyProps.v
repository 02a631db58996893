(** C47-C50, C71: triangles, polygons and quadrilaterals, over the reals unless stated otherwise. *)

From Coq Require Import Reals Lra Lia List.
From Coq Require PrimFloat.
From Verif Require Import Base NumModel VecModel LinModel PolyModel GeoSpec LinSpec PolySpec
  PolyProofs PolyBridge QuadProofs PolyExamples.
Import ListNotations.
Local Open Scope R_scope.

(** *** C47 *)

(** Corners, edges, center, unit normal and area of a triangle. *)
Theorem c47_construction : forall a b d : pt,
  let t := make_tri a b d in
  tri_corner t 0 = Ok a /\ tri_corner t 1 = Ok b /\ tri_corner t 2 = Ok d /\
  tri_edge t 0 = Ok (mkSeg a b) /\ tri_edge t 1 = Ok (mkSeg b d) /\ tri_edge t 2 = Ok (mkSeg d a) /\
  t_c t = pscale (1 / 3) (padd a (padd b d)) /\ hull [a; b; d] (t_c t) /\
  (noncollinear a b d ->
     t_n t = tri_normal a b d /\ unit3 (t_n t) /\ ortho (t_n t) (psub b a) /\ ortho (t_n t) (psub d a) /\
     0 < orient (t_n t) a b d /\ t_area t = orient (t_n t) a b d / 2 /\
     t_area t = shoelace (t_n t) [a; b; d]).
Proof. exact tri_construction. Qed.
Print Assumptions c47_construction.

(** Every point of the triangle is contained, for every tolerance ... *)
Theorem c47_contains : forall a b d, noncollinear a b d -> forall p eps chk, 0 < eps ->
  hull [a; b; d] p -> tri_contains Rabs (make_tri a b d) p eps chk = true.
Proof. exact tri_hull. Qed.
Print Assumptions c47_contains.

(** ... no other point is contained for every tolerance ... *)
Theorem c47_exact : forall a b d, noncollinear a b d -> forall p,
  (forall eps, 0 < eps -> tri_contains Rabs (make_tri a b d) p eps true = true) <-> hull [a; b; d] p.
Proof. exact tri_exact. Qed.
Print Assumptions c47_exact.

(** ... and for a given tolerance the points of the plane that are contained are those that lie
    beyond the edges by less than eps^2 (an area). *)
Theorem c47_tolerance : forall a b d, noncollinear a b d -> forall p eps chk, 0 < eps ->
  on_plane a (tri_normal a b d) p ->
  (tri_contains Rabs (make_tri a b d) p eps chk = true <-> overhang (tri_normal a b d) [a; b; d] p < eps * eps).
Proof. exact tri_planar_iff. Qed.
Print Assumptions c47_tolerance.

Theorem c47_near : forall a b d, noncollinear a b d -> forall p eps,
  tri_contains Rabs (make_tri a b d) p eps true = true ->
  Rabs (dot (tri_normal a b d) (psub p a)) < eps /\ overhang (tri_normal a b d) [a; b; d] p < eps * eps.
Proof. exact tri_near. Qed.
Print Assumptions c47_near.

(** The overload with the default tolerance reads the corner with index 3, which does not exist. *)
Theorem c47_default_refuted : forall f (a b d p : pt) chk, tri_contains_default f (make_tri a b d) p chk = UB.
Proof. exact tri_default. Qed.
Print Assumptions c47_default_refuted.

(** If the unqualified abs is the one of the C library, which truncates its argument to int,
    points that are 1/2 away from the triangle are contained for every tolerance. *)
Theorem c47_int_abs_refuted : forall f, (forall x, Rabs x < 1 -> f x = 0) ->
  let t := make_tri (fl 0 0) (fl 1 0) (fl 0 1) in
  let p := fl (1 / 2) (- (1 / 2)) in
  (forall eps, 0 < eps -> tri_contains f t p eps true = true) /\
  (forall q, hull unit_tri q -> 1 / 2 <= dist p q).
Proof. exact tri_int_abs. Qed.
Print Assumptions c47_int_abs_refuted.

(** In double arithmetic points of the triangle (0,0,0), (100,0,0), (0,100,100) are not contained
    for the tolerance Precision::confusion(). *)
Theorem c47_double_refuted :
  tri_contains PrimFloat.abs (big_tri (A := PrimFloat.float)) big_p confusion false = false /\
  hull [big_a; big_b; big_c] (big_p : pt).
Proof. exact tri_double. Qed.
Print Assumptions c47_double_refuted.

Example c47_case : noncollinear (fl 0 0) (fl 1 0) (fl 0 1) /\
  tri_normal (fl 0 0) (fl 1 0) (fl 0 1) = ez /\ convex_ccw ez unit_tri.
Proof. exact (conj unit_tri_nc (conj unit_tri_normal unit_tri_convex)). Qed.

(** *** C48 *)

(** Convex polygons are recognised ... *)
Theorem c48_convex_partial : forall N cs pg, proper_edges cs -> make_poly cs = Ok pg ->
  po_convex pg = false -> ~ convex_ccw N cs.
Proof. exact poly_not_flagged. Qed.
Print Assumptions c48_convex_partial.

Theorem c48_triangle_partial : forall a b d pg, noncollinear a b d -> make_poly [a; b; d] = Ok pg -> po_convex pg = true.
Proof. exact tri_poly_flag. Qed.
Print Assumptions c48_triangle_partial.

(** ... but a quadrangle with a reflex angle at the second corner is taken for convex, and its
    area is reported as 12 instead of 4; *)
Theorem c48_second_corner_refuted :
  (forall N, ~ convex_ccw N dart) /\
  exists pg, make_poly dart = Ok pg /\ poly_get_area pg = Ok 12 /\ shoelace ez dart = 4.
Proof. exact (conj dart_not_convex dart_area). Qed.
Print Assumptions c48_second_corner_refuted.

(** as are a star, *)
Theorem c48_star_refuted :
  (forall N, ~ convex_ccw N star) /\ exists pg, make_poly star = Ok pg /\ po_convex pg = true.
Proof. exact (conj star_not_convex (bad_flag star (le_S _ _ (le_S _ _ (le_n 3))) star_flag)). Qed.
Print Assumptions c48_star_refuted.

(** and a polygon with a reflex angle whose first corner is on the line through its neighbours. *)
Theorem c48_straight_corner_refuted :
  (forall N, ~ convex_ccw N notched) /\ exists pg, make_poly notched = Ok pg /\ po_convex pg = true.
Proof. exact (conj notched_not_convex (bad_flag notched (le_S _ _ (le_S _ _ (le_n 3))) notched_flag)). Qed.
Print Assumptions c48_straight_corner_refuted.

(** *** C49 *)

Theorem c49_construction : forall cs : list pt,
  (length cs < 3)%nat -> make_poly cs = Throw RuntimeError.
Proof. exact poly_few. Qed.
Print Assumptions c49_construction.

Theorem c49_triangulation : forall cs : list pt, (3 <= length cs)%nat ->
  length (triangulate cs) = (length cs - 2)%nat.
Proof. exact triangulate_length. Qed.
Print Assumptions c49_triangulation.

Theorem c49_edges : forall (cs : list pt) pg, make_poly cs = Ok pg ->
  map (poly_edge pg) (seq 0 (length cs)) = map (fun ab => Ok (mkSeg (fst ab) (snd ab))) (edges cs) /\
  map (poly_corner pg) (seq 0 (length cs)) = map Ok cs.
Proof. exact poly_edges. Qed.
Print Assumptions c49_edges.

(** The area of convex polygons is given by the shoelace formula. *)
Theorem c49_area : forall N cs pg, convex_ccw N cs -> proper_edges cs -> make_poly cs = Ok pg ->
  poly_get_area pg = Ok (shoelace N cs) /\ 0 < shoelace N cs.
Proof. exact poly_area_ok. Qed.
Print Assumptions c49_area.

Theorem c49_center : forall N cs pg, convex_ccw N cs -> make_poly cs = Ok pg -> hull cs (po_c pg).
Proof. exact poly_center_hull. Qed.
Print Assumptions c49_center.

Theorem c49_contains : forall N cs pg, convex_ccw N cs -> proper_edges cs -> make_poly cs = Ok pg ->
  forall p eps chk, 0 < eps -> hull cs p -> poly_contains pg p eps chk = Ok true.
Proof. exact poly_hull. Qed.
Print Assumptions c49_contains.

Theorem c49_contains_default : forall N cs pg, convex_ccw N cs -> proper_edges cs -> make_poly cs = Ok pg ->
  forall p chk, hull cs p -> po_c pg <> nth 0 cs zero3 -> poly_contains_default pg p chk = Ok true.
Proof. exact poly_default. Qed.
Print Assumptions c49_contains_default.

Theorem c49_exact : forall N cs pg, convex_ccw N cs -> proper_edges cs -> make_poly cs = Ok pg ->
  forall p, (forall eps, 0 < eps -> poly_contains pg p eps true = Ok true) <-> hull cs p.
Proof. exact poly_exact. Qed.
Print Assumptions c49_exact.

Theorem c49_tolerance : forall N cs pg, convex_ccw N cs -> proper_edges cs -> make_poly cs = Ok pg ->
  forall p eps chk, 0 < eps -> on_plane (nth 0 cs zero3) N p ->
  (poly_contains pg p eps chk = Ok true <-> overhang N cs p < eps * eps).
Proof. exact poly_planar_iff. Qed.
Print Assumptions c49_tolerance.

Theorem c49_near : forall N cs pg, convex_ccw N cs -> proper_edges cs -> make_poly cs = Ok pg ->
  forall p eps, poly_contains pg p eps true = Ok true ->
  Rabs (dot N (psub p (nth 0 cs zero3))) < eps /\ overhang N cs p < eps * eps.
Proof. exact poly_near. Qed.
Print Assumptions c49_near.

Theorem c49_total : forall N cs pg, convex_ccw N cs -> proper_edges cs -> make_poly cs = Ok pg ->
  forall p eps chk, exists b, poly_contains pg p eps chk = Ok b.
Proof. exact poly_never_throws. Qed.
Print Assumptions c49_total.

(** Polygons that are found not to be convex have neither. *)
Theorem c49_throws : forall (cs : list pt) pg p eps chk, make_poly cs = Ok pg -> po_convex pg = false ->
  poly_get_area pg = Throw RuntimeError /\ poly_contains pg p eps chk = Throw RuntimeError.
Proof. exact poly_flag_false. Qed.
Print Assumptions c49_throws.

(** In double arithmetic a point on the long diagonal of the rhombus (0,0,0), (50,1/16,1/16),
    (0,1/8,1/8), (-50,1/16,1/16) is not contained for the default tolerance. *)
Theorem c49_double_refuted :
  (exists pg, make_poly (A := PrimFloat.float) [rh_0; rh_1; rh_3; rh_2] = Ok pg /\
     poly_contains_default pg rh_p false = Ok false) /\
  hull [rh_0; rh_1; rh_3; rh_2] (rh_p : pt).
Proof. exact poly_double. Qed.
Print Assumptions c49_double_refuted.

Example c49_case : convex_ccw ez penta /\ proper_edges penta /\ shoelace ez penta = 8 /\
  convex_ccw ez square /\ proper_edges square.
Proof. exact (conj penta_convex (conj penta_proper (conj penta_area (conj square_convex square_proper)))). Qed.

(** *** C50 *)

Theorem c50_edges : forall p0 p1 p2 p3 : pt, let q := make_quad p0 p1 p2 p3 in
  map (quad_corner q) [0; 1; 2; 3]%nat = map Ok [p0; p1; p2; p3] /\
  map (quad_edge q) [2; 0; 1; 3]%nat =
    map (fun ab => Ok (mkSeg (fst ab) (snd ab))) [(p0, p2); (p0, p1); (p1, p3); (p2, p3)] /\
  edges (around p0 p1 p2 p3) = [(p2, p0); (p0, p1); (p1, p3); (p3, p2)].
Proof. exact quad_edges. Qed.
Print Assumptions c50_edges.

(** isConvex is right (the normal of a convex quadrilateral is that of its corners 0, 1, 2). *)
Theorem c50_convex : forall p0 p1 p2 p3, noncollinear p0 p1 p2 -> on_plane p0 (tri_normal p0 p1 p2) p3 ->
  (q_convex (make_quad p0 p1 p2 p3) = true <-> convex_ccw (tri_normal p0 p1 p2) (around p0 p1 p2 p3)).
Proof. exact convex_flag_iff. Qed.
Print Assumptions c50_convex.

Theorem c50_normal : forall N p0 p1 p2 p3, convex_ccw N (around p0 p1 p2 p3) ->
  noncollinear p0 p1 p2 /\ N = tri_normal p0 p1 p2 /\ on_plane p0 N p3.
Proof. exact convex_normal_unique. Qed.
Print Assumptions c50_normal.

(** Area and containment of convex quadrilaterals; missing: concave ones, see below. *)
Theorem c50_area_convex_partial : forall N p0 p1 p2 p3, convex_ccw N (around p0 p1 p2 p3) ->
  q_area (make_quad p0 p1 p2 p3) = shoelace N (around p0 p1 p2 p3) /\ 0 < q_area (make_quad p0 p1 p2 p3).
Proof. exact quad_area_ok. Qed.
Print Assumptions c50_area_convex_partial.

(** The area is also right if the diagonal from 0 to 3 separates 1 and 2. *)
Theorem c50_area_partial : forall N p0 p1 p2 p3, unit3 N -> planar N (around p0 p1 p2 p3) ->
  0 <= orient N p0 p1 p3 * orient N p0 p3 p2 ->
  q_area (make_quad p0 p1 p2 p3) = Rabs (shoelace N (around p0 p1 p2 p3)).
Proof. exact quad_area_shoelace. Qed.
Print Assumptions c50_area_partial.

Theorem c50_contains_partial : forall N p0 p1 p2 p3, convex_ccw N (around p0 p1 p2 p3) ->
  forall p eps chk, 0 < eps -> hull (around p0 p1 p2 p3) p ->
  quad_contains (make_quad p0 p1 p2 p3) p eps chk = true.
Proof. exact quad_hull. Qed.
Print Assumptions c50_contains_partial.

Theorem c50_exact_partial : forall N p0 p1 p2 p3, convex_ccw N (around p0 p1 p2 p3) -> forall p,
  (forall eps, 0 < eps -> quad_contains (make_quad p0 p1 p2 p3) p eps true = true) <-> hull (around p0 p1 p2 p3) p.
Proof. exact quad_exact. Qed.
Print Assumptions c50_exact_partial.

Theorem c50_tolerance_partial : forall N p0 p1 p2 p3, convex_ccw N (around p0 p1 p2 p3) ->
  forall p eps chk, 0 < eps -> on_plane p0 N p ->
  (quad_contains (make_quad p0 p1 p2 p3) p eps chk = true <-> overhang N (around p0 p1 p2 p3) p < eps * eps).
Proof. exact quad_planar_iff. Qed.
Print Assumptions c50_tolerance_partial.

Theorem c50_near_partial : forall N p0 p1 p2 p3, convex_ccw N (around p0 p1 p2 p3) -> forall p eps,
  quad_contains (make_quad p0 p1 p2 p3) p eps true = true ->
  Rabs (dot N (psub p p0)) < eps /\ overhang N (around p0 p1 p2 p3) p < eps * eps.
Proof. exact quad_near. Qed.
Print Assumptions c50_near_partial.

Theorem c50_center : forall N p0 p1 p2 p3, convex_ccw N (around p0 p1 p2 p3) ->
  hull (around p0 p1 p2 p3) (q_c (make_quad p0 p1 p2 p3)).
Proof. exact quad_center_hull. Qed.
Print Assumptions c50_center.

(** With a reflex angle at corner 1 the area is wrong: 12 instead of 4. *)
Theorem c50_area_refuted : q_area dq = 12 /\ q_convex dq = false /\
  shoelace ez (around (fl 4 0) (fl 1 1) (fl 0 0) (fl 0 4)) = 4.
Proof. exact dq_area. Qed.
Print Assumptions c50_area_refuted.

(** With a reflex angle at corner 0 the area is right, but a point of the triangle 0, 3, 2, which
    is a part of the quadrilateral, is not contained. *)
Theorem c50_contains_refuted : q_area cq = 4 /\
  hull [fl 1 1; fl 0 0; fl 4 0] (fl 2 (1 / 2)) /\
  forall eps chk, 0 < eps <= 1 -> quad_contains cq (fl 2 (1 / 2)) eps chk = false.
Proof. exact cq_contains. Qed.
Print Assumptions c50_contains_refuted.

(** In double arithmetic a point on the long diagonal of a rhombus is not contained for the
    default tolerance. *)
Theorem c50_double_refuted :
  quad_contains_default (make_quad (A := PrimFloat.float) rh_0 rh_1 rh_2 rh_3) rh_p false = false /\
  hull (around rh_0 rh_1 rh_2 rh_3) rh_p.
Proof. exact quad_double. Qed.
Print Assumptions c50_double_refuted.

(** The faces of a box, as quadrilaterals (C42). *)
Theorem c42_face_areas : forall b : box R, box_ok b ->
  let dx := vx (b_max b) - vx (b_min b) in
  let dy := vy (b_max b) - vy (b_min b) in
  let dz := vz (b_max b) - vz (b_min b) in
  (forall i q, box_face_quad b i = Ok q -> q_convex q = true) /\
  map (fun i => omapo q_area (box_face_quad b i)) [0; 1; 2; 3; 4; 5]%nat =
    map Ok [dx * dy; dx * dz; dy * dz; dy * dz; dx * dz; dx * dy].
Proof. exact box_faces. Qed.
Print Assumptions c42_face_areas.

Example c50_case : let N := mkV3 0 (- (3 / 5)) (4 / 5) in
  let p0 := zero3 in let p1 := mkV3 5 0 0 in let p2 := mkV3 0 4 3 in let p3 := mkV3 5 4 3 in
  convex_ccw N (around p0 p1 p2 p3) /\ q_convex (make_quad p0 p1 p2 p3) = true /\
  q_area (make_quad p0 p1 p2 p3) = 25.
Proof. exact tilted_case. Qed.

(** *** C71 *)

(** What is guaranteed: for every edge, its length times the distance by which a contained point
    lies beyond it is less than eps^2. *)
Theorem c71_beyond_partial : forall N cs ab p, In ab (edges cs) -> beyond N ab p <= overhang N cs p.
Proof. exact beyond_edge. Qed.
Print Assumptions c71_beyond_partial.

(** Points that are closer than eps to the unit square are not contained ... *)
Theorem c71_close_refuted : forall pg eps, make_poly square = Ok pg -> 0 < eps <= 1 / 2 ->
  exists p q, hull square q /\ dist p q < eps /\ poly_contains pg p eps true = Ok false.
Proof. exact tolerance_too_small. Qed.
Print Assumptions c71_close_refuted.

(** ... and points that are farther away are. *)
Theorem c71_far_refuted : forall pg, make_poly square = Ok pg ->
  poly_contains pg (fl (1 / 2) (-50)) 10 true = Ok true /\
  forall q, hull square q -> 50 <= dist (fl (1 / 2) (-50)) q.
Proof. exact tolerance_too_large. Qed.
Print Assumptions c71_far_refuted.

Example c71_case : exists pg, make_poly square = Ok pg /\ po_convex pg = true.
Proof. destruct (poly_made ez square square_convex square_proper) as (pg & E & _ & B & _). exists pg. exact (conj E B). Qed.
