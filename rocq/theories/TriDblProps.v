(** C105: triangles, quadrilaterals and polygons in double precision. *)

From Coq Require Import ZArith Reals List Lra.
From Coq Require Import Floats.
From Verif Require Import Base NumModel VecModel LinModel PolyModel GeoSpec PolySpec DblSpec LinDblSpec LinDblExamples PolyExamples TriDblSpec TriDblHull TriDblExamples.
Import ListNotations.
Local Open Scope R_scope.

(** The area of a triangle is the exact one up to 2^-48 of the square of its size, wherever it lies. *)
Theorem c105_triangle_area : forall S a b c, medium S -> spread S [a; b; c] ->
  number (t_area (make_tri a b c)) /\ Rabs (val (t_area (make_tri a b c)) - triangle_area (val3 a) (val3 b) (val3 c)) <= powerRZ 2 (-48) * (S * S).
Proof. exact c105_triangle_area_lemma. Qed.
Print Assumptions c105_triangle_area.
(** The centre is the mean of the corners up to 2^-50 of the coordinates. *)
Theorem c105_triangle_center : forall M a b c, moderate M -> point_upto M a -> point_upto M b -> point_upto M c ->
  let m := t_c (make_tri a b c) in let third x y z := (val x + val y + val z) / 3 in
  number3 m /\ Rabs (val (vx m) - third (vx a) (vx b) (vx c)) <= powerRZ 2 (-50) * M /\ Rabs (val (vy m) - third (vy a) (vy b) (vy c)) <= powerRZ 2 (-50) * M /\
  Rabs (val (vz m) - third (vz a) (vz b) (vz c)) <= powerRZ 2 (-50) * M.
Proof. exact c105_triangle_center_lemma. Qed.
Print Assumptions c105_triangle_center.
Example c105_center_case : moderate 1024 /\ point_upto 1024 tr_a /\ point_upto 1024 tr_b /\ point_upto 1024 tr_c.
Proof. exact tr_upto. Qed.

(** A triangle contains a point if and only if the areas agree up to the square of the tolerance; so the points near it
    are contained and the points far beyond an edge are not. *)
Theorem c105_triangle : forall S a b c p e, medium S -> spread S [a; b; c; p] -> tolerance e ->
  let cs := [val3 a; val3 b; val3 c] in let r := tri_contains PrimFloat.abs (make_tri a b c) p e false in
  decides r (Rabs (triangle_area (val3 a) (val3 b) (val3 c) - area_seen cs (val3 p))) (val e * val e) (area_error 3 S) /\
  (forall N, convex_ccw N cs -> finds r S N cs (val3 p) (val e)).
Proof. exact c105_triangle_lemma. Qed.
Print Assumptions c105_triangle.
Example c105_triangle_case : medium 1024 /\ (forall p, In p [tr_in; tr_out] -> spread 1024 [tr_a; tr_b; tr_c; p]) /\ tolerance 0x1p-10%float /\
  convex_ccw ez (map val3 [tr_a; tr_b; tr_c]) /\ hull (map val3 [tr_a; tr_b; tr_c]) (val3 tr_in) /\
  ((forall n, 3 <= n <= 4 -> n * 1024 * 0 + area_error n 1024 <= (1 - powerRZ 2 (-50)) * (val 0x1p-10%float * val 0x1p-10%float)) /\ dist (val3 tr_in) (val3 tr_in) <= 0) /\
  (overhang ez (map val3 [tr_a; tr_b; tr_c]) (val3 tr_out) = 450210 /\
   (1 + powerRZ 2 (-50)) * (val 0x1p-10%float * val 0x1p-10%float) + area_error 3 1024 <= 450210).
Proof. exact (conj tr_medium (conj tr_spread_p (conj tol_milli (conj (proj1 tr_convex) (conj (proj1 tr_hull) (conj tr_inside tr_beyond)))))). Qed.
(** Smaller tolerances are lost: a triangle of size 1000 does not contain one of its inner points with a tolerance of 2^-18. *)
Theorem c105_small_tolerance_refuted : hull (map val3 [tr_a; tr_b; tr_c]) (val3 tr_in) /\
  tri_contains PrimFloat.abs (make_tri tr_a tr_b tr_c) tr_in 0x1p-18%float false = false.
Proof. exact (conj (proj1 tr_hull) tr_small). Qed.
Print Assumptions c105_small_tolerance_refuted.

(** Quadrilaterals. *)
Theorem c105_quadrilateral : forall S p0 p1 p2 p3 p e, medium S -> spread S [p0; p1; p2; p3; p] -> tolerance e ->
  let cs := map val3 [p0; p1; p3; p2] in let q := make_quad p0 p1 p2 p3 in let r := quad_contains q p e false in
  (number (q_area q) /\ Rabs (val (q_area q) - area_fan cs) <= area_error 4 S) /\
  decides r (Rabs (area_fan cs - area_seen cs (val3 p))) (val e * val e) (area_error 4 S) /\
  (forall N, convex_ccw N cs -> area_fan cs = shoelace N cs /\ finds r S N cs (val3 p) (val e)).
Proof. exact c105_quadrilateral_lemma. Qed.
Print Assumptions c105_quadrilateral.
(** Polygons. *)
Theorem c105_polygon : forall S cs p e pg b, medium S -> spread S (p :: cs) -> (length cs <= 1000)%nat -> tolerance e -> make_poly cs = Ok pg ->
  let ps := map val3 cs in let n := INR (length cs) in
  (forall a, poly_get_area pg = Ok a -> number a /\ Rabs (val a - area_fan ps) <= area_error n S) /\
  (poly_contains pg p e false = Ok b ->
     decides b (Rabs (area_fan ps - area_seen ps (val3 p))) (val e * val e) (area_error n S) /\
     (forall N, convex_ccw N ps -> area_fan ps = shoelace N ps /\ finds b S N ps (val3 p) (val e))).
Proof. exact c105_polygon_lemma. Qed.
Print Assumptions c105_polygon.
Example c105_polygon_case : medium 1024 /\ spread 1024 [tr_in; tr_a; tr_b; tr_out; tr_c] /\ tolerance 0x1p-10%float /\
  (exists pg, make_poly [tr_a; tr_b; tr_out; tr_c] = Ok pg /\ poly_contains pg tr_in 0x1p-10%float false = Ok true /\ exists a, poly_get_area pg = Ok a) /\
  convex_ccw ez (map val3 [tr_a; tr_b; tr_out; tr_c]) /\ hull (map val3 [tr_a; tr_b; tr_out; tr_c]) (val3 tr_in).
Proof. exact (conj tr_medium (conj tr_spread (conj tol_milli (conj tr_poly (conj (proj2 tr_convex) (proj2 tr_hull)))))). Qed.
