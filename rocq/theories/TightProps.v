(** Further theorems on C50 (default tolerance), C63 (values) and C61 (concave faces, traces). *)

From Coq Require Import Reals List.
From Verif Require Import Base NumModel VecModel LinModel RoundModel PolyModel DistModel IntModel
  GeoSpec LinSpec RoundSpec PolySpec PolyBridge PolyExamples DistSpec IntSpec IntExamples TightProofs.
Import ListNotations.
Local Open Scope R_scope.

(** The points of a convex quadrilateral are contained for the default tolerance. *)
Theorem c50_default_partial : forall N p0 p1 p2 p3, convex_ccw N (around p0 p1 p2 p3) -> p0 <> p3 ->
  forall p chk, hull (around p0 p1 p2 p3) p -> quad_contains_default (make_quad p0 p1 p2 p3) p chk = true.
Proof. exact quad_default. Qed.
Print Assumptions c50_default_partial.

(** The default tolerances are 10^-7 times a measure of the size. *)
Theorem c63_values :
  (forall s : segment R, eps_segment s = 1 / 10000000 * dist (s_src s) (s_tgt s)) /\
  (forall c : ell R, eps_circle c = 1 / 10000000 * e_a c) /\
  (forall e : ell R, eps_ellipse e = 1 / 10000000 * ((e_a e + e_b e) / 2) /\ eps_disk e = eps_ellipse e) /\
  (forall q : quad R, eps_quad q = 1 / 10000000 * (sqrt (q_area q) / 2)) /\
  (forall (pg : poly R) a, poly_get_area pg = Ok a -> eps_poly pg = Ok (1 / 10000000 * (sqrt a / 2))) /\
  (forall c : cyl R, eps_surf c = 1 / 10000000 * ((cyl_radius c + c_h c) / 2)) /\
  (forall b : box R, eps_box b = Ok (1 / 10000000 * dist (b_min b) (b_max b))) /\
  (forall s : sphere R, eps_sphere s = 1 / 10000000 * sp_r s).
Proof. exact eps_values. Qed.
Print Assumptions c63_values.

(** Two disks of the same size that meet the common line of their planes in segments: the result
    is that for the two segments. *)
Theorem c61_traces : forall K (d1 d2 : ell R) l s1 s2 eps,
  do_intersect (k_face_box K (FDisk d1)) (k_face_box K (FDisk d2)) eps = true ->
  do_intersect (k_seg_box K s1) (k_seg_box K s2) eps = true ->
  e_a d1 = e_a d2 ->
  plane_plane K (ell_plane d1) (ell_plane d2) eps = Ok (IsLine l) ->
  int_face_line K (FDisk d1) l eps = Ok (IsSeg s1) ->
  int_face_line K (FDisk d2) l eps = Ok (IsSeg s2) ->
  int_faces K (FDisk d1) (FDisk d2) eps = int_segs K s1 s2 eps.
Proof. exact disks_traces. Qed.
Print Assumptions c61_traces.

(** Concave quadrilaterals and polygons: an exception. *)
Theorem c61_concave_refuted : forall K a0 a1 a2 a3 b0 b1 b2 b3 eps,
  let q1 := make_quad a0 a1 a2 a3 in let q2 := make_quad b0 b1 b2 b3 in
  do_intersect (k_face_box K (FQuad q1)) (k_face_box K (FQuad q2)) eps = true ->
  (noncollinear a0 a1 a2 /\ on_plane a0 (tri_normal a0 a1 a2) a3 /\ (forall N, ~ convex_ccw N (around a0 a1 a2 a3)))
  \/ (noncollinear b0 b1 b2 /\ on_plane b0 (tri_normal b0 b1 b2) b3 /\ (forall N, ~ convex_ccw N (around b0 b1 b2 b3))) ->
  int_faces K (FQuad q1) (FQuad q2) eps = Throw RuntimeError.
Proof. exact concave_quads. Qed.
Print Assumptions c61_concave_refuted.
Example c61_concave_case : noncollinear (fl 4 0) (fl 1 1) (fl 0 0) /\
  on_plane (fl 4 0) (tri_normal (fl 4 0) (fl 1 1) (fl 0 0)) (fl 0 4) /\
  (forall N, ~ convex_ccw N (around (fl 4 0) (fl 1 1) (fl 0 0) (fl 0 4))) /\
  int_faces xk (FQuad dq) (FQuad dq) (1 / 10) = Throw RuntimeError.
Proof. exact (conj (proj1 dq_concave) (conj (proj1 (proj2 dq_concave)) (conj (proj2 (proj2 dq_concave)) dq_case))). Qed.

Theorem c61_concave_polygons_refuted : forall K (p1 p2 : poly R) eps,
  do_intersect (k_face_box K (FPoly p1)) (k_face_box K (FPoly p2)) eps = true ->
  po_convex p1 = false \/ po_convex p2 = false ->
  int_faces K (FPoly p1) (FPoly p2) eps = Throw RuntimeError.
Proof. exact (fun K p1 p2 eps => concave_throws K (FPoly p1) (FPoly p2) eps). Qed.
Print Assumptions c61_concave_polygons_refuted.
