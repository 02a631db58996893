(** C116: the checks of debug builds. *)

From Coq Require Import ZArith Reals List Permutation.
From Coq Require Import Floats.
From Verif Require Import Base NumModel VecModel LinModel RoundModel PolyModel IntModel SampModel ChkModel GeoSpec LinSpec RoundSpec PolySpec IntSpec SampSpec DblSpec LinDblSpec
  RndDblSpec TrigDblSpec TrigDblExamples SdDblSpec SdDblExamples SpDblSpec SpDblExamples DkDblExamples IntExamples ChkSpec ChkProofs ChkDbl ChkFail ChkExamples ChkDblExamples.
Import ListNotations.
Local Open Scope R_scope.

(** The check that the corners of a quadrilateral lie in a plane accepts exactly the quadrilaterals whose last corner is closer
    to the plane of the others than 10^-7 times its distance from the first corner. *)
Theorem c116_quad : forall (p0 p1 p2 p3 : pt) D, noncollinear p0 p1 p2 -> dist_to (on_plane p0 (cross (psub p1 p0) (psub p2 p0))) p3 D ->
  (quad_check p0 p1 p2 p3 = true <-> D < 1 / 10 ^ 7 * dist p3 p0).
Proof. exact quad_checked. Qed.
Print Assumptions c116_quad.
Theorem c116_quad_planar : forall (p0 p1 p2 p3 : pt), noncollinear p0 p1 p2 -> on_plane p0 (cross (psub p1 p0) (psub p2 p0)) p3 -> p3 <> p0 -> quad_check p0 p1 p2 p3 = true.
Proof. exact quad_planar_checked. Qed.
Print Assumptions c116_quad_planar.
Example c116_quad_case : noncollinear (mkV3 0 0 0) (mkV3 1 0 0) (mkV3 0 1 0) /\
  on_plane (mkV3 0 0 0) (cross (psub (mkV3 1 0 0) (mkV3 0 0 0)) (psub (mkV3 0 1 0) (mkV3 0 0 0))) (mkV3 1 1 0) /\ (mkV3 1 1 0 : pt) <> mkV3 0 0 0.
Proof. exact square_case. Qed.

(** Of the polygons whose corners lie in a plane, the check accepts exactly those whose center is not the first corner; it
    accepts all convex polygons. *)
Theorem c116_polygon : forall (cs : list pt) pg N, make_poly cs = Ok pg -> unit3 N -> planar N cs -> noncollinear (nth 0 cs zero3) (nth 1 cs zero3) (nth 2 cs zero3) ->
  (poly_check pg = true <-> po_c pg <> nth 0 cs zero3).
Proof. exact poly_checked. Qed.
Print Assumptions c116_polygon.
Theorem c116_polygon_convex : forall N (cs : list pt) pg, convex_ccw N cs -> make_poly cs = Ok pg -> poly_check pg = true.
Proof. exact convex_checked. Qed.
Print Assumptions c116_polygon_convex.
Example c116_polygon_case : convex_ccw e2n (corners_xz 0 1 1) /\ exists pg, make_poly (corners_xz 0 1 1) = Ok pg.
Proof. exact (conj (pg_convex 0 1 1 Rlt_0_1 Rlt_0_1) (ex_intro _ _ eq_refl)). Qed.

(** A debug build aborts on a valid concave polygon in a plane, exactly and in double precision. *)
Theorem c116_polygon_refuted : (unit3 (mkV3 0 0 1) /\ planar (mkV3 0 0 1) dart /\ noncollinear (nth 0 dart zero3) (nth 1 dart zero3) (nth 2 dart zero3)) /\
  (exists pg, make_poly dart = Ok pg /\ poly_check pg = false) /\
  (exists pg, make_poly dart_float = Ok pg /\ poly_check pg = false).
Proof. exact (conj dart_planar (conj dart_fails dart_float_fails)). Qed.
Print Assumptions c116_polygon_refuted.

(** The check on the basis of a plane accepts every orthonormal basis, but also vectors that are no basis: it never compares
    the second base vector with the normal. *)
Theorem c116_plane : forall b1 b2 n : pt, ortho_basis b1 b2 n -> plane_check b1 b2 n = true.
Proof. exact plane_checked. Qed.
Print Assumptions c116_plane.
Theorem c116_plane_refuted : forall b1 n : pt, ortho b1 n -> plane_check b1 n n = true.
Proof. exact (fun b1 n A => plane_uses b1 n n A A). Qed.
Print Assumptions c116_plane_refuted.
Example c116_plane_case : ortho_basis (mkV3 1 0 0) (mkV3 0 1 0) (mkV3 0 0 1).
Proof. exact flat_basis. Qed.

(** The check on the vectors given to isRightHandSystem accepts those that span a volume that is not negligible. *)
Theorem c116_right_hand : forall u v w : pt, right_hand_check u v w = true <-> 1 / 10 ^ 21 * (norm u * norm v * norm w) < Rabs (det3 u v w).
Proof. exact right_hand_checked. Qed.
Print Assumptions c116_right_hand.

(** The check on arcs accepts all points of the ellipse; for a major axis beyond 10^7 it accepts the center, too. *)
Theorem c116_arc : forall (e : ell R) s t, ell_ok e -> on_ellipse e s -> on_ellipse e t -> arc_check e s t = true.
Proof. exact arc_checked. Qed.
Print Assumptions c116_arc.
Theorem c116_arc_exact : forall (e : ell R) s t, ell_ok e ->
  (arc_check e s t = true <-> near_ellipse (e_a e / 10 ^ 7) e s /\ near_ellipse (e_a e / 10 ^ 7) e t).
Proof. exact arc_exact. Qed.
Print Assumptions c116_arc_exact.
Theorem c116_arc_refuted : forall e : ell R, ell_ok e -> 10 ^ 7 < e_a e -> arc_check e (e_c e) (e_c e) = true /\ ~ on_ellipse e (e_c e).
Proof. exact arc_center. Qed.
Print Assumptions c116_arc_refuted.
Example c116_arc_case : forall a b, 0 < a -> 0 < b -> ell_ok (flat_ell a b).
Proof. exact flat_ell_ok. Qed.

(** For parallel planes, the check before an angle is computed accepts exactly distances below 10^-7, whatever the size of the
    figures in these planes, whose intersection uses a tolerance relative to their size; parallel planes that are further
    apart, for which the angle is zero, end a debug build. *)
Theorem c116_angle : forall K (p1 p2 : plane R) d, unit3 (pl_n p1) -> ~ oblique ang_tol (pl_n p1) (pl_n p2) -> dist_to (plane_pts p1) (pl_sup p2) d ->
  (angle_check K p1 p2 = Ok true <-> d < 1 / 10 ^ 7).
Proof. exact angle_checked. Qed.
Print Assumptions c116_angle.
Theorem c116_angle_refuted : forall K, angle_check K (floor_plane 0) (floor_plane (1 / 10 ^ 7)) = Ok false.
Proof. exact floor_apart_false. Qed.
Print Assumptions c116_angle_refuted.
Example c116_angle_case : forall h, 0 <= h -> unit3 (pl_n (floor_plane 0)) /\ ~ oblique ang_tol (pl_n (floor_plane 0)) (pl_n (floor_plane h)) /\
  dist_to (plane_pts (floor_plane 0)) (pl_sup (floor_plane h)) h.
Proof. exact floor_planes. Qed.

(** In double precision, the check that the last edge of a sampled polygon leads back to its first corner holds as long as
    the number of corners times the size is at most 400000. *)
Theorem c116_sampled : forall (T : Trig float) esort (d : poly_draws float) M, accurate T -> scale M -> (forall l, Permutation (esort l) l) -> drawn_lengths M d ->
  forall cs, sample_corners esort d = Ok cs -> sample_check esort d = Ok true.
Proof. exact (fun T => @sampled_check_ok T). Qed.
Print Assumptions c116_sampled.
Example c116_sampled_case : accurate rounded_trig /\ scale 60 /\ (forall l, Permutation (sp_sort rounded_trig l) l) /\ drawn_lengths 60 (sp_draws sd_maj) /\
  exists cs, sample_corners (H0 := rounded_trig) (sp_sort rounded_trig) (sp_draws sd_maj) = Ok cs.
Proof. exact (conj rounded_accurate (conj sp_scale (conj (sp_perm rounded_trig) (conj sp_lengths (sp_samples rounded_trig))))). Qed.

(** For lengths of 10^10 the check fails for some draws, however the edges are sorted, although the polygon is sampled. *)
Theorem c116_sampled_refuted : forall T : Trig float, ncos 0%float = 1%float -> nsin 0%float = 0%float ->
  forall esort, (forall l, Permutation (esort l) l) -> (exists cs, sample_corners esort wide_draws = Ok cs) /\ sample_check esort wide_draws = Ok false.
Proof. exact (fun T C S esort P => conj (@wide_samples T esort) (@wide_fails T C S esort P)). Qed.
Print Assumptions c116_sampled_refuted.
Example c116_sampled_refuted_case : accurate rounded_trig /\ @ncos _ rounded_trig 0%float = 1%float /\ @nsin _ rounded_trig 0%float = 0%float.
Proof. exact (conj rounded_accurate rounded_zero). Qed.
