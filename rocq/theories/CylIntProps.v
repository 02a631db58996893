(** C83: intersections of lateral cylinder surfaces and planar faces. *)

From Coq Require Import Reals Lra List.
From Verif Require Import Base NumModel VecModel LinModel RoundModel PolyModel DistModel IntModel AngModel CylIntModel
  GeoSpec LinSpec RoundSpec PolySpec IntSpec AngSpec CylIntSpec PolyBridge CylIntProofs CylIntProofs2 CylIntExamples.
Import ListNotations.
Local Open Scope R_scope.

(** The pieces cover exactly the common points of the face and the surface, for convex faces that
    are orthogonal to the axis, oblique, or along the axis, if the boolean operations find the
    common points. *)
Theorem c83_exact_partial : forall K C c f eps el, 0 < eps -> tube_ok c -> face_ok f -> larger f eps -> boxed K f -> tube_boxed C c ->
  (slanted c f -> axis_met K c f) -> canonical c f el -> splits C c f eps el ->
  covers (int_cyl_face K C c f eps) (common_set c f).
Proof. exact int_cyl_exact. Qed.
Print Assumptions c83_exact_partial.
Example c83_exact_arc : tube_ok rod /\ face_ok half /\ larger half (1 / 10) /\ boxed (one_kernel zero3) half /\ tube_boxed half_ops rod /\
  across rod half /\ canonical rod half (Some half_ell) /\ splits half_ops rod half (1 / 10) (Some half_ell).
Proof. exact half_case. Qed.
Example c83_exact_ellipse : tube_ok rod /\ face_ok ramp /\ larger ramp (1 / 10) /\ boxed (one_kernel (mkV3 0 0 5)) ramp /\ tube_boxed ramp_ops rod /\
  slanted rod ramp /\ axis_met (one_kernel (mkV3 0 0 5)) rod ramp /\
  canonical rod ramp (Some ramp_ell) /\ splits ramp_ops rod ramp (1 / 10) (Some ramp_ell).
Proof. exact ramp_case. Qed.
Example c83_exact_segments : tube_ok rod /\ face_ok slice /\ larger slice (1 / 10) /\ boxed (one_kernel zero3) slice /\ tube_boxed slice_ops rod /\
  along rod slice /\ canonical rod slice None /\ splits slice_ops rod slice (1 / 10) None.
Proof. exact slice_case. Qed.

(** The ellipse the wires are compared with is the section of the plane and the unbounded surface. *)
Theorem c83_section : forall c f e, tube_ok c -> face_ok f -> canonical c f (Some e) -> section_of c f e.
Proof. exact canonical_section. Qed.
Print Assumptions c83_section.

(** Whatever the boolean operations return, the arcs and ellipses of a result are parts of that
    section. *)
Theorem c83_on_section : forall K C c f eps is i e, 0 < eps -> tube_ok c -> face_ok f -> larger f eps ->
  across c f \/ (slanted c f /\ axis_met K c f) -> int_cyl_face K C c f eps = Ok is -> In i is ->
  i = PcEll e \/ (exists a, i = PcArc a /\ a_ell a = e) -> section_of c f e.
Proof. exact int_section. Qed.
Print Assumptions c83_on_section.
Example c83_on_section_case : exists is, int_cyl_face (one_kernel (mkV3 0 0 5)) ramp_ops rod ramp (1 / 10) = Ok is /\ exists i, In i is /\ piece_pts i (mkV3 1 0 4).
Proof.
  destruct ramp_case as (A1 & A2 & A3 & A4 & A5 & _ & A6 & A7 & A8).
  destruct (int_cyl_exact (one_kernel (mkV3 0 0 5)) ramp_ops rod ramp (1 / 10) _ ltac:(lra) A1 A2 A3 A4 A5 (fun _ => A6) A7 A8) as (is & E & H & _).
  exists is. split; [exact E|]. apply H. exact ramp_point.
Qed.

(** Faces orthogonal to the axis up to the angular tolerance: the circle is close to the plane and
    to the unbounded surface; the error grows with the distance h0 of the center of the bottom
    from the plane.  Missing: the exact section. *)
Theorem c83_tilted_partial : forall K C c f eps is i e, 0 < eps -> tube_ok c -> face_ok f ->
  (angle (pl_n (face_plane f)) (e_n (c_bot c)) <= ang_tol \/ PI - ang_tol <= angle (pl_n (face_plane f)) (e_n (c_bot c))) ->
  int_cyl_face K C c f eps = Ok is -> In i is -> i = PcEll e \/ (exists a, i = PcArc a /\ a_ell a = e) ->
  forall x h0, on_ellipse e x -> (exists q, plane_pts (face_plane f) q /\ dist (e_c (c_bot c)) q <= h0) ->
    (exists y, plane_pts (face_plane f) y /\ dist x y <= e_a (c_bot c) * ang_tol) /\
    (exists y, line_pts (axis_line c) y /\ ortho (psub x y) (e_n (c_bot c)) /\ Rabs (dist x y - e_a (c_bot c)) <= h0 * ang_tol).
Proof. exact int_tilted. Qed.
Print Assumptions c83_tilted_partial.
Example c83_tilted_case : angle (pl_n (face_plane half)) (e_n (c_bot rod)) <= ang_tol /\
  exists is, int_cyl_face (one_kernel zero3) half_ops rod half (1 / 10) = Ok is /\ exists i, In i is /\ piece_pts i (mkV3 1 0 5).
Proof.
  split; [exact half_angle|]. destruct half_case as (A1 & A2 & A3 & A4 & A5 & A6 & A7 & A8).
  destruct (int_cyl_exact (one_kernel zero3) half_ops rod half (1 / 10) _ ltac:(lra) A1 A2 A3 A4 A5 (fun S => False_ind _ (half_level S)) A7 A8) as (is & E & H & _).
  exists is. split; [exact E|]. apply H, half_set. cbn [vx vy vz]. lra.
Qed.

(** The form of the results: only "empty"; only an ellipse; or points, followed by segments or by
    arcs of one ellipse. *)
Theorem c83_kinds : forall K C c f eps is, 0 < eps -> int_cyl_face K C c f eps = Ok is ->
  is = [PcEmpty] \/ (exists e, is = [PcEll e]) \/
  (is <> [] /\ exists ps ws, is = map PcPoint ps ++ ws /\
     ((forall i, In i ws -> exists s, i = PcSeg s) \/ (exists e, forall i, In i ws -> exists a, i = PcArc a /\ a_ell a = e))).
Proof. exact int_kinds. Qed.
Print Assumptions c83_kinds.

(** The points of a result are close to the surface, and at least eps apart. *)
Theorem c83_points_near : forall K C c f eps is p, 0 < eps -> cyl_ok c -> int_cyl_face K C c f eps = Ok is -> In (PcPoint p) is ->
  exists q, cyl_lateral_set c q /\ dist p q <= sqrt 2 * eps.
Proof. exact int_points_near. Qed.
Print Assumptions c83_points_near.
Theorem c83_points_apart : forall K C c f eps is l1 p l2 q, 0 < eps -> int_cyl_face K C c f eps = Ok is ->
  is = l1 ++ PcPoint p :: l2 -> In (PcPoint q) l2 -> eps <= dist p q.
Proof. exact int_points_apart. Qed.
Print Assumptions c83_points_apart.
Example c83_points_case : int_cyl_face (one_kernel zero3) two_ops rod far_face (1 / 10) =
  Ok [PcPoint (mkV3 1 0 0); PcPoint (mkV3 0 1 0)].
Proof. exact two_points. Qed.

(** A disk tangent to the surface that reaches beyond its ends has a segment in common with it,
    but the result is empty: the disk does not enter the cylinder, and its boundary does not meet
    the surface, so there are no faces, wires or vertices to look at. *)
Theorem c83_tangent_refuted :
  (tube_ok rod /\ face_ok tangent /\ along rod tangent) /\
  (forall x, common_set rod tangent x <-> vx x = 1 /\ vy x = 0 /\ 0 <= vz x <= 10) /\
  (forall x, on_ellipse (dk (mkV3 1 0 5) (mkV3 0 1 0) (mkV3 0 0 1) 6) x -> forall q, cyl_lateral_set rod q -> 1 / 2 < dist x q) /\
  (forall x, face_set tangent x -> forall y, line_pts (axis_line rod) y -> 1 <= dist x y) /\
  forall K C eps, 0 < eps <= 1 / 4 ->
    ck_faces C rod tangent (1 / 10 * eps) = 0%nat -> ck_outer C rod tangent (1 / 10 * eps) = [] ->
    (forall v, In v (ck_cut C rod tangent (1 / 10 * eps)) -> on_ellipse (dk (mkV3 1 0 5) (mkV3 0 1 0) (mkV3 0 0 1) 6) v) ->
    int_cyl_face K C rod tangent eps = Ok [PcEmpty].
Proof. exact (conj tangent_ok (conj tangent_set (conj tangent_rim (conj tangent_outside tangent_missed)))). Qed.
Print Assumptions c83_tangent_refuted.

(** Concave quadrilaterals and polygons: an exception. *)
Theorem c83_concave_refuted : forall K C c f eps, do_intersect (ck_box C c) (k_face_box K f) eps = true ->
  match f with
  | FDisk _ => False
  | FQuad q => exists a0 a1 a2 a3, q = make_quad a0 a1 a2 a3 /\ noncollinear a0 a1 a2 /\
      on_plane a0 (tri_normal a0 a1 a2) a3 /\ forall N, ~ convex_ccw N (around a0 a1 a2 a3)
  | FPoly p => po_convex p = false
  end -> int_cyl_face K C c f eps = Throw RuntimeError.
Proof. exact concave_cyl. Qed.
Print Assumptions c83_concave_refuted.
