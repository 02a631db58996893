(** C32, C39-C42: bounding boxes, lines, planes, segments and boxes. *)

From Coq Require Import Reals Lra List.
From Verif Require Import Base NumModel VecModel LinModel GeoSpec LinSpec GeoLemmas LinProofs BoxProofs.
Local Open Scope R_scope.

(** *** C32 *)

Theorem c32_no_false_negative : forall (b1 b2 : box R) eps p,
  0 < eps -> in_box b1 p -> in_box b2 p -> do_intersect b1 b2 eps = true.
Proof. exact do_intersect_shared. Qed.
Print Assumptions c32_no_false_negative.

(** With the default tolerance not even degenerate boxes are missed. *)
Theorem c32_default_no_false_negative : forall (b1 b2 : box R) p,
  in_box b1 p -> in_box b2 p -> do_intersect_default b1 b2 = true.
Proof. exact do_intersect_default_shared. Qed.
Print Assumptions c32_default_no_false_negative.

(** A positive answer means that the boxes come within eps in every coordinate. *)
Theorem c32_no_false_positive : forall (b1 b2 : box R) eps,
  box_ok b1 -> box_ok b2 -> 0 <= eps -> do_intersect b1 b2 eps = true ->
  exists p q, in_box b1 p /\ in_box b2 q /\
    Rabs (vx p - vx q) <= eps /\ Rabs (vy p - vy q) <= eps /\ Rabs (vz p - vz q) <= eps.
Proof. exact do_intersect_far. Qed.
Print Assumptions c32_no_false_positive.

Example c32_case :
  let b1 := mkBox (mkV3 0 0 0) (mkV3 1 1 1) in
  let b2 := mkBox (mkV3 1 0 0) (mkV3 2 1 1) in
  let b3 := mkBox (mkV3 3 0 0) (mkV3 4 1 1) in
  in_box b1 (mkV3 1 0 0) /\ in_box b2 (mkV3 1 0 0) /\ do_intersect b1 b3 1 = false.
Proof.
  cbv zeta. split; [unfold in_box; cbn; lra|]. split; [unfold in_box; cbn; lra|].
  apply Bool.not_true_iff_false. intros H. apply c32_no_false_positive in H; try (unfold box_ok; cbn; lra).
  destruct H as (p & q & Hp & Hq & Hx & _). unfold in_box in *. cbn in *.
  rewrite Rabs_left in Hx; lra.
Qed.

(** *** C39 *)

Theorem c39_projection_closest : forall (l : line R) p, unit3 (l_dir l) ->
  closest (on_line (l_sup l) (l_dir l)) p (line_proj l p).
Proof. exact line_proj_closest. Qed.
Print Assumptions c39_projection_closest.

Theorem c39_contains : forall (l : line R) p eps d, unit3 (l_dir l) -> 0 <= eps ->
  dist_to (on_line (l_sup l) (l_dir l)) p d -> (line_contains l p eps = true <-> d < eps).
Proof. exact line_contains_dist. Qed.
Print Assumptions c39_contains.

Example c39_case : let l := mkLine (mkV3 1 1 1) (mkV3 0 1 0) in
  unit3 (l_dir l) /\ line_proj l (mkV3 5 7 1) = mkV3 1 7 1 /\
  dist_to (on_line (l_sup l) (l_dir l)) (mkV3 5 7 1) 4.
Proof. exact line_case. Qed.

(** *** C40 *)

Theorem c40_point_normal : forall p n : pt, unit3 n ->
  let pl := plane_pn p n in
  pl_sup pl = p /\ pl_n pl = n /\ ortho_basis (pl_b1 pl) (pl_b2 pl) (pl_n pl).
Proof. exact plane_pn_basis. Qed.
Print Assumptions c40_point_normal.

(** Three points that are not on a line: the plane contains them, its normal points in the
    direction of (p2 - p1) x (p3 - p1) and its first base vector along p2 - p1. *)
Theorem c40_three_points : forall p1 p2 p3 : pt, cross (psub p2 p1) (psub p3 p1) <> zero3 ->
  let pl := plane_3p p1 p2 p3 in
  pl_sup pl = p1 /\ ortho_basis (pl_b1 pl) (pl_b2 pl) (pl_n pl) /\
  (exists c, 0 < c /\ pl_n pl = pscale c (cross (psub p2 p1) (psub p3 p1))) /\
  (exists c, 0 < c /\ pl_b1 pl = pscale c (psub p2 p1)).
Proof. exact plane_3p_ok. Qed.
Print Assumptions c40_three_points.

Theorem c40_three_points_contained : forall p1 p2 p3 : pt, cross (psub p2 p1) (psub p3 p1) <> zero3 ->
  let pl := plane_3p p1 p2 p3 in
  on_plane (pl_sup pl) (pl_n pl) p1 /\ on_plane (pl_sup pl) (pl_n pl) p2 /\
  on_plane (pl_sup pl) (pl_n pl) p3.
Proof. exact plane_3p_contains. Qed.
Print Assumptions c40_three_points_contained.

Theorem c40_projection_closest : forall (pl : plane R) p, unit3 (pl_n pl) ->
  closest (on_plane (pl_sup pl) (pl_n pl)) p (plane_proj pl p).
Proof. exact plane_proj_closest. Qed.
Print Assumptions c40_projection_closest.

Theorem c40_contains : forall (pl : plane R) p eps d, unit3 (pl_n pl) ->
  dist_to (on_plane (pl_sup pl) (pl_n pl)) p d -> (plane_contains pl p eps = true <-> d < eps).
Proof. exact plane_contains_dist. Qed.
Print Assumptions c40_contains.

(** The projection of a line that is not orthogonal to the plane is the line of the
    projections of its points, and its direction is a unit vector. *)
Theorem c40_project_line : forall (pl : plane R) (l : line R),
  unit3 (pl_n pl) -> unit3 (l_dir l) -> cross (pl_n pl) (l_dir l) <> zero3 ->
  let l' := plane_proj_line pl l in
  unit3 (l_dir l') /\
  forall y, on_line (l_sup l') (l_dir l') y
            <-> exists x, on_line (l_sup l) (l_dir l) x /\ y = plane_proj pl x.
Proof. exact plane_proj_line_image. Qed.
Print Assumptions c40_project_line.

Theorem c40_project_segment : forall (pl : plane R) (s : segment R),
  let s' := plane_proj_seg pl s in
  forall y, on_segment (s_src s') (s_tgt s') y
            <-> exists x, on_segment (s_src s) (s_tgt s) x /\ y = plane_proj pl x.
Proof. exact plane_proj_seg_image. Qed.
Print Assumptions c40_project_segment.

Example c40_case : let p1 := mkV3 0 0 1 in let p2 := mkV3 2 0 1 in let p3 := mkV3 1 1 1 in
  cross (psub p2 p1) (psub p3 p1) <> zero3 /\
  pl_n (plane_3p p1 p2 p3) = mkV3 0 0 1 /\ pl_b2 (plane_3p p1 p2 p3) = mkV3 0 1 0.
Proof. exact plane_case. Qed.

(** *** C41 *)

(** contains(p, eps) iff the distance of p to the segment is below eps. *)
Theorem c41_contains : forall (s : segment R) p, s_src s <> s_tgt s -> forall eps d, 0 < eps ->
  dist_to (on_segment (s_src s) (s_tgt s)) p d ->
  (seg_contains s p eps true = true <-> d < eps).
Proof. exact seg_contains_iff. Qed.
Print Assumptions c41_contains.

(** The distance used above exists for every point. *)
Theorem c41_distance_exists : forall (s : segment R) p, s_src s <> s_tgt s ->
  exists d, dist_to (on_segment (s_src s) (s_tgt s)) p d.
Proof. exact seg_dist_exists. Qed.
Print Assumptions c41_distance_exists.

(** In particular the points of the segment are contained, also with the default tolerance. *)
Theorem c41_own_points : forall (s : segment R) p, s_src s <> s_tgt s ->
  on_segment (s_src s) (s_tgt s) p ->
  (forall eps chk, 0 < eps -> seg_contains s p eps chk = true) /\
  (forall chk, seg_contains_default s p chk = true).
Proof. exact seg_own_points. Qed.
Print Assumptions c41_own_points.

(** The line check may be skipped for points on the supporting line. *)
Theorem c41_skip_line_check : forall (s : segment R) p eps, s_src s <> s_tgt s -> 0 < eps ->
  on_line (s_src s) (seg_dir s) p ->
  seg_contains s p eps false = seg_contains s p eps true.
Proof. exact seg_contains_on_line. Qed.
Print Assumptions c41_skip_line_check.

Theorem c41_get_point : forall (s : segment R) t, 0 <= t <= 1 ->
  on_segment (s_src s) (s_tgt s) (seg_point s t).
Proof. exact seg_point_on. Qed.
Print Assumptions c41_get_point.

Theorem c41_get_point_complete : forall (s : segment R) x, on_segment (s_src s) (s_tgt s) x ->
  exists t, 0 <= t <= 1 /\ x = seg_point s t.
Proof. exact on_seg_point. Qed.
Print Assumptions c41_get_point_complete.

Theorem c41_end_points : forall s : segment R,
  seg_point s 0 = s_src s /\ seg_point s 1 = s_tgt s /\ seg_len s = dist (s_src s) (s_tgt s) /\
  dist (s_src s) (seg_center s) = dist (seg_center s) (s_tgt s).
Proof. exact seg_end_points. Qed.
Print Assumptions c41_end_points.

Theorem c41_reversed : forall (s : segment R) p,
  on_segment (s_src s) (s_tgt s) p
  <-> on_segment (s_src (seg_reversed s)) (s_tgt (seg_reversed s)) p.
Proof. exact seg_reversed_same. Qed.
Print Assumptions c41_reversed.

Example c41_case : let s := mkSeg (mkV3 0 0 0) (mkV3 4 0 0) in
  s_src s <> s_tgt s /\ on_segment (s_src s) (s_tgt s) (mkV3 1 0 0) /\
  dist_to (on_segment (s_src s) (s_tgt s)) (mkV3 7 4 0) 5.
Proof. exact seg_case. Qed.

(** *** C42 *)

Theorem c42_construction : forall x0 y0 z0 x1 y1 z1 : R,
  (x0 <= x1 /\ y0 <= y1 /\ z0 <= z1 ->
   make_box x0 y0 z0 x1 y1 z1 = Ok (mkBox (mkV3 x0 y0 z0) (mkV3 x1 y1 z1))) /\
  (x1 < x0 \/ y1 < y0 \/ z1 < z0 -> make_box x0 y0 z0 x1 y1 z1 = Throw RuntimeError).
Proof. exact make_box_spec. Qed.
Print Assumptions c42_construction.

Theorem c42_contains : forall (b : box R) p eps, box_contains b p eps = true <-> in_box_eps b eps p.
Proof. exact box_contains_iff. Qed.
Print Assumptions c42_contains.

Theorem c42_contains_default : forall (b : box R) p, b_min b <> b_max b -> in_box b p ->
  box_contains_default b p = true.
Proof. exact box_contains_default_in. Qed.
Print Assumptions c42_contains_default.

Theorem c42_corners : forall (b : box R) p, is_corner b p <-> exists i, box_corner b i = Ok p.
Proof. exact box_corner_iff. Qed.
Print Assumptions c42_corners.

Theorem c42_corner_count : forall (b : box R) i,
  ((i < 8)%nat -> exists p, box_corner b i = Ok p) /\
  ((8 <= i)%nat -> box_corner b i = Throw RuntimeError).
Proof. exact box_corner_total. Qed.
Print Assumptions c42_corner_count.

Theorem c42_corners_distinct : forall (b : box R) i j p,
  vx (b_min b) < vx (b_max b) -> vy (b_min b) < vy (b_max b) -> vz (b_min b) < vz (b_max b) ->
  box_corner b i = Ok p -> box_corner b j = Ok p -> i = j.
Proof. exact box_corner_inj. Qed.
Print Assumptions c42_corners_distinct.

Theorem c42_edge_count : forall (b : box R) i,
  ((i < 12)%nat -> exists s, box_edge b i = Ok s) /\
  ((12 <= i)%nat -> box_edge b i = Throw RuntimeError).
Proof. exact box_edge_total. Qed.
Print Assumptions c42_edge_count.

Theorem c42_edges_sound : forall (b : box R) i s, box_edge b i = Ok s ->
  is_corner b (s_src s) /\ is_corner b (s_tgt s) /\ axis_parallel (s_src s) (s_tgt s).
Proof. exact box_edge_sound. Qed.
Print Assumptions c42_edges_sound.

Theorem c42_edges_complete : forall (b : box R) p q,
  is_corner b p -> is_corner b q -> axis_parallel p q -> p <> q ->
  exists i s, box_edge b i = Ok s /\ ((s_src s = p /\ s_tgt s = q) \/ (s_src s = q /\ s_tgt s = p)).
Proof. exact box_edge_complete. Qed.
Print Assumptions c42_edges_complete.

Theorem c42_face_count : forall (b : box R) i,
  ((i < 6)%nat -> exists f, box_face b i = Ok f) /\
  ((6 <= i)%nat -> box_face b i = Throw RuntimeError).
Proof. exact box_face_total. Qed.
Print Assumptions c42_face_count.

(** Every face is a parallelogram within the boundary of the box ... *)
Theorem c42_faces_sound : forall (b : box R) i p0 p1 p2 p3 p,
  box_ok b -> box_face b i = Ok (p0, p1, p2, p3) ->
  p3 = padd p0 (padd (psub p1 p0) (psub p2 p0)) /\
  (on_parallelogram p0 p1 p2 p -> on_bounding_face b p).
Proof. exact box_face_sound. Qed.
Print Assumptions c42_faces_sound.

(** ... and together they cover it. *)
Theorem c42_faces_complete : forall (b : box R) p, box_ok b -> on_bounding_face b p ->
  exists i p0 p1 p2 p3, box_face b i = Ok (p0, p1, p2, p3) /\ on_parallelogram p0 p1 p2 p.
Proof. exact box_face_complete. Qed.
Print Assumptions c42_faces_complete.

Theorem c42_center : forall b : box R,
  box_center b = pscale (1 / 2) (padd (b_min b) (b_max b)) /\ (box_ok b -> in_box b (box_center b)).
Proof. exact box_center_spec. Qed.
Print Assumptions c42_center.

(** The volume is the product of the edge lengths. *)
Theorem c42_volume : forall b : box R, box_ok b -> forall ex ey ez : segment R,
  box_edge b 0 = Ok ex -> box_edge b 1 = Ok ey -> box_edge b 4 = Ok ez ->
  box_volume b = dist (s_src ex) (s_tgt ex) * dist (s_src ey) (s_tgt ey) * dist (s_src ez) (s_tgt ez).
Proof. exact box_volume_edges. Qed.
Print Assumptions c42_volume.

Example c42_case : exists b, make_box 0 0 0 1 2 3 = Ok b /\ box_ok b /\ box_volume b = 6 /\
  box_contains b (mkV3 1 2 3) (1 / 10) = true /\ box_contains b (mkV3 1 2 4) (1 / 10) = false.
Proof. exact box_case. Qed.
