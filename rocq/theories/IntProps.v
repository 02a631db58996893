(** Intersections: C60, C61, C64 and C74.  K stands for the functions of OpenCascade; what is
    assumed about them in the calls at hand is stated by the definitions in IntSpec. *)

From Coq Require Import Reals List Lra.
From Verif Require Import Base NumModel VecModel LinModel RoundModel PolyModel IntModel
  GeoSpec LinSpec RoundSpec PolySpec IntSpec SegIntProofs SegIntProofs2 IntProofs FaceIntProofs LineIntProofs IntExamples IntCases.
Import ListNotations.
Local Open Scope R_scope.

(** *** C60 *)

(** Segments on parallel lines, none of whose end points is close to the other segment without
    being on it: the common part is returned, empty or a segment, unless it is one point. *)
Theorem c60_collinear_partial : forall K s1 s2 eps, 0 < eps -> nondeg s1 -> nondeg s2 ->
  seg_boxed K s1 -> seg_boxed K s2 -> clear s1 s2 eps ->
  fragments s1 s2 (k_fragment K s1 s2 (1 / 10 * eps)) ->
  parallel (seg_vec s1) (seg_vec s2) -> (forall p, ~ touch_at s1 s2 p) ->
  exists r, int_segs K s1 s2 eps = Ok r /\ describes r (both (seg_pts s1) (seg_pts s2)) /\
    (r = IsEmpty \/ exists s, r = IsSeg s).
Proof. exact int_segs_collinear. Qed.
Print Assumptions c60_collinear_partial.
Example c60_collinear_case : nondeg (xs 0 2) /\ nondeg (xs 1 3) /\ seg_boxed xk (xs 0 2) /\ seg_boxed xk (xs 1 3) /\
  clear (xs 0 2) (xs 1 3) (1 / 10) /\ fragments (xs 0 2) (xs 1 3) (k_fragment xk (xs 0 2) (xs 1 3) (1 / 10 * (1 / 10))) /\
  parallel (seg_vec (xs 0 2)) (seg_vec (xs 1 3)) /\ (forall p, ~ touch_at (xs 0 2) (xs 1 3) p).
Proof.
  split; [apply xs_nondeg; lra|]. split; [apply xs_nondeg; lra|]. split; [apply xs_boxed; lra|]. split; [apply xs_boxed; lra|].
  split; [apply xs_clear; unfold away; lra|]. split; [apply xs_fragments; lra|]. split; [apply xs_parallel; lra|exact xs_overlap].
Qed.

(** Collinear segments that touch: the result is a segment of length zero, not a point. *)
Theorem c60_touch_refuted : forall K s1 s2 eps p, 0 < eps -> nondeg s1 -> nondeg s2 ->
  seg_boxed K s1 -> seg_boxed K s2 -> clear s1 s2 eps ->
  touch_at s1 s2 p -> int_segs K s1 s2 eps = Ok (IsSeg (mkSeg p p)).
Proof. exact int_segs_touch. Qed.
Print Assumptions c60_touch_refuted.
Example c60_touch_case : nondeg (xs 0 1) /\ nondeg (xs 1 3) /\ clear (xs 0 1) (xs 1 3) (1 / 10) /\
  touch_at (xs 0 1) (xs 1 3) (ox 1) /\ int_segs xk (xs 0 1) (xs 1 3) (1 / 10) = Ok (IsSeg (mkSeg (ox 1) (ox 1))).
Proof.
  assert (C : clear (xs 0 1) (xs 1 3) (1 / 10)) by (apply xs_clear; unfold away; lra).
  split; [apply xs_nondeg; lra|]. split; [apply xs_nondeg; lra|]. split; [exact C|]. split; [exact xs_touch|].
  apply int_segs_touch; auto; try lra; try (apply xs_nondeg; lra); try (apply xs_boxed; lra). exact xs_touch.
Qed.

(** Segments that are not parallel: the common point, or empty. *)
Theorem c60_oblique : forall K s1 s2 eps, 0 < eps -> nondeg s1 -> nondeg s2 ->
  seg_boxed K s1 -> seg_boxed K s2 -> clear s1 s2 eps ->
  fragments s1 s2 (k_fragment K s1 s2 (1 / 10 * eps)) ->
  oblique ang_tol (seg_vec s1) (seg_vec s2) ->
  exists r, int_segs K s1 s2 eps = Ok r /\ describes r (both (seg_pts s1) (seg_pts s2)) /\
    (r = IsEmpty \/ exists p, r = IsPoint p).
Proof. exact int_segs_oblique. Qed.
Print Assumptions c60_oblique.
Example c60_oblique_case : nondeg (xs 0 2) /\ nondeg bar /\ seg_boxed cross_kernel (xs 0 2) /\ seg_boxed cross_kernel bar /\ clear (xs 0 2) bar (1 / 10) /\
  fragments (xs 0 2) bar (k_fragment cross_kernel (xs 0 2) bar (1 / 10 * (1 / 10))) /\ oblique ang_tol (seg_vec (xs 0 2)) (seg_vec bar) /\
  (forall x, both (seg_pts (xs 0 2)) (seg_pts bar) x <-> x = ox 1).
Proof. exact cross_case. Qed.

(** Whatever is returned is within eps of both segments. *)
Theorem c60_sound : forall K s1 s2 eps, nondeg s1 -> nondeg s2 -> 0 < eps ->
  parallel (seg_vec s1) (seg_vec s2) \/ oblique ang_tol (seg_vec s1) (seg_vec s2) ->
  (forall p, int_segs K s1 s2 eps = Ok (IsPoint p) -> near (seg_pts s1) eps p /\ near (seg_pts s2) eps p) /\
  (forall s, int_segs K s1 s2 eps = Ok (IsSeg s) ->
     forall x, seg_pts s x -> near (seg_pts s1) eps x /\ near (seg_pts s2) eps x).
Proof. exact int_segs_sound. Qed.
Print Assumptions c60_sound.
Example c60_sound_case : int_segs cross_kernel (xs 0 2) bar (1 / 10) = Ok (IsPoint (ox 1)).
Proof.
  destruct cross_case as (A1 & A2 & A3 & A4 & A5 & A6 & A7 & A8).
  destruct (int_segs_oblique cross_kernel (xs 0 2) bar (1 / 10) ltac:(lra) A1 A2 A3 A4 A5 A6 A7) as (r & E & D & [-> |[p ->]]); [exfalso|].
  - apply (D (ox 1)), A8. reflexivity.
  - rewrite E. repeat f_equal. apply A8, D. reflexivity.
Qed.

(** *** C61 *)

(** Two faces with oblique planes, whose parts on the common line of the planes are not too
    close to each other without meeting and do not meet in exactly one point as two points or
    two segments: the common part is returned. *)
Theorem c61_faces_partial : forall K f1 f2 eps, 0 < eps -> boxed K f1 -> boxed K f2 -> crossing K f1 f2 eps ->
  exact_result (int_faces K f1 f2 eps) (both (face_set f1) (face_set f2)).
Proof. exact int_faces_exact. Qed.
Print Assumptions c61_faces_partial.
Example c61_disks : boxed xk (disk_xy 0 0 1) /\ boxed xk (disk_xz 1 0 1) /\ crossing xk (disk_xy 0 0 1) (disk_xz 1 0 1) (1 / 10).
Proof. split; [apply disk_xy_boxed; lra|]. split; [apply disk_xz_boxed; lra|exact disks_crossing]. Qed.
Example c61_quads : crossing xk (sq_xy 0 2 1) (sq_xz (1 / 2) 1 3) (1 / 10).
Proof. exact quads_crossing. Qed.

(** Faces in parallel planes at least eps apart: empty.  Faces in one plane: an exception. *)
Theorem c61_apart : forall K f1 f2 eps, 0 < eps -> face_ok f1 -> face_ok f2 -> supported f1 f2 ->
  apart_planes (face_plane f1) (face_plane f2) eps ->
  int_faces K f1 f2 eps = Ok IsEmpty /\ forall x, ~ both (face_set f1) (face_set f2) x.
Proof. exact int_faces_apart. Qed.
Print Assumptions c61_apart.

Theorem c61_coplanar_refuted : forall K f1 f2 eps x, 0 < eps -> face_ok f1 -> face_ok f2 -> supported f1 f2 ->
  boxed K f1 -> boxed K f2 -> same_plane (face_plane f1) (face_plane f2) -> face_set f1 x -> face_set f2 x ->
  int_faces K f1 f2 eps = Throw RuntimeError.
Proof. exact int_faces_same_common. Qed.
Print Assumptions c61_coplanar_refuted.
Example c61_coplanar_case : int_faces xk (disk_xy 0 0 1) (disk_xy 1 0 1) (1 / 10) = Throw RuntimeError.
Proof.
  apply (int_faces_same_common xk _ _ (1 / 10) (ox 1)); try lra; try (apply disk_xy_ok; lra); try (apply disk_xy_boxed; lra); try exact I.
  - split; [exists 1; split; [lra|]|]; unfold plane_pts, on_plane, dot, psub, pscale; cbn; [unfold e3; cbn; f_equal|]; ring.
  - destruct (disk_xy_fair 0 0 1 ltac:(lra) ltac:(lra)) as [_ X]. rewrite ivl_xy in X by lra. apply (on_x_at _ _ _ 1 X). cbn. lra.
  - destruct (disk_xy_fair 1 0 1 ltac:(lra) ltac:(lra)) as [_ X]. rewrite ivl_xy in X by lra. apply (on_x_at _ _ _ 1 X). cbn. lra.
Qed.

(** A quadrilateral and a polygon: an exception. *)
Theorem c61_unsupported_refuted : forall K f1 f2 eps, ~ supported f1 f2 -> int_faces K f1 f2 eps = Throw RuntimeError.
Proof. exact int_faces_unsupported. Qed.
Print Assumptions c61_unsupported_refuted.

(** If both faces meet the common line of their planes in the same single point, this point is
    not found. *)
Theorem c61_points_refuted : forall K f1 f2 eps p, 0 < eps -> facing K f1 f2 eps ->
  is_point p (both (face_set f1) (plane_pts (face_plane f2))) ->
  is_point p (both (face_set f2) (plane_pts (face_plane f1))) ->
  int_faces K f1 f2 eps = Ok IsEmpty /\ face_set f1 p /\ face_set f2 p.
Proof. exact int_faces_points. Qed.
Print Assumptions c61_points_refuted.
Example c61_points_case : facing xk (disk_xy 0 1 1) (disk_xz 0 1 1) (1 / 10) /\
  is_point (ox 0) (both (face_set (disk_xy 0 1 1)) (plane_pts (face_plane (disk_xz 0 1 1)))) /\
  is_point (ox 0) (both (face_set (disk_xz 0 1 1)) (plane_pts (face_plane (disk_xy 0 1 1)))).
Proof. split; [apply disks_facing; lra|exact touching_points]. Qed.

(** If the parts are segments with one common point, the result is a segment of length zero. *)
Theorem c61_touch_refuted : forall K f1 f2 eps s1 s2 p, 0 < eps -> facing K f1 f2 eps -> boxed K f1 -> boxed K f2 ->
  is_seg s1 (both (face_set f1) (plane_pts (face_plane f2))) ->
  is_seg s2 (both (face_set f2) (plane_pts (face_plane f1))) -> clear s1 s2 eps -> touch_at s1 s2 p ->
  exists s, int_faces K f1 f2 eps = Ok (IsSeg s) /\ s_src s = s_tgt s.
Proof. exact int_faces_touch. Qed.
Print Assumptions c61_touch_refuted.
Example c61_touch_case :
  exists s, int_faces xk (disk_xy (-1) 0 1) (disk_xz 1 0 1) (1 / 10) = Ok (IsSeg s) /\ s_src s = s_tgt s.
Proof. exact touching_segs. Qed.

(** *** C74: the search for the part of a face on a line *)

(** A line in the plane of a disk or quadrilateral: the common part is returned. *)
Theorem c74_in_plane : forall K f l eps, 0 < eps -> face_ok f -> ~ is_poly f -> unit3 (l_dir l) ->
  (forall x, line_pts l x -> plane_pts (face_plane f) x) -> larger f eps -> exact_on K f l (1 / 10 * eps) ->
  exact_result (int_face_line K f l eps) (both (face_set f) (line_pts l)).
Proof. exact face_line_in. Qed.
Print Assumptions c74_in_plane.
Example c74_in_plane_case : face_ok (disk_xy 0 0 1) /\ unit3 (l_dir xaxis) /\
  (forall x, line_pts xaxis x -> plane_pts (face_plane (disk_xy 0 0 1)) x) /\ larger (disk_xy 0 0 1) 1 /\
  exact_on xk (disk_xy 0 0 1) xaxis (1 / 10 * 1).
Proof.
  split; [apply disk_xy_ok; lra|]. split; [exact xaxis_unit|]. split.
  - intros x Hx. apply disk_xy_in. apply xaxis_pts in Hx as [t ->]. reflexivity.
  - split; [apply disk_larger_xy; lra|]. destruct (disk_xy_fair 0 0 1 ltac:(lra) ltac:(lra)) as [A B]. apply xk_exact; assumption.
Qed.

(** A parallel line farther than eps from the plane: empty. *)
Theorem c74_apart : forall K f l eps, 0 < eps -> face_ok f -> ~ is_poly f ->
  ortho (l_dir l) (pl_n (face_plane f)) -> (forall q, plane_pts (face_plane f) q -> eps < dist (l_sup l) q) ->
  int_face_line K f l eps = Ok IsEmpty /\ forall x, ~ both (face_set f) (line_pts l) x.
Proof. exact face_line_apart. Qed.
Print Assumptions c74_apart.
Example c74_apart_case : face_ok (disk_xy 0 0 2) /\ ~ is_poly (disk_xy 0 0 2) /\ ortho (l_dir beside) (pl_n (face_plane (disk_xy 0 0 2))) /\
  forall q, plane_pts (face_plane (disk_xy 0 0 2)) q -> 1 / 10 < dist (l_sup beside) q.
Proof. exact beside_case. Qed.

(** A line that crosses the plane: the point, if it is on the face; empty, if it is outside of
    the face and its margin. *)
Theorem c74_cross : forall K f l eps, 0 < eps -> face_ok f -> ~ is_poly f -> unit3 (l_dir l) ->
  ~ level ang_tol l (face_plane f) -> point_ok (face_plane f) l (k_plane_line K (face_plane f) l) ->
  exists p, (forall x, both (plane_pts (face_plane f)) (line_pts l) x <-> x = p) /\
    (face_set f p -> int_face_line K f l eps = Ok (IsPoint p)) /\
    (~ thick f eps p -> int_face_line K f l eps = Ok IsEmpty) /\
    (int_face_line K f l eps = Ok (IsPoint p) \/ int_face_line K f l eps = Ok IsEmpty).
Proof. exact face_line_cross. Qed.
Print Assumptions c74_cross.
Example c74_cross_case : (forall x, unit3 (l_dir (through x)) /\ ~ level ang_tol (through x) (face_plane (disk_xy 0 0 2)) /\
    point_ok (face_plane (disk_xy 0 0 2)) (through x) (k_plane_line (pierce x) (face_plane (disk_xy 0 0 2)) (through x))) /\
  face_set (disk_xy 0 0 2) (ox 1) /\ ~ thick (disk_xy 0 0 2) (1 / 10) (ox 5).
Proof. exact (conj through_case through_results). Qed.

(** A polygon and a line: an exception. *)
Theorem c74_polygon_refuted : forall K f l eps, is_poly f -> int_face_line K f l eps = Throw RuntimeError.
Proof. exact face_line_throws. Qed.
Print Assumptions c74_polygon_refuted.

(** A disk and a polygon: the length of the search segment depends on the polygon only.  Of a
    disk of radius 100 and a square of size 1 that is cut by the plane of the disk within the
    disk, the common part is not found. *)
Theorem c74_polygon_disk_refuted :
  (face_ok big /\ face_ok small /\ boxed xk big /\ boxed xk small /\ larger big (1 / 10) /\ larger small (1 / 10) /\
   oblique ang_tol (pl_n (face_plane big)) (pl_n (face_plane small)) /\
   kernel_ok xk big small (1 / 10) /\ kernel_ok xk small big (1 / 10) /\ clean_faces big small (1 / 10)) /\
  int_faces xk big small (1 / 10) = Ok IsEmpty /\ face_set big (ox 90) /\ face_set small (ox 90).
Proof. exact (conj big_small_ok big_small_missed). Qed.
Print Assumptions c74_polygon_disk_refuted.

(** *** C64 *)

(** Planes that are exactly parallel and equal or at least eps apart, or not parallel: the set
    of common points is returned. *)
Theorem c64_planes : forall K (p1 p2 : plane R) eps, unit3 (pl_n p1) -> unit3 (pl_n p2) -> 0 < eps ->
  (parallel (pl_n p1) (pl_n p2) /\ (plane_pts p1 (pl_sup p2) \/ far_from (plane_pts p1) eps (pl_sup p2)))
  \/ (oblique ang_tol (pl_n p1) (pl_n p2) /\ line_ok p1 p2 (k_plane_plane K p1 p2 eps)) ->
  exists r, plane_plane K p1 p2 eps = Ok r /\ describes r (both (plane_pts p1) (plane_pts p2)).
Proof. exact plane_plane_exact. Qed.
Print Assumptions c64_planes.

(** Nearly parallel planes: by the distance of the support point. *)
Theorem c64_planes_parallel : forall K (p1 p2 : plane R) eps d, unit3 (pl_n p1) ->
  ~ oblique ang_tol (pl_n p1) (pl_n p2) -> dist_to (plane_pts p1) (pl_sup p2) d ->
  plane_plane K p1 p2 eps = Ok (if Rlt_dec d eps then IsPlane p1 else IsEmpty).
Proof. exact plane_plane_parallel. Qed.
Print Assumptions c64_planes_parallel.

Theorem c64_line : forall K (pl : plane R) (l : line R) eps, unit3 (pl_n pl) -> unit3 (l_dir l) -> 0 < eps ->
  (ortho (l_dir l) (pl_n pl) /\ (plane_pts pl (l_sup l) \/ forall q, plane_pts pl q -> eps < dist (l_sup l) q))
  \/ (~ level ang_tol l pl /\ point_ok pl l (k_plane_line K pl l)) ->
  exists r, plane_line K pl l eps = Ok r /\ describes r (both (plane_pts pl) (line_pts l)).
Proof. exact plane_line_exact. Qed.
Print Assumptions c64_line.

Theorem c64_line_parallel : forall K (pl : plane R) (l : line R) eps d, unit3 (pl_n pl) ->
  level ang_tol l pl -> dist_to (plane_pts pl) (l_sup l) d ->
  plane_line K pl l eps = Ok (if Rle_dec d eps then IsLine l else IsEmpty).
Proof. exact plane_line_level. Qed.
Print Assumptions c64_line_parallel.

(** For a line that is parallel within the tolerance but not exactly, the answer depends on the
    choice of its support point: the same line is reported to be contained in the plane, or not
    to meet it, though it meets it in one point. *)
Theorem c64_support_refuted : forall K eps, 0 < eps < 1 ->
  (forall x, line_pts (tilt 0) x <-> line_pts (tilt 1) x) /\
  (forall x, both (plane_pts ground) (line_pts (tilt 0)) x <-> x = mkV3 0 0 0) /\
  plane_line K ground (tilt 0) eps = Ok (IsLine (tilt 0)) /\
  plane_line K ground (tilt 1) eps = Ok IsEmpty.
Proof. exact tilt_support. Qed.
Print Assumptions c64_support_refuted.
Example c64_case : unit3 (pl_n (face_plane (disk_xy 0 0 1))) /\ unit3 (pl_n (face_plane (disk_xz 0 0 1))) /\
  oblique ang_tol (pl_n (face_plane (disk_xy 0 0 1))) (pl_n (face_plane (disk_xz 0 0 1))) /\
  line_ok (face_plane (disk_xy 0 0 1)) (face_plane (disk_xz 0 0 1)) (k_plane_plane xk (face_plane (disk_xy 0 0 1)) (face_plane (disk_xz 0 0 1)) 1).
Proof.
  split; [unfold unit3, dot; cbn; ring|]. split; [unfold unit3, dot; cbn; ring|].
  split; [apply right_angle; unfold unit3, dot; cbn; ring|].
  apply xk_ok; [left; split; [apply disk_xy_in|apply disk_xz_in]|apply disk_xy_fair; lra|apply disk_xz_fair; lra].
Qed.
