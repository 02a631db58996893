(** C113: intersections of segments, planes and lines in double precision. *)

From Coq Require Import ZArith Reals List.
From Coq Require Import Floats.
From Verif Require Import Base NumModel VecModel LinModel RoundModel PolyModel IntModel GeoSpec DblSpec LinDblSpec LinDblExamples RndDblSpec TrigDblSpec TrigDblExamples PtDblSpec DkDblSpec DkDblExamples
  IxDblSpec IxDblProofs IxDblPlane IxDblExamples.
Import ListNotations.
Local Open Scope R_scope.

(** What two segments are said to have in common is empty, a point or a segment, and each of its points is within the
    tolerance and 2^-44 of the coordinates of both segments.  Segments that are taken to be parallel although their
    directions differ add seven times the sine of their angle, times the coordinates. *)
Theorem c113_segments : forall (T : Trig float) K sg1 sg2 e M k r, moderate M -> segment_upto M sg1 -> segment_upto M sg2 -> tolerance e ->
  (forall p, vertex_of (k_fragment K sg1 sg2 (nlit 1 10 * e)%num) p -> point_upto M p) ->
  0 <= k -> (gp_parallel (to_dir (vec_to (s_src sg1) (s_tgt sg1))) (to_dir (vec_to (s_src sg2) (s_tgt sg2))) angular = true -> aligned k sg1 sg2) ->
  seg_seg K sg1 sg2 e = Ok r ->
  (r = IsEmpty \/ (exists p, r = IsPoint p) \/ exists s, r = IsSeg s) /\
  let d := (1 + powerRZ 2 (-50)) * val e + powerRZ 2 (-44) * M + 7 * (k * M) in
  forall x, isect_pts r x -> reached d (seg_pts sg1) x /\ reached d (seg_pts sg2) x.
Proof. exact (fun T K sg1 sg2 e M k r HM H1 H2 He HK Hk Hp => segments_near T K sg1 sg2 e M HM H1 H2 He HK k r Hk Hp). Qed.
Print Assumptions c113_segments.
Example c113_segments_case : forall T, accurate T -> moderate 12 /\ segment_upto 12 bar /\ segment_upto 12 along /\ tolerance 0x1p-10%float /\
  (forall p, vertex_of (k_fragment (ix_kernel []) bar along (nlit 1 10 * 0x1p-10%float)%num) p -> point_upto 12 p) /\ aligned 0 bar along /\
  seg_seg (ix_kernel []) bar along 0x1p-10%float = Ok (IsSeg (mkSeg (mkV3 3 3 0)%float (mkV3 7 3 0)%float)).
Proof.
  exact (fun T HT => conj moderate_12 (conj bar_upto (conj along_upto (conj tol_milli (conj (none_upto 12) (conj aligned_along (overlap_found T HT))))))).
Qed.

(** A point is within the tolerance and 2^-44 of the coordinates of both, without further conditions. *)
Theorem c113_point : forall (T : Trig float) K sg1 sg2 e M p, moderate M -> segment_upto M sg1 -> segment_upto M sg2 -> tolerance e ->
  (forall p, vertex_of (k_fragment K sg1 sg2 (nlit 1 10 * e)%num) p -> point_upto M p) ->
  seg_seg K sg1 sg2 e = Ok (IsPoint p) ->
  let d := (1 + powerRZ 2 (-50)) * val e + powerRZ 2 (-44) * M in
  reached d (seg_pts sg1) (val3 p) /\ reached d (seg_pts sg2) (val3 p).
Proof. exact (fun T K sg1 sg2 e M p HM H1 H2 He HK => point_near T K sg1 sg2 e M HM H1 H2 He HK p). Qed.
Print Assumptions c113_point.
Example c113_point_case : forall T, accurate T -> moderate 12 /\ segment_upto 12 bar /\ segment_upto 12 pole /\ tolerance 0x1p-10%float /\
  (forall p, vertex_of (k_fragment (ix_kernel (split knot bar pole)) bar pole (nlit 1 10 * 0x1p-10%float)%num) p -> point_upto 12 p) /\
  seg_seg (ix_kernel (split knot bar pole)) bar pole 0x1p-10%float = Ok (IsPoint (mkV3 3 3 0)%float).
Proof.
  exact (fun T HT => conj moderate_12 (conj bar_upto (conj pole_upto (conj tol_milli (conj
    (fun p => split_upto 12 knot bar pole p knot_upto bar_upto pole_upto) (cross_found T HT)))))).
Qed.

(** An exception means that OpenCascade divided the segments, and that each of the vertices it returned is farther than the
    tolerance, less 2^-44 of the coordinates, from one of the segments. *)
Theorem c113_throw : forall (T : Trig float) K sg1 sg2 e M x, moderate M -> segment_upto M sg1 -> segment_upto M sg2 -> tolerance e ->
  let es := k_fragment K sg1 sg2 (nlit 1 10 * e)%num in
  (forall p, vertex_of es p -> point_upto M p) -> seg_seg K sg1 sg2 e = Throw x ->
  x = RuntimeError /\ (length es = 3%nat \/ length es = 4%nat) /\
  forall p D1 D2, vertex_of es p -> dist_to (seg_pts sg1) (val3 p) D1 -> dist_to (seg_pts sg2) (val3 p) D2 ->
    (1 - powerRZ 2 (-50)) * val e - powerRZ 2 (-44) * M < Rmax D1 D2.
Proof. exact (fun T K sg1 sg2 e M x HM H1 H2 He HK => throws T K sg1 sg2 e M HM H1 H2 He HK x). Qed.
Print Assumptions c113_throw.
Example c113_throw_case : forall T, accurate T -> moderate 8388608 /\ segment_upto 8388608 crack1 /\ segment_upto 8388608 crack2 /\ tolerance crack_eps /\
  (forall p, vertex_of (k_fragment survey_kernel crack1 crack2 (nlit 1 10 * crack_eps)%num) p -> point_upto 8388608 p) /\
  seg_seg survey_kernel crack1 crack2 crack_eps = Throw RuntimeError.
Proof.
  destruct cracks_upto as (A & B & C).
  exact (fun T HT => conj moderate_23 (conj A (conj B (conj (proj1 crack_tol) (conj (fun p => split_upto 8388608 meet crack1 crack2 p C A B) (cracks_seg_throw T HT)))))).
Qed.

(** No intersection means that the segments are parallel and apart, or that OpenCascade did not divide them and that no end of
    one is within the tolerance, less 2^-44 of the coordinates, of an end of the other. *)
Theorem c113_empty : forall (T : Trig float) K sg1 sg2 e M D, moderate M -> segment_upto M sg1 -> segment_upto M sg2 -> tolerance e ->
  let es := k_fragment K sg1 sg2 (nlit 1 10 * e)%num in
  (forall p, vertex_of es p -> point_upto M p) ->
  dist_to (on_line (val3 (s_src sg1)) (psub (val3 (s_tgt sg1)) (val3 (s_src sg1)))) (val3 (s_src sg2)) D -> seg_seg K sg1 sg2 e = Ok IsEmpty ->
  let lo := (1 - powerRZ 2 (-50)) * val e - powerRZ 2 (-44) * M in
  (gp_parallel (to_dir (vec_to (s_src sg1) (s_tgt sg1))) (to_dir (vec_to (s_src sg2) (s_tgt sg2))) angular = true /\ lo <= D) \/
  (length es <> 3%nat /\ length es <> 4%nat /\
   forall p q, p = s_src sg1 \/ p = s_tgt sg1 -> q = s_src sg2 \/ q = s_tgt sg2 -> lo <= dist (val3 p) (val3 q)).
Proof. exact (fun T K sg1 sg2 e M D HM H1 H2 He HK => empty_means T K sg1 sg2 e M HM H1 H2 He HK D). Qed.
Print Assumptions c113_empty.
Example c113_empty_case : forall T, accurate T -> segment_upto 12 bar /\ segment_upto 12 above /\
  dist_to (on_line (val3 (s_src bar)) (psub (val3 (s_tgt bar)) (val3 (s_src bar)))) (val3 (s_src above)) 5 /\
  (forall p, vertex_of (k_fragment (ix_kernel []) bar above (nlit 1 10 * 0x1p-10%float)%num) p -> point_upto 12 p) /\
  seg_seg (ix_kernel []) bar above 0x1p-10%float = Ok IsEmpty.
Proof. exact (fun T HT => conj bar_upto (conj above_upto (conj above_dist (conj (none_upto 12) (above_missed T HT))))). Qed.

(** A plane and a line: a point is the one of OpenCascade and within the tolerance and 2^-45 of the coordinates of the plane; the line
    is returned as it is if its support is; and no intersection means that the point, or the support, is not. *)
Theorem c113_plane_line : forall (T : Trig float) K pl l e M r, moderate M -> plane_upto M pl -> point_upto M (l_sup l) -> tolerance e ->
  (forall p, k_plane_line K pl l = Some p -> point_upto M p) -> plane_line K pl l e = Ok r ->
  let rho := powerRZ 2 (-45) * M in
  match r with
  | IsPoint p => k_plane_line K pl l = Some p /\ reached (val e + rho) (plane_pts pl) (val3 p)
  | IsLine l' => l' = l /\ reached (val e + rho) (plane_pts pl) (val3 (l_sup l))
  | IsEmpty => (exists p, k_plane_line K pl l = Some p /\ forall D, dist_to (plane_pts pl) (val3 p) D -> val e - rho <= D) \/
      (gp_normal (l_dir l) (pl_n pl) angular = true /\ forall D, dist_to (plane_pts pl) (val3 (l_sup l)) D -> val e - rho <= D)
  | _ => False
  end.
Proof. exact (fun T K pl l e M r HM Hp Hl He HK => plane_line_sound T K pl l e M HM Hp Hl He HK r). Qed.
Print Assumptions c113_plane_line.
Example c113_plane_line_case : forall T, accurate T -> plane_upto 12 ground /\ point_upto 12 pt1 /\ point_upto 12 pt3 /\
  (forall p, k_plane_line (ix_kernel []) ground (mkLine pt3 axis_z) = Some p -> point_upto 12 p) /\
  plane_line (ix_kernel []) ground (mkLine pt3 axis_z) 0x1p-10%float = Ok (IsPoint pt1) /\
  plane_line (ix_kernel []) ground (mkLine pt1 axis_x) 0x1p-10%float = Ok (IsLine (mkLine pt1 axis_x)).
Proof.
  destruct pts_upto as (_ & A & _ & B).
  exact (fun T HT => conj (proj1 planes_upto) (conj A (conj B (conj (fun p => some_upto pt1 12 p A)
    (conj (pierced T HT (ix_kernel []) eq_refl) (inside T HT (ix_kernel []))))))).
Qed.
(** The exception means that OpenCascade found no point although the line is not parallel to the plane. *)
Theorem c113_plane_line_throw : forall (T : Trig float) K pl l e x,
  plane_line K pl l e = Throw x <-> (x = RuntimeError /\ gp_normal (l_dir l) (pl_n pl) angular = false /\ k_plane_line K pl l = None).
Proof. exact plane_line_throws. Qed.
Print Assumptions c113_plane_line_throw.
Example c113_plane_line_throw_case : forall T, accurate T -> exists K, plane_line K ground (mkLine pt3 axis_z) 0x1p-10%float = Throw RuntimeError.
Proof. exact (fun T HT => ex_intro _ _ (not_pierced T HT)). Qed.

(** Two planes: the first plane is returned if the support of the second is within the tolerance of it, a line is that of OpenCascade,
    and no intersection means that they are taken to be parallel and the support is not near. *)
Theorem c113_planes : forall (T : Trig float) K p1 p2 e M r, moderate M -> plane_upto M p1 -> point_upto M (pl_sup p2) -> tolerance e ->
  plane_plane K p1 p2 e = Ok r ->
  match r with
  | IsPlane p => p = p1 /\ reached (val e + powerRZ 2 (-45) * M) (plane_pts p1) (val3 (pl_sup p2))
  | IsLine l => exists l', k_plane_plane K p1 p2 e = Some l' /\ l = mkLine (l_sup l') (to_dir (l_dir l'))
  | IsEmpty => gp_parallel (pl_n p1) (pl_n p2) angular = true /\ forall D, dist_to (plane_pts p1) (val3 (pl_sup p2)) D -> val e - powerRZ 2 (-45) * M <= D
  | _ => False
  end.
Proof. exact plane_plane_sound. Qed.
Print Assumptions c113_planes.
Example c113_planes_case : forall T, accurate T -> plane_upto 12 ground /\ plane_upto 12 roof /\ forall K, plane_plane K ground roof 0x1p-10%float = Ok IsEmpty.
Proof. exact (fun T HT => conj (proj1 planes_upto) (conj (proj2 planes_upto) (apart T HT))). Qed.

(** A disk and a line that is not parallel to it: a point that is found is the one of OpenCascade, near the plane of the disk, and its
    factor is below sqrt(1 + 10^-14) up to 2^-47 of the coordinates over the smaller half axis.
    Not covered: lines in the plane of the disk, where the result is that of a Boolean operation. *)
Theorem c113_disk_line_partial : forall (T : Trig float) K (d : ell float) l e M m p k, moderate M -> ellipse_upto M d -> axes_from m M d -> point_upto M (l_sup l) -> tolerance e ->
  (forall q, k_plane_line K (ell_plane d) l = Some q -> point_upto M q) -> gp_normal (l_dir l) (e_n d) angular = false ->
  int_face_line K (FDisk d) l e = Ok (IsPoint p) -> ell_factor d p k ->
  k_plane_line K (ell_plane d) l = Some p /\ reached (val e + powerRZ 2 (-45) * M) (in_plane d) (val3 p) /\
  k < (1 + powerRZ 2 (-50)) * widened 1 (val confusion) + powerRZ 2 (-47) * M / m.
Proof. exact disk_line_point. Qed.
Print Assumptions c113_disk_line_partial.
Example c113_disk_line_case : forall T, accurate T -> moderate 12 /\ ellipse_upto 12 dk /\ axes_from 3 12 dk /\ point_upto 12 (l_sup needle) /\
  (forall q, k_plane_line pin_kernel (ell_plane dk) needle = Some q -> point_upto 12 q) /\ gp_normal (l_dir needle) (e_n dk) angular = false /\
  int_face_line pin_kernel (FDisk dk) needle 0x1p-10%float = Ok (IsPoint dk_in) /\ ell_factor dk dk_in (3 / 7).
Proof.
  destruct dk_points as (A & _), dk_factors as (B & _).
  exact (fun T HT => conj moderate_12 (conj (proj1 dk_upto) (conj (proj1 dk_axes) (conj needle_upto (conj
    (fun q => some_upto dk_in 12 q A)
    (conj (needle_crosses T HT) (conj (pinned T HT) B))))))).
Qed.

(** Finding: segments of 1.4 mm at the coordinates of a map in metres.  They cross in the middle of both.  OpenCascade divides them at the
    crossing, up to half a unit in the last place of the coordinates.  With the default tolerance this vertex is on neither of
    the segments, and instead of the point there is an exception. *)
Theorem c113_survey_refuted : forall T, accurate T ->
  seg_pts crack1 crossing /\ seg_pts crack2 crossing /\ dist (val3 meet) crossing = / 2147483648 /\
  (confusion * seg_len crack1)%num = crack_eps /\ (confusion * seg_len crack2)%num = crack_eps /\
  k_fragment survey_kernel crack1 crack2 (nlit 1 10 * crack_eps)%num = [(s_src crack1, meet); (meet, s_tgt crack1); (s_src crack2, meet); (meet, s_tgt crack2)] /\
  int_segs survey_kernel crack1 crack2 crack_eps = Throw RuntimeError.
Proof.
  exact (fun T HT => conj (proj1 cracks_cross) (conj (proj2 cracks_cross) (conj meet_rounded (conj eq_refl (conj crack_default (conj eq_refl (cracks_throw T HT))))))).
Qed.
Print Assumptions c113_survey_refuted.
Example c113_survey_case : accurate rounded_trig.
Proof. exact rounded_accurate. Qed.
