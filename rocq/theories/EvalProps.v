(** C96: The constraints on disks, quadrilaterals, polygons and cylinder surfaces in terms of
    their points. *)

From Coq Require Import Reals List Lra.
From Verif Require Import Base ConstraintsModel ConstraintsSpec.
From Verif Require Import NumModel VecModel LinModel RoundModel PolyModel DistModel IntModel AngModel CylIntModel EvalModel
  GeoSpec LinSpec RoundSpec PolySpec DistSpec IntSpec AngSpec CylIntSpec EvalSpec IntExamples CylIntExamples EvalProofs EvalExamples.
Import ListNotations.
Local Open Scope R_scope.

(** For faces that cross and keep off the tolerances, evaluate does not throw.  It accepts the pair if the
    constraints hold with thresholds for the distance from the boundaries raised by M/10^7, and
    they hold with tolerances widened by M/10^7 if it accepts the pair; for two disks, M = 0 and
    the result is exact.  Missing: pairs that come close to the tolerances. *)
Theorem c96_faces_partial : forall top O h f1 f2 t1 t2 M, ~ no_constraint h -> pair_ok top O h f1 f2 t1 t2 M ->
  exists b, ent_evaluate top O (crun 0 (rev h)) (EFace f1) (EFace f2) = Ok b /\
    (kept h t1 t2 0 (M / 10000000) f1 f2 -> b = true) /\
    (b = true -> kept h t1 t2 (M / 10000000) 0 f1 f2).
Proof. exact eval_faces. Qed.
Print Assumptions c96_faces_partial.
Example c96_faces_quads : pair_ok 1000 xo (calls (1 / 4) (1 / 4)) qa qb ta tb 6 /\
  kept (calls (1 / 4) (1 / 4)) ta tb 0 (6 / 10000000) qa qb /\
  ent_evaluate 1000 xo (crun 0 (rev (calls (1 / 4) (1 / 4)))) (EFace qa) (EFace qb) = Ok true.
Proof. exact (conj (quads_ok _ _) (conj (quads_kept (1 / 4) (1 / 4) 0 (6 / 10000000) ltac:(lra) ltac:(lra) ltac:(lra)) quads_accepted)). Qed.
Example c96_faces_rejected : pair_ok 1000 xo (calls 1 (1 / 4)) qa qb ta tb 6 /\
  ~ kept (calls 1 (1 / 4)) ta tb (6 / 10000000) 0 qa qb /\
  ent_evaluate 1000 xo (crun 0 (rev (calls 1 (1 / 4)))) (EFace qa) (EFace qb) = Ok false.
Proof. exact (conj (quads_ok _ _) (conj (quads_short 1 (1 / 4) (6 / 10000000) 0 ltac:(lra)) quads_rejected)). Qed.
Example c96_faces_disks : forall m d, pair_ok 1000 xo (calls m d) da db
  (eps_disk (mkEll (mkV3 0 0 0) e1 e2 e3 1 1)) (eps_disk (mkEll (mkV3 1 0 0) e3 e1 e2 1 1)) 0.
Proof. exact disks_ok. Qed.

(** The same for a set of faces and a face. *)
Theorem c96_set_partial : forall top O h fs f t M, ~ no_constraint h ->
  (forall g, In g fs -> exists t1, ent_eps (EFace g) = Ok t1 /\ pair_ok top O h g f t1 t M) ->
  exists b, evaluate_set_entity (fun x y : R => nltb x y) (fun x y : R => nleb y x) (ent_kernel top O)
              (crun 0 (rev h)) (map EFace fs) (EFace f) = Ok b /\
    ((forall g t1, In g fs -> ent_eps (EFace g) = Ok t1 -> kept h t1 t 0 (M / 10000000) g f) -> b = true) /\
    (b = true -> forall g t1, In g fs -> ent_eps (EFace g) = Ok t1 -> kept h t1 t (M / 10000000) 0 g f).
Proof. exact eval_all_faces. Qed.
Print Assumptions c96_set_partial.
Example c96_set_case : forall g, In g [qa; qa] -> exists t1, ent_eps (EFace g) = Ok t1 /\ pair_ok 1000 xo (calls (1 / 4) (1 / 4)) g qb t1 tb 6.
Proof. intros g [<-|[<-|[]]]; exists ta; exact (conj eq_refl (quads_ok _ _)). Qed.

(** Faces in parallel planes: only the minimum distance counts. *)
Theorem c96_apart : forall top O h f1 f2 t1 t2, ~ no_constraint h -> ent_eps (EFace f1) = Ok t1 -> ent_eps (EFace f2) = Ok t2 ->
  0 < is_eps h t1 t2 -> face_ok f1 -> face_ok f2 -> supported f1 f2 ->
  apart_planes (face_plane f1) (face_plane f2) (is_eps h t1 t2) -> dist_ok O f1 f2 ->
  exists b, ent_evaluate top O (crun 0 (rev h)) (EFace f1) (EFace f2) = Ok b /\
    (b = true <-> holds_if_set (active_distance h) (fun thr => forall d, set_dist (face_set f1) (face_set f2) d -> thr <= d)).
Proof. exact eval_apart. Qed.
Print Assumptions c96_apart.
Example c96_apart_case : forall thr, exists b,
  ent_evaluate 1000 above_ops (crun 0 [SetEps (1 / 10); SetMinDistance thr]) (EFace da) (EFace above) = Ok b /\ (b = true <-> thr <= 2).
Proof. exact above_case. Qed.

(** Overlapping faces in one plane: an exception, even if intersections of the dimension of the
    faces are allowed. *)
Theorem c96_coplanar_refuted : forall top O h f1 f2 t1 t2 x, ~ no_constraint h -> ent_eps (EFace f1) = Ok t1 -> ent_eps (EFace f2) = Ok t2 ->
  0 < is_eps h t1 t2 -> face_ok f1 -> face_ok f2 -> boxed (eo_int O) f1 -> boxed (eo_int O) f2 ->
  same_plane (face_plane f1) (face_plane f2) -> both (face_set f1) (face_set f2) x ->
  ent_evaluate top O (crun 0 (rev h)) (EFace f1) (EFace f2) = Throw RuntimeError.
Proof. exact eval_coplanar. Qed.
Print Assumptions c96_coplanar_refuted.
Example c96_coplanar_case : forall b, ent_evaluate 1000 xo (crun 0 [SetEps (1 / 10); SetMinDistance 0; AllowEquiDim b])
  (EFace (disk_xy 0 0 1)) (EFace (disk_xy 1 0 1)) = Throw RuntimeError.
Proof. exact coplanar_case. Qed.

(** A quadrilateral and a polygon, and two cylinder surfaces: an exception. *)
Theorem c96_quad_polygon_refuted : forall top O h f1 f2 t1 t2, ~ no_constraint h -> ent_eps (EFace f1) = Ok t1 -> ent_eps (EFace f2) = Ok t2 ->
  ~ supported f1 f2 -> ent_evaluate top O (crun 0 (rev h)) (EFace f1) (EFace f2) = Throw RuntimeError.
Proof. exact eval_unsupported. Qed.
Print Assumptions c96_quad_polygon_refuted.
Example c96_quad_polygon_case : forall a b h, ~ supported qa (FPoly (pg_xz a b h)).
Proof. intros a b h H. exact H. Qed.
Theorem c96_surfaces_refuted : forall top O h c1 c2, ~ no_constraint h ->
  ent_evaluate top O (crun 0 (rev h)) (ESurf c1) (ESurf c2) = Throw RuntimeError.
Proof. exact eval_surfaces. Qed.
Print Assumptions c96_surfaces_refuted.

(** Faces that touch in one point, a boundary point of both on the common line of the planes:
    accepted whatever the minimum angle and the distances from the boundaries are. *)
Theorem c96_points_refuted : forall top O h f1 f2 t1 t2 p, ~ no_constraint h -> ent_eps (EFace f1) = Ok t1 -> ent_eps (EFace f2) = Ok t2 ->
  0 < is_eps h t1 t2 -> facing (eo_int O) f1 f2 (is_eps h t1 t2) ->
  is_point p (both (face_set f1) (plane_pts (face_plane f2))) ->
  is_point p (both (face_set f2) (plane_pts (face_plane f1))) -> active_distance h = None ->
  both (face_set f1) (face_set f2) p /\ ent_evaluate top O (crun 0 (rev h)) (EFace f1) (EFace f2) = Ok true.
Proof. exact eval_points. Qed.
Print Assumptions c96_points_refuted.
Example c96_points_case : forall thr, both (face_set (disk_xy 0 1 1)) (face_set (disk_xz 0 1 1)) (ox 0) /\
  ent_evaluate 1000 xo (crun 0 [SetEps (1 / 10); SetMinAngle thr]) (EFace (disk_xy 0 1 1)) (EFace (disk_xz 0 1 1)) = Ok true.
Proof. exact touching_case. Qed.

(** A disk around a cylinder surface: the distances of the section from the boundary of the disk and
    from the rims of the surface are compared. *)
Theorem c96_section_disk : forall top O h c dk t1 t2 eps e x thr, ent_eps (EFace (FDisk dk)) = Ok t1 -> ent_eps (ESurf c) = Ok t2 ->
  is_eps h t1 t2 = eps -> 0 < eps -> tube_ok c -> face_ok (FDisk dk) -> larger (FDisk dk) eps ->
  boxed (eo_int O) (FDisk dk) -> tube_boxed (eo_cyl O) c -> (slanted c (FDisk dk) -> axis_met (eo_int O) c (FDisk dk)) -> canonical c (FDisk dk) (Some e) ->
  common_set c (FDisk dk) x -> ck_faces (eo_cyl O) c (FDisk dk) (1 / 10 * eps) <> 0%nat ->
  (exists w, ck_inner (eo_cyl O) c (FDisk dk) (1 / 10 * eps) = [w] /\ w_closed w = true) ->
  active_is_distance h = Some thr -> active_magnitude h = None -> active_angle h = None ->
  (forall r, In r [disk_ellipse dk; c_bot c; c_top c] -> curves_ok O e r) ->
  exists b, ent_evaluate top O (crun 0 (rev h)) (EFace (FDisk dk)) (ESurf c) = Ok b /\
    (b = true <-> forall r y z, In r [dk; c_bot c; c_top c] -> on_ellipse e y -> on_ellipse r z -> thr <= dist y z).
Proof. exact eval_ellipse_disk. Qed.
Print Assumptions c96_section_disk.
Example c96_section_disk_case : forall thr, exists b,
  ent_evaluate 1000 wide_ops (crun 0 [SetEps (1 / 10); SetMinIsDistance thr]) (EFace wide) (ESurf rod) = Ok b /\
  (b = true <-> forall r y z, In r [wide_ell; c_bot rod; c_top rod] -> on_ellipse half_ell y -> on_ellipse r z -> thr <= dist y z).
Proof. exact wide_case. Qed.

(** A quadrilateral or polygon around a cylinder surface: an exception. *)
Theorem c96_section_refuted : forall top O h c f t1 t2 eps e x thr, ent_eps (EFace f) = Ok t1 -> ent_eps (ESurf c) = Ok t2 ->
  is_eps h t1 t2 = eps -> 0 < eps -> tube_ok c -> face_ok f -> larger f eps ->
  boxed (eo_int O) f -> tube_boxed (eo_cyl O) c -> (slanted c f -> axis_met (eo_int O) c f) -> canonical c f (Some e) ->
  common_set c f x -> ck_faces (eo_cyl O) c f (1 / 10 * eps) <> 0%nat ->
  (exists w, ck_inner (eo_cyl O) c f (1 / 10 * eps) = [w] /\ w_closed w = true) ->
  active_is_distance h = Some thr -> active_magnitude h = None -> active_angle h = None -> cornered f ->
  ent_evaluate top O (crun 0 (rev h)) (EFace f) (ESurf c) = Throw RuntimeError.
Proof. exact eval_ellipse. Qed.
Print Assumptions c96_section_refuted.
Example c96_section_case : forall thr, (exists x, common_set rod slab x) /\
  (forall x y, common_set rod slab x -> edge_set slab y -> 3 <= dist x y) /\
  ent_evaluate 1000 slab_ops (crun 0 [SetEps (1 / 10); SetMinIsDistance thr]) (EFace slab) (ESurf rod) = Throw RuntimeError.
Proof. exact slab_case. Qed.
