(** C84: intersections of face shapes. *)

From Coq Require Import Reals Lra List.
From Verif Require Import Base NumModel VecModel LinModel FaceFaceModel GeoSpec LinSpec FaceFaceSpec FaceFaceProofs FaceFaceExamples.
Import ListNotations.
Local Open Scope R_scope.

(** All pieces of the result are in both faces, if what OpenCascade finds is. *)
Theorem c84_within_partial : forall F E W (K : shape_kernel R F E W) fpts epts f1 f2 eps, 0 < eps -> finds_common K fpts epts f1 f2 eps ->
  pieces_within fpts epts (int_face_face K f1 f2 eps) (fpts f1) (fpts f2).
Proof. exact @face_face_within. Qed.
Print Assumptions c84_within_partial.
Example c84_within_wall : finds_common figs fig_pts border_pts Floor Wall (1 / 10) /\ int_face_face figs Floor Wall (1 / 10) = [SpEdge OfLeft].
Proof. exact (conj (figs_common Wall _ (or_introl eq_refl)) wall_result). Qed.

(** All common points are within eps of a piece of the result, if OpenCascade finds all of them. *)
Theorem c84_reach_partial : forall F E W (K : shape_kernel R F E W) fpts epts f1 f2 eps, 0 < eps ->
  shape_boxed K fpts f1 -> shape_boxed K fpts f2 -> finds_all K fpts epts f1 f2 eps ->
  pieces_reach fpts epts (int_face_face K f1 f2 eps) eps (fpts f1) (fpts f2).
Proof. exact @face_face_reach. Qed.
Print Assumptions c84_reach_partial.
Example c84_reach_wall : shape_boxed figs fig_pts Floor /\ shape_boxed figs fig_pts Wall /\ finds_all figs fig_pts border_pts Floor Wall (1 / 10).
Proof. exact (conj (figs_boxed Floor) (conj (figs_boxed Wall) (figs_all Wall _ (or_introl eq_refl)))). Qed.
Example c84_reach_slab : finds_all figs fig_pts border_pts Floor Slab (1 / 10) /\ int_face_face figs Floor Slab (1 / 10) = [SpFace Right].
Proof. exact (conj (figs_all Slab _ (or_intror (or_introl eq_refl))) slab_result). Qed.
Example c84_reach_fin : finds_all figs fig_pts border_pts Floor Fin (1 / 10) /\ int_face_face figs Floor Fin (1 / 10) = [SpPoint tip].
Proof. exact (conj (figs_all Fin _ (or_intror (or_intror eq_refl))) fin_result). Qed.

(** The same for disks, quadrilaterals and polygons that are converted to shapes, and for cylinder
    surfaces. *)
Theorem c84_planar_partial : forall F E W (K : shape_kernel R F E W) fpts epts G (shape : G -> F) gpts g f eps, 0 < eps ->
  (forall x, fpts (shape g) x <-> gpts g x) -> shape_boxed K fpts (shape g) -> shape_boxed K fpts f ->
  finds_common K fpts epts (shape g) f eps -> finds_all K fpts epts (shape g) f eps ->
  pieces_within fpts epts (int_geo_face K shape g f eps) (gpts g) (fpts f) /\
  pieces_reach fpts epts (int_geo_face K shape g f eps) eps (gpts g) (fpts f).
Proof. exact @geo_face_sets. Qed.
Print Assumptions c84_planar_partial.
Theorem c84_surface_partial : forall F E W (K : shape_kernel R F E W) fpts epts G (shape : G -> F) gbox gpts g f eps, 0 < eps ->
  (forall x, fpts (shape g) x <-> gpts g x) -> (forall x, gpts g x -> in_box (gbox g) x) -> shape_boxed K fpts f ->
  finds_common K fpts epts (shape g) f eps -> finds_all K fpts epts (shape g) f eps ->
  pieces_within fpts epts (int_surf_face K shape gbox g f eps) (gpts g) (fpts f) /\
  pieces_reach fpts epts (int_surf_face K shape gbox g f eps) eps (gpts g) (fpts f).
Proof. exact @surf_face_sets. Qed.
Print Assumptions c84_surface_partial.
Example c84_geometry_case : (forall x, fig_pts ((fun _ : unit => Floor) tt) x -> in_box ((fun _ : unit => mkBox (mkV3 0 0 0) (mkV3 1 1 0)) tt) x) /\
  finds_common figs fig_pts border_pts Floor Slab (1 / 10) /\ finds_all figs fig_pts border_pts Floor Slab (1 / 10) /\
  int_geo_face figs (fun _ : unit => Floor) tt Slab (1 / 10) = [SpFace Right].
Proof. exact floor_case. Qed.

(** Whatever OpenCascade returns: the result is "empty" alone, or lists no "empty" piece. *)
Theorem c84_kinds : forall F E W (K : shape_kernel R F E W) f1 f2 eps, empty_alone (int_face_face K f1 f2 eps).
Proof. exact (fun F E W K f1 f2 eps => proj1 (@face_face_kinds F E W K f1 f2 eps)). Qed.
Print Assumptions c84_kinds.

(** Points come first, edges next, faces last. *)
Theorem c84_ordered : forall F E W (K : shape_kernel R F E W) f1 f2 eps, let r := int_face_face K f1 f2 eps in
  r = [SpEmpty] \/ r = map SpPoint (points_of r) ++ map SpEdge (edges_of r) ++ map SpFace (faces_of r).
Proof. exact @face_face_ordered. Qed.
Print Assumptions c84_ordered.

(** The points are at a distance of at least eps from each other and from the vertices of the
    edges and faces of the result. *)
Theorem c84_points_apart : forall F E W (K : shape_kernel R F E W) f1 f2 eps, 0 < eps -> far_apart eps (points_of (int_face_face K f1 f2 eps)).
Proof. exact @face_face_apart. Qed.
Print Assumptions c84_points_apart.
Theorem c84_points_new : forall F E W (K : shape_kernel R F E W) f1 f2 eps p q, 0 < eps -> let r := int_face_face K f1 f2 eps in In p (points_of r) ->
  (exists e, In e (edges_of r) /\ In q (sk_edge_vertices K e)) \/ (exists f, In f (faces_of r) /\ In q (sk_face_vertices K f)) -> eps <= dist q p.
Proof. exact @face_face_new. Qed.
Print Assumptions c84_points_new.

(** No edge is returned twice, and no edge shares an edge with a face of the result. *)
Theorem c84_edges_distinct : forall F E W (K : shape_kernel R F E W) f1 f2 eps, let r := int_face_face K f1 f2 eps in none_again (sk_same K) (edges_of r) /\
  forall e f, In e (edges_of r) -> In f (faces_of r) -> ~ share_edge K e f eps.
Proof. exact @face_face_distinct. Qed.
Print Assumptions c84_edges_distinct.

(** If the boxes meet, nothing that OpenCascade finds is lost: all common faces are returned; edges
    up to sameness, unless they share an edge with a face of the result; vertices up to eps. *)
Theorem c84_faces_kept : forall F E W (K : shape_kernel R F E W) f1 f2 eps f, In (SpFace f) (face_face_3d K f1 f2 eps) <-> In f (sk_common K f1 f2 eps).
Proof. exact @face_face_faces. Qed.
Print Assumptions c84_faces_kept.
Theorem c84_edges_kept : forall F E W (K : shape_kernel R F E W) f1 f2 eps e, boundary_edge K f1 f2 eps e ->
  (exists f, In (SpFace f) (face_face_3d K f1 f2 eps) /\ share_edge K e f eps) \/
  exists e', In (SpEdge e') (face_face_3d K f1 f2 eps) /\ (e' = e \/ sk_same K e e' = true).
Proof. exact @face_face_edges. Qed.
Print Assumptions c84_edges_kept.
Theorem c84_vertices_kept : forall F E W (K : shape_kernel R F E W) f1 f2 eps p, 0 < eps -> boundary_vertex K f1 f2 eps p \/ boundary_vertex K f2 f1 eps p ->
  exists i q, In i (face_face_3d K f1 f2 eps) /\ In q (spiece_vertices K i) /\ dist q p < eps.
Proof. exact @face_face_vertices. Qed.
Print Assumptions c84_vertices_kept.
Example c84_kept_case : boundary_edge figs Floor Wall (1 / 10) OfLeft /\ boundary_edge figs Floor Wall (1 / 10) OfRight /\ int_face_face figs Floor Wall (1 / 10) = [SpEdge OfLeft] /\
  boundary_edge figs Floor Slab (1 / 10) OfLeft /\ share_edge figs OfLeft Right (1 / 10) /\ int_face_face figs Floor Slab (1 / 10) = [SpFace Right] /\
  boundary_vertex figs Fin Floor (1 / 10) tip /\ int_face_face figs Floor Fin (1 / 10) = [SpPoint tip].
Proof. exact kept_case. Qed.

(** Finding: points are looked for on the boundaries only.  If no boundary meets the other face the
    result is empty, also if the faces touch. *)
Theorem c84_inner_touch : forall F E W (K : shape_kernel R F E W) f1 f2 eps, sk_common K f1 f2 eps = [] -> (forall e, ~ boundary_edge K f1 f2 eps e) ->
  (forall p, ~ boundary_vertex K f1 f2 eps p) -> (forall p, ~ boundary_vertex K f2 f1 eps p) ->
  int_face_face K f1 f2 eps = [SpEmpty].
Proof. exact @inner_touch. Qed.
Print Assumptions c84_inner_touch.
Theorem c84_inner_touch_refuted : finds_common figs fig_pts border_pts Floor Bowl (1 / 10) /\
  exists x, fig_pts Floor x /\ fig_pts Bowl x /\ int_face_face figs Floor Bowl (1 / 10) = [SpEmpty].
Proof. exact (conj (figs_common Bowl _ (or_intror (or_intror (or_intror eq_refl)))) (ex_intro _ tip bowl_empty)). Qed.
Print Assumptions c84_inner_touch_refuted.
