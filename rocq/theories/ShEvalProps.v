(** C101: the constraints if face shapes are among the entities. *)

From Coq Require Import Reals List.
From Verif Require Import Base ConstraintsModel ConstraintsSpec.
From Verif Require Import NumModel VecModel LinModel RoundModel PolyModel DistModel IntModel AngModel CylIntModel EvalModel FaceFaceModel ShEvalModel
  GeoSpec LinSpec RoundSpec PolySpec DistSpec IntSpec AngSpec EvalSpec FaceFaceSpec ShEvalSpec ShEvalProofs IntExamples EvalExamples ShEvalExamples.
Import ListNotations.
Local Open Scope R_scope.

(** The decision is the meaning of the active constraints for the points and edges that the two
    entities have in common, up to M/10^7.  Missing: cylinder surfaces, curved shapes with planar
    geometries, overlapping faces; distances to the holes of faces are not considered (below). *)
Theorem c101_evaluate_partial {F E W} top (S : shape_ops R F E W) fpts epts wpts N len h g1 g2 u1 u2 t1 t2 M :
  sh_pair top S fpts epts wpts N len h g1 g2 u1 u2 t1 t2 M -> ~ no_constraint h ->
  exists r b, sh_intersect_eps S g1 g2 (is_eps h u1 u2) = Ok (map of_spiece r) /\
    pieces_within fpts epts r (sh_set fpts g1) (sh_set fpts g2) /\
    pieces_reach fpts epts r (is_eps h u1 u2) (sh_set fpts g1) (sh_set fpts g2) /\ (forall f, ~ In (SpFace f) r) /\
    sh_evaluate top S (crun 0 (rev h)) g1 g2 = Ok b /\
    (sh_kept S fpts wpts N len h t1 t2 0 (M / 10000000) g1 g2 r -> b = true) /\
    (b = true -> sh_kept S fpts wpts N len h t1 t2 (M / 10000000) 0 g1 g2 r).
Proof. exact (eval_shapes_all top S fpts epts wpts N len h g1 g2 u1 u2 t1 t2 M). Qed.
Print Assumptions c101_evaluate_partial.
Example c101_evaluate_geometry m d :
  sh_pair 1000 ops fig_pts tr_pts rim_pts fig_normal tr_len (calls m d) (SGeo (EFace qb)) (SShape Plate) tb tk tb tp 6 /\
  ~ no_constraint (calls m d) /\
  (m <= 1 / 2 -> d <= 2 -> sh_evaluate 1000 ops (crun 0 (rev (calls m d))) (SGeo (EFace qb)) (SShape Plate) = Ok true) /\
  (7 / 2 < d -> sh_evaluate 1000 ops (crun 0 (rev (calls m d))) (SGeo (EFace qb)) (SShape Plate) = Ok false).
Proof. exact (conj (quad_plate m d) (conj (calls_active m d) (conj (quad_eval m d) (quad_rejected m d)))). Qed.
Example c101_evaluate_shapes m d :
  sh_pair 1000 ops fig_pts tr_pts rim_pts fig_normal tr_len (calls m d) (SShape Strip) (SShape Plate) tk tk ts tp 6.
Proof. exact (shapes_pair m d). Qed.

(** Finding: ends of intersections near a hole of a face are accepted.  A segment that ends at the
    distance 1/4 from the hole of a plate keeps the distance 1. *)
Theorem c101_holes_refuted :
  sh_intersect_eps ops (SGeo (EFace qb)) (SShape Plate) (1 / 10) = Ok [PEdge Trace] /\ so_first ops Trace = ox (1 / 2) /\
  active_is_distance (calls (1 / 2) 1) = Some 1 /\
  sh_evaluate 1000 ops (crun 0 (rev (calls (1 / 2) 1))) (SGeo (EFace qb)) (SShape Plate) = Ok true /\
  forall a b, 0 <= a <= 1 / 10 -> 0 <= b -> ~ keeps_off tp 1 a b (all_bounds ops rim_pts Plate) (ox (1 / 2)).
Proof. exact holes_case. Qed.
Print Assumptions c101_holes_refuted.

(** Finding: the tolerance that is passed to the check whether a point is on the boundary of a face
    shape makes no difference. *)
Theorem c101_eps_refuted :
  (forall F E W (S : shape_ops R F E W) p f eps eps', on_shape_boundary S p f eps = on_shape_boundary S p f eps') /\
  on_shape_boundary ops (ox 1) Plate 10 = Ok false /\ dist_to (rim_pts Outer) (ox 1) 3 /\ 3 < 10.
Proof. exact (conj (fun _ _ _ _ _ _ _ _ => eq_refl) eps_ignored). Qed.
Print Assumptions c101_eps_refuted.

(** Entities that overlap in a face are not admissible, unless this is allowed; if it is, they are
    not admissible if a distance from the boundaries is required. *)
Theorem c101_overlap {F E W} top (S : shape_ops R F E W) h g1 g2 u1 u2 r f :
  ~ no_constraint h -> sh_eps S g1 = Ok u1 -> sh_eps S g2 = Ok u2 ->
  sh_intersect_eps S g1 g2 (is_eps h u1 u2) = Ok r -> In (PFace f) r -> equi_dim_allowed h <> true ->
  sh_evaluate top S (crun 0 (rev h)) g1 g2 = Ok false.
Proof. exact (sh_overlap_rejected top S h g1 g2 u1 u2 r f). Qed.
Print Assumptions c101_overlap.
Theorem c101_overlap_distance {F E W} top (S : shape_ops R F E W) h g1 g2 u1 u2 r f thr :
  sh_eps S g1 = Ok u1 -> sh_eps S g2 = Ok u2 ->
  sh_intersect_eps S g1 g2 (is_eps h u1 u2) = Ok r -> In (PFace f) r -> active_is_distance h = Some thr ->
  sh_evaluate top S (crun 0 (rev h)) g1 g2 <> Ok true.
Proof. exact (sh_overlap_distance top S h g1 g2 u1 u2 r f thr). Qed.
Print Assumptions c101_overlap_distance.
Example c101_overlap_case :
  (forall a, overlap (area_calls a) [PFace FaceFaceExamples.Right] /\ ~ no_constraint (area_calls a) /\ equi_dim_allowed (area_calls a) = a) /\
  overlap (calls 1 1) [PFace FaceFaceExamples.Right] /\
  sh_evaluate 1000 flat_ops (crun 0 (rev (area_calls true))) (SShape FaceFaceExamples.Floor) (SShape FaceFaceExamples.Slab) = Ok true.
Proof. exact overlap_cases. Qed.

(** Finding: if a minimum angle is set, cylinder surfaces that intersect face shapes in points or
    edges throw. *)
Theorem c101_surface_refuted {F E W} top (S : shape_ops R F E W) h g1 g2 u1 u2 r thr :
  sh_eps S g1 = Ok u1 -> sh_eps S g2 = Ok u2 -> surf_and_shape g1 g2 ->
  sh_intersect_eps S g1 g2 (is_eps h u1 u2) = Ok r -> is_empty r = false -> (forall f, ~ In (PFace f) r) ->
  active_angle h = Some thr -> active_magnitude h = None ->
  sh_evaluate top S (crun 0 (rev h)) g1 g2 = Throw RuntimeError.
Proof. exact (surf_shape_throws top S h g1 g2 u1 u2 r thr). Qed.
Print Assumptions c101_surface_refuted.
Example c101_surface_case c u : ent_eps (ESurf c) = Ok u ->
  sh_evaluate 1000 ops (crun 0 (rev only_angle)) (SGeo (ESurf c)) (SShape Plate) = Throw RuntimeError.
Proof. exact (tube_thrown c u). Qed.
