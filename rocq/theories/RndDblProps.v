(** C106: spheres, cylinders, cylinder surfaces and hollow cylinders in double precision. *)

From Coq Require Import ZArith Reals.
From Coq Require Import Floats.
From Verif Require Import Base NumModel VecModel LinModel RoundModel GeoSpec LinSpec DblSpec LinDblSpec LinDblExamples DomSpec RndDblSpec RndDblTol RndDblExamples.
Local Open Scope R_scope.

(** A sphere contains a point if and only if the distance to its centre is below the widened radius, up to 2^-51 of the
    coordinates. *)
Theorem c106_sphere : forall M (s : sphere float) p e, moderate M -> point_upto M (sp_c s) -> point_upto M p -> radius_upto M (sp_r s) -> tolerance e ->
  decides (sphere_contains s p e) (dist (val3 p) (val3 (sp_c s))) (widened (val (sp_r s)) (val e)) (powerRZ 2 (-51) * M).
Proof. exact c106_sphere_lemma. Qed.
Print Assumptions c106_sphere.
Example c106_sphere_case : moderate 12 /\ point_upto 12 (sp_c rd_ball) /\ point_upto 12 pt1 /\ point_upto 12 pt3 /\ radius_upto 12 (sp_r rd_ball) /\ tolerance 0x1p-10%float /\
  sphere_contains rd_ball pt1 0x1p-10%float = true /\ sphere_contains rd_ball pt3 0x1p-10%float = false.
Proof.
  exact (conj moderate_12 (conj (proj1 pts_upto) (conj (proj1 (proj2 pts_upto)) (conj (proj2 (proj2 (proj2 pts_upto))) (conj (proj1 rd_radii) (conj tol_milli (proj2 (proj2 rd_answers)))))))).
Qed.

(** A cylinder contains a point if and only if the foot of the point lies near the axis segment, and the distance to the
    foot is below the widened radius, up to 2^-42 of the coordinates. *)
Theorem c106_cylinder : forall M (c : cyl float) p e y D, let s := e_c (c_bot c) in let t := e_c (c_top c) in
  moderate M -> axis_upto M s t -> radius_upto M (cyl_radius c) -> point_upto M p -> tolerance e ->
  foot (val3 s) (val3 t) (val3 p) y -> dist_to (on_segment (val3 s) (val3 t)) y D ->
  decides_both (cyl_contains c p e) D (val e) (dist (val3 p) y) (widened (val (cyl_radius c)) (val e)) (powerRZ 2 (-42) * M).
Proof. exact c106_cylinder_lemma. Qed.
Print Assumptions c106_cylinder.
Example c106_cylinder_case : make_cyl_disk rd_base 5%float = Ok rd_cyl /\ e_c (c_bot rd_cyl) = pt0 /\ e_c (c_top rd_cyl) = pt1 /\
  axis_upto 12 pt0 pt1 /\ radius_upto 12 (cyl_radius rd_cyl) /\ point_upto 12 rd_over /\
  foot (val3 pt0) (val3 pt1) (val3 rd_over) (val3 pt1) /\ foot (val3 pt0) (val3 pt1) (val3 pt3) (val3 pt1) /\
  dist_to (on_segment (val3 pt0) (val3 pt1)) (val3 pt1) 0 /\ dist (val3 rd_over) (val3 pt1) = 4 /\ dist (val3 pt3) (val3 pt1) = 12 /\
  7 <= widened (val (cyl_radius rd_cyl)) (val 0x1p-10%float) <= 8 /\
  cyl_contains rd_cyl rd_over 0x1p-10%float = true /\ cyl_contains rd_cyl pt3 0x1p-10%float = false.
Proof.
  exact (conj (proj1 rd_made) (conj (proj1 rd_ends) (conj (proj1 (proj2 rd_ends)) (conj rd_axis (conj (proj1 rd_radii) (conj (proj1 rd_over_upto)
    (conj (rd_foot _ (or_intror (or_introl eq_refl))) (conj (rd_foot _ (or_intror (or_intror eq_refl))) (conj rd_on
    (conj (proj1 (proj2 rd_dists)) (conj (proj2 (proj2 rd_dists)) (conj rd_widened (proj1 rd_answers))))))))))))).
Qed.
(** The lateral surface: the distance to the foot differs from the radius by less than the tolerance. *)
Theorem c106_surface : forall M (c : cyl float) p e y D, let s := e_c (c_bot c) in let t := e_c (c_top c) in
  moderate M -> axis_upto M s t -> radius_upto M (cyl_radius c) -> point_upto M p -> tolerance e ->
  foot (val3 s) (val3 t) (val3 p) y -> dist_to (on_segment (val3 s) (val3 t)) y D ->
  decides_both (surf_contains c p e) D (val e) (Rabs (dist (val3 p) y - val (cyl_radius c))) (val e) (powerRZ 2 (-42) * M).
Proof. exact c106_surface_lemma. Qed.
Print Assumptions c106_surface.
(** A hollow cylinder contains the points beyond its inner radius that a cylinder of the outer radius contains, and no
    points that are closer to the axis than the inner radius by more than the tolerance.  In between the answer is
    not described. *)
Theorem c106_hollow_partial : forall M (h : hollow float) p e y D, let s := e_c (h_bot h) in let t := e_c (h_top h) in
  let R := dist (val3 p) y in let rho := powerRZ 2 (-42) * M in
  moderate M -> axis_upto M s t -> radius_upto M (hollow_inner h) -> radius_upto M (h_outer h) -> point_upto M p -> tolerance e ->
  foot (val3 s) (val3 t) (val3 p) y -> dist_to (on_segment (val3 s) (val3 t)) y D ->
  (val (hollow_inner h) + rho <= R -> decides_both (hollow_contains h p e) D (val e) R (widened (val (h_outer h)) (val e)) rho) /\
  (R + rho <= val (hollow_inner h) - val e \/ (1 + powerRZ 2 (-50)) * val e + rho <= D -> hollow_contains h p e = false).
Proof. exact c106_hollow_lemma. Qed.
Print Assumptions c106_hollow_partial.
Example c106_hollow_case : make_hollow pt0 (mkV3 0x1.3333333333333p-1 0x1.999999999999ap-1 0)%float 3%float 7%float 5%float = Ok rd_pipe /\
  e_c (h_bot rd_pipe) = pt0 /\ e_c (h_top rd_pipe) = pt1 /\ radius_upto 12 (hollow_inner rd_pipe) /\ radius_upto 12 (h_outer rd_pipe) /\
  dist (val3 pt1) (val3 pt1) = 0 /\ dist (val3 rd_over) (val3 pt1) = 4 /\ foot (val3 pt0) (val3 pt1) (val3 pt1) (val3 pt1) /\
  hollow_contains rd_pipe rd_over 0x1p-10%float = true /\ hollow_contains rd_pipe pt1 0x1p-10%float = false.
Proof.
  exact (conj (proj2 rd_made) (conj (proj1 (proj2 (proj2 rd_ends))) (conj (proj2 (proj2 (proj2 rd_ends))) (conj (proj1 (proj2 rd_radii)) (conj (proj1 rd_radii)
    (conj (proj1 rd_dists) (conj (proj1 (proj2 rd_dists)) (conj (rd_foot _ (or_introl eq_refl)) (proj1 (proj2 rd_answers)))))))))).
Qed.
(** The margin is needed: a hollow cylinder of inner radius 1, outer radius 2 and height 5 at 10^5 does not contain a
    point 8 10^-12 beyond its inner wall. *)
Theorem c106_inner_wall_refuted : number3 (e_c (h_bot far_pipe)) /\ number3 (e_c (h_top far_pipe)) /\ number3 far_pt /\
  dist (val3 (e_c (h_bot far_pipe))) (val3 (e_c (h_top far_pipe))) = 5 /\ val (hollow_inner far_pipe) = 1 /\ val (h_outer far_pipe) = 2 /\
  beyond_wall (8 / 1000000000000) (val3 (e_c (h_bot far_pipe))) (val3 (e_c (h_top far_pipe))) (val (hollow_inner far_pipe)) (val3 far_pt) /\
  below_surface (1 / 2) (val3 (e_c (h_bot far_pipe))) (val3 (e_c (h_top far_pipe))) (val (h_outer far_pipe)) (val3 far_pt) /\
  hollow_contains_default far_pipe far_pt = false.
Proof. exact far_case. Qed.
Print Assumptions c106_inner_wall_refuted.
Example c106_inner_wall_case : make_hollow (mkV3 100000 100000 100000)%float (mkV3 0x1.3333333333333p-1 0x1.999999999999ap-1 0)%float 1%float 2%float 5%float = Ok far_pipe.
Proof. exact far_made. Qed.

(** The default tolerances: (radius + height) / (2 10^7), with the outer radius for hollow cylinders, and radius / 10^7
    for spheres. *)
Theorem c106_defaults : forall M, moderate M ->
  (forall c : cyl float, lengths_upto M (cyl_radius c) (c_h c) -> exists e, default_is e ((val (cyl_radius c) + val (c_h c)) / 20000000) /\
     forall p, cyl_contains_default c p = cyl_contains c p e /\ surf_contains_default c p = surf_contains c p e) /\
  (forall h : hollow float, lengths_upto M (h_outer h) (h_h h) -> exists e, default_is e ((val (h_outer h) + val (h_h h)) / 20000000) /\
     forall p, hollow_contains_default h p = hollow_contains h p e) /\
  (forall s : sphere float, radius_upto M (sp_r s) -> powerRZ 2 (-300) <= val (sp_r s) -> exists e, default_is e (val (sp_r s) / 10000000) /\
     forall p, sphere_contains_default s p = sphere_contains s p e).
Proof. exact c106_defaults_lemma. Qed.
Print Assumptions c106_defaults.
Example c106_defaults_case : moderate 12 /\ lengths_upto 12 (cyl_radius rd_cyl) (c_h rd_cyl) /\ lengths_upto 12 (h_outer rd_pipe) (h_h rd_pipe) /\ radius_upto 12 (sp_r rd_ball) /\ powerRZ 2 (-300) <= val (sp_r rd_ball).
Proof.
  exact (conj moderate_12 (conj (proj1 (proj2 (proj2 rd_radii))) (conj (proj1 (proj2 (proj2 rd_radii))) (conj (proj1 rd_radii) (proj2 (proj2 (proj2 rd_radii))))))).
Qed.
