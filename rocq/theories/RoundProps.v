(** C43-C46, C70: circles, ellipses, arcs, disks, cylinders and spheres. *)

From Coq Require Import Reals Lra List.
From Coquelicot Require Import Coquelicot.
From Verif Require Import Base NumModel VecModel LinModel RoundModel GeoSpec LinSpec RoundSpec
  GeoLemmas EllProofs ArcProofs CylProofs AreaProofs.
Local Open Scope R_scope.

(** *** C43 *)

(** The constructors make well-formed objects from perpendicular unit axes, and from a unit
    normal. *)
Theorem c43_construction : forall (c u v : pt) a b,
  unit3 u -> unit3 v -> ortho u v -> 0 < a -> 0 < b -> ell_ok (make_ell c u v a b).
Proof. exact make_ell_ok. Qed.
Print Assumptions c43_construction.

Theorem c43_circle_construction : forall (c n : pt) r, unit3 n -> 0 < r ->
  let e := make_circle c n r in
  ell_ok e /\ e_c e = c /\ e_n e = n /\ e_a e = r /\ e_b e = r.
Proof. exact make_circle_ok. Qed.
Print Assumptions c43_circle_construction.

(** getPointFromAngle and getPoint follow the parametrisation; the points are contained. *)
Theorem c43_points : forall e, ell_ok e -> forall phi t eps chk, 0 < eps ->
  ell_angle_point e phi = ell_at e phi /\ ell_point e t = ell_at e (2 * PI * t) /\
  ell_contains e (ell_angle_point e phi) eps chk = true /\ ell_contains e (ell_point e t) eps chk = true.
Proof. exact ell_points. Qed.
Print Assumptions c43_points.

(** A point is contained for every positive tolerance iff it is on the ellipse. *)
Theorem c43_exact : forall e, ell_ok e -> forall p,
  (forall eps, 0 < eps -> ell_contains e p eps true = true) <-> on_ellipse e p.
Proof. exact ell_contains_all. Qed.
Print Assumptions c43_exact.

(** For a given tolerance: close to the plane, and the equation holds up to the tolerance. *)
Theorem c43_contains : forall e, ell_ok e -> forall p eps chk,
  let d := psub p (e_c e) in
  ell_contains e p eps chk = true <->
  (chk = true -> Rabs (dot d (e_n e)) < eps) /\
  Rabs ((dot d (e_maj e) / e_a e) ^ 2 + (dot d (e_min e) / e_b e) ^ 2 - 1) < eps.
Proof. exact ell_contains_char. Qed.
Print Assumptions c43_contains.

(** getAngle and getParam are inverse to getPointFromAngle and getPoint outside the bands. *)
Theorem c43_angle : forall e, ell_ok e -> forall phi chk, 0 <= phi < 2 * PI -> off_axes phi ->
  ell_get_angle e (ell_angle_point e phi) chk = Ok phi /\
  ell_get_param e (ell_angle_point e phi) chk = Ok (phi / (2 * PI)) /\
  ell_point e (phi / (2 * PI)) = ell_angle_point e phi.
Proof. exact get_angle_inverse. Qed.
Print Assumptions c43_angle.

(** In the bands they yield the angle of the axis. *)
Theorem c43_angle_band : forall e, ell_ok e -> forall phi chk, 0 <= phi < 2 * PI ->
  (Rabs (cos phi) < 1 / 10 ^ 7 ->
   ell_get_angle e (ell_angle_point e phi) chk = Ok (if Rlt_dec (sin phi) 0 then 3 * PI / 2 else PI / 2)) /\
  (Rabs (sin phi) < 1 / 10 ^ 7 ->
   ell_get_angle e (ell_angle_point e phi) chk = Ok (if Rlt_dec (cos phi) 0 then PI else 0)).
Proof. exact get_angle_band. Qed.
Print Assumptions c43_angle_band.

Theorem c43_ranges : forall e, ell_ok e -> forall p chk,
  (forall phi, ell_get_angle e p chk = Ok phi -> 0 <= phi < 2 * PI) /\
  (forall t, ell_get_param e p chk = Ok t -> 0 <= t < 1).
Proof. exact get_ranges. Qed.
Print Assumptions c43_ranges.

(** getAngle throws for the points that are not on the ellipse up to 1e-7. *)
Theorem c43_throws : forall e, ell_ok e -> forall p,
  let d := psub p (e_c e) in
  ell_get_angle e p true = Throw RuntimeError <->
  ~ (Rabs (dot d (e_n e)) < 1 / 10 ^ 7 /\
     Rabs ((dot d (e_maj e) / e_a e) ^ 2 + (dot d (e_min e) / e_b e) ^ 2 - 1) < 1 / 10 ^ 7).
Proof. exact get_angle_throw. Qed.
Print Assumptions c43_throws.

Theorem c43_circle_points : forall (c n : pt) r, unit3 n -> 0 < r -> forall t eps, 0 < eps ->
  let e := make_circle c n r in
  on_circle c n r (ell_point e t) /\ on_circle c n r (ell_angle_point e t) /\
  circle_contains e (ell_point e t) eps = true /\ circle_contains e (ell_angle_point e t) eps = true.
Proof. exact circle_points. Qed.
Print Assumptions c43_circle_points.

Theorem c43_circle_exact : forall (c n : pt) r p, unit3 n ->
  (forall eps, 0 < eps -> circle_contains (make_circle c n r) p eps = true) <-> on_circle c n r p.
Proof. exact circle_contains_all. Qed.
Print Assumptions c43_circle_exact.

Theorem c43_circle_contains : forall (c n : pt) r p eps, unit3 n ->
  (circle_contains (make_circle c n r) p eps = true <->
   Rabs (dot (psub p c) n) < eps /\ Rabs (dist p c - r) < eps).
Proof. exact circle_contains_char. Qed.
Print Assumptions c43_circle_contains.

(** By default the tolerance is 10^-7 times the radius. *)
Theorem c43_circle_default : forall (c n : pt) r p, unit3 n ->
  (circle_contains_default (make_circle c n r) p = true <->
   Rabs (dot (psub p c) n) < r / 10000000 /\ Rabs (dist p c - r) < r / 10000000).
Proof. exact circle_default_char. Qed.
Print Assumptions c43_circle_default.

(** Every point of the circle is produced by getPointFromAngle. *)
Theorem c43_circle_complete : forall (c n : pt) r p, unit3 n -> 0 < r ->
  (on_ellipse (make_circle c n r) p <-> on_circle c n r p).
Proof. exact circle_ellipse. Qed.
Print Assumptions c43_circle_complete.

Example c43_case : ell_ok (make_ell (mkV3 1 2 3) (mkV3 1 0 0) (mkV3 0 1 0) 3 2) /\ off_axes (PI / 4).
Proof. exact (conj ell_case off_axes_case). Qed.

(** *** C44 *)

(** The points of an arc are contained, if the arc is not a full ellipse and if its end points
    have different angles. *)
Theorem c44_points_partial : forall e, ell_ok e -> forall src tgt c tau eps chk,
  on_ellipse e src -> on_ellipse e tgt -> make_arc e src tgt = Ok c ->
  a_full c = false -> a_s c <> a_t c -> 0 <= tau <= 1 -> 0 < eps ->
  arc_contains c (arc_point c tau) eps chk = Ok true.
Proof. exact arc_points. Qed.
Print Assumptions c44_points_partial.

(** Conversely, of the points of the ellipse only these are contained for all tolerances; they
    are the points with angles between those of the end points. *)
Theorem c44_exact_partial : forall e, ell_ok e -> forall src tgt c phi,
  on_ellipse e src -> on_ellipse e tgt -> make_arc e src tgt = Ok c ->
  a_full c = false -> a_s c <> a_t c -> 0 <= phi < 2 * PI -> unsnapped phi ->
  ((forall eps, 0 < eps -> arc_contains c (ell_at e phi) eps true = Ok true) <->
   exists tau, 0 <= tau <= 1 /\ ell_at e phi = arc_point c tau).
Proof. exact arc_exact. Qed.
Print Assumptions c44_exact_partial.

Theorem c44_between_partial : forall e, ell_ok e -> forall src tgt c phi,
  on_ellipse e src -> on_ellipse e tgt -> make_arc e src tgt = Ok c ->
  a_full c = false -> a_s c <> a_t c -> 0 <= phi < 2 * PI -> unsnapped phi ->
  ((forall eps, 0 < eps -> arc_contains c (ell_at e phi) eps true = Ok true) <->
   between (a_s c) (a_t c) phi).
Proof. exact arc_contains_between. Qed.
Print Assumptions c44_between_partial.

(** The arc starts and ends at the given points. *)
Theorem c44_end_points : forall e, ell_ok e -> forall phi1 phi2 c,
  0 <= phi1 < 2 * PI -> 0 <= phi2 < 2 * PI -> unsnapped phi1 -> unsnapped phi2 ->
  make_arc e (ell_at e phi1) (ell_at e phi2) = Ok c -> a_full c = false ->
  a_s c = phi1 /\ a_t c = phi2 /\ arc_point c 0 = ell_at e phi1 /\ arc_point c 1 = ell_at e phi2.
Proof. exact arc_ends. Qed.
Print Assumptions c44_end_points.

(** A full ellipse that starts on the major axis contains all points of the ellipse ... *)
Theorem c44_full_partial : forall e, ell_ok e -> forall src c p eps chk,
  on_ellipse e src -> make_arc e src src = Ok c -> a_s c < 1 / 10 ^ 10 ->
  on_ellipse e p -> 0 < eps -> a_full c = true /\ arc_contains c p eps chk = Ok true.
Proof. exact full_zero. Qed.
Print Assumptions c44_full_partial.

(** ... but one that starts elsewhere does not contain its own points. *)
Theorem c44_full_refuted : forall e, ell_ok e -> exists c,
  make_arc e (ell_at e (PI / 2)) (ell_at e (PI / 2)) = Ok c /\ a_full c = true /\
  arc_contains_default c (ell_at e 0) true = Ok false /\
  arc_contains c (ell_at e 0) 1 true = Ok false /\
  arc_point c (3 / 4) = ell_at e 0.
Proof. exact full_arc_refuted. Qed.
Print Assumptions c44_full_refuted.

(** The end points of a short arc across an axis are given the same angle; its points run around
    the whole ellipse, and are not contained. *)
Theorem c44_short_refuted : forall e, ell_ok e -> let x := 9 / 10 ^ 8 in exists c,
  make_arc e (ell_at e (acos x)) (ell_at e (acos (- x))) = Ok c /\ a_full c = false /\
  arc_point c (1 / 2) = ell_at e (3 * PI / 2) /\
  arc_contains_default c (arc_point c (1 / 2)) true = Ok false.
Proof. exact short_arc_refuted. Qed.
Print Assumptions c44_short_refuted.

(** contains with a tolerance above the default one throws for points within the tolerance. *)
Theorem c44_tolerance_refuted : forall e, ell_ok e -> forall c, a_ell c = e ->
  let p := at_coords (e_c e) (e_maj e) (e_min e) (11 / 10 * e_a e) 0 in
  ell_contains e p (1 / 2) true = true /\ arc_contains c p (1 / 2) true = Throw RuntimeError.
Proof. exact arc_throw_refuted. Qed.
Print Assumptions c44_tolerance_refuted.

Example c44_case : let e := make_ell (mkV3 1 2 3) (mkV3 1 0 0) (mkV3 0 1 0) 3 2 in exists c,
  ell_ok e /\ make_arc e (ell_at e (3 * PI / 2)) (ell_at e (PI / 2)) = Ok c /\ a_full c = false /\ a_s c <> a_t c /\
  arc_point c 0 = ell_at e (3 * PI / 2) /\ arc_point c 1 = ell_at e (PI / 2) /\
  (forall eps, 0 < eps -> arc_contains c (ell_at e 0) eps true = Ok true) /\
  arc_contains_default c (ell_at e PI) true = Ok false.
Proof. exact arc_case. Qed.

(** *** C45 *)

(** A point is contained for a given tolerance iff it is closer than that to the plane and its
    projection is in the disk scaled by sqrt (1 + eps^2). *)
Theorem c45_contains : forall e, ell_ok e -> forall p eps, 0 < eps ->
  (disk_contains e p eps true = true <->
   exists q, in_disk (sqrt (1 + eps * eps)) e q /\ closest (on_plane (e_c e) (e_n e)) p q /\ dist p q < eps).
Proof. exact disk_contains_iff. Qed.
Print Assumptions c45_contains.

Theorem c45_exact : forall e, ell_ok e -> forall p,
  (forall eps, 0 < eps -> disk_contains e p eps true = true) <-> in_disk 1 e p.
Proof. exact disk_contains_all. Qed.
Print Assumptions c45_exact.

(** The point that getPoint returns is outside, unless the radial parameter is zero, which
    yields a point of the rim. *)
Theorem c45_point_refuted : forall e, ell_ok e -> forall t1 t2, 0 < t2 ->
  ~ in_disk 1 e (disk_point e t1 t2) /\ disk_contains_default e (disk_point e t1 1) true = false.
Proof. exact disk_point_outside. Qed.
Print Assumptions c45_point_refuted.

Theorem c45_rim_partial : forall e, ell_ok e -> forall t1, on_ellipse e (disk_point e t1 0).
Proof. exact disk_point_rim. Qed.
Print Assumptions c45_rim_partial.

Example c45_case : let e := make_ell (mkV3 1 2 3) (mkV3 1 0 0) (mkV3 0 1 0) 3 2 in
  ell_ok e /\ in_disk 1 e (mkV3 2 3 3) /\ disk_point e 0 1 = mkV3 7 2 3.
Proof. exact disk_case. Qed.

(** *** C46 *)

Theorem c46_cylinder_exact : forall cy p, cyl_ok cy ->
  (forall eps, 0 < eps -> cyl_contains cy p eps = true) <-> cyl_solid cy p.
Proof. exact cyl_contains_all. Qed.
Print Assumptions c46_cylinder_exact.

Theorem c46_cylinder_near : forall cy p eps, cyl_ok cy -> 0 < eps -> cyl_contains cy p eps = true ->
  exists q, cyl_solid cy q /\ dist p q <= sqrt 2 * eps.
Proof. exact cyl_contains_near. Qed.
Print Assumptions c46_cylinder_near.

(** The factor sqrt 2 is needed: a contained point farther than the tolerance. *)
Theorem c46_cylinder_tolerance_refuted : let cy := make_cyl_z 1 1 0 in let p := mkV3 4 0 (-39 / 10) in
  cyl_ok cy /\ cyl_contains cy p 4 = true /\ forall q, cyl_solid cy q -> 4 < dist p q.
Proof. exact corner_case. Qed.
Print Assumptions c46_cylinder_tolerance_refuted.

Theorem c46_cylinder_default : forall cy p, cyl_ok cy -> cyl_solid cy p -> cyl_contains_default cy p = true.
Proof. exact cyl_default. Qed.
Print Assumptions c46_cylinder_default.

Theorem c46_surface_exact : forall cy p, cyl_ok cy ->
  (forall eps, 0 < eps -> surf_contains cy p eps = true) <-> cyl_lateral_set cy p.
Proof. exact surf_contains_all. Qed.
Print Assumptions c46_surface_exact.

Theorem c46_surface_near : forall cy p eps, cyl_ok cy -> 0 < eps -> surf_contains cy p eps = true ->
  exists q, cyl_lateral_set cy q /\ dist p q <= sqrt 2 * eps.
Proof. exact surf_contains_near. Qed.
Print Assumptions c46_surface_near.

Theorem c46_surface_default : forall cy p, cyl_ok cy -> cyl_lateral_set cy p -> surf_contains_default cy p = true.
Proof. exact surf_default. Qed.
Print Assumptions c46_surface_default.

(** The tangent plane touches the cylinder: the solid is on one side of it. *)
Theorem c46_tangent : forall cy p, cyl_ok cy -> 0 < e_a (c_bot cy) -> cyl_lateral_set cy p ->
  let pl := surf_tangent cy p in
  pl_sup pl = p /\ unit3 (pl_n pl) /\ ortho (pl_n pl) (e_n (c_bot cy)) /\
  (forall q, cyl_solid cy q -> dot (pl_n pl) (psub q p) <= 0).
Proof. exact surf_tangent_spec. Qed.
Print Assumptions c46_tangent.

Theorem c46_hollow_exact : forall hc p, hollow_ok hc ->
  (forall eps, 0 < eps -> hollow_contains hc p eps = true) <-> hollow_solid hc p.
Proof. exact hollow_contains_all. Qed.
Print Assumptions c46_hollow_exact.

Theorem c46_hollow_near : forall hc p eps, hollow_ok hc -> 0 < eps -> hollow_contains hc p eps = true ->
  exists q, hollow_solid hc q /\ dist p q <= sqrt 2 * eps.
Proof. exact hollow_contains_near. Qed.
Print Assumptions c46_hollow_near.

(** The points of the core are not contained. *)
Theorem c46_hollow_core : forall hc p eps, hollow_ok hc -> 0 < eps ->
  solid_cyl (e_c (h_bot hc)) (e_n (h_bot hc)) (e_a (h_bot hc) - 2 * eps) (h_h hc) p ->
  hollow_contains hc p eps = false.
Proof. exact hollow_core. Qed.
Print Assumptions c46_hollow_core.

Theorem c46_hollow_default : forall hc p, hollow_ok hc -> hollow_solid hc p -> hollow_contains_default hc p = true.
Proof. exact hollow_default. Qed.
Print Assumptions c46_hollow_default.

Theorem c46_sphere_exact : forall s p, 0 <= sp_r s ->
  (forall eps, 0 < eps -> sphere_contains s p eps = true) <-> ball (sp_c s) (sp_r s) p.
Proof. exact sphere_contains_all. Qed.
Print Assumptions c46_sphere_exact.

Theorem c46_sphere_near : forall s p eps, 0 <= sp_r s -> 0 < eps -> sphere_contains s p eps = true ->
  dist p (sp_c s) < sp_r s + eps.
Proof. exact sphere_contains_near. Qed.
Print Assumptions c46_sphere_near.

Theorem c46_sphere_default : forall s p, 0 < sp_r s -> ball (sp_c s) (sp_r s) p -> sphere_contains_default s p = true.
Proof. exact sphere_default. Qed.
Print Assumptions c46_sphere_default.

(** The constructors: a base that is not circular is rejected. *)
Theorem c46_from_disk : forall d h, ell_ok d -> 0 < h ->
  (e_a d * (1 / 10 ^ 7) < Rabs (e_a d - e_b d) -> make_cyl_disk d h = Throw RuntimeError) /\
  (Rabs (e_a d - e_b d) <= e_a d * (1 / 10 ^ 7) -> exists cy, make_cyl_disk d h = Ok cy /\ cyl_ok cy /\
     c_bot cy = d /\ c_h cy = h /\ e_c (c_top cy) = padd (e_c d) (pscale h (e_n d)) /\
     e_n (c_top cy) = e_n d /\ e_maj (c_top cy) = e_maj d /\ e_min (c_top cy) = e_min d /\
     e_a (c_top cy) = e_a d /\ e_b (c_top cy) = e_b d).
Proof. exact make_cyl_disk_spec. Qed.
Print Assumptions c46_from_disk.

Theorem c46_from_circle : forall c n r h, unit3 n -> 0 < r -> 0 < h ->
  exists cy, make_cyl_circle (make_circle c n r) h = Ok cy /\ cyl_ok cy /\
    forall p, cyl_solid cy p <-> solid_cyl c n r h p.
Proof. exact make_cyl_circle_spec. Qed.
Print Assumptions c46_from_circle.

Theorem c46_axis_aligned : forall r h z0, 0 < r -> 0 < h ->
  cyl_ok (make_cyl_z r h z0) /\
  forall p, cyl_solid (make_cyl_z r h z0) p <-> z0 <= vz p <= z0 + h /\ vx p * vx p + vy p * vy p <= r * r.
Proof. exact make_cyl_z_spec. Qed.
Print Assumptions c46_axis_aligned.

Theorem c46_hollow_construction : forall c n ri ro h, unit3 n -> 0 < ri -> 0 < h ->
  (ro < ri -> make_hollow c n ri ro h = Throw RuntimeError) /\
  (ri <= ro -> exists hc, make_hollow c n ri ro h = Ok hc /\ hollow_ok hc /\
     (forall p, hollow_solid hc p <-> hollow_cyl c n ri ro h p) /\
     (exists full, hollow_full hc = Ok full /\ cyl_ok full /\ forall p, cyl_solid full p <-> solid_cyl c n ro h p) /\
     (cyl_ok (hollow_inner_face hc) /\ forall p, cyl_lateral_set (hollow_inner_face hc) p <-> lateral_cyl c n ri h p) /\
     (cyl_ok (hollow_outer_face hc) /\ forall p, cyl_lateral_set (hollow_outer_face hc) p <-> lateral_cyl c n ro h p)).
Proof. exact make_hollow_spec. Qed.
Print Assumptions c46_hollow_construction.

Theorem c46_hollow_circles : forall c n ri ro h hc, unit3 n -> 0 < ri -> make_hollow c n ri ro h = Ok hc ->
  is_circle (h_bot hc) c n ri /\ is_circle (h_top hc) (padd c (pscale h n)) n ri /\
  is_circle (hollow_bot_outer hc) c n ro /\ is_circle (hollow_top_outer hc) (padd c (pscale h n)) n ro.
Proof. exact make_hollow_circles. Qed.
Print Assumptions c46_hollow_circles.

(** The lateral face and the end faces are the parts of the boundary of the solid. *)
Theorem c46_lateral_face : forall cy, cyl_ok cy -> 0 < e_a (c_bot cy) ->
  cyl_ok (cyl_lateral cy) /\ (forall p, cyl_lateral_set (cyl_lateral cy) p <-> cyl_lateral_set cy p) /\
  cyl_axis (cyl_lateral cy) = cyl_axis cy /\ cyl_radius (cyl_lateral cy) = cyl_radius cy.
Proof. exact cyl_lateral_spec. Qed.
Print Assumptions c46_lateral_face.

Theorem c46_end_faces : forall d h cy p, ell_ok d -> e_a d = e_b d -> 0 < h -> make_cyl_disk d h = Ok cy ->
  let z := dot (e_n d) (psub p (e_c d)) in
  (in_disk 1 (c_bot cy) p <-> cyl_solid cy p /\ z = 0) /\
  (in_disk 1 (c_top cy) p <-> cyl_solid cy p /\ z = h).
Proof. exact faces_bound. Qed.
Print Assumptions c46_end_faces.

Theorem c46_surface_cylinder : forall c n r h, unit3 n -> 0 < r -> 0 < h ->
  exists cy, surf_cylinder (make_surf (make_circle c n r) h) = Ok cy /\ cyl_ok cy /\
    forall p, cyl_solid cy p <-> solid_cyl c n r h p.
Proof. exact surf_cylinder_spec. Qed.
Print Assumptions c46_surface_cylinder.

Example c46_case : let cy := make_cyl_z 1 2 0 in
  cyl_ok cy /\ cyl_solid cy (mkV3 0 1 2) /\ ~ cyl_solid cy (mkV3 1 1 1) /\
  unit3 (mkV3 0 0 1) /\ exists hc, make_hollow (mkV3 0 0 0) (mkV3 0 0 1) 1 2 3 = Ok hc /\ hollow_ok hc.
Proof. exact cyl_case. Qed.

(** *** C70 *)

(** area() of a disk is the integral of the lengths of its chords. *)
Theorem c70_disk : forall d : ell R, 0 < e_a d -> 0 < e_b d ->
  is_RInt (fun x => 2 * (e_b d * sqrt (1 - Rsqr (x / e_a d)))) (- e_a d) (e_a d) (disk_area d).
Proof. exact disk_area_int. Qed.
Print Assumptions c70_disk.

(** The volumes are the integrals of the areas of the sections. *)
Theorem c70_cylinder : forall cy : cyl R,
  is_RInt (fun _ => PI * (cyl_radius cy) ^ 2) 0 (c_h cy) (cyl_volume cy).
Proof. exact cyl_volume_int. Qed.
Print Assumptions c70_cylinder.

Theorem c70_hollow : forall h : hollow R,
  is_RInt (fun _ => PI * (h_outer h) ^ 2 - PI * (hollow_inner h) ^ 2) 0 (h_h h) (hollow_volume h).
Proof. exact hollow_volume_int. Qed.
Print Assumptions c70_hollow.

Theorem c70_surface : forall cy : cyl R,
  is_RInt (fun _ => 2 * PI * cyl_radius cy) 0 (c_h cy) (surf_area cy).
Proof. exact surf_area_int. Qed.
Print Assumptions c70_surface.

Theorem c70_sphere : forall s : sphere R, 0 <= sp_r s ->
  is_RInt (fun z => PI * (sqrt (Rsqr (sp_r s) - Rsqr z)) ^ 2) (- sp_r s) (sp_r s) (sphere_volume s).
Proof. exact sphere_volume_int. Qed.
Print Assumptions c70_sphere.

Example c70_case : disk_area (make_ell (mkV3 1 2 3) (mkV3 1 0 0) (mkV3 0 1 0) 3 2) = 6 * PI /\
  sphere_volume (mkSphere (mkV3 0 0 0) 3) = 36 * PI.
Proof. exact area_case. Qed.
