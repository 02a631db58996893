(** Specification of circles, ellipses, arcs, disks, cylinders and spheres: the point sets, by
    their parametrisation.  The record types are shared with the model. *)

From Coq Require Import Reals List.
From Verif Require Import NumModel VecModel LinModel RoundModel GeoSpec LinSpec.
Local Open Scope R_scope.

(** the point with coordinates x, y in the plane through c spanned by u and v *)
Definition at_coords (c u v : pt) (x y : R) : pt := padd c (padd (pscale x u) (pscale y v)).

(** what the constructors expect: perpendicular unit axes, positive lengths *)
Definition ell_ok (e : ell R) : Prop :=
  ortho_basis (e_maj e) (e_min e) (e_n e) /\ 0 < e_a e /\ 0 < e_b e.

(** the point of the ellipse at the angle phi, the ellipse, the disk scaled by the factor k *)
Definition ell_at (e : ell R) (phi : R) : pt :=
  at_coords (e_c e) (e_maj e) (e_min e) (e_a e * cos phi) (e_b e * sin phi).
Definition on_ellipse (e : ell R) (p : pt) : Prop := exists phi, p = ell_at e phi.
Definition in_disk (k : R) (e : ell R) (p : pt) : Prop :=
  exists x y, (x / (k * e_a e)) ^ 2 + (y / (k * e_b e)) ^ 2 <= 1
              /\ p = at_coords (e_c e) (e_maj e) (e_min e) x y.
(** the circle with the given center, normal and radius *)
Definition on_circle (c n : pt) (r : R) (p : pt) : Prop := dist p c = r /\ ortho (psub p c) n.

(** getAngle treats the points that are very close to an axis as points on the axis; outside
    these bands *)
Definition off_axes (phi : R) : Prop :=
  1 / 10 ^ 7 <= Rabs (cos phi) /\ 1 / 10 ^ 7 <= Rabs (sin phi).
(** phi is not one of the angles that getAngle changes *)
Definition unsnapped (phi : R) : Prop :=
  (cos phi = 0 \/ 1 / 10 ^ 7 <= Rabs (cos phi)) /\ (sin phi = 0 \/ 1 / 10 ^ 7 <= Rabs (sin phi)).

(** the angles from s to t in the positive sense of rotation (angles in [0, 2 pi)) *)
Definition between (s t phi : R) : Prop :=
  (s < t /\ s <= phi <= t) \/ (t < s /\ (s <= phi \/ phi <= t)).

(** the points of the cylinder with the axis from c in direction n, of height h: z is the
    coordinate along the axis, w the offset from the axis, whose length satisfies P *)
Definition cyl_set (c n : pt) (h : R) (P : R -> Prop) (p : pt) : Prop :=
  exists z w, 0 <= z <= h /\ ortho w n /\ P (norm w) /\ p = padd c (padd (pscale z n) w).
Definition solid_cyl (c n : pt) (r h : R) : pt -> Prop := cyl_set c n h (fun d => d <= r).
Definition lateral_cyl (c n : pt) (r h : R) : pt -> Prop := cyl_set c n h (fun d => d = r).
Definition hollow_cyl (c n : pt) (ri ro h : R) : pt -> Prop := cyl_set c n h (fun d => ri <= d <= ro).

(** a cylinder (surface) as made by the constructors *)
Definition cyl_ok (c : cyl R) : Prop :=
  unit3 (e_n (c_bot c)) /\ 0 < c_h c /\ 0 <= e_a (c_bot c) /\
  e_c (c_top c) = padd (e_c (c_bot c)) (pscale (c_h c) (e_n (c_bot c))).
Definition hollow_ok (h : hollow R) : Prop :=
  unit3 (e_n (h_bot h)) /\ 0 < h_h h /\ 0 <= e_a (h_bot h) <= h_outer h /\
  e_c (h_top h) = padd (e_c (h_bot h)) (pscale (h_h h) (e_n (h_bot h))).
(** e is the circle with center c, normal n and radius r *)
Definition is_circle (e : ell R) (c n : pt) (r : R) : Prop :=
  ell_ok e /\ e_c e = c /\ e_n e = n /\ e_a e = r /\ e_b e = r.
Definition cyl_solid (c : cyl R) : pt -> Prop :=
  solid_cyl (e_c (c_bot c)) (e_n (c_bot c)) (e_a (c_bot c)) (c_h c).
Definition cyl_lateral_set (c : cyl R) : pt -> Prop :=
  lateral_cyl (e_c (c_bot c)) (e_n (c_bot c)) (e_a (c_bot c)) (c_h c).
Definition hollow_solid (h : hollow R) : pt -> Prop :=
  hollow_cyl (e_c (h_bot h)) (e_n (h_bot h)) (e_a (h_bot h)) (h_outer h) (h_h h).
Definition ball (c : pt) (r : R) (p : pt) : Prop := dist p c <= r.
