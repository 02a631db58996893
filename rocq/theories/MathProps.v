(** C31, C33-C38: intervals, vector products, rotations, directions. *)

From Coq Require Import Reals Lra List.
From Coq Require PrimFloat.
From Verif Require Import NumModel VecModel GeoSpec GeoLemmas MathProofs MathExamples.
Import ListNotations.
Local Open Scope R_scope.

(** *** C31 *)

(** Intervals that share a point, or come closer than eps, overlap. *)
Theorem c31_near : forall (i1 i2 : R * R) eps x y,
  0 < eps -> in_interval i1 x -> in_interval i2 y -> Rabs (x - y) < eps ->
  intervals_overlap i1 i2 eps = true.
Proof. exact overlap_near. Qed.
Print Assumptions c31_near.

(** Intervals that stay more than eps apart do not overlap. *)
Theorem c31_far : forall (i1 i2 : R * R) eps,
  fst i1 <= snd i1 -> fst i2 <= snd i2 -> 0 <= eps ->
  (forall x y, in_interval i1 x -> in_interval i2 y -> eps < Rabs (x - y)) ->
  intervals_overlap i1 i2 eps = false.
Proof. exact overlap_far. Qed.
Print Assumptions c31_far.

(** The test is symmetric unless the gap is exactly eps. *)
Theorem c31_symmetric_partial : forall (i1 i2 : R * R) eps,
  fst i1 <= snd i1 -> fst i2 <= snd i2 -> 0 < eps ->
  fst i1 - snd i2 <> eps -> fst i2 - snd i1 <> eps ->
  intervals_overlap i1 i2 eps = intervals_overlap i2 i1 eps.
Proof. exact overlap_sym. Qed.
Print Assumptions c31_symmetric_partial.

(** It is not symmetric in general. *)
Theorem c31_symmetric_refuted : exists (i1 i2 : R * R) eps,
  0 < eps /\ fst i1 <= snd i1 /\ fst i2 <= snd i2 /\
  intervals_overlap i1 i2 eps = true /\ intervals_overlap i2 i1 eps = false.
Proof. exact overlap_not_symmetric. Qed.
Print Assumptions c31_symmetric_refuted.

(** With tolerance zero, touching intervals are reported not to overlap, although the
    documentation says that the query includes the boundary. *)
Theorem c31_boundary_refuted : exists (i1 i2 : R * R) x,
  in_interval i1 x /\ in_interval i2 x /\ intervals_overlap i1 i2 0 = false.
Proof. exact overlap_boundary. Qed.
Print Assumptions c31_boundary_refuted.

Example c31_case : in_interval (0, 2) 1 /\ in_interval (1, 3) 1 /\
  (forall x y, in_interval (0, 1) x -> in_interval (3, 4) y -> 1 < Rabs (x - y)).
Proof.
  unfold in_interval; cbn. split; [lra|]. split; [lra|]. intros x y Hx Hy. rewrite Rabs_left; lra.
Qed.

(** *** C33 *)

Theorem c33_cross_orthogonal : forall u v : pt, ortho (cross u v) u /\ ortho (cross u v) v.
Proof. exact (fun u v => conj (cross_ortho_l u v) (cross_ortho_r u v)). Qed.
Print Assumptions c33_cross_orthogonal.

Theorem c33_cross_length : forall u v : pt,
  dot (cross u v) (cross u v) = dot u u * dot v v - dot u v * dot u v.
Proof. exact lagrange. Qed.
Print Assumptions c33_cross_length.

Theorem c33_cross_antisymmetric : forall u v : pt, cross u v = pscale (-1) (cross v u).
Proof. exact cross_anti. Qed.
Print Assumptions c33_cross_antisymmetric.

(** The sign is the right-hand rule: u, v, u x v is positively oriented. *)
Theorem c33_cross_orientation : forall u v : pt,
  det3 u v (cross u v) = dot (cross u v) (cross u v).
Proof. exact cross_orientation. Qed.
Print Assumptions c33_cross_orientation.

Theorem c33_cross_zero_iff : forall u v : pt,
  u <> zero3 -> (cross u v = zero3 <-> exists c, v = pscale c u).
Proof. exact cross_zero_iff. Qed.
Print Assumptions c33_cross_zero_iff.

Theorem c33_box_determinant : forall u v w : pt, box_product u v w = det3 u v w.
Proof. exact box_det. Qed.
Print Assumptions c33_box_determinant.

Theorem c33_right_hand : forall u v w : pt, is_right_hand u v w = true <-> 0 < det3 u v w.
Proof. exact right_hand_iff. Qed.
Print Assumptions c33_right_hand.

Example c33_case : cross (mkV3 1 2 3) (mkV3 4 5 6) = mkV3 (-3) 6 (-3)
  /\ is_right_hand (mkV3 1 0 0) (mkV3 0 1 0) (mkV3 0 0 1) = true.
Proof.
  split; [coords; f_equal; lra|]. apply right_hand_iff. coords. lra.
Qed.

(** *** C34 *)

Theorem c34_isometry : forall (u v w axis : pt) phi, unit3 axis ->
  dot (rotate v axis phi) (rotate w axis phi) = dot v w /\
  norm (rotate v axis phi) = norm v /\
  det3 (rotate u axis phi) (rotate v axis phi) (rotate w axis phi) = det3 u v w.
Proof. exact rotate_isometry. Qed.
Print Assumptions c34_isometry.

Theorem c34_axis_fixed : forall (axis : pt) phi, unit3 axis -> rotate axis axis phi = axis.
Proof. exact rotate_axis. Qed.
Print Assumptions c34_axis_fixed.

(** A vector orthogonal to the axis is turned by phi, counterclockwise seen against the axis. *)
Theorem c34_angle : forall (v axis : pt) phi, unit3 axis -> ortho v axis ->
  dot v (rotate v axis phi) = cos phi * dot v v /\
  cross v (rotate v axis phi) = pscale (sin phi * dot v v) axis.
Proof. exact rotate_angle. Qed.
Print Assumptions c34_angle.

Theorem c34_zero : forall v axis : pt, rotate v axis 0 = v.
Proof. exact rotate_zero. Qed.
Print Assumptions c34_zero.

Theorem c34_additive : forall (v axis : pt) phi psi, unit3 axis ->
  rotate (rotate v axis phi) axis psi = rotate v axis (phi + psi).
Proof. exact rotate_add. Qed.
Print Assumptions c34_additive.

Theorem c34_periodic : forall (v axis : pt) phi, rotate v axis (phi + 2 * PI) = rotate v axis phi.
Proof. exact rotate_period. Qed.
Print Assumptions c34_periodic.

Theorem c34_all : forall (vs : list pt) (axis : pt) phi,
  length (rotate_all vs axis phi) = length vs /\
  forall i v, nth_error vs i = Some v -> nth_error (rotate_all vs axis phi) i = Some (rotate v axis phi).
Proof. exact rotate_all_spec. Qed.
Print Assumptions c34_all.

Example c34_case : unit3 (mkV3 0 0 1) /\ ortho (mkV3 1 0 0) (mkV3 0 0 1) /\
  rotate (mkV3 1 0 0) (mkV3 0 0 1) (PI / 2) = mkV3 0 1 0.
Proof.
  split; [coords; lra|]. split; [coords; lra|].
  rewrite rotate_rodrigues, sin_PI2, cos_PI2. coords. f_equal; lra.
Qed.

(** *** C35 *)

Theorem c35_inverse : forall x : R, to_degrees (to_radians x) = x /\ to_radians (to_degrees x) = x.
Proof. exact (fun x => conj (deg_rad x) (rad_deg x)). Qed.
Print Assumptions c35_inverse.

Theorem c35_half_turn : to_radians 180 = PI /\ to_degrees PI = 180.
Proof. exact half_turn. Qed.
Print Assumptions c35_half_turn.

Theorem c35_linear : forall x c : R, to_radians (c * x) = c * to_radians x.
Proof. exact to_radians_linear. Qed.
Print Assumptions c35_linear.

(** *** C36 *)

Theorem c36_orthogonal : forall v : pt, ortho (make_orthogonal v) v /\ make_orthogonal v <> zero3.
Proof. exact make_orthogonal_ok. Qed.
Print Assumptions c36_orthogonal.

(** *** C37 *)

(** For tolerances up to a right angle the test is exactly "the angle between the vectors is
    below the tolerance". *)
Theorem c37_angle : forall (v w : pt) eps, v <> zero3 -> w <> zero3 -> eps <= PI / 2 ->
  (is_parallel v w eps = true <-> acos (dot v w / (norm v * norm w)) < eps).
Proof. exact is_parallel_angle. Qed.
Print Assumptions c37_angle.

Theorem c37_same_orientation_partial : forall (v : pt) c eps, v <> zero3 -> 0 < c -> 0 < eps <= PI / 2 ->
  is_parallel v (pscale c v) eps = true.
Proof. exact is_parallel_same. Qed.
Print Assumptions c37_same_orientation_partial.

Theorem c37_orthogonal : forall (v w : pt) eps, v <> zero3 -> w <> zero3 -> ortho v w -> 0 < eps <= PI / 2 ->
  is_parallel v w eps = false.
Proof. exact is_parallel_ortho. Qed.
Print Assumptions c37_orthogonal.

(** Vectors of opposite orientation are never recognised, whatever the (sensible) tolerance. *)
Theorem c37_opposite_refuted : forall (v : pt) c eps, v <> zero3 -> c < 0 -> 0 < eps <= PI / 2 ->
  is_parallel v (pscale c v) eps = false.
Proof. exact is_parallel_anti. Qed.
Print Assumptions c37_opposite_refuted.

(** The default tolerance is in the range of the above theorems. *)
Theorem c37_default_tolerance : forall v w : pt,
  is_parallel_default v w = is_parallel v w angular /\ 0 < (angular : R) <= PI / 2.
Proof. exact angular_range. Qed.
Print Assumptions c37_default_tolerance.

(** In double arithmetic the vector (1, 1, 1) is not parallel to itself: the quotient passed to
    acos is rounded to a number above one, for which acos returns NaN. *)
Theorem c37_double_refuted : forall T : Trig PrimFloat.float,
  (forall x, PrimFloat.ltb PrimFloat.one x = true -> nacos x = PrimFloat.nan) ->
  npi = float_pi ->
  is_parallel_default (mkV3 PrimFloat.one PrimFloat.one PrimFloat.one)
                      (mkV3 PrimFloat.one PrimFloat.one PrimFloat.one) = false.
Proof. exact not_parallel_to_itself. Qed.
Print Assumptions c37_double_refuted.

Example c37_case : mkV3 1 0 0 <> zero3 /\ ortho (mkV3 1 0 0) (mkV3 0 1 0) /\
  is_parallel_default (mkV3 1 0 0) (pscale (-1) (mkV3 1 0 0)) = false.
Proof.
  assert (mkV3 1 0 0 <> zero3) as H by (unfold zero3; intros E; injection E; lra).
  split; [exact H|]. split; [coords; lra|].
  apply c37_opposite_refuted; [exact H|lra|apply (c37_default_tolerance zero3 zero3)].
Qed.

(** *** C38 *)

Theorem c38_unit : forall v : pt, v <> zero3 ->
  unit3 (to_dir v) /\ exists c, 0 < c /\ v = pscale c (to_dir v).
Proof. exact to_dir_spec. Qed.
Print Assumptions c38_unit.

Theorem c38_invert : forall d : pt,
  dir_invert (dir_invert d) = d /\ dir_invert d = pscale (-1) d /\
  (unit3 d -> unit3 (dir_invert d)).
Proof. exact invert_spec. Qed.
Print Assumptions c38_invert.

(** In double arithmetic the squared length of small or large vectors under- or overflows:
    the direction of a finite non-zero vector can be infinite or zero. *)
Theorem c38_double_refuted :
  (exists x, PrimFloat.ltb PrimFloat.zero x = true /\ PrimFloat.eqb x PrimFloat.infinity = false /\
     vx (to_dir (mkV3 x PrimFloat.zero PrimFloat.zero)) = PrimFloat.infinity) /\
  (exists x, PrimFloat.ltb PrimFloat.zero x = true /\ PrimFloat.ltb x PrimFloat.infinity = true /\
     to_dir (mkV3 x PrimFloat.zero PrimFloat.zero) = mkV3 PrimFloat.zero PrimFloat.zero PrimFloat.zero).
Proof. exact dir_double. Qed.
Print Assumptions c38_double_refuted.

Example c38_case : to_dir (mkV3 0 0 2) = mkV3 0 0 1.
Proof.
  unfold to_dir, vlen. coords. replace (0 + 0 * 0 + 0 * 0 + 2 * 2) with (2 * 2) by ring.
  rewrite sqrt_square by lra. f_equal; field.
Qed.
