(** C108: frames, points of circles, ellipses and arcs and sampled points in double precision. *)

From Coq Require Import ZArith Reals.
From Coq Require Import Floats.
From Verif Require Import Base NumModel VecModel LinModel RoundModel SampModel GeoSpec DblSpec LinDblSpec LinDblExamples RndDblSpec
  TrigDblSpec TrigDblExamples PtDblSpec PtDblProofs FrDblProofs PtDblExamples.
Local Open Scope R_scope.

(** The axes and the normal of a circle, as the library finds them from the normal it is given, are directions that are
    orthogonal to each other up to 2^-47; the normal is the given one up to 2^-46. *)
Theorem c108_circle_frame : forall center n r, direction n -> plain3 n -> let c := make_circle center n r in
  frame (powerRZ 2 (-47)) (e_maj c) (e_min c) (e_n c) /\ norm (psub (val3 (e_n c)) (val3 n)) <= powerRZ 2 (-46).
Proof. exact circle_frame. Qed.
Print Assumptions c108_circle_frame.
Example c108_circle_case : direction (to_dir (mkV3 3 4 12)%float) /\ plain3 (to_dir (mkV3 3 4 12)%float).
Proof. exact (conj made_dir pd_n_plain). Qed.
(** The normal of an ellipse or a disk is the cross product of the axes it is given, up to 2^-47. *)
Theorem c108_ellipse_frame : forall center u v a b, direction u -> direction v -> plain3 u -> plain3 v -> Rabs (dot (val3 u) (val3 v)) <= powerRZ 2 (-47) ->
  let c := make_ell center u v a b in
  frame (powerRZ 2 (-47)) (e_maj c) (e_min c) (e_n c) /\ norm (psub (val3 (e_n c)) (cross (val3 u) (val3 v))) <= powerRZ 2 (-47).
Proof. exact made_frame. Qed.
Print Assumptions c108_ellipse_frame.
Example c108_ellipse_frame_case : direction axis_x /\ direction axis_z /\ plain3 axis_x /\ plain3 axis_z /\ Rabs (dot (val3 axis_x) (val3 axis_z)) <= powerRZ 2 (-47).
Proof. exact (conj (proj1 axis_dir) (conj (proj2 axis_dir) (conj (proj1 plain_axes) (conj (proj2 plain_axes) axes_dot)))). Qed.

(** The point of a circle or an ellipse at a parameter, and of an arc at a parameter. *)
Theorem c108_ellipse_point : forall (T : Trig float) M (e : ell float) t, accurate T -> moderate M -> ellipse_upto M e -> number t -> 0 <= val t <= 1 ->
  number3 (ell_point e t) /\ dist (val3 (ell_point e t)) (frame_point (val3 (e_c e)) (val3 (e_maj e)) (val3 (e_min e)) (val3 (e_n e))
    (val (e_a e) * cos (2 * PI * val t)) (val (e_b e) * sin (2 * PI * val t)) 0) <= powerRZ 2 (-46) * M.
Proof. exact ell_point_dbl. Qed.
Print Assumptions c108_ellipse_point.
Example c108_ellipse_point_case : accurate rounded_trig /\ moderate 12 /\ ellipse_upto 12 pd_ell /\ number 0.5%float /\ 0 <= val 0.5%float <= 1.
Proof. exact (conj rounded_accurate (conj moderate_12 (conj (proj2 pd_upto) (proj2 (proj2 pd_angles))))). Qed.
Theorem c108_arc_point : forall (T : Trig float) M (c : arc float) t, accurate T -> moderate M -> ellipse_upto M (a_ell c) ->
  number (a_s c) -> 0 <= val (a_s c) <= 7 -> number (a_t c) -> 0 <= val (a_t c) <= 7 -> number t -> 0 <= val t <= 1 ->
  let e := a_ell c in let theta := arc_angle (val (a_s c)) (val (a_t c)) (val t) in
  number3 (arc_point c t) /\ dist (val3 (arc_point c t)) (frame_point (val3 (e_c e)) (val3 (e_maj e)) (val3 (e_min e)) (val3 (e_n e))
    (val (e_a e) * cos theta) (val (e_b e) * sin theta) 0) <= powerRZ 2 (-45) * M.
Proof. exact arc_point_dbl. Qed.
Print Assumptions c108_arc_point.
Example c108_arc_point_case : ellipse_upto 12 (a_ell pd_arc) /\ (number (a_s pd_arc) /\ 0 <= val (a_s pd_arc) <= 7) /\ (number (a_t pd_arc) /\ 0 <= val (a_t pd_arc) <= 7) /\
  arc_angle (val (a_s pd_arc)) (val (a_t pd_arc)) (val 0.5%float) = 3 + PI.
Proof. exact (conj (proj2 pd_upto) (conj (proj1 pd_angles) (conj (proj1 (proj2 pd_angles)) pd_arc_angle))). Qed.

(** A point sampled in a cylinder from three draws: the square of the distance from the axis, the angle and the height. *)
Theorem c108_sampled : forall (T : Trig float) M (e : ell float) rr rphi rh d1 d2 d3, accurate T -> moderate M -> ellipse_upto M e ->
  number d1 -> 0 <= val d1 <= M * M -> number d2 -> Rabs (val d2) <= powerRZ 2 20 -> number d3 -> Rabs (val d3) <= M ->
  let p := ps_point (CylSampler e rr rphi rh) d1 d2 d3 in
  number3 p /\ dist (val3 p) (frame_point (val3 (e_c e)) (val3 (e_maj e)) (val3 (e_min e)) (val3 (e_n e))
    (R_sqrt.sqrt (val d1) * cos (val d2)) (R_sqrt.sqrt (val d1) * sin (val d2)) (val d3)) <= powerRZ 2 (-47) * M.
Proof. exact sampled_dbl. Qed.
Print Assumptions c108_sampled.
(** If the axes of the bottom disk are orthogonal up to 2^-47, it lies in the cylinder up to 2^-44 of the coordinates. *)
Theorem c108_near_cylinder : forall (T : Trig float) M (e : ell float) rr rphi rh d1 d2 d3 a h, accurate T -> moderate M -> ellipse_upto M e ->
  frame (powerRZ 2 (-47)) (e_maj e) (e_min e) (e_n e) -> 0 <= a <= M -> 0 <= h <= M ->
  number d1 -> 0 <= val d1 <= a * a -> number d2 -> Rabs (val d2) <= powerRZ 2 20 -> number d3 -> 0 <= val d3 <= h ->
  near_cylinder (powerRZ 2 (-44) * M) (val3 (e_c e)) (val3 (e_n e)) a h (val3 (ps_point (CylSampler e rr rphi rh) d1 d2 d3)).
Proof. exact near_sampled. Qed.
Print Assumptions c108_near_cylinder.
Example c108_near_cylinder_case : ellipse_upto 12 pd_circle /\ frame (powerRZ 2 (-47)) (e_maj pd_circle) (e_min pd_circle) (e_n pd_circle) /\
  (number 12%float /\ 0 <= val 12%float <= 7 * 7) /\ (number 3%float /\ Rabs (val 3%float) <= powerRZ 2 20) /\ (number 4%float /\ 0 <= val 4%float <= 5).
Proof. exact (conj (proj1 pd_upto) (conj (proj1 pd_frames) pd_draws)). Qed.
