(** C110: disks, ellipses and circles contain points in double precision. *)

From Coq Require Import ZArith Reals.
From Coq Require Import Floats.
From Verif Require Import Base NumModel VecModel LinModel RoundModel GeoSpec LinSpec RoundSpec DblSpec LinDblSpec LinDblExamples RndDblSpec TrigDblSpec TrigDblExamples PtDblSpec PtDblExamples
  DkDblSpec DkDblProofs DkDblTrip DkDblExamples.
Local Open Scope R_scope.

(** What the factor means: for axes that are exactly orthogonal, and points of the plane, the disk scaled by j contains
    the point if and only if the factor is j at most. *)
Theorem c110_factor : forall (e : ell R) p k j, ell_ok e -> 0 < j -> on_plane (e_c e) (e_n e) p -> factor (e_c e) (e_maj e) (e_min e) (e_a e) (e_b e) p k ->
  in_disk j e p <-> k <= j.
Proof. exact factor_disk. Qed.
Print Assumptions c110_factor.
Example c110_factor_case : ell_ok exact_disk /\ on_plane (e_c exact_disk) (e_n exact_disk) (mkV3 4 4 3) /\
  factor (e_c exact_disk) (e_maj exact_disk) (e_min exact_disk) (e_a exact_disk) (e_b exact_disk) (mkV3 4 4 3) (5 / 4).
Proof. exact exact_case. Qed.

(** A disk contains a point if its distance D to the plane is below the tolerance t and its factor k is at most
    sqrt(1 + t^2), unless they differ by less than 2^-47 of the coordinates. *)
Theorem c110_disk : forall (d : ell float) p t M m D k, moderate M -> ellipse_upto M d -> point_upto M p -> axes_from m M d -> tolerance t ->
  dist_to (in_plane d) (val3 p) D -> ell_factor d p k ->
  let lo := 1 - powerRZ 2 (-50) in let hi := 1 + powerRZ 2 (-50) in let rho := powerRZ 2 (-47) * M in let w := widened 1 (val t) in
  (k + rho / m <= lo * w -> disk_contains d p t false = true) /\
  (hi * w + rho / m <= k -> disk_contains d p t false = false) /\
  (D + rho < val t -> k + rho / m <= lo * w -> disk_contains d p t true = true) /\
  (val t + rho <= D \/ hi * w + rho / m <= k -> disk_contains d p t true = false).
Proof. exact disk_contains_dbl. Qed.
Print Assumptions c110_disk.
Example c110_disk_case : moderate 12 /\ ellipse_upto 12 dk /\ axes_from 3 12 dk /\ tolerance 0x1p-10%float /\
  (point_upto 12 dk_in /\ dist_to (in_plane dk) (val3 dk_in) 0 /\ ell_factor dk dk_in (3 / 7) /\ disk_contains dk dk_in 0x1p-10%float true = true) /\
  (point_upto 12 dk_out /\ dist_to (in_plane dk) (val3 dk_out) 0 /\ ell_factor dk dk_out 4 /\ disk_contains dk dk_out 0x1p-10%float true = false) /\
  (point_upto 12 pt1 /\ dist_to (in_plane dk) (val3 pt1) 4 /\ ell_factor dk pt1 1 /\ disk_contains dk pt1 0x1p-10%float true = false).
Proof.
  destruct dk_points as (P1 & _ & _ & P4 & P5). destruct dk_dists as (D1 & _ & D3 & D4 & _). destruct dk_factors as (F1 & _ & F3 & F4). destruct dk_answers as ((A1 & A2 & A3 & _) & _).
  exact (conj moderate_12 (conj (proj1 dk_upto) (conj (proj1 dk_axes) (conj tol_milli (conj (conj P1 (conj D1 (conj F1 A1))) (conj (conj P4 (conj D3 (conj F3 A2))) (conj P5 (conj D4 (conj F4 A3))))))))).
Qed.
Example c110_disk_bounds : let t := 0x1p-10%float in let lo := 1 - powerRZ 2 (-50) in let hi := 1 + powerRZ 2 (-50) in let rho := powerRZ 2 (-47) * 12 in let w := widened 1 (val t) in
  (0 + rho < val t /\ 3 / 7 + rho / 3 <= lo * w) /\ hi * w + rho / 3 <= 4 /\ val t + rho <= 4.
Proof. exact disk_case. Qed.

(** An ellipse contains a point if its distance to the plane is below the tolerance and the square of its factor differs
    from 1 by less than the tolerance. *)
Theorem c110_ellipse : forall (e : ell float) p t M m D k, moderate M -> ellipse_upto M e -> point_upto M p -> axes_from m M e -> tolerance t ->
  dist_to (in_plane e) (val3 p) D -> ell_factor e p k ->
  let rho := powerRZ 2 (-47) * M in let s := powerRZ 2 (-46) * M / m * ((1 + k) * (1 + k)) in
  (Rabs (k * k - 1) + s < val t -> ell_contains e p t false = true) /\
  (val t + s <= Rabs (k * k - 1) -> ell_contains e p t false = false) /\
  (D + rho < val t -> Rabs (k * k - 1) + s < val t -> ell_contains e p t true = true) /\
  (val t + rho <= D \/ val t + s <= Rabs (k * k - 1) -> ell_contains e p t true = false).
Proof. exact ellipse_contains_dbl. Qed.
Print Assumptions c110_ellipse.
Example c110_ellipse_case : (dist_to (in_plane dk) (val3 dk_rim) 0 /\ ell_factor dk dk_rim 1 /\ ell_contains dk dk_rim 0x1p-10%float true = true) /\
  (ell_factor dk dk_out 4 /\ ell_contains dk dk_out 0x1p-10%float true = false) /\
  let t := 0x1p-10%float in let s := fun k => powerRZ 2 (-46) * 12 / 3 * ((1 + k) * (1 + k)) in (Rabs (1 * 1 - 1) + s 1 < val t) /\ val t + s 4 <= Rabs (4 * 4 - 1).
Proof.
  destruct dk_dists as (_ & D2 & _). destruct dk_factors as (_ & F2 & F3 & _). destruct dk_answers as (_ & (A1 & A2) & _).
  exact (conj (conj D2 (conj F2 A1)) (conj (conj F3 A2) ellipse_case)).
Qed.

(** A circle contains a point if its distance to the plane and the difference of its distance to the centre and the
    radius are below the tolerance. *)
Theorem c110_circle : forall (c : ell float) p t M D, moderate M -> ellipse_upto M c -> point_upto M p -> tolerance t ->
  dist_to (in_plane c) (val3 p) D -> let rho := powerRZ 2 (-47) * M in let G := Rabs (dist (val3 p) (val3 (e_c c)) - val (e_a c)) in
  (D + rho < val t -> G + rho < val t -> circle_contains c p t = true) /\
  (val t + rho <= D \/ val t + rho <= G -> circle_contains c p t = false).
Proof. exact circle_contains_dbl. Qed.
Print Assumptions c110_circle.
Example c110_circle_case : ellipse_upto 12 dk_circle /\ (point_upto 12 dk_top /\ dist_to (in_plane dk_circle) (val3 dk_top) 0 /\ circle_contains dk_circle dk_top 0x1p-10%float = true) /\
  (point_upto 12 dk_out /\ dist_to (in_plane dk_circle) (val3 dk_out) 0 /\ circle_contains dk_circle dk_out 0x1p-10%float = false) /\
  let t := 0x1p-10%float in let rho := powerRZ 2 (-47) * 12 in let G := fun p => Rabs (dist (val3 p) (val3 (e_c dk_circle)) - val (e_a dk_circle)) in
  G dk_top + rho < val t /\ val t + rho <= G dk_out.
Proof.
  destruct dk_points as (_ & _ & P3 & P4 & _). destruct dk_dists as (_ & _ & _ & _ & D5 & D6). destruct dk_answers as (_ & _ & A1 & A2).
  exact (conj (proj2 dk_upto) (conj (conj P3 (conj D5 A1)) (conj (conj P4 (conj D6 A2)) circle_case))).
Qed.

(** Ellipses, circles and disks contain the points they return, if the tolerance is above 2^-42 of the coordinates and
    of their ratio to the half axes; for disks, the square of the tolerance has to be. *)
Theorem c110_ellipse_point : forall (T : Trig float) (e : ell float) x t M m chk, accurate T -> moderate M -> ellipse_upto M e -> frame (powerRZ 2 (-47)) (e_maj e) (e_min e) (e_n e) -> axes_from m M e ->
  number x -> 0 <= val x <= 1 -> within3 M (ell_point e x) -> tolerance t -> powerRZ 2 (-42) * M <= val t -> powerRZ 2 (-42) * M / m <= val t ->
  ell_contains e (ell_point e x) t chk = true.
Proof. exact ellipse_trip. Qed.
Print Assumptions c110_ellipse_point.
Theorem c110_circle_point : forall (T : Trig float) (e : ell float) x t M, accurate T -> moderate M -> ellipse_upto M e -> frame (powerRZ 2 (-47)) (e_maj e) (e_min e) (e_n e) ->
  powerRZ 2 (-40) * M <= val (e_a e) -> val (e_b e) = val (e_a e) ->
  number x -> 0 <= val x <= 1 -> within3 M (ell_point e x) -> tolerance t -> powerRZ 2 (-42) * M <= val t -> circle_contains e (ell_point e x) t = true.
Proof. exact circle_trip. Qed.
Print Assumptions c110_circle_point.
Theorem c110_rim_partial : forall (T : Trig float) (e : ell float) x t M m chk, accurate T -> moderate M -> ellipse_upto M e -> frame (powerRZ 2 (-47)) (e_maj e) (e_min e) (e_n e) -> axes_from m M e ->
  number x -> 0 <= val x <= 1 -> within3 M (ell_point e x) -> tolerance t -> powerRZ 2 (-42) * M <= val t -> powerRZ 2 (-42) * M / m <= val t * val t ->
  disk_contains e (ell_point (disk_ellipse e) x) t chk = true.
Proof. exact disk_trip. Qed.
Print Assumptions c110_rim_partial.
Example c110_points_case : accurate rounded_trig /\ (frame (powerRZ 2 (-47)) (e_maj dk) (e_min dk) (e_n dk) /\ frame (powerRZ 2 (-47)) (e_maj dk_circle) (e_min dk_circle) (e_n dk_circle)) /\ tolerance 0x1p-10%float /\
  forall T : Trig float, accurate T -> moderate 48 /\ (ellipse_upto 48 dk /\ ellipse_upto 48 dk_circle) /\ axes_from 3 48 dk /\ powerRZ 2 (-40) * 48 <= val (e_a dk_circle) /\
  (forall x, number x -> 0 <= val x <= 1 -> within3 48 (ell_point dk x) /\ within3 48 (ell_point dk_circle x)) /\
  powerRZ 2 (-42) * 48 <= val 0x1p-10%float /\ powerRZ 2 (-42) * 48 / 3 <= val 0x1p-10%float /\ powerRZ 2 (-42) * 48 / 3 <= val 0x1p-10%float * val 0x1p-10%float.
Proof. exact (conj rounded_accurate (conj dk_frames (conj tol_milli dk_trip))). Qed.

(** With the default tolerance, 1e-7, a disk with the radius 0.7 at the distance 1000 from the origin does not contain the
    point of its rim at the angle zero, while its boundary ellipse does. *)
Theorem c110_rim_refuted : forall T : Trig float, ncos 0%float = 1%float -> nsin 0%float = 0%float ->
  exists (d : ell float),
    (val3 (e_c d) = mkV3 1000 0 0 /\ val3 (e_maj d) = mkV3 1 0 0 /\ val3 (e_min d) = mkV3 0 1 0 /\ val3 (e_n d) = mkV3 0 0 1 /\ e_b d = e_a d /\ Rabs (val (e_a d) - 7 / 10) <= powerRZ 2 (-53)) /\
    disk_contains_default d (ell_angle_point (disk_ellipse d) 0%float) true = false /\
    disk_contains_default d (ell_angle_point (disk_ellipse d) 0%float) false = false /\
    ell_contains_default (disk_ellipse d) (ell_angle_point (disk_ellipse d) 0%float) true = true.
Proof. exact (fun T C S => ex_intro _ far_disk (conj far_frame (far_rim T C S))). Qed.
Print Assumptions c110_rim_refuted.
Example c110_rim_case : accurate rounded_trig /\ @ncos _ rounded_trig 0%float = 1%float /\ @nsin _ rounded_trig 0%float = 0%float.
Proof. exact (conj rounded_accurate rounded_zero). Qed.
