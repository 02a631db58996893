(** C112: angles of points of ellipses, parameters, and arcs in double precision. *)

From Coq Require Import ZArith Reals.
From Coq Require Import Floats.
From Verif Require Import Base NumModel VecModel LinModel RoundModel GeoSpec LinSpec RoundSpec DblSpec LinDblSpec LinDblExamples RndDblSpec TrigDblSpec TrigDblExamples PtDblSpec PtDblExamples
  DkDblSpec DkDblExamples AgDblSpec AgDblPoint AgDblArc AgDblExamples.
Local Open Scope R_scope.

(** Away from the axes, the angle of a point at the distance d at most from the point with the angle phi is phi, up to
    3 d / m and the rounding, where m is the smaller half axis at most. *)
Theorem c112_angle : forall (T : Trig float) (e : ell float) p phi d m M, accurate T -> accurate_atan T -> moderate M -> round_ellipse m M e -> point_upto M p ->
  dist (val3 p) (true_point e phi) <= d -> d <= powerRZ 2 (-26) * m -> 0 <= phi < 2 * PI -> off (powerRZ 2 (-22)) phi ->
  number (ell_angle e p) /\ Rabs (val (ell_angle e p) - phi) <= 3 * (d / m) + powerRZ 2 (-45) * M / m.
Proof. exact angle_dbl. Qed.
Print Assumptions c112_angle.

(** Close to the axes, the angle is replaced by the multiple of the right angle. *)
Theorem c112_axes : forall (T : Trig float) (e : ell float) p phi m M, accurate T -> accurate_atan T -> moderate M -> round_ellipse m M e -> point_upto M p ->
  dist (val3 p) (true_point e phi) <= powerRZ 2 (-26) * m ->
  (Rabs (sin phi) <= powerRZ 2 (-24) -> 0 < cos phi -> ell_angle e p = 0%float) /\
  (Rabs (cos phi) <= powerRZ 2 (-24) -> 0 < sin phi -> ell_angle e p = (npi / 2)%float) /\
  (Rabs (sin phi) <= powerRZ 2 (-24) -> cos phi < 0 -> ell_angle e p = npi) /\
  (Rabs (cos phi) <= powerRZ 2 (-24) -> sin phi < 0 -> ell_angle e p = (3 * npi / 2)%float).
Proof. exact axes_dbl. Qed.
Print Assumptions c112_axes.

(** In all cases the angle is correct up to 2^-22 and multiples of the full angle. *)
Theorem c112_any : forall (T : Trig float) (e : ell float) p phi m M, accurate T -> accurate_atan T -> moderate M -> round_ellipse m M e -> point_upto M p ->
  dist (val3 p) (true_point e phi) <= powerRZ 2 (-26) * m ->
  number (ell_angle e p) /\ exists psi, same_angle psi phi /\ Rabs (val (ell_angle e p) - psi) <= powerRZ 2 (-22).
Proof. exact any_dbl. Qed.
Print Assumptions c112_any.

(** The point with the angle of a point is this point, up to 2^-20 of the coordinates; away from the axes up to the
    rounding, and the distance of the point to the ellipse, times M / m. *)
Theorem c112_back : forall (T : Trig float) (e : ell float) p phi d m M, accurate T -> accurate_atan T -> moderate M -> round_ellipse m M e -> point_upto M p ->
  dist (val3 p) (true_point e phi) <= d -> d <= powerRZ 2 (-26) * m ->
  dist (val3 (ell_angle_point e (ell_angle e p))) (true_point e phi) <= powerRZ 2 (-20) * M /\
  (off (powerRZ 2 (-22)) phi -> dist (val3 (ell_angle_point e (ell_angle e p))) (true_point e phi) <= (7 * d + powerRZ 2 (-43) * M) * (M / m)).
Proof. exact back_dbl. Qed.
Print Assumptions c112_back.
Example c112_angle_case : (accurate rounded_trig /\ accurate_atan rounded_trig /\ moderate 48 /\ round_ellipse 5 48 ag) /\ (point_upto 48 ag_p /\ point_upto 48 ag_q /\ point_upto 48 ag_top) /\
  exists phi psi, ((0 <= phi < 2 * PI /\ cos phi = 3 / 5 /\ sin phi = 4 / 5) /\ (0 <= psi < 2 * PI /\ cos psi = - (3 / 5) /\ sin psi = 4 / 5)) /\
  dist (val3 ag_p) (true_point ag phi) = 0 /\ dist (val3 ag_q) (true_point ag psi) = 0 /\ dist (val3 ag_top) (true_point ag 0) = 0 /\ off (powerRZ 2 (-22)) phi /\ off (powerRZ 2 (-22)) psi /\
  phi <= 96 / 100 /\ 158 / 100 <= psi <= 4.
Proof. exact (conj (conj rounded_accurate (conj rounded_atan (conj moderate_48 ag_round))) (conj ag_points ag_angles)). Qed.

(** The ellipse contains the points close to it, and returns their angles instead of an error. *)
Theorem c112_contains : forall (e : ell float) p t d phi m M chk, moderate M -> round_ellipse m M e -> point_upto M p -> tolerance t -> dist (val3 p) (true_point e phi) <= d -> d <= powerRZ 2 (-26) * m ->
  2 * d + powerRZ 2 (-45) * M <= val t -> 4 * (d / m) + powerRZ 2 (-43) * M / m <= val t -> ell_contains e p t chk = true.
Proof. exact near_contains. Qed.
Print Assumptions c112_contains.
Theorem c112_get_angle : forall (T : Trig float) (e : ell float) p d phi m M chk, moderate M -> round_ellipse m M e -> point_upto M p -> dist (val3 p) (true_point e phi) <= d -> d <= powerRZ 2 (-26) * m ->
  (chk = true -> 2 * d + powerRZ 2 (-45) * M <= powerRZ 2 (-24) /\ 4 * (d / m) + powerRZ 2 (-43) * M / m <= powerRZ 2 (-24)) -> ell_get_angle e p chk = Ok (ell_angle e p).
Proof. exact (@get_angle_dbl). Qed.
Print Assumptions c112_get_angle.

(** An arc contains a point of its ellipse if its angle is between the angles of its ends, unless the angle differs from
    them by the tolerance up to rho. *)
Theorem c112_arc : forall (T : Trig float) (c : arc float) p eps d phi m M chk, accurate T -> accurate_atan T -> moderate M -> round_ellipse m M (a_ell c) -> point_upto M p ->
  (number (a_s c) /\ 0 <= val (a_s c) <= 7) -> (number (a_t c) /\ 0 <= val (a_t c) <= 7) -> tolerance eps -> val eps <= 1 ->
  dist (val3 p) (true_point (a_ell c) phi) <= d -> d <= powerRZ 2 (-26) * m -> 0 <= phi < 2 * PI -> off (powerRZ 2 (-22)) phi ->
  (chk = true -> (2 * d + powerRZ 2 (-45) * M <= powerRZ 2 (-24) /\ 4 * (d / m) + powerRZ 2 (-43) * M / m <= powerRZ 2 (-24)) /\
                 (2 * d + powerRZ 2 (-45) * M <= val eps /\ 4 * (d / m) + powerRZ 2 (-43) * M / m <= val eps)) ->
  let rho := 3 * (d / m) + powerRZ 2 (-44) * M / m in
  (between (val eps - rho) (val (a_s c)) (val (a_t c)) phi -> arc_contains c p eps chk = Ok true) /\
  (~ between (val eps + rho) (val (a_s c)) (val (a_t c)) phi -> arc_contains c p eps chk = Ok false).
Proof. exact arc_dbl. Qed.
Print Assumptions c112_arc.
Example c112_arc_case : (tolerance 0x1p-10%float /\ val 0x1p-10%float <= 1) /\ (let t := powerRZ 2 (-24) in let s := val 0x1p-10%float in
    (2 * 0 + powerRZ 2 (-45) * 48 <= t /\ 4 * (0 / 5) + powerRZ 2 (-43) * 48 / 5 <= t) /\ (2 * 0 + powerRZ 2 (-45) * 48 <= s /\ 4 * (0 / 5) + powerRZ 2 (-43) * 48 / 5 <= s)) /\
  forall phi psi, phi <= 96 / 100 -> 158 / 100 <= psi <= 4 -> let rho := 3 * (0 / 5) + powerRZ 2 (-44) * 48 / 5 in
  between (val 0x1p-10%float - rho) (val (a_s ag_arc)) (val (a_t ag_arc)) phi /\ ~ between (val 0x1p-10%float + rho) (val (a_s ag_arc)) (val (a_t ag_arc)) psi.
Proof. exact (conj (conj tol_milli (proj1 ag_tol)) (conj ag_bounds ag_between)). Qed.

(** An arc contains the points it returns, if their angles are not close to a multiple of the right angle.
    Missing: the points close to the axes of the ellipse. *)
Theorem c112_arc_points_partial : forall (T : Trig float) (c : arc float) x eps m M chk, accurate T -> accurate_atan T -> moderate M -> round_ellipse m M (a_ell c) ->
  (number (a_s c) /\ 0 <= val (a_s c) <= 2 * PI) -> (number (a_t c) /\ 0 <= val (a_t c) <= 2 * PI) -> val (a_s c) <> val (a_t c) -> number x -> 0 <= val x <= 1 -> within3 M (arc_point c x) ->
  off (powerRZ 2 (-22)) (arc_angle (val (a_s c)) (val (a_t c)) (val x)) ->
  tolerance eps -> powerRZ 2 (-42) * M <= val eps -> powerRZ 2 (-42) * M / m <= val eps -> val eps <= 1 ->
  (chk = true -> powerRZ 2 (-42) * M <= powerRZ 2 (-24) /\ powerRZ 2 (-42) * M / m <= powerRZ 2 (-24)) ->
  arc_contains c (arc_point c x) eps chk = Ok true.
Proof. exact arc_point_trip. Qed.
Print Assumptions c112_arc_points_partial.
Example c112_arc_points_case : ((number (a_s ag_arc) /\ 0 <= val (a_s ag_arc) <= 2 * PI) /\ (number (a_t ag_arc) /\ 0 <= val (a_t ag_arc) <= 2 * PI) /\ val (a_s ag_arc) <> val (a_t ag_arc) /\
    arc_angle (val (a_s ag_arc)) (val (a_t ag_arc)) (val 0.5%float) = 3 + PI /\ off (powerRZ 2 (-22)) (3 + PI)) /\
  (powerRZ 2 (-42) * 48 <= val 0x1p-10%float /\ powerRZ 2 (-42) * 48 / 5 <= val 0x1p-10%float /\ powerRZ 2 (-42) * 48 <= powerRZ 2 (-24) /\ powerRZ 2 (-42) * 48 / 5 <= powerRZ 2 (-24)) /\
  forall T : Trig float, accurate T -> forall x, number x -> 0 <= val x <= 1 -> within3 48 (arc_point ag_arc x) /\ within3 48 (ell_point ag x).
Proof. exact (conj ag_arc_angles (conj (proj2 (proj2 ag_tol)) ag_within)). Qed.

(** The point of an ellipse with the parameter x has the angle 2 pi x and the parameter x. *)
Theorem c112_param : forall (T : Trig float) (e : ell float) x m M chk, accurate T -> accurate_atan T -> moderate M -> round_ellipse m M e -> number x -> 0 <= val x <= 1 -> within3 M (ell_point e x) ->
  off (powerRZ 2 (-22)) (2 * PI * val x) -> (chk = true -> powerRZ 2 (-42) * M <= powerRZ 2 (-24) /\ powerRZ 2 (-42) * M / m <= powerRZ 2 (-24)) ->
  exists theta y, ell_get_angle e (ell_point e x) chk = Ok theta /\ number theta /\ Rabs (val theta - 2 * PI * val x) <= powerRZ 2 (-43) * M / m /\
  ell_get_param e (ell_point e x) chk = Ok y /\ number y /\ Rabs (val y - val x) <= powerRZ 2 (-44) * M / m.
Proof. exact param_trip. Qed.
Print Assumptions c112_param.
Example c112_param_case : (number 0x1p-3%float /\ 0 <= val 0x1p-3%float <= 1) /\ off (powerRZ 2 (-22)) (2 * PI * val 0x1p-3%float).
Proof. exact ag_eighth. Qed.

(** An arc of a unit circle does not contain its own first point, with the default tolerance: the point is replaced by
    one that is at the angle 1e-7 up to the rounding, and smaller angles are replaced by zero.
    The functions of the C library return the values that are assumed. *)
Theorem c112_source_refuted : forall T : Trig float, library_values T -> exists (p q : V3 float) (c : arc float),
  make_arc (make_ell pt0 (to_dir (mkV3 3 4 0)%float) (to_dir (mkV3 (-4) 3 0)%float) 1%float 1%float) p q = Ok c /\
  arc_contains_default c (arc_point c 0%float) true = Ok false /\ arc_contains_default c (arc_point c 0%float) false = Ok false /\
  arc_contains_default c p true = Ok true /\ ell_contains (a_ell c) (arc_point c 0%float) angular true = true.
Proof. exact (fun T L => ex_intro _ uc_s (ex_intro _ uc_t (ex_intro _ _ (conj (uc_made T L) (uc_first T L))))). Qed.
Print Assumptions c112_source_refuted.
Example c112_source_case : accurate library_trig /\ accurate_atan library_trig /\ library_values library_trig.
Proof. exact library_ok. Qed.
