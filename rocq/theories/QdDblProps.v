(** C118: quadrilaterals of the deprecated sampler in double precision. *)

From Coq Require Import ZArith Reals List.
From Coq Require Import Floats.
From Verif Require Import Base NumModel VecModel LinModel RoundModel PolyModel SampModel GeoSpec PolySpec SampSpec DblSpec LinDblSpec LinDblExamples TrigDblSpec TrigDblExamples DkDblExamples
  SdDblSpec SdDblExamples SpDblSpec SpDblExamples QdDblSpec QdDblProofs QdDblSample QdDblExamples.
Import ListNotations.
Local Open Scope R_scope.

(** The corners of the quadrilateral for four lengths are numbers, and the prescribed points of the plane through the centre
    up to 2^-40 of the coordinates and lengths. *)
Theorem c118_corners : forall (T : Trig float) strike dip, accurate T -> usual_angle strike -> usual_angle dip -> forall M c x1 x2 y1 y2, scale M -> point_upto M c ->
  length_upto M x1 -> length_upto M x2 -> length_upto M y1 -> length_upto M y2 -> let q := strike_dip_quad strike dip c x1 x2 y1 y2 in
  (number3 (q_0 q) /\ number3 (q_1 q) /\ number3 (q_2 q) /\ number3 (q_3 q)) /\
  corners_near (powerRZ 2 (-40) * M) (val strike) (val dip) (val3 c) (val x1) (val x2) (val y1) (val y2) q.
Proof. exact quad_corners. Qed.
Print Assumptions c118_corners.
Example c118_corners_case : accurate rounded_trig /\ usual_angle 1%float /\ usual_angle 3%float /\ scale 60 /\ point_upto 60 pt1 /\ length_upto 60 7%float /\ length_upto 60 12%float.
Proof. exact (conj rounded_accurate (conj (proj1 sd_angles) (conj (proj1 (proj2 sd_angles)) (conj sp_scale (conj qd_centre (conj (proj1 qd_lengths 0%nat) (proj1 qd_lengths 1%nat))))))). Qed.

(** A sampled quadrilateral has the lengths drawn: the third length is that of the edge between the first and the third corner,
    the fourth one that of the edge between the other two, up to 2^-39 of the coordinates. *)
Theorem c118_edges : forall (T : Trig float) strike dip M c edge min q, accurate T -> usual_angle strike -> usual_angle dip -> scale M -> point_upto M c ->
  (forall i, length_upto M (edge i)) -> number min -> sample_old_quad strike dip c edge min = Ok q ->
  corners_near (powerRZ 2 (-40) * M) (val strike) (val dip) (val3 c) (val (edge 0%nat)) (val (edge 1%nat)) (val (edge 2%nat)) (val (edge 3%nat)) q /\
  Rabs (dist (val3 (q_0 q)) (val3 (q_2 q)) - Rabs (val (edge 2%nat))) <= 2 * (powerRZ 2 (-40) * M) /\
  Rabs (dist (val3 (q_1 q)) (val3 (q_3 q)) - Rabs (val (edge 3%nat))) <= 2 * (powerRZ 2 (-40) * M).
Proof. exact (fun T strike dip M c edge min q HT Hs Hd HM Hc He Nm E => let N := old_near T strike dip M c edge min q HT Hs Hd HM Hc He Nm E in conj N (quad_sides _ _ _ _ _ _ _ _ _ N)). Qed.
Print Assumptions c118_edges.
Example c118_edges_case : (forall i, length_upto 60 (qd_good i)) /\ number 3%float /\
  sample_old_quad (H0 := rounded_trig) 1%float 3%float pt1 qd_good 3%float = Ok (strike_dip_quad (H0 := rounded_trig) 1%float 3%float pt1 7%float 12%float 7%float 12%float).
Proof. exact (conj (proj1 qd_lengths) (conj (proj1 v3) (qd_sampled rounded_trig))). Qed.

(** Its corners lie in the plane with the strike and the dip drawn, up to 2^-40 of the coordinates. *)
Theorem c118_plane : forall (T : Trig float) strike dip M c edge min q, accurate T -> usual_angle strike -> usual_angle dip -> scale M -> point_upto M c ->
  (forall i, length_upto M (edge i)) -> number min -> sample_old_quad strike dip c edge min = Ok q ->
  forall p, In p [q_0 q; q_1 q; q_2 q; q_3 q] -> Rabs (dot (plane_normal (val strike) (val dip)) (psub (val3 p) (val3 c))) <= powerRZ 2 (-40) * M.
Proof. exact (fun T strike dip M c edge min q HT Hs Hd HM Hc He Nm E => quad_plane _ _ _ _ _ _ _ _ _ (old_near T strike dip M c edge min q HT Hs Hd HM Hc He Nm E)). Qed.
Print Assumptions c118_plane.
Example c118_plane_case : exists q, sample_old_quad (H0 := rounded_trig) 1%float 3%float pt1 qd_good 3%float = Ok q /\ In (q_3 q) [q_0 q; q_1 q; q_2 q; q_3 q].
Proof. exact (ex_intro _ _ (conj (qd_sampled rounded_trig) (or_intror (or_intror (or_intror (or_introl eq_refl)))))). Qed.

(** If none of the four lengths drawn is below the minimum, they are used as they are. *)
Theorem c118_returns : forall (T : Trig float) strike dip c edge min, (forall i, number (edge i)) -> number min -> (forall i, (i < 4)%nat -> val min <= val (edge i)) ->
  sample_old_quad strike dip c edge min = Ok (strike_dip_quad strike dip c (edge 0%nat) (edge 1%nat) (edge 2%nat) (edge 3%nat)).
Proof. exact (fun T strike dip c edge min Ne Nm => proj2 (old_quad_dbl strike dip c edge min Ne Nm)). Qed.
Print Assumptions c118_returns.
Example c118_returns_case : forall i, (i < 4)%nat -> val 3%float <= val (qd_good i).
Proof. exact (fun i _ => qd_enough i). Qed.

(** Otherwise the sampler of the C++ library never returns. *)
Theorem c118_hangs_refuted : forall (T : Trig float) strike dip c edge min, (forall i, number (edge i)) -> number min -> (exists i, (i < 4)%nat /\ val (edge i) < val min) ->
  sample_old_quad strike dip c edge min = Diverge.
Proof. exact (fun T strike dip c edge min Ne Nm => proj1 (old_quad_dbl strike dip c edge min Ne Nm)). Qed.
Print Assumptions c118_hangs_refuted.
Example c118_hangs_case : exists i, (i < 4)%nat /\ val (qd_bad i) < val 3%float.
Proof. exact (ex_intro _ 0%nat (conj (le_S _ _ (le_S _ _ (le_S _ _ (le_n _)))) qd_short)). Qed.

(** That of the Python module returns quadrilaterals of lengths that are not below the minimum. *)
Theorem c118_python : forall (T : Trig float) strike dip c edge min, (forall i, number (edge i)) -> number min -> forall fuel q, py_old_quad strike dip c edge min fuel = Ok q ->
  exists k1 k2 k3 k4, Forall (fun k => val min <= val (edge k)) [k1; k2; k3; k4] /\ q = strike_dip_quad strike dip c (edge k1) (edge k2) (edge k3) (edge k4).
Proof. exact @py_quad_dbl. Qed.
Print Assumptions c118_python.
Example c118_python_case : (forall i, length_upto 60 (qd_bad i)) /\
  py_old_quad (H0 := rounded_trig) 1%float 3%float pt1 qd_bad 3%float 5 = Ok (strike_dip_quad (H0 := rounded_trig) 1%float 3%float pt1 12%float 12%float 12%float 12%float).
Proof. exact (conj (proj2 qd_lengths) (qd_python rounded_trig)). Qed.

(** The lengths may be lost altogether: 2^57 away from the origin, all four corners of a sampled quadrilateral with lengths of
    one are the centre. *)
Theorem c118_far_refuted : forall T : Trig float, ncos 0%float = 1%float -> nsin 0%float = 0%float ->
  val3 qd_far = mkV3 144115188075855872 144115188075855872 144115188075855872 /\
  exists q, sample_old_quad 0%float 0%float qd_far (fun _ => 1%float) 1%float = Ok q /\ q_0 q = qd_far /\ q_1 q = qd_far /\ q_2 q = qd_far /\ q_3 q = qd_far.
Proof. exact (fun T C S => conj (proj2 qd_far_val) (ex_intro _ _ (conj eq_refl (qd_flat T C S _ eq_refl)))). Qed.
Print Assumptions c118_far_refuted.
Example c118_far_case : accurate rounded_trig /\ @ncos _ rounded_trig 0%float = 1%float /\ @nsin _ rounded_trig 0%float = 0%float.
Proof. exact (conj rounded_accurate rounded_zero). Qed.
