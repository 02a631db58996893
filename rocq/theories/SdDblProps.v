(** C114: rotations and sampled disks in double precision. *)

From Coq Require Import ZArith Reals List.
From Coq Require Import Floats.
From Verif Require Import Base NumModel VecModel LinModel RoundModel SampModel GeoSpec SampSpec DblSpec LinDblSpec LinDblExamples RndDblSpec TrigDblSpec TrigDblExamples PtDblSpec
  SdDblSpec SdDblProofs SdDblDisk SdDblFrame SdDblExamples.
Import ListNotations.
Local Open Scope R_scope.

(** A vector turned about an axis is the exactly turned vector, up to 2^-44 of its coordinates; the axis is a
    direction as the library makes it, at most 2^-50 from the exact unit vector u. *)
Theorem c114_rotate : forall (T : Trig float) d t u, accurate T -> direction d -> usual_angle t -> unit3 u -> norm (psub (val3 d) u) <= powerRZ 2 (-50) ->
  forall v M, moderate M -> point_upto M v ->
  number3 (rotate v d t) /\ dist (val3 (rotate v d t)) (turn u (val t) (val3 v)) <= powerRZ 2 (-44) * M.
Proof. exact rotate_dbl. Qed.
Print Assumptions c114_rotate.
(** Its length is kept, up to the same bound. *)
Theorem c114_length : forall (T : Trig float) d t u, accurate T -> direction d -> usual_angle t -> unit3 u -> norm (psub (val3 d) u) <= powerRZ 2 (-50) ->
  forall v M, moderate M -> point_upto M v ->
  Rabs (norm (val3 (rotate v d t)) - norm (val3 v)) <= powerRZ 2 (-44) * M.
Proof. exact rotate_length. Qed.
Print Assumptions c114_length.
Example c114_rotate_case : accurate rounded_trig /\ direction sd_axis /\ usual_angle 3%float /\ unit3 sd_unit /\ norm (psub (val3 sd_axis) sd_unit) <= powerRZ 2 (-50) /\
  moderate 12 /\ point_upto 12 pt1.
Proof.
  exact (conj rounded_accurate (conj made_dir (conj (proj1 (proj2 sd_angles)) (conj (proj1 sd_unit_is) (conj (proj2 sd_unit_is) (conj moderate_12 sd_centre)))))).
Qed.

(** The axes of a sampled disk are those of the exact rotations about the coordinate axes, up to 2^-46, and its normal is
    their vector product, up to 2^-45; the three are of length 1 up to 2^-50, and orthogonal up to 2^-47. *)
Theorem c114_disk_axes : forall (T : Trig float), accurate T -> forall al be ga, usual_angle al -> usual_angle be -> usual_angle ga ->
  forall maj mnr ctr fuel e, (forall i, number (maj i)) -> (forall i, number (mnr i)) -> sample_disk maj mnr al be ga ctr fuel = Ok e ->
  frame (powerRZ 2 (-47)) (e_maj e) (e_min e) (e_n e) /\
  dist (val3 (e_maj e)) (disk_major (val be) (val ga)) <= powerRZ 2 (-46) /\
  dist (val3 (e_min e)) (disk_minor (val al) (val be) (val ga)) <= powerRZ 2 (-46) /\
  dist (val3 (e_n e)) (cross (disk_major (val be) (val ga)) (disk_minor (val al) (val be) (val ga))) <= powerRZ 2 (-45).
Proof. exact disk_frame. Qed.
Print Assumptions c114_disk_axes.
(** The half axes are the first positive values drawn, the second one cut off at the first one; the centre is the one drawn. *)
Theorem c114_disk_lengths : forall (T : Trig float) al be ga maj mnr ctr fuel e, (forall i, number (maj i)) -> (forall i, number (mnr i)) ->
  sample_disk maj mnr al be ga ctr fuel = Ok e ->
  exists b, first_positive maj (e_a e) /\ first_positive mnr b /\ val (e_b e) = Rmin (val (e_a e)) (val b) /\ 0 < val (e_b e) <= val (e_a e) /\ e_c e = ctr.
Proof. exact disk_lengths. Qed.
Print Assumptions c114_disk_lengths.
(** Every sampled disk meets the hypotheses under which C108, C110 and C112 state what points, distances and angles are. *)
Theorem c114_disk_upto : forall (T : Trig float), accurate T -> forall al be ga, usual_angle al -> usual_angle be -> usual_angle ga ->
  forall maj mnr ctr fuel e, (forall i, number (maj i)) -> (forall i, number (mnr i)) -> sample_disk maj mnr al be ga ctr fuel = Ok e ->
  forall M, point_upto M ctr -> (forall i, val (maj i) <= M) ->
  ellipse_upto M e.
Proof. exact disk_upto. Qed.
Print Assumptions c114_disk_upto.
(** The assertion of the constructor that the axes are orthogonal cannot fail for a sampled disk. *)
Theorem c114_disk_assertion : forall (T : Trig float), accurate T -> forall al be ga, usual_angle al -> usual_angle be -> usual_angle ga ->
  forall maj mnr ctr fuel e, (forall i, number (maj i)) -> (forall i, number (mnr i)) -> sample_disk maj mnr al be ga ctr fuel = Ok e ->
  Rabs (dot (val3 (e_min e)) (val3 (e_maj e))) < / 10000000.
Proof. exact disk_assertion. Qed.
Print Assumptions c114_disk_assertion.
Example c114_disk_case : accurate rounded_trig /\ usual_angle 1%float /\ usual_angle 3%float /\ usual_angle 4%float /\
  (forall i, number (sd_maj i)) /\ (forall i, number (sd_min i)) /\
  (exists e, sample_disk (H := F_num) (H0 := rounded_trig) sd_maj sd_min 1%float 3%float 4%float pt1 5 = Ok e /\ e_a e = 7%float /\ e_b e = 7%float) /\
  point_upto 12 pt1 /\ (forall i, val (sd_maj i) <= 12).
Proof.
  destruct sd_angles as (A & B & C), sd_numbers as (D & E & F & _).
  exact (conj rounded_accurate (conj A (conj B (conj C (conj D (conj E (conj (sd_samples rounded_trig) (conj sd_centre F)))))))).
Qed.
