(** C98 and C99: boxes, distances and directions in double precision.  The statements are about the
    functions on doubles (PrimFloat); val gives the real number a double stands for. *)

From Coq Require Import ZArith Reals Lra.
From Flocq Require Import IEEE754.BinarySingleNaN IEEE754.PrimFloat.
From Coq Require Import Floats.
From Verif Require Import Base NumModel VecModel LinModel DistModel GeoSpec LinSpec
  DblSpec DblLemmas DblProofs DblExamples DblLen DblEq DblRange.
Local Open Scope R_scope.

(** Intervals with a common number overlap, whatever the rounding, if the tolerance is not lost. *)
Theorem c98_overlap_partial : forall l1 u1 l2 u2 e x, number l1 -> number u1 -> reach l2 e -> reach u2 e ->
  val l1 <= x <= val u1 -> val l2 <= x <= val u2 -> intervals_overlap (l1, u1) (l2, u2) e = true.
Proof. exact overlap_near. Qed.
Print Assumptions c98_overlap_partial.
(** Intervals that overlap properly do so with any tolerance that is a number. *)
Theorem c98_overlap_proper : forall l1 u1 l2 u2 e, number l1 -> number u1 -> number l2 -> number u2 -> number e ->
  Rabs (val l2) <= powerRZ 2 1022 -> Rabs (val u2) <= powerRZ 2 1022 -> 0 <= val e <= powerRZ 2 1022 ->
  val l1 < val u2 -> val l2 < val u1 -> intervals_overlap (l1, u1) (l2, u2) e = true.
Proof. exact overlap_proper. Qed.
Print Assumptions c98_overlap_proper.
(** Intervals reported to overlap are not further apart than the tolerance and a rounding error. *)
Theorem c98_overlap_far : forall l1 u1 l2 u2 e, number l1 -> number u1 -> number l2 -> number u2 -> number e ->
  Rabs (val l2) <= powerRZ 2 1022 -> Rabs (val u2) <= powerRZ 2 1022 -> 0 <= val e <= powerRZ 2 1022 ->
  val l1 <= val u1 -> val l2 <= val u2 -> intervals_overlap (l1, u1) (l2, u2) e = true ->
  val l1 - val u2 <= val e + powerRZ 2 (-53) * Rabs (val u2 + val e) /\
  val l2 - val u1 <= val e + powerRZ 2 (-53) * Rabs (val l2 - val e).
Proof. exact overlap_far. Qed.
Print Assumptions c98_overlap_far.
(** Touching intervals are missed if the tolerance is lost in the common end. *)
Theorem c98_absorbed_refuted : forall l1 x u2 e, number l1 -> number x -> number u2 -> number e ->
  Rabs (val u2) <= powerRZ 2 1022 -> 0 <= val e <= powerRZ 2 1022 ->
  val l1 < val x <= val u2 -> (x - e)%float = x -> intervals_overlap (l1, x) (x, u2) e = false.
Proof. exact absorbed_lemma. Qed.
Print Assumptions c98_absorbed_refuted.
Example c98_absorbed_case : number 3000000000%float /\ number 3000000001%float /\ number 3000000002%float /\
  val 3000000000 < val 3000000001 <= val 3000000002 /\ (3000000001 - 0x1p-23)%float = 3000000001%float /\ 0 < val 0x1p-23%float.
Proof. exact absorbed_case. Qed.

(** Boxes with a common point intersect, with the default tolerance, if their coordinates are at
    most 2 10^8 times their sizes. *)
Theorem c98_boxes_partial : forall (b1 b2 : box float) M D1 D2 p, box_number b1 -> box_number b2 ->
  within_box M b1 -> within_box M b2 -> M <= powerRZ 2 500 ->
  has_side b1 D1 -> has_side b2 D2 -> powerRZ 2 (-400) <= D1 -> powerRZ 2 (-400) <= D2 -> M <= 200000000 * (D1 + D2) ->
  in_box (val_box b1) p -> in_box (val_box b2) p -> do_intersect_default b1 b2 = true.
Proof. exact boxes_lemma. Qed.
Print Assumptions c98_boxes_partial.
(** A box contains its points, if its coordinates are at most 4 10^8 times its size. *)
Theorem c98_contains_partial : forall (b : box float) p M D, box_number b -> number3 p -> within_box M b -> M <= powerRZ 2 500 ->
  has_side b D -> powerRZ 2 (-400) <= D -> M <= 400000000 * D ->
  in_box (val_box b) (val3 p) -> box_contains_default b p = true.
Proof. exact contains_lemma. Qed.
Print Assumptions c98_contains_partial.
Example c98_near_case : box_number near1 /\ box_number near2 /\ within_box 400000000 near1 /\ within_box 400000000 near2 /\
  has_side near1 1 /\ has_side near2 1 /\
  in_box (val_box near1) (mkV3 300000001 1 1) /\ in_box (val_box near2) (mkV3 300000001 1 1).
Proof. exact near_case. Qed.
(** Unit cubes at 3 10^9 that share a face: no intersection, and the first does not contain its own corner. *)
Theorem c98_far_refuted : exists b1 b2 : box float, box_number b1 /\ box_number b2 /\
  in_box (val_box b1) (mkV3 3000000001 1 1) /\ in_box (val_box b2) (mkV3 3000000001 1 1) /\
  do_intersect_default b1 b2 = false /\ do_intersect_default b2 b1 = false /\
  box_contains_default b1 (mkV3 3000000001 1 1)%float = false.
Proof. exact (ex_intro _ far1 (ex_intro _ far2 far_case)). Qed.
Print Assumptions c98_far_refuted.

(** A box is made exactly of ordered numbers, without rounding... *)
Theorem c98_construction : forall x y z x' y' z' : float, number x -> number y -> number z -> number x' -> number y' -> number z' ->
  (exists b, make_box x y z x' y' z' = Ok b /\ val3 (b_min b) = mkV3 (val x) (val y) (val z) /\ val3 (b_max b) = mkV3 (val x') (val y') (val z')) <->
  val x <= val x' /\ val y <= val y' /\ val z <= val z'.
Proof. exact make_box_lemma. Qed.
Print Assumptions c98_construction.
(** ... but NaN is accepted, and such a box contains nothing. *)
Theorem c98_nan_refuted : forall y z x' y' z' : float, PrimFloat.ltb y' y = false -> PrimFloat.ltb z' z = false ->
  exists b, make_box nan y z x' y' z' = Ok b /\ forall p e, box_contains b p e = false.
Proof. exact nan_lemma. Qed.
Print Assumptions c98_nan_refuted.
Example c98_nan_case : PrimFloat.ltb 1 0 = false.
Proof. reflexivity. Qed.

(** The distance of two points and their equality do not depend on the order, bit by bit, and a
    distance is never negative, for all doubles. *)
Theorem c99_symmetric : forall p q : V3 float, dist_points p q = dist_points q p /\ forall e, pt_eq p q e = pt_eq q p e.
Proof. exact (fun p q => conj (dist_sym p q) (eq_sym_all p q)). Qed.
Print Assumptions c99_symmetric.
Theorem c99_not_negative : forall p q : V3 float, PrimFloat.ltb (dist_points p q) 0 = false.
Proof. exact dist_not_negative. Qed.
Print Assumptions c99_not_negative.
(** The distance is accurate to 2^-50. *)
Theorem c99_distance_partial : forall p q, number3 p -> number3 q -> within3 (powerRZ 2 500) p -> within3 (powerRZ 2 500) q -> gap3 p q ->
  number (dist_points p q) /\ close (powerRZ 2 (-50)) (val (dist_points p q)) (dist (val3 p) (val3 q)).
Proof. exact dist_lemma. Qed.
Print Assumptions c99_distance_partial.
Example c99_distance_case : number3 corner1 /\ number3 corner2 /\ within3 (powerRZ 2 500) corner1 /\ within3 (powerRZ 2 500) corner2 /\ gap3 corner1 corner2 /\
  dist (val3 corner1) (val3 corner2) = R_sqrt.sqrt 3.
Proof. exact corners_case. Qed.
(** Two points are equal if they are closer than the tolerance, up to 2^-50 of it. *)
Theorem c99_equal_partial : forall p q e, number3 p -> number3 q -> number e ->
  within3 (powerRZ 2 500) p -> within3 (powerRZ 2 500) q -> gap3 p q -> powerRZ 2 (-500) <= val e <= powerRZ 2 500 ->
  let D := dist (val3 p) (val3 q) in
  (D <= (1 - powerRZ 2 (-50)) * val e -> pt_eq p q e = true) /\
  ((1 + powerRZ 2 (-50)) * val e <= D -> pt_eq p q e = false).
Proof. exact eq_lemma. Qed.
Print Assumptions c99_equal_partial.
Example c99_equal_case : number 1%float /\ number 2%float /\ powerRZ 2 (-500) <= val 1%float <= powerRZ 2 500 /\ powerRZ 2 (-500) <= val 2%float <= powerRZ 2 500 /\
  (1 + powerRZ 2 (-50)) * val 1%float <= R_sqrt.sqrt 3 <= (1 - powerRZ 2 (-50)) * val 2%float.
Proof. exact corners_eps. Qed.
(** A direction has the length 1 and the components of the scaled vector, up to 2^-50. *)
Theorem c99_direction_partial : forall v, number3 v -> within3 (powerRZ 2 500) v -> sizable3 v -> norm (val3 v) <> 0 ->
  let d := to_dir v in let L := norm (val3 v) in
  number3 d /\
  close (powerRZ 2 (-50)) (val (vx d)) (val (vx v) / L) /\ close (powerRZ 2 (-50)) (val (vy d)) (val (vy v) / L) /\
  close (powerRZ 2 (-50)) (val (vz d)) (val (vz v) / L) /\
  Rabs (norm (val3 d) - 1) <= powerRZ 2 (-50).
Proof. exact dir_lemma. Qed.
Print Assumptions c99_direction_partial.
Example c99_direction_case : number3 corner2 /\ within3 (powerRZ 2 500) corner2 /\ sizable3 corner2 /\ norm (val3 corner2) <> 0.
Proof. exact dir_case. Qed.
(** Outside of this range: points at the distance 2^600 are infinitely far apart and the direction
    from one to the other is zero... *)
Theorem c99_large_refuted : exists p : V3 float, number3 p /\ dist (val3 origin) (val3 p) = powerRZ 2 600 /\
  dist_points origin p = infinity /\ to_dir p = origin.
Proof. exact (ex_intro _ _ large_case). Qed.
Print Assumptions c99_large_refuted.
(** ... and points at the distance 2^-600 have distance zero and no direction; with such a tolerance
    a point is not equal to itself. *)
Theorem c99_small_refuted : exists (p : V3 float) (e : float), number3 p /\ dist (val3 origin) (val3 p) = powerRZ 2 (-600) /\
  dist_points origin p = 0%float /\ to_dir p = mkV3 infinity nan nan /\ pt_eq origin origin e = false.
Proof. exact (ex_intro _ _ (ex_intro _ _ small_case)). Qed.
Print Assumptions c99_small_refuted.
