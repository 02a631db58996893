(** C104: lines, planes and segments in double precision. *)

From Coq Require Import ZArith Reals Lra.
From Coq Require Import Floats.
From Verif Require Import Base NumModel VecModel LinModel RoundModel PolyModel DistModel GeoSpec LinSpec DblSpec LinDblSpec LinDblDist LinDblExamples.
Local Open Scope R_scope.

(** The distance of a point to a line is the exact distance up to 2^-45 of the coordinates. *)
Theorem c104_line_distance : forall s d p M D, moderate M -> point_upto M s -> point_upto M p -> direction d ->
  dist_to (on_line (val3 s) (val3 d)) (val3 p) D ->
  number (dist_line p (mkLine s d)) /\ Rabs (val (dist_line p (mkLine s d)) - D) <= powerRZ 2 (-45) * M.
Proof. exact c104_line_distance_lemma. Qed.
Print Assumptions c104_line_distance.
(** A line contains the points closer than the tolerance. *)
Theorem c104_line : forall s d p e M D, moderate M -> point_upto M s -> point_upto M p -> direction d -> tolerance e ->
  dist_to (on_line (val3 s) (val3 d)) (val3 p) D -> decides (line_contains (mkLine s d) p e) D (val e) (powerRZ 2 (-46) * M).
Proof. exact c104_line_lemma. Qed.
Print Assumptions c104_line.
Example c104_line_case : moderate 12 /\ point_upto 12 pt0 /\ point_upto 12 pt1 /\ direction axis_x /\ tolerance 0x1p-10%float /\
  dist_to (on_line (val3 pt0) (val3 axis_x)) (val3 pt1) 4 /\ direction (to_dir pt3).
Proof.
  exact (conj moderate_12 (conj (proj1 pts_upto) (conj (proj1 (proj2 pts_upto)) (conj (proj1 axis_dir) (conj tol_milli (conj line_case_d made_dir)))))).
Qed.

(** A plane contains the points closer than the tolerance. *)
Theorem c104_plane : forall (pl : plane float) p e M D, moderate M -> point_upto M (pl_sup pl) -> point_upto M p -> direction (pl_n pl) -> number e ->
  dist_to (on_plane (val3 (pl_sup pl)) (val3 (pl_n pl))) (val3 p) D ->
  (D + powerRZ 2 (-47) * M < val e -> plane_contains pl p e = true) /\ (val e + powerRZ 2 (-47) * M <= D -> plane_contains pl p e = false).
Proof. exact c104_plane_lemma. Qed.
Print Assumptions c104_plane.
Example c104_plane_case : moderate 12 /\ point_upto 12 pt0 /\ point_upto 12 pt3 /\ direction axis_z /\
  dist_to (on_plane (val3 pt0) (val3 axis_z)) (val3 pt3) 12.
Proof. exact (conj moderate_12 (conj (proj1 pts_upto) (conj (proj2 (proj2 (proj2 pts_upto))) (conj (proj2 axis_dir) plane_case_d)))). Qed.

(** A segment contains the points closer than the tolerance. *)
Theorem c104_segment : forall s t p e M D, moderate M -> point_upto M s -> point_upto M t -> point_upto M p -> gap3 s t -> val3 s <> val3 t -> tolerance e ->
  dist_to (on_segment (val3 s) (val3 t)) (val3 p) D -> decides (seg_contains (mkSeg s t) p e true) D (val e) (powerRZ 2 (-44) * M).
Proof. exact c104_segment_lemma. Qed.
Print Assumptions c104_segment.
(** The default tolerance is 10^-7 of its length. *)
Theorem c104_segment_default : forall s t p M D, moderate M -> point_upto M s -> point_upto M t -> point_upto M p -> gap3 s t ->
  let L := norm (psub (val3 t) (val3 s)) in powerRZ 2 (-300) <= L ->
  dist_to (on_segment (val3 s) (val3 t)) (val3 p) D -> decides (seg_contains_default (mkSeg s t) p true) D (L / 10000000) (powerRZ 2 (-44) * M).
Proof. exact c104_segment_default_lemma. Qed.
Print Assumptions c104_segment_default.
(** The distance to a segment is the exact one up to 10^-7 of the length, and never above it by more than 2^-45 of the
    coordinates, if the segment is not short compared to its coordinates. *)
Theorem c104_segment_distance_partial : forall s t p M D, moderate M -> point_upto M s -> point_upto M t -> point_upto M p -> gap3 s t ->
  let L := norm (psub (val3 t) (val3 s)) in powerRZ 2 (-300) <= L -> powerRZ 2 (-42) * M <= L / 10000000 ->
  dist_to (on_segment (val3 s) (val3 t)) (val3 p) D ->
  number (dist_segment p (mkSeg s t)) /\ D - (L / 10000000 + powerRZ 2 (-42) * M) <= val (dist_segment p (mkSeg s t)) <= D + powerRZ 2 (-45) * M.
Proof. exact c104_segment_distance_lemma. Qed.
Print Assumptions c104_segment_distance_partial.
Example c104_segment_case : moderate 12 /\ point_upto 12 pt0 /\ point_upto 12 pt1 /\ point_upto 12 pt2 /\ tolerance 0x1p-10%float /\
  (dist_to (on_segment (val3 pt0) (val3 pt1)) (val3 pt2) 5 /\ gap3 pt0 pt1 /\ val3 pt0 <> val3 pt1 /\ norm (psub (val3 pt1) (val3 pt0)) = 5) /\
  (powerRZ 2 (-42) * 12 <= 5 / 10000000 /\ powerRZ 2 (-300) <= 5).
Proof.
  exact (conj moderate_12 (conj (proj1 pts_upto) (conj (proj1 (proj2 pts_upto)) (conj (proj1 (proj2 (proj2 pts_upto))) (conj tol_milli (conj seg_case_d seg_dist_case)))))).
Qed.

(** A short segment far from the origin does not contain the point it returns itself. *)
Theorem c104_far_refuted : seg_contains_default far_seg (seg_point far_seg 0x1.999999999999ap-4%float) true = false.
Proof. exact far_not_contained. Qed.
Print Assumptions c104_far_refuted.
(** The distance to such a segment can be the distance to an end, although the segment is 10^-6 away. *)
Theorem c104_far_distance_refuted : (exists y, on_segment (val3 (s_src far_seg')) (val3 (s_tgt far_seg')) y /\ dist (val3 far_pt) y <= / 1000000) /\
  / 2 < val (dist_segment far_pt far_seg').
Proof. exact far_distance. Qed.
Print Assumptions c104_far_distance_refuted.
