(** C100: points, vectors, directions, lines and segments in one and two dimensions. *)

From Coq Require Import ZArith List Bool Reals Lra Floats.
From Verif Require Import Base NumModel VecModel LinModel DistModel GeoSpec LinSpec LowModel LowSpec LowProofs LowDbl LowGeo LowExamples.
Import ListNotations.
Local Open Scope R_scope.

(** In terms of the geometry of space, the missing coordinates being zero: distances and equality
    of points, *)
Theorem c100_points : forall (p q : list R) e, low p -> same_space p q ->
  d_dist p q = dist (up p) (up q) /\ (0 <= e -> (d_eq p q e = true <-> dist (up p) (up q) < e)).
Proof. exact g_dist. Qed.
Print Assumptions c100_points.
Example c100_points_case : low [3; 4] /\ same_space [3; 4] [0; 0] /\ d_dist [3; 4] [0; 0] = 5 /\
  d_eq [3; 4] [0; 0] 6 = true /\ d_eq [3; 4] [0; 0] 5 = false.
Proof. exact ex_dist. Qed.

(** directions, *)
Theorem c100_directions : forall v : list R, low v -> up v <> zero3 ->
  length (d_dir v) = length v /\ unit3 (up (d_dir v)) /\ exists c, 0 < c /\ up v = pscale c (up (d_dir v)).
Proof. exact g_dir. Qed.
Print Assumptions c100_directions.
Example c100_directions_case : low [3; 4] /\ up [3; 4] <> zero3 /\ d_dir [3; 4] = [3 / 5; 4 / 5] /\ d_dir [-7] = [-1].
Proof. exact ex_dir. Qed.

(** lines, *)
Theorem c100_lines : forall p a d : list R, low p -> same_space p a -> same_space p d -> unit3 (up d) ->
  length (d_line_proj (a, d) p) = length p /\
  closest (on_line (up a) (up d)) (up p) (up (d_line_proj (a, d) p)) /\
  dist_to (on_line (up a) (up d)) (up p) (d_dist_line p (a, d)) /\
  (forall e, 0 <= e -> (d_line_contains (a, d) p e = true <-> d_dist_line p (a, d) < e)).
Proof. exact g_line. Qed.
Print Assumptions c100_lines.
Example c100_lines_case : low [2; 7] /\ same_space [2; 7] [1; 1] /\ unit3 (up [0; 1]) /\
  d_line_proj ([1; 1], [0; 1]) [2; 7] = [1; 7].
Proof. exact ex_line. Qed.

(** segments, *)
Theorem c100_segments : forall p a b : list R, low p -> same_space p a -> same_space p b -> a <> b -> forall d,
  dist_to (on_segment (up a) (up b)) (up p) d ->
  (forall e, 0 < e -> (d_seg_contains (a, b) p e true = true <-> d < e)) /\
  d_dist_seg p (a, b) <= d <= d_dist_seg p (a, b) + d_seg_len (a, b) / 10000000.
Proof. exact g_seg. Qed.
Print Assumptions c100_segments.
Theorem c100_segment_points : forall (a b : list R) t, low a -> same_space a b -> 0 <= t <= 1 ->
  length (d_seg_point (a, b) t) = length a /\ on_segment (up a) (up b) (up (d_seg_point (a, b) t)).
Proof. exact g_point. Qed.
Print Assumptions c100_segment_points.
Theorem c100_segment_plane : forall (p a b : list R) x, low p -> same_space p a -> same_space p b ->
  on_segment (up a) (up b) x -> exists q, same_space p q /\ x = up q.
Proof. exact g_seg_same. Qed.
Print Assumptions c100_segment_plane.
Example c100_segments_case : low [2; 1] /\ same_space [2; 1] [0; 0] /\ [0; 0] <> [4; 0] /\
  dist_to (on_segment (up [0; 0]) (up [4; 0])) (up [2; 1]) 1.
Proof. exact ex_seg. Qed.

(** and the product of two vectors of the plane. *)
Theorem c100_cross : forall v w : list R, length v = 2%nat -> same_space v w -> exists x, d_cross v w = Ok x /\
  x = det3 (up v) (up w) (mkV3 0 0 1) /\ (x = 0 <-> cross (up v) (up w) = zero3).
Proof. exact g_cross. Qed.
Print Assumptions c100_cross.
Example c100_cross_case : d_cross [1; 2] [3; 4] = Ok (-2).
Proof. exact ex_cross. Qed.

(** The same results as in space, in the reals: *)
Theorem c100_arithmetic : forall (v w : list R) c, low v -> same_space v w ->
  up (d_add v w) = vadd (up v) (up w) /\ up (d_sub v w) = vsub (up v) (up w) /\ up (d_scale v c) = vscale (up v) c /\
  up (d_div v c) = vdiv (up v) c /\ up (d_dir v) = to_dir (up v) /\ d_sprod v w = sprod (up v) (up w) /\ d_len v = vlen (up v).
Proof.
  exact (fun v w c L S => conj (up_add v w L S) (conj (up_sub v w L S) (conj (up_scale v c L) (conj (up_div v c L)
    (conj (up_dir v L) (conj (up_sprod v w L S) (up_len v L))))))).
Qed.
Print Assumptions c100_arithmetic.
(** the inverse of a direction has the same length and the opposite direction, *)
Theorem c100_inverse : forall d : list R, low d ->
  length (d_invert d) = length d /\ up (d_invert d) = pscale (-1) (up d) /\ (unit3 (up d) -> unit3 (up (d_invert d))).
Proof. exact g_invert. Qed.
Print Assumptions c100_inverse.
Theorem c100_segment_same : forall (p a b : list R) e ck t, low p -> same_space p a -> same_space p b ->
  d_seg_contains (a, b) p e ck = seg_contains (up_seg (a, b)) (up p) e ck /\
  up (d_seg_point (a, b) t) = seg_point (up_seg (a, b)) t /\ d_dist_seg p (a, b) = dist_segment (up p) (up_seg (a, b)).
Proof.
  exact (fun p a b e ck t L Sa Sb => conj (up_seg_contains p a b L Sa Sb e ck) (conj (up_seg_point p a b L Sa Sb t) (up_dist_seg p a b L Sa Sb))).
Qed.
Print Assumptions c100_segment_same.
Theorem c100_parallel : forall (v w : list R) e, length v = 2%nat \/ length v = 3%nat -> same_space v w ->
  d_parallel v w e = is_parallel (up v) (up w) e.
Proof. exact up_parallel. Qed.
Print Assumptions c100_parallel.
(** in double precision, without any difference: *)
Theorem c100_double : forall (v w : list float) e, low v -> same_space v w ->
  d_sprod v w = sprod (up v) (up w) /\ d_len v = vlen (up v) /\ d_dist v w = dist_points (up v) (up w) /\
  d_eq v w e = pt_eq (up v) (up w) e.
Proof.
  exact (fun v w e L S => conj (up_sprod_f v w L S) (conj (up_len_f v L) (conj (up_dist_f v w L S) (up_eq_f v w e L S)))).
Qed.
Print Assumptions c100_double.
Example c100_double_case : low [3; 4]%float /\ d_dist [3; 4]%float [0; 0]%float = 5%float /\
  d_eq [0.1]%float [0.2]%float 0.5%float = true.
Proof. exact ex_float. Qed.
(** and for any kind of coordinates in three dimensions. *)
Theorem c100_three : forall {A} `{Num A} (v w : list A) c e, length v = 3%nat -> length w = 3%nat ->
  up (d_add v w) = vadd (up v) (up w) /\ up (d_sub v w) = vsub (up v) (up w) /\ up (d_scale v c) = vscale (up v) c /\
  up (d_div v c) = vdiv (up v) c /\ up (d_dir v) = to_dir (up v) /\
  d_sprod v w = sprod (up v) (up w) /\ d_len v = vlen (up v) /\ d_dist v w = dist_points (up v) (up w) /\
  d_eq v w e = pt_eq (up v) (up w) e.
Proof. exact @three_ops. Qed.
Print Assumptions c100_three.
Theorem c100_three_lines : forall {A} `{Num A} (p a b : list A) e t ck, length p = 3%nat -> length a = 3%nat -> length b = 3%nat ->
  up (d_line_proj (a, b) p) = line_proj (up_line (a, b)) (up p) /\
  d_line_contains (a, b) p e = line_contains (up_line (a, b)) (up p) e /\
  d_seg_contains (a, b) p e ck = seg_contains (up_seg (a, b)) (up p) e ck /\
  up (d_seg_point (a, b) t) = seg_point (up_seg (a, b)) t /\
  d_dist_line p (a, b) = dist_line (up p) (up_line (a, b)) /\ d_dist_seg p (a, b) = dist_segment (up p) (up_seg (a, b)).
Proof. exact @three_lines. Qed.
Print Assumptions c100_three_lines.

(** Coordinates: a point or vector built from a list has the coordinates of the list as far as
    they go; the default is the origin. *)
Theorem c100_coordinates_partial : forall {A} `{Num A} wd i, (i < wd)%nat ->
  d_coord (d_default wd) i = Ok n0 /\
  forall (l : list A) x, nth_error l i = Some x -> d_coord (d_of_list wd l) i = Ok x.
Proof. exact (fun A N wd i Hi => conj (default_read wd i Hi) (fun l x E => of_list_read wd l i x E Hi)). Qed.
Print Assumptions c100_coordinates_partial.
(** The coordinates missing in a shorter list are not set, nor are those of a default direction. *)
Theorem c100_list_refuted : forall {A} wd (l : list A) i, (length l <= i < wd)%nat -> d_coord (d_of_list wd l) i = UB.
Proof. exact @of_list_short. Qed.
Print Assumptions c100_list_refuted.
Theorem c100_direction_refuted : forall {A} wd i, d_coord (@d_default_dir A wd) i = UB.
Proof. exact @default_dir_read. Qed.
Print Assumptions c100_direction_refuted.
Example c100_list_case : d_coord (d_of_list 2 [5; 6; 7]) 1 = Ok 6 /\ d_coord (d_of_list 3 [5; 6]) 2 = UB.
Proof. exact ex_list. Qed.
