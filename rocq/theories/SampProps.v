(** C51-C57, C75, C76: the samplers of points, disks, polygons and quadrilaterals. *)

From Coq Require Import ZArith Reals List Bool.
From Coq Require PrimFloat.
From Verif Require Import Base NumModel VecModel LinModel RoundModel PolyModel SampModel
  GeoSpec LinSpec RoundSpec PolySpec SampSpec SampProofs SampPoly SampConvex SampPy SampExamples SampMore.
Import ListNotations.
Local Open Scope R_scope.

(** *** C51 *)

(** The points the samplers can return are exactly those of the domain. *)
Theorem c51_box : forall b p, can_sample (sampler_box b) p <-> in_box b p.
Proof. exact box_sampler. Qed.
Print Assumptions c51_box.

Theorem c51_cylinder : forall cy p, ell_ok (c_bot cy) -> can_sample (sampler_cyl cy) p <-> cyl_solid cy p.
Proof. exact cyl_sampler. Qed.
Print Assumptions c51_cylinder.

Theorem c51_hollow : forall c n ri ro h hc, unit3 n -> 0 < ri -> 0 < h -> make_hollow c n ri ro h = Ok hc ->
  exists s, sampler_hollow hc = Ok s /\ forall p, can_sample s p <-> hollow_cyl c n ri ro h p.
Proof. exact hollow_sampler. Qed.
Print Assumptions c51_hollow.

(** *** C52 *)

Theorem c52_box : forall b p, can_sample (py_sampler_box b) p <-> in_box b p.
Proof. exact box_sampler. Qed.
Print Assumptions c52_box.

(** The radius is drawn from [0, r] instead of [0, r^2] before the square root is taken: points
    are sampled from a cylinder of radius sqrt(r). *)
Theorem c52_cylinder_partial : forall cy p, ell_ok (c_bot cy) ->
  can_sample (py_sampler_cyl cy) p <-> solid_cyl (e_c (c_bot cy)) (e_n (c_bot cy)) (sqrt (cyl_radius cy)) (c_h cy) p.
Proof. exact py_cyl_sampler. Qed.
Print Assumptions c52_cylinder_partial.

Theorem c52_cylinder_refuted : forall cy, ell_ok (c_bot cy) -> 0 < c_h cy ->
  (cyl_radius cy < 1 -> exists p, can_sample (py_sampler_cyl cy) p /\ ~ cyl_solid cy p) /\
  (1 < cyl_radius cy -> exists p, cyl_solid cy p /\ ~ can_sample (py_sampler_cyl cy) p).
Proof. exact py_cyl_wrong. Qed.
Print Assumptions c52_cylinder_refuted.

Theorem c52_hollow_partial : forall c n ri ro h hc, unit3 n -> 0 < ri -> 0 < h -> make_hollow c n ri ro h = Ok hc ->
  exists s, py_sampler_hollow hc = Ok s /\ forall p, can_sample s p <-> hollow_cyl c n (sqrt ri) (sqrt ro) h p.
Proof. exact py_hollow_sampler. Qed.
Print Assumptions c52_hollow_partial.

(** e.g. radii 2 and 3: no point sampled is within the domain *)
Theorem c52_hollow_refuted : forall c n ri ro h hc, unit3 n -> 0 < ri -> 0 < h -> make_hollow c n ri ro h = Ok hc ->
  sqrt ro < ri -> exists s, py_sampler_hollow hc = Ok s /\ forall p, can_sample s p -> ~ hollow_cyl c n ri ro h p.
Proof. exact py_hollow_wrong. Qed.
Print Assumptions c52_hollow_refuted.

(** *** C53 *)

(** The semi-axes are the first positive lengths drawn, the minor one cut off at the major one;
    the axes are the rotated coordinate axes. *)
Theorem c53_valid : forall maj mnr alpha beta gamma c fuel e, sample_disk maj mnr alpha beta gamma c fuel = Ok e ->
  ell_ok e /\ e_b e <= e_a e /\ e_c e = c /\
  first_draw (fun a => 0 < a) maj (e_a e) /\
  (exists b, first_draw (fun b => 0 < b) mnr b /\ e_b e = Rmin (e_a e) b) /\
  e_maj e = turn_z gamma (turn_y beta (mkV3 1 0 0)) /\
  e_min e = turn_z gamma (turn_y beta (turn_x alpha (mkV3 0 1 0))).
Proof. exact disk_valid. Qed.
Print Assumptions c53_valid.

Theorem c53_returns : forall maj mnr alpha beta gamma c, (exists i, 0 < maj i) -> (exists j, 0 < mnr j) ->
  exists fuel0 e, forall fuel, (fuel0 <= fuel)%nat -> sample_disk maj mnr alpha beta gamma c fuel = Ok e.
Proof. exact disk_returns. Qed.
Print Assumptions c53_returns.

Theorem c53_hangs : forall maj mnr alpha beta gamma c fuel, (forall i, maj i <= 0) \/ (forall i, mnr i <= 0) ->
  sample_disk maj mnr alpha beta gamma c fuel = Diverge.
Proof. exact disk_hangs. Qed.
Print Assumptions c53_hangs.

Example c53_example : exists e, sample_disk (fun i => INR i - 1) (fun _ => 3) 0 0 0 zero3 3 = Ok e /\ e_a e = 1 /\ e_b e = 1.
Proof. exact disk_example. Qed.

(** *** C54 *)

Theorem c54_polygon : forall srt d cs, sorts srt -> sample_corners srt d = Ok cs ->
  (exists i n, first_at (fun v => (3 <= v)%Z) (d_num d) i n /\ length cs = Z.to_nat n) /\
  planar (plane_normal (d_strike d) (d_dip d)) cs /\
  middle (map vx cs) (vx (d_center d)) /\ middle (map vy cs) (vy (d_center d)) /\ middle (map vz cs) (vz (d_center d)) /\
  exists slen dlen ds, sum (map fst ds) = 0 /\ sum (map snd ds) = 0 /\
    made_of (d_strike d) (d_dip d) dlen slen ds cs.
Proof. exact polygon_partial. Qed.
Print Assumptions c54_polygon.

(** the sorting of Python and of libstdc++ (for fewer than 16 corners) is such a sort *)
Theorem c54_sort : sorts (isort edge_before).
Proof. exact isort_sorts. Qed.
Print Assumptions c54_sort.

Example c54_example : sample_corners (isort edge_before) good = Ok good_corners.
Proof. exact good_sample. Qed.

(** The corners of a sampled quadrilateral are those of such a polygon; they are passed to the
    quadrilateral in its own order. *)
Theorem c54_quad : forall srt d q, sorts srt -> sample_quad srt d = Ok q ->
  sample_corners srt (four d) = Ok [q_0 q; q_1 q; q_3 q; q_2 q].
Proof. exact sampled_quad. Qed.
Print Assumptions c54_quad.

(** *** C55 *)

Theorem c55_throws_partial : forall srt d, sample_corners srt d = Throw RuntimeError <->
  (forall i, (i < 99)%nat -> (d_num d i < 3)%Z) \/ (forall i, (i < 100)%nat -> d_slen d i < 0).
Proof. exact throws_iff. Qed.
Print Assumptions c55_throws_partial.

Theorem c55_outcomes : forall srt d, sample_corners srt d = Throw RuntimeError \/ exists cs, sample_corners srt d = Ok cs.
Proof. exact outcomes. Qed.
Print Assumptions c55_outcomes.

Theorem c55_quad_outcomes : forall srt d, sorts srt ->
  (sample_quad srt d = Throw RuntimeError <-> forall i, (i < 100)%nat -> d_slen d i < 0) /\
  (sample_quad srt d = Throw RuntimeError \/ exists q, sample_quad srt d = Ok q).
Proof. exact quad_outcome. Qed.
Print Assumptions c55_quad_outcomes.

(** The hundredth number of corners is not used although it is admissible. *)
Theorem c55_hundredth_refuted : forall srt d, (forall i, (i < 99)%nat -> (d_num d i < 3)%Z) -> (3 <= d_num d 99%nat)%Z ->
  sample_corners srt d = Throw RuntimeError.
Proof. exact hundredth. Qed.
Print Assumptions c55_hundredth_refuted.

(** The check for the dip length tests the counter of the strike length: a distribution that
    only delivers negative lengths is accepted. *)
Theorem c55_dip_refuted : forall srt d, (3 <= d_num d 0%nat)%Z -> 0 <= d_slen d 0%nat -> (forall i, d_dlen d i < 0) ->
  exists cs, sample_corners srt d = Ok cs.
Proof. exact negative_dip. Qed.
Print Assumptions c55_dip_refuted.

(** A length of zero is accepted: all corners are on a line. *)
Theorem c55_zero_refuted : forall srt d, sorts srt -> (3 <= d_num d 0%nat)%Z -> d_slen d 0%nat = 0 ->
  exists cs, sample_corners srt d = Ok cs /\
    forall p q, In p cs -> In q cs -> dot (psub p q) (strike_dir (d_strike d)) = 0.
Proof. exact zero_strike. Qed.
Print Assumptions c55_zero_refuted.

(** *** C56 *)

Theorem c56_returns_partial : forall strike dip c edge min,
  (exists q, sample_old_quad strike dip c edge min = Ok q) <-> forall i, (i < 4)%nat -> min <= edge i.
Proof. exact old_quad_iff. Qed.
Print Assumptions c56_returns_partial.

(** the loop does not assign the value drawn: it is not left, whatever is drawn later *)
Theorem c56_hangs_refuted : forall s d c edge min, edge 0%nat < min -> (forall i, (1 <= i)%nat -> min <= edge i) ->
  sample_old_quad s d c edge min = Diverge.
Proof. exact old_quad_stuck. Qed.
Print Assumptions c56_hangs_refuted.

Theorem c56_corners : forall s d c edge min q, sample_old_quad s d c edge min = Ok q ->
  q_0 q = padd c (in_plane s d (- edge 0%nat / 2) (- edge 2%nat / 2)) /\
  q_1 q = padd c (in_plane s d (edge 1%nat / 2) (- edge 3%nat / 2)) /\
  q_2 q = padd c (in_plane s d (- edge 0%nat / 2) (edge 2%nat / 2)) /\
  q_3 q = padd c (in_plane s d (edge 1%nat / 2) (edge 3%nat / 2)).
Proof. exact old_quad_drawn. Qed.
Print Assumptions c56_corners.

Theorem c56_convex : forall s d c edge min q, 0 < min -> sample_old_quad s d c edge min = Ok q ->
  convex_ccw (plane_normal s d) (around (q_0 q) (q_1 q) (q_2 q) (q_3 q)).
Proof. exact old_quad_convex. Qed.
Print Assumptions c56_convex.

(** the Python version does assign it *)
Theorem c56_python : forall s d c edge min, 0 < min -> (forall n, exists j, (n <= j)%nat /\ min <= edge j) ->
  exists fuel0 q, (forall fuel, (fuel0 <= fuel)%nat -> py_old_quad s d c edge min fuel = Ok q) /\
    convex_ccw (plane_normal s d) (around (q_0 q) (q_1 q) (q_2 q) (q_3 q)).
Proof. exact py_old_quad_good. Qed.
Print Assumptions c56_python.

(** *** C57 *)

(** The number of draws is not counted. *)
Theorem c57_hangs_refuted : forall (d : poly_draws R) fuel, (forall i, (d_num d i < 3)%Z) -> py_sample_corners d fuel = Diverge.
Proof. exact py_hangs. Qed.
Print Assumptions c57_hangs_refuted.

(** Up to 16 corners the sampler returns; the dip length is the first one drawn, without check. *)
Theorem c57_returns_partial : forall d n i k, unit_draws d ->
  first_at (fun v => (3 <= v)%Z) (d_num d) i n -> (i < 99)%nat -> (n <= 16)%Z ->
  (k < 100)%nat -> 0 <= d_slen d k ->
  exists cs, (forall fuel, (i < fuel)%nat -> py_sample_corners d fuel = Ok cs) /\
    length cs = Z.to_nat n /\
    exists slen ds w h, first_draw (fun x => 0 <= x) (d_slen d) slen /\
      steps_ok w h ds /\ 8 / 10 <= w <= 1 /\ 8 / 10 <= h <= 1 /\
      made_of (d_strike d) (d_dip d) (d_dlen d 0%nat) slen ds cs.
Proof. exact py_returns. Qed.
Print Assumptions c57_returns_partial.

(** It is the polygon the C++ sampler returns for the same draws (if the first dip length is
    admissible). *)
Theorem c57_same_partial : forall d n i, unit_draws d ->
  first_at (fun v => (3 <= v)%Z) (d_num d) i n -> (i < 99)%nat -> (n <= 16)%Z -> 0 <= d_dlen d 0%nat ->
  forall fuel, (i < fuel)%nat -> py_sample_corners d fuel = sample_corners (isort edge_before) d.
Proof. exact py_same. Qed.
Print Assumptions c57_same_partial.

Example c57_example : unit_draws good /\ first_at (fun v => (3 <= v)%Z) (d_num good) 0 4%Z /\
  0 <= d_slen good 0%nat /\ 0 <= d_dlen good 0%nat.
Proof. exact good_draws. Qed.

(** A negative dip length is used although the distribution never delivers an admissible one. *)
Theorem c57_dip_refuted : exists cs ds, unit_draws neg_dip /\
  (forall fuel, (0 < fuel)%nat -> py_sample_corners neg_dip fuel = Ok cs) /\ (forall i, d_dlen neg_dip i = -4) /\
  made_of 0 0 (-4) 2 ds cs.
Proof. exact py_negative. Qed.
Print Assumptions c57_dip_refuted.

(** With 29 corners and draws within the unit interval the sampler fails with a name error, since
    no step is closer to the target than 100 times the largest one. *)
Theorem c57_unbound_refuted : forall T : Trig PrimFloat.float,
  forallb (fun i => PrimFloat.leb (fdiv 0 1) (d_unit many i) && PrimFloat.leb (d_unit many i) (fdiv 1 1)) (seq 0 58) = true /\
  py_sample_corners many 1 = Throw NameError.
Proof. exact many_unit. Qed.
Print Assumptions c57_unbound_refuted.

(** *** C75 *)

(** If no component of an edge is close to zero (other than zero), the corners go around
    counter-clockwise: *)
Theorem c75_turns_partial : forall srt d cs, sorts srt -> sample_corners srt d = Ok cs -> clear_edges (d_strike d) (d_dip d) cs ->
  forall i j k, (i < j < k)%nat -> (k < length cs)%nat ->
    0 <= orient (plane_normal (d_strike d) (d_dip d)) (nth i cs zero3) (nth j cs zero3) (nth k cs zero3).
Proof. exact sampled_convex. Qed.
Print Assumptions c75_turns_partial.

Theorem c75_convex_partial : forall srt d cs, sorts srt -> sample_corners srt d = Ok cs -> clear_edges (d_strike d) (d_dip d) cs ->
  noncollinear (nth 0 cs zero3) (nth 1 cs zero3) (nth 2 cs zero3) -> convex_ccw (plane_normal (d_strike d) (d_dip d)) cs.
Proof. exact sampled_convex_ccw. Qed.
Print Assumptions c75_convex_partial.

Theorem c75_quad_partial : forall srt d q, sorts srt -> sample_quad srt d = Ok q ->
  clear_edges (d_strike d) (d_dip d) [q_0 q; q_1 q; q_3 q; q_2 q] -> noncollinear (q_2 q) (q_0 q) (q_1 q) ->
  convex_ccw (plane_normal (d_strike d) (d_dip d)) (around (q_0 q) (q_1 q) (q_2 q) (q_3 q)).
Proof. exact quad_convex. Qed.
Print Assumptions c75_quad_partial.

Example c75_example : clear_edges (d_strike good) (d_dip good) good_corners /\
  noncollinear (nth 0 good_corners zero3) (nth 1 good_corners zero3) (nth 2 good_corners zero3).
Proof. exact (conj good_clear good_noncollinear). Qed.

(** Components below 10^-6 are taken for zero, whatever the size of the polygon: small polygons
    are not convex. *)
Theorem c75_small_refuted : unit_draws flat_draw /\
  sample_corners (isort edge_before) flat_draw = Ok flat_corners /\ forall N, ~ convex_ccw N flat_corners.
Proof. exact (conj flat_unit (conj flat_sample flat_not_convex)). Qed.
Print Assumptions c75_small_refuted.

(** *** C76 *)

(** The extents are between 80% and 100% of the lengths drawn; none is exceeded, and they are
    attained if no component of an edge is close to zero. *)
Theorem c76_extent_partial : forall srt d cs, sorts srt -> sample_corners srt d = Ok cs ->
  exists slen dlen w h k, (k < 100)%nat /\ first_at (fun x => 0 <= x) (d_slen d) k slen /\ length_used (d_dlen d) dlen /\
    (unit_draws d -> 8 / 10 <= w <= 1 /\ 8 / 10 <= h <= 1) /\
    (forall p q, In p cs -> In q cs ->
       dot (psub p q) (dip_dir (d_strike d) (d_dip d)) <= w * Rabs dlen /\ dot (psub p q) (strike_dir (d_strike d)) <= h * slen) /\
    (clear_edges (d_strike d) (d_dip d) cs ->
       (exists p q, In p cs /\ In q cs /\ dot (psub p q) (dip_dir (d_strike d) (d_dip d)) = w * Rabs dlen) /\
       (exists p q, In p cs /\ In q cs /\ dot (psub p q) (strike_dir (d_strike d)) = h * slen)).
Proof. exact sampled_extent. Qed.
Print Assumptions c76_extent_partial.
Example c76_case : unit_draws good /\ sample_corners (isort edge_before) good = Ok good_corners /\ clear_edges (d_strike good) (d_dip good) good_corners.
Proof. exact (conj (proj1 good_draws) (conj good_sample good_clear)). Qed.

(** Where components are taken for zero, the extent can be smaller: 75% of the length drawn here. *)
Theorem c76_small_refuted : unit_draws flat_draw /\ sample_corners (isort edge_before) flat_draw = Ok flat_corners /\
  (forall k, d_slen flat_draw k = 1 / 10 ^ 7) /\
  forall p q, In p flat_corners -> In q flat_corners -> dot (psub p q) (strike_dir (d_strike flat_draw)) <= 75 / 100 * (1 / 10 ^ 7).
Proof. exact (conj flat_unit (conj flat_sample flat_extent)). Qed.
Print Assumptions c76_small_refuted.
