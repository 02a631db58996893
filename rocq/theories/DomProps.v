(** C103: sampled points and spheres in double precision. *)

From Coq Require Import ZArith Reals Lra.
From Flocq Require Import Core.Core IEEE754.BinarySingleNaN IEEE754.PrimFloat.
From Coq Require Import Floats.
From Verif Require Import Base NumModel VecModel LinModel RoundModel PolyModel DistModel IntModel SampModel DomModel GeoSpec LinSpec DblSpec DomSpec
  DblExamples DomProofs DomExamples.
Local Open Scope R_scope.

(** A number drawn from a range lies in it, both ends included. *)
Theorem c103_range : forall a b u, number a -> number b -> canonical u -> val a <= val b -> val b - val a <= bpow radix2 1022 ->
  Rabs (val a) <= bpow radix2 1022 -> Rabs (val b) <= bpow radix2 1022 ->
  number (uniform (a, b) u) /\ val a <= val (uniform (a, b) u) <= val b.
Proof. exact uniform_in. Qed.
Print Assumptions c103_range.
(** The upper end can be drawn, although the distribution is documented to be half-open. *)
Theorem c103_end_refuted : canonical last /\ uniform (1%float, 2%float) last = 2%float.
Proof. exact (conj last_canonical end_drawn). Qed.
Print Assumptions c103_end_refuted.

(** A point sampled from a box lies in the box. *)
Theorem c103_box : forall (T : Trig float) (b : box float) u1 u2 u3, box_number b -> ordered b -> within_box (powerRZ 2 1021) b ->
  canonical u1 -> canonical u2 -> canonical u3 ->
  let p := sample_point (sampler_box b) u1 u2 u3 in number3 p /\ in_box (val_box b) (val3 p).
Proof. exact box_sample. Qed.
Print Assumptions c103_box.
(** and the box reports to contain it, if its coordinates are at most 4 10^8 times its size. *)
Theorem c103_box_contained_partial : forall (T : Trig float) (b : box float) u1 u2 u3 M D, box_number b -> ordered b -> within_box M b -> M <= powerRZ 2 500 ->
  has_side b D -> powerRZ 2 (-400) <= D -> M <= 400000000 * D -> canonical u1 -> canonical u2 -> canonical u3 ->
  box_contains_default b (sample_point (sampler_box b) u1 u2 u3) = true.
Proof. exact box_contained. Qed.
Print Assumptions c103_box_contained_partial.
Example c103_box_case : box_number near1 /\ ordered near1 /\ within_box (powerRZ 2 1021) near1 /\ canonical 0 /\ canonical 0.5%float /\ canonical last.
Proof. exact near_sample. Qed.
(** In a box as large as the range of doubles the points are NaN, and the box does not contain them. *)
Theorem c103_huge_refuted : forall T : Trig float, box_number huge /\ ordered huge /\
  let p := sample_point (sampler_box huge) 0%float 0%float 0%float in
  p = mkV3 nan nan nan /\ box_contains_default huge p = false.
Proof. exact huge_case. Qed.
Print Assumptions c103_huge_refuted.

(** The distance from the axis that is drawn in a cylinder is at most the radius, and the height at most that of the cylinder. *)
Theorem c103_cylinder_draws : forall (T : Trig float) (c : cyl float) u1 u3, number (cyl_radius c) -> bpow radix2 (-400) <= val (cyl_radius c) <= bpow radix2 400 ->
  number (c_h c) -> 0 <= val (c_h c) <= bpow radix2 1022 -> canonical u1 -> canonical u3 ->
  let '(r, _, h) := ps_ranges (sampler_cyl c) in
  (number (sample_radius r u1) /\ 0 <= val (sample_radius r u1) <= val (cyl_radius c)) /\
  (number (uniform h u3) /\ 0 <= val (uniform h u3) <= val (c_h c)).
Proof. exact cylinder_draws. Qed.
Print Assumptions c103_cylinder_draws.
(** and between the radii for a hollow cylinder. *)
Theorem c103_hollow_draws : forall (T : Trig float) (h : hollow float) s u1, sampler_hollow h = Ok s ->
  number (hollow_inner h) -> number (h_outer h) -> bpow radix2 (-400) <= val (hollow_inner h) -> val (h_outer h) <= bpow radix2 400 -> val (hollow_inner h) <= val (h_outer h) ->
  canonical u1 -> let '(r, _, _) := ps_ranges s in
  number (sample_radius r u1) /\ val (hollow_inner h) <= val (sample_radius r u1) <= val (h_outer h).
Proof. exact hollow_draws. Qed.
Print Assumptions c103_hollow_draws.
Example c103_hollow_case : forall T : Trig float, make_hollow (mkV3 0 0 0)%float (mkV3 0 0 1)%float 1%float 2%float 3%float = Ok pipe /\ (exists s, sampler_hollow pipe = Ok s) /\
  number (hollow_inner pipe) /\ number (h_outer pipe) /\ val (hollow_inner pipe) = 1 /\ val (h_outer pipe) = 2 /\ canonical 0.5%float.
Proof. exact pipe_case. Qed.

(** A sphere contains the points up to its radius, and none that is further out than a rounding error. *)
Theorem c103_sphere_partial : forall (s : sphere float) p, number3 (sp_c s) -> number3 p -> number (sp_r s) ->
  within3 (powerRZ 2 500) (sp_c s) -> within3 (powerRZ 2 500) p -> gap3 (sp_c s) p -> powerRZ 2 (-400) <= val (sp_r s) <= powerRZ 2 400 ->
  let D := dist (val3 (sp_c s)) (val3 p) in
  (D <= val (sp_r s) -> sphere_contains_default s p = true) /\
  ((1 + 1 / 100000000000000) * val (sp_r s) <= D -> sphere_contains_default s p = false).
Proof. exact sphere_lemma. Qed.
Print Assumptions c103_sphere_partial.
Example c103_sphere_case : number3 (sp_c ball) /\ number3 ball_pt /\ number (sp_r ball) /\ within3 (powerRZ 2 500) (sp_c ball) /\ within3 (powerRZ 2 500) ball_pt /\
  gap3 (sp_c ball) ball_pt /\ powerRZ 2 (-400) <= val (sp_r ball) <= powerRZ 2 400 /\ dist (val3 (sp_c ball)) (val3 ball_pt) = val (sp_r ball).
Proof. exact ball_case. Qed.

(** A cylinder of radius 1 and height 5 at 10^5 does not contain a point 8 10^-12 below its surface. *)
Theorem c103_cylinder_refuted : number3 (e_c (c_bot shaft)) /\ number3 (e_c (c_top shaft)) /\ number3 shaft_pt /\
  dist (val3 (e_c (c_bot shaft))) (val3 (e_c (c_top shaft))) = 5 /\ val (cyl_radius shaft) = 1 /\
  below_surface (8 / 1000000000000) (val3 (e_c (c_bot shaft))) (val3 (e_c (c_top shaft))) (val (cyl_radius shaft)) (val3 shaft_pt) /\
  cyl_contains_default shaft shaft_pt = false.
Proof. exact shaft_case. Qed.
Print Assumptions c103_cylinder_refuted.
Example c103_cylinder_case : make_cyl_disk base 5%float = Ok shaft.
Proof. exact shaft_made. Qed.
