(** C119: the numbers that distributions draw. *)

From Coq Require Import ZArith Reals List Permutation.
From Coq Require Import Floats.
From Verif Require Import Base NumModel VecModel DomModel RngModel DrawModel DrawMakeModel DblSpec RngSpec DrawSpec LinDblExamples TrigDblExamples RngProofs LinModel RoundModel PolyModel SampModel TrigDblSpec SpDblSpec SpDblExamples DrawProofs DrawDbl DrawPair DrawSign DrawUse DrawExamples PtDblExamples RngExamples DrawMake DrawMakeExamples.
Import ListNotations.
Local Open Scope Z_scope.

(** Drawing integers from a range ends after less than 2^31 values of the engine, for every seed and however many are drawn, and
    they are in the range. *)
Theorem c119_ints : forall a b fuel n seed, 0 <= b - a <= 2147483645 -> 2147483646 <= Z.of_nat fuel ->
  exists l y, draw_ints a b fuel n (seeded seed) = Ok (l, y) /\ length l = n /\ Forall (fun v => a <= v <= b) l /\ engine_value y.
Proof. exact (fun a b fuel n seed Hr F => ints_range a b Hr fuel n _ (seeded_value seed) F). Qed.
Print Assumptions c119_ints.
Example c119_ints_case : 0 <= 9 - 4 <= 2147483645 /\ (exists fuel, 2147483646 <= Z.of_nat fuel) /\ draw_ints 4 9 3 8 (seeded 1) = Ok ([4; 4; 8; 6; 7; 5; 4; 8], 1457850878).
Proof. exact (conj (proj1 corners_range) (conj enough_fuel corners_1)). Qed.

(** All integers of the range are equally likely: the same number of values of the engine, in a row, gives each of them, and
    fewer values than the range has integers, and one, are drawn again. *)
Theorem c119_equal : forall a b, 0 <= b - a <= 2147483645 -> exists k, 1 <= k /\ 2147483645 - (b - a + 1) < (b - a + 1) * k <= 2147483646 /\
  forall x v fuel, engine_value x -> (0 < fuel)%nat -> draw_int a b fuel x = Ok (v, next x) <-> a <= v <= b /\ (v - a) * k < next x <= (v - a + 1) * k.
Proof. exact (fun a b Hr => ex_intro _ (share a b) (conj (proj1 (share_ok a b Hr)) (conj (proj2 (share_ok a b Hr)) (fun x v fuel => draw_from a b Hr x v fuel)))). Qed.
Print Assumptions c119_equal.
Example c119_equal_case : engine_value 1 /\ draw_int 4 9 1 1 = Ok (4, next 1).
Proof. exact corners_one. Qed.

(** Every integer of the range is drawn at some time, for every seed. *)
Theorem c119_all : forall a b fuel v seed, 0 <= b - a <= 2147483645 -> 2147483646 <= Z.of_nat fuel -> a <= v <= b ->
  exists n l y, draw_ints a b fuel n (seeded seed) = Ok (l, y) /\ In v l.
Proof. exact (fun a b fuel v seed Hr F R => ints_all a b Hr fuel v F R _ (seeded_value seed)). Qed.
Print Assumptions c119_all.
Example c119_all_case : 4 <= 9 <= 9 /\ 0 <= 9 - 4 <= 2147483645 /\ (exists fuel, 2147483646 <= Z.of_nat fuel).
Proof. exact (conj (proj2 corners_range) (conj (proj1 corners_range) enough_fuel)). Qed.

(** Uniform numbers are in their range in double precision, both ends included. *)
Theorem c119_reals : forall a b x, number a -> number b -> (val a <= val b)%R -> (Rabs (val a) <= powerRZ 2 1021)%R -> (Rabs (val b) <= powerRZ 2 1021)%R -> engine_value x ->
  number (fst (draw_real a b x)) /\ (val a <= val (fst (draw_real a b x)) <= val b)%R /\ snd (draw_real a b x) = Nat.iter 2 next x.
Proof. exact real_ok. Qed.
Print Assumptions c119_reals.
Example c119_reals_case : (number 3%float /\ number 7%float /\ val 3%float <= val 7%float /\ Rabs (val 3%float) <= powerRZ 2 1021 /\ Rabs (val 7%float) <= powerRZ 2 1021)%R /\ engine_value 1.
Proof. exact (conj three_seven (proj1 corners_one)). Qed.

(** The upper end, which the distribution excludes, does occur. *)
Theorem c119_upper_refuted : exists seed, fst (draw_real 5000000%float 5000001%float (seeded seed)) = 5000001%float.
Proof. exact (ex_intro _ 671875339 upper_end). Qed.
Print Assumptions c119_upper_refuted.

(** Drawing from a normal distribution ends for every seed and however many numbers are drawn; all of them are numbers, none
    infinite, and within 12.2 standard deviations of the mean but for roundings. *)
Theorem c119_normal : forall log, accurate_log log -> forall mean stddev M, number mean -> number stddev -> (powerRZ 2 (-900) <= M <= powerRZ 2 900)%R ->
  (Rabs (val mean) <= M)%R -> (Rabs (val stddev) <= M)%R -> forall fuel n seed, 2147483646 <= Z.of_nat fuel ->
  exists l, draw_normals log mean stddev fuel n (seeded seed, None) = Ok l /\ length l = n /\ Forall (near_mean M mean stddev) l.
Proof. exact normals_seed. Qed.
Print Assumptions c119_normal.
Example c119_normal_case : accurate_log (rounded ln) /\
  (number 3%float /\ number 1%float /\ powerRZ 2 (-900) <= 3 <= powerRZ 2 900 /\ Rabs (val 3%float) <= 3 /\ Rabs (val 1%float) <= 3)%R /\ exists fuel, 2147483646 <= Z.of_nat fuel.
Proof. exact (conj rounded_log (conj three_one enough_fuel)). Qed.

(** The numbers come in pairs, each made from the first point of the disk among the points of the square that the values of the
    engine stand for, and the second number of the pair draws no value: these are the two numbers of the polar method, up to
    2^-41 in their squares. *)
Theorem c119_pair : forall log, accurate_log log -> forall fuel x, engine_value x -> 2147483646 <= Z.of_nat fuel ->
  let at_ := fun i => Nat.iter i next x in exists k X Y v1 v2 st,
  draw_normal log 0%float 1%float fuel (x, None) = Ok (v1, st) /\ draw_normal log 0%float 1%float fuel st = Ok (v2, (at_ (4 * k + 4)%nat, None)) /\
  square_of (at_ (4 * k + 1)%nat) (at_ (4 * k + 2)%nat) (at_ (4 * k + 3)%nat) (at_ (4 * k + 4)%nat) X Y /\ (0 < X * X + Y * Y <= 1 + powerRZ 2 (-51))%R /\
  polar_number (X * X + Y * Y) Y (val v1) /\ polar_number (X * X + Y * Y) X (val v2) /\
  forall i, (i < k)%nat -> exists X' Y', square_of (at_ (4 * i + 1)%nat) (at_ (4 * i + 2)%nat) (at_ (4 * i + 3)%nat) (at_ (4 * i + 4)%nat) X' Y' /\ out_of_disk X' Y'.
Proof. exact normal_pair. Qed.
Print Assumptions c119_pair.
Example c119_pair_case : accurate_log (rounded ln) /\ engine_value 1 /\ exists fuel, 2147483646 <= Z.of_nat fuel.
Proof. exact (conj rounded_log (conj (proj1 corners_one) enough_fuel)). Qed.

(** From a normal distribution whose mean is not negative, a positive number is drawn at some time, whatever was drawn before: a
    sampler that waits for a positive length returns. *)
Theorem c119_positive : forall log, accurate_log log -> forall mean stddev, number mean -> number stddev -> (0 <= val mean <= powerRZ 2 900)%R -> (powerRZ 2 (-900) <= val stddev <= powerRZ 2 900)%R ->
  forall fuel x saved, 2147483646 <= Z.of_nat fuel -> engine_value x ->
  exists n l, draw_normals log mean stddev fuel n (x, saved) = Ok l /\ Exists (fun v => 0 < val v)%R l.
Proof. exact normals_positive. Qed.
Print Assumptions c119_positive.
Example c119_positive_case : (0 <= val 3%float <= powerRZ 2 900 /\ powerRZ 2 (-900) <= val 1%float <= powerRZ 2 900)%R.
Proof. exact three_one'. Qed.

(** If the mean is more than 12.2 standard deviations below zero, no positive number is ever drawn, for no seed: such a sampler
    never returns, although positive numbers have a positive probability. *)
Theorem c119_negative_refuted : forall log mean stddev M, accurate_log log -> number mean -> number stddev -> (powerRZ 2 (-900) <= M <= powerRZ 2 900)%R -> (Rabs (val mean) <= M)%R -> (Rabs (val stddev) <= M)%R ->
  (val mean < - (122 / 10 * Rabs (val stddev) + powerRZ 2 (-48) * M))%R -> forall fuel n seed, 2147483646 <= Z.of_nat fuel ->
  exists l, draw_normals log mean stddev fuel n (seeded seed, None) = Ok l /\ length l = n /\ Forall (fun v => val v < 0)%R l.
Proof. exact normals_negative. Qed.
Print Assumptions c119_negative_refuted.
Example c119_negative_case : (number (-13)%float /\ number 1%float /\ powerRZ 2 (-900) <= 16 <= powerRZ 2 900 /\ Rabs (val (-13)%float) <= 16 /\ Rabs (val 1%float) <= 16 /\
  val (-13)%float < - (122 / 10 * Rabs (val 1%float) + powerRZ 2 (-48) * 16))%R.
Proof. exact far_mean. Qed.

(** A polygon is returned, with a number of corners from the range, if the range begins at three or above and no length is
    negative, as in example 4. *)
Theorem c119_polygon : forall (T : Trig float), accurate T -> forall esort (d : poly_draws float) M a b, (forall l, Permutation (esort l) l) -> scale M -> drawn M d ->
  3 <= a -> (forall i, a <= d_num d i <= b) -> (forall i, (0 <= val (d_slen d i))%R) ->
  exists cs, sample_corners esort d = Ok cs /\ a <= Z.of_nat (length cs) <= b.
Proof. exact polygon_returns. Qed.
Print Assumptions c119_polygon.
Example c119_polygon_case : accurate rounded_trig /\ scale 60 /\ drawn 60 use_draws /\ (forall i, 4 <= d_num use_draws i <= 9) /\ (forall i, (0 <= val (d_slen use_draws i))%R).
Proof. exact (conj rounded_accurate (conj sp_scale use_ok)). Qed.

(** The sampler of quadrilaterals with lengths from a normal distribution returns whatever the state of the engine, with the four
    numbers drawn, if the minimum length is 12.2 standard deviations below the mean or less. *)
Theorem c119_quad : forall (T : Trig float) log, accurate_log log -> forall strike dip c mean stddev min M, number mean -> number stddev -> number min -> (powerRZ 2 (-900) <= M <= powerRZ 2 900)%R ->
  (Rabs (val mean) <= M)%R -> (Rabs (val stddev) <= M)%R -> (val min + 122 / 10 * Rabs (val stddev) + powerRZ 2 (-48) * M <= val mean)%R ->
  forall fuel x, 2147483646 <= Z.of_nat fuel -> engine_value x ->
  exists l1 l2 l3 l4, draw_normals log mean stddev fuel 4 (x, None) = Ok [l1; l2; l3; l4] /\
  sample_old_quad strike dip c (fun i => nth i [l1; l2; l3; l4] 0%float) min = Ok (strike_dip_quad strike dip c l1 l2 l3 l4) /\ Forall (fun l => (val min <= val l)%R) [l1; l2; l3; l4].
Proof. exact quad_normal. Qed.
Print Assumptions c119_quad.
Example c119_quad_case : accurate_log (rounded ln) /\ (number 60%float /\ number 3%float /\ number 12%float /\ powerRZ 2 (-900) <= 64 <= powerRZ 2 900 /\ Rabs (val 60%float) <= 64 /\ Rabs (val 3%float) <= 64 /\
  val 12%float + 122 / 10 * Rabs (val 3%float) + powerRZ 2 (-48) * 64 <= val 60%float)%R /\ (exists fuel, 2147483646 <= Z.of_nat fuel) /\ engine_value 1.
Proof. exact (conj rounded_log (conj wide_mean (conj enough_fuel (proj1 corners_one)))). Qed.

(** It returns too if the lengths are from a uniform distribution whose lower end is not below the minimum; each length takes two
    values of the engine. *)
Theorem c119_quad_uniform : forall (T : Trig float) strike dip c a b min x, number a -> number b -> number min -> (val min <= val a)%R -> (val a <= val b)%R ->
  (Rabs (val a) <= powerRZ 2 1021)%R -> (Rabs (val b) <= powerRZ 2 1021)%R -> engine_value x -> let edge := fun i => fst (draw_real a b (Nat.iter (2 * i) next x)) in
  (forall i, snd (draw_real a b (Nat.iter (2 * i) next x)) = Nat.iter (2 * (i + 1)) next x /\ (val a <= val (edge i) <= val b)%R) /\
  sample_old_quad strike dip c edge min = Ok (strike_dip_quad strike dip c (edge 0%nat) (edge 1%nat) (edge 2%nat) (edge 3%nat)).
Proof. exact quad_uniform. Qed.
Print Assumptions c119_quad_uniform.
Example c119_quad_uniform_case : (number 3%float /\ number 7%float /\ val 3%float <= val 3%float /\ val 3%float <= val 7%float /\ Rabs (val 3%float) <= powerRZ 2 1021 /\ Rabs (val 7%float) <= powerRZ 2 1021)%R /\ engine_value 1.
Proof. exact (conj lengths_37 (proj1 corners_one)). Qed.
