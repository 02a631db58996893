(** C120: what distributions are made from.

    Doubles are IEEE binary64; [val] is the real number of a double.  [make_ranges] makes the three distributions of a point
    sampler, [make_all] those for the lengths of an example application; [UB] is undefined behaviour. *)

From Coq Require Import ZArith Reals List.
From Coq Require Import Floats.
From Verif Require Import Base NumModel VecModel LinModel RoundModel PolyModel SampModel DomModel RngModel DrawModel DrawMakeModel DblSpec RngSpec TrigDblSpec TrigDblExamples LinDblExamples PtDblExamples RngExamples RngHolExamples DrawRadModel DrawMake DrawMakeExamples DrawRad.
Import ListNotations.
Local Open Scope Z_scope.

(** A uniform distribution may be made from numbers a and b if a is not above b, and a normal one if the standard deviation is
    positive; otherwise what happens is undefined. *)
Theorem c120_made : forall a b, number a -> number b ->
  (make_real a b = Ok (a, b) /\ (val a <= val b)%R \/ make_real a b = UB /\ (val b < val a)%R) /\
  (make_normal a b = Ok (a, b) /\ (0 < val b)%R \/ make_normal a b = UB /\ (val b <= 0)%R).
Proof. exact (fun a b Na Nb => conj (make_real_iff a b Na Nb) (make_normal_iff a b Nb)). Qed.
Print Assumptions c120_made.
Example c120_made_case : make_real 3%float 7%float = Ok (3%float, 7%float) /\ make_normal 3%float 0%float = UB.
Proof. exact (conj eq_refl eq_refl). Qed.

(** The second sampler of example 2 has lengths from 0.5 to 0.1: the program is undefined.  The other ranges of lengths of the
    examples are in order, and so are those of example 2 in Python. *)
Theorem c120_example2_refuted : make_all lengths1 = Ok lengths1 /\ make_all lengths3 = Ok lengths3 /\ make_all py_lengths2 = Ok py_lengths2 /\ make_all lengths2 = UB.
Proof. exact lengths_made. Qed.
Print Assumptions c120_example2_refuted.

(** If the check is left out, as libstdc++ does unless its assertions are switched on, the numbers drawn are between the two ends
    nevertheless. *)
Theorem c120_reversed : forall a b x, number a -> number b -> (val b <= val a)%R -> (Rabs (val a) <= powerRZ 2 1021)%R -> (Rabs (val b) <= powerRZ 2 1021)%R -> engine_value x ->
  number (fst (draw_real a b x)) /\ (val b <= val (fst (draw_real a b x)) <= val a)%R.
Proof. exact reversed. Qed.
Print Assumptions c120_reversed.
Example c120_reversed_case : In (0.5%float, 0x1.999999999999ap-4%float) lengths2 /\
  (number 0.5%float /\ number 0x1.999999999999ap-4%float /\ val 0x1.999999999999ap-4%float <= val 0.5%float /\ Rabs (val 0.5%float) <= powerRZ 2 1021 /\ Rabs (val 0x1.999999999999ap-4%float) <= powerRZ 2 1021)%R /\ engine_value 1.
Proof. exact (conj (or_intror (or_intror (or_introl eq_refl))) (let w := wrong_order in conj (conj (proj1 w) (conj (proj1 (proj2 w)) (conj (proj1 (proj2 (proj2 w))) (conj (proj1 (proj2 (proj2 (proj2 w)))) (proj1 (proj2 (proj2 (proj2 (proj2 w))))))))) (proj2 (proj2 (proj2 (proj2 (proj2 w))))))). Qed.

(** The distributions of a point sampler for a box may always be made. *)
Theorem c120_box_made : forall x1 y1 z1 x2 y2 z2 b, number x1 -> number y1 -> number z1 -> number x2 -> number y2 -> number z2 -> make_box x1 y1 z1 x2 y2 z2 = Ok b ->
  make_ranges (sampler_box b) = Ok [(x1, x2); (y1, y2); (z1, z2)].
Proof. exact box_made. Qed.
Print Assumptions c120_box_made.
Example c120_box_made_case : number 3%float /\ number 7%float /\ make_box 3%float 3%float 3%float 7%float 7%float 7%float = Ok (mkBox (mkV3 3 3 3)%float (mkV3 7 7 7)%float).
Proof. exact small_box. Qed.

(** Those for a cylinder may be made if its height is not negative, and otherwise not. *)
Theorem c120_cylinder_made : forall (T : Trig float) (c : cyl float), accurate T -> number (cyl_radius c) -> (Rabs (val (cyl_radius c)) <= powerRZ 2 500)%R -> number (c_h c) ->
  (make_ranges (sampler_cyl c) = Ok [(0%float, (cyl_radius c * cyl_radius c)%float); (0%float, (2 * npi)%float); (0%float, c_h c)] /\ (0 <= val (c_h c))%R) \/
  (make_ranges (sampler_cyl c) = UB /\ (val (c_h c) < 0)%R).
Proof. exact cyl_made. Qed.
Print Assumptions c120_cylinder_made.
Example c120_cylinder_made_case : accurate rounded_trig /\ number (cyl_radius drum) /\ (Rabs (val (cyl_radius drum)) <= powerRZ 2 500)%R /\ number (c_h drum) /\ (0 <= val (c_h drum))%R.
Proof. exact (conj rounded_accurate drum_small). Qed.

(** The same for a hollow cylinder whose inner radius is not below minus the outer one, e.g. not negative. *)
Theorem c120_hollow_made : forall (T : Trig float) bottom axis inner outer height (h : hollow float) s, accurate T -> make_hollow bottom axis inner outer height = Ok h -> sampler_hollow h = Ok s ->
  number inner -> number outer -> number height -> (- val outer <= val inner)%R -> (val outer <= powerRZ 2 500)%R ->
  (make_ranges s = Ok [((inner * inner)%float, (outer * outer)%float); (0%float, (2 * npi)%float); (0%float, height)] /\ (0 <= val height)%R) \/ (make_ranges s = UB /\ (val height < 0)%R).
Proof. exact hol_made. Qed.
Print Assumptions c120_hollow_made.
Example c120_hollow_made_case : make_hollow pt1 pd_n 3%float 7%float 5%float = Ok tube /\ sampler_hollow (H0 := rounded_trig) tube = Ok (tube_sampler (H := rounded_trig)) /\
  number 3%float /\ number 7%float /\ number 5%float /\ (- val 7%float <= val 3%float)%R /\ (val 7%float <= powerRZ 2 500)%R.
Proof. exact tube_small. Qed.

(** Cylinders of negative height can be constructed, and sampling points in one of them is undefined. *)
Theorem c120_sunk_refuted : forall (T : Trig float), accurate T -> exists bottom c, make_cyl_disk bottom (-1)%float = Ok c /\ make_ranges (sampler_cyl c) = UB.
Proof. exact (fun T HT => ex_intro _ pd_circle (ex_intro _ sunk (conj sunk_made (sunk_open T HT)))). Qed.
Print Assumptions c120_sunk_refuted.
Example c120_sunk_case : accurate rounded_trig.
Proof. exact rounded_accurate. Qed.

(** Hollow cylinders of negative inner radius can be constructed as well: that with the radii -7 and 3 has a point sampler whose
    distribution of radii is undefined. *)
Theorem c120_inner_refuted : forall (T : Trig float), exists h s, make_hollow pt1 pd_n (-7)%float 3%float 5%float = Ok h /\ sampler_hollow h = Ok s /\ make_ranges s = UB.
Proof. exact (fun T => let m := inside_made T in match proj2 m with ex_intro _ s p => ex_intro _ inside_out (ex_intro _ s (conj (proj1 m) p)) end). Qed.
Print Assumptions c120_inner_refuted.

(** Angles in degrees are converted to radians with an error of at most 2^-53 of the degrees. *)
Theorem c120_radians : forall (T : Trig float), accurate T -> forall d, number d -> (powerRZ 2 (-900) <= Rabs (val d) <= powerRZ 2 900)%R ->
  number (to_radians d) /\ (Rabs (val (to_radians d) - val d * PI / 180) <= powerRZ 2 (-53) * Rabs (val d))%R.
Proof. exact radians. Qed.
Print Assumptions c120_radians.
Example c120_radians_case : accurate rounded_trig /\ number 5%float /\ (powerRZ 2 (-900) <= Rabs (val 5%float) <= powerRZ 2 900)%R.
Proof. exact (conj rounded_accurate five_ok). Qed.

(** The normal distributions of all example applications may be made. *)
Theorem c120_normals : forall (T : Trig float), accurate T ->
  Forall (fun r => make_angle r = Ok (to_radians (fst r), to_radians (snd r))) (degrees1 ++ degrees2 ++ degrees3 ++ degrees4) /\ Forall (fun r => make_normal (fst r) (snd r) = Ok r) axes3.
Proof. exact normals_made. Qed.
Print Assumptions c120_normals.
Example c120_normals_case : accurate rounded_trig.
Proof. exact rounded_accurate. Qed.
