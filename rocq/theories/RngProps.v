(** C117: the random numbers of the samplers.

    Doubles are IEEE binary64; [val] is the real number of a double.  [seed] is what std::random_device returned, [state seed n]
    the n-th value of the engine. *)

From Coq Require Import ZArith Reals Bool List.
From Coq Require Import Floats.
From Verif Require Import Base NumModel VecModel LinModel RoundModel PolyModel DistModel IntModel SampModel DomModel RngModel GeoSpec LinSpec DblSpec DomSpec RngSpec
  LinDblSpec TrigDblSpec TrigDblExamples PtDblSpec LinDblExamples PtDblExamples RngProofs RngDbl RngPlanes RngCyl RngHolSpec RngHol RngExamples RngHolExamples.
Import ListNotations.
Local Open Scope Z_scope.

(** The values of the engine are never zero nor the modulus. *)
Theorem c117_states : forall seed n, engine_value (state seed n).
Proof. exact state_value. Qed.
Print Assumptions c117_states.
Example c117_states_case : state 1 1 = 16807 /\ state 1 2 = 282475249 /\ state 1 3 = 1622650073 /\ state 1 (100 * 100) = 1043618065.
Proof. exact first_states. Qed.

(** For every seed the values repeat after 2147483646 of them and not before. *)
Theorem c117_period : forall seed i j, state seed i = state seed j <-> (2147483646 | Z.of_nat i - Z.of_nat j).
Proof. exact state_period. Qed.
Print Assumptions c117_period.

(** All seeds run through the same values in the same order: two samplers differ only in where they start. *)
Theorem c117_one_cycle : forall seed seed', exists n, Z.of_nat n < 2147483646 /\ forall k, state seed' k = state seed (n + k)%nat.
Proof. exact one_cycle. Qed.
Print Assumptions c117_one_cycle.

(** Different seeds need not give different numbers: of the 2^32 seeds, half give the numbers of another one. *)
Theorem c117_seeds_refuted : forall seed k, state (seed + 2147483647) k = state seed k /\ state 0 k = state 1 k.
Proof. exact same_seeds. Qed.
Print Assumptions c117_seeds_refuted.
Example c117_seeds_case : state 5 7 = state 2147483652 7 /\ state 0 3 = 1622650073 /\ state 5 7 <> state 6 7.
Proof. exact two_seeds. Qed.

(** A uniform number is below 1 and differs from the fraction that two values stand for by at most 2^-50. *)
Theorem c117_uniform : forall seed n,
  canonical (fst (draw (state seed n))) /\ (Rabs (val (fst (draw (state seed n))) - digits (state seed (n + 1)) (state seed (n + 2))) <= powerRZ 2 (-50))%R.
Proof. exact uniform_draw. Qed.
Print Assumptions c117_uniform.
Example c117_uniform_case : fst (draw (state 1 0)) = 0x1.0d63af043596fp-3%float /\ fst (draw (state 1 2)) = 0x1.d5a86155621c6p-2%float /\ fst (draw (state 1 4)) = 0x1.c06dac7f87edap-3%float.
Proof. exact first_draws. Qed.

(** All points that are sampled in a box are in the box, whatever the seed. *)
Theorem c117_box : forall (T : Trig float) (b : box float), box_number b -> ordered b -> within_box (powerRZ 2 1021) b ->
  forall n seed, let ps := fst (points (box_point b) n (seeded seed)) in length ps = n /\ Forall (fun p => number3 p /\ in_box (val_box b) (val3 p)) ps.
Proof. exact @box_points. Qed.
Print Assumptions c117_box.
Example c117_box_case : box_number unit_box /\ ordered unit_box /\ within_box (powerRZ 2 1021) unit_box.
Proof. exact unit_ok. Qed.
Example c117_box_points : exists p q, points (box_point unit_box (H := rounded_trig)) 2 (seeded 1) = ([p; q], state 1 12) /\
  (vx p, vy p, vz p) = (0x1.0d63af043596fp-3, 0x1.d5a86155621c6p-2, 0x1.c06dac7f87edap-3)%float /\ p <> q.
Proof. exact two_points. Qed.

(** All points that are sampled in a cylinder are in it up to 2^-43 of the coordinates, whatever the seed. *)
Theorem c117_cylinder : forall (T : Trig float) M (c : cyl float), accurate T -> moderate M -> ellipse_upto M (c_bot c) ->
  frame (powerRZ 2 (-47)) (e_maj (c_bot c)) (e_min (c_bot c)) (e_n (c_bot c)) ->
  (powerRZ 2 (-400) <= val (cyl_radius c) <= M / 2)%R -> number (c_h c) -> (0 <= val (c_h c) <= M)%R ->
  forall n seed, let ps := fst (points (cyl_point (sampler_cyl c)) n (seeded seed)) in length ps = n /\
  Forall (fun p => near_cylinder (powerRZ 2 (-43) * M) (val3 (e_c (c_bot c))) (val3 (e_n (c_bot c))) (val (cyl_radius c)) (val (c_h c)) (val3 p)) ps.
Proof. exact @cyl_points. Qed.
Print Assumptions c117_cylinder.
Example c117_cylinder_case : accurate rounded_trig /\ moderate 14 /\ ellipse_upto 14 (c_bot drum) /\
  frame (powerRZ 2 (-47)) (e_maj (c_bot drum)) (e_min (c_bot drum)) (e_n (c_bot drum)) /\
  (powerRZ 2 (-400) <= val (cyl_radius drum) <= 14 / 2)%R /\ number (c_h drum) /\ (0 <= val (c_h drum) <= 14)%R.
Proof. exact drum_ok. Qed.

(** All points that are sampled in a hollow cylinder are in it up to 2^-43 of the coordinates, whatever the seed: also not nearer to the axis than the inner radius. *)
Theorem c117_hollow : forall (T : Trig float) M (h : hollow float) (f : cyl float) (s : psampler float), hollow_full h = Ok f -> sampler_hollow h = Ok s ->
  accurate T -> moderate M -> ellipse_upto M (c_bot f) -> frame (powerRZ 2 (-47)) (e_maj (c_bot f)) (e_min (c_bot f)) (e_n (c_bot f)) ->
  number (hollow_inner h) -> number (h_outer h) -> (powerRZ 2 (-400) <= val (hollow_inner h) <= val (h_outer h))%R -> (val (h_outer h) <= M / 2)%R ->
  number (h_h h) -> (0 <= val (h_h h) <= M)%R ->
  forall n seed, let ps := fst (points (cyl_point s) n (seeded seed)) in length ps = n /\
  Forall (fun p => near_ring (powerRZ 2 (-43) * M) (val3 (e_c (h_bot h))) (val3 (e_n (c_bot f))) (val (hollow_inner h)) (val (h_outer h)) (val (h_h h)) (val3 p)) ps.
Proof. exact @hol_points. Qed.
Print Assumptions c117_hollow.
Example c117_hollow_made : make_hollow pt1 pd_n 3%float 7%float 5%float = Ok tube /\ hollow_full tube = Ok tube_full /\
  sampler_hollow (H0 := rounded_trig) tube = Ok (tube_sampler (H := rounded_trig)).
Proof. exact tube_made. Qed.
Example c117_hollow_case : accurate rounded_trig /\ moderate 14 /\ ellipse_upto 14 (c_bot tube_full) /\
  frame (powerRZ 2 (-47)) (e_maj (c_bot tube_full)) (e_min (c_bot tube_full)) (e_n (c_bot tube_full)) /\
  number (hollow_inner tube) /\ number (h_outer tube) /\ (powerRZ 2 (-400) <= val (hollow_inner tube) <= val (h_outer tube))%R /\ (val (h_outer tube) <= 14 / 2)%R /\
  number (h_h tube) /\ (0 <= val (h_h tube) <= 14)%R.
Proof. exact tube_ok. Qed.

(** The points of a box, and those of a cylinder, repeat after 357913941 points and not before. *)
Theorem c117_repeat : forall (T : Trig float) (b : box float) (s : psampler float) n seed,
  (snd (points (box_point b) n (seeded seed)) = seeded seed <-> (357913941 | Z.of_nat n)) /\
  (snd (points (cyl_point s) n (seeded seed)) = seeded seed <-> (357913941 | Z.of_nat n)).
Proof. exact all_repeat. Qed.
Print Assumptions c117_repeat.

(** There are at most 2147483646 different points, for all seeds together. *)
Theorem c117_few_points_refuted : forall (T : Trig float) (b : box float) (s : psampler float), exists L M,
  Z.of_nat (length L) = 2147483646 /\ Z.of_nat (length M) = 2147483646 /\
  forall n seed p, (In p (fst (points (box_point b) n (seeded seed))) -> In p L) /\ (In p (fst (points (cyl_point s) n (seeded seed))) -> In p M).
Proof. exact all_few. Qed.
Print Assumptions c117_few_points_refuted.

(** The points of the unit cube are not spread over it: all of them, for all seeds, are next to 1569 parallel planes. *)
Theorem c117_planes_refuted : forall (T : Trig float) n seed p,
  In p (fst (points (box_point unit_box) n (seeded seed))) -> on_planes (val (vx p)) (val (vy p)) (val (vz p)).
Proof. exact points_planes. Qed.
Print Assumptions c117_planes_refuted.
Example c117_planes_case : ~ on_planes 0 (/ 1146) 0.
Proof. exact between. Qed.
Example c117_planes_first :
  (Rabs (-218 * digits 16807 282475249 + 573 * digits (state 1 3) (state 1 4) - 777 * digits (state 1 5) (state 1 6) - 64) <= / 500000)%R.
Proof. exact first_plane. Qed.
