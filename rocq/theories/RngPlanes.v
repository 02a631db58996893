(** Proofs for C117: the points lie on few planes. *)

From Coq Require Import ZArith Znumtheory Reals Lra Lia Psatz Bool List.
From Flocq Require Import Core.Core IEEE754.BinarySingleNaN IEEE754.PrimFloat.
From Coq Require Import Floats.
From Verif Require Import Base NumModel VecModel LinModel RoundModel PolyModel DistModel IntModel SampModel DomModel RngModel GeoSpec LinSpec DblSpec DomSpec RngSpec
  DblLemmas DblLen DblProofs DblExamples DomProofs DomExamples LinDblSpec LinDblBase RndDblProofs RngProofs RngDbl.
Import ListNotations.
Local Open Scope Z_scope.

Lemma next2 x : exists q, next (next x) = 282475249 * x - 2147483647 * q.
Proof.
  unfold next, multiplier, modulus. exists (16807 * (16807 * x / 2147483647) + (16807 * ((16807 * x) mod 2147483647)) / 2147483647).
  pose proof (Z.div_mod (16807 * x) 2147483647 ltac:(lia)) as E1. pose proof (Z.div_mod (16807 * ((16807 * x) mod 2147483647)) 2147483647 ltac:(lia)) as E2. lia.
Qed.
Lemma combination y : exists k, -218 * y + 573 * next (next y) - 777 * next (next (next (next y))) = 2147483647 * k.
Proof.
  destruct (next2 y) as [q E]. destruct (next2 (next (next y))) as [q' E']. rewrite E', E.
  exists ((-218 + 573 * 282475249 - 777 * 282475249 * 282475249) / 2147483647 * y - 573 * q + 777 * 282475249 * q + 777 * q').
  change ((-218 + 573 * 282475249 - 777 * 282475249 * 282475249) / 2147483647) with (-28870343594). lia.
Qed.

Local Open Scope R_scope.
Lemma digits_range x1 x2 : engine_value x1 -> engine_value x2 -> 0 <= digits x1 x2 <= 1.
Proof.
  intros H1 H2. unfold engine_value in *. unfold digits.
  assert (0 <= IZR (x1 - 1) <= 2147483645) by (split; [apply (IZR_le 0); lia|apply (IZR_le _ 2147483645); lia]).
  assert (0 <= IZR (x2 - 1) <= 2147483645) by (split; [apply (IZR_le 0); lia|apply (IZR_le _ 2147483645); lia]).
  split; lra.
Qed.
Lemma digits_planes w1 y1 w2 y2 w3 y3 k : engine_value w1 -> engine_value y1 -> engine_value w2 -> engine_value y2 -> engine_value w3 -> engine_value y3 ->
  (-218 * y1 + 573 * y2 - 777 * y3 = 2147483647 * k)%Z -> Rabs (-218 * digits w1 y1 + 573 * digits w2 y2 - 777 * digits w3 y3 - IZR k) <= / 600000.
Proof.
  unfold engine_value. intros H1 H2 H3 H4 H5 H6 E. assert (-995 <= k <= 573)%Z as Hk by lia.
  assert (forall w, (1 <= w <= 2147483646)%Z -> 0 <= IZR (w - 1) <= 2147483645) as B by (intros w Hw; split; [apply (IZR_le 0); lia|apply (IZR_le _ 2147483645); lia]).
  assert (-218 * IZR (y1 - 1) + 573 * IZR (y2 - 1) - 777 * IZR (y3 - 1) = 2147483647 * IZR k + 422) as ER.
  { rewrite <- !mult_IZR, <- plus_IZR, <- minus_IZR. rewrite <- plus_IZR. f_equal. lia. }
  unfold digits. pose proof (B w1 H1). pose proof (B w2 H3). pose proof (B w3 H5). pose proof (IZR_le _ _ (proj1 Hk)). pose proof (IZR_le _ _ (proj2 Hk)).
  apply Rabs_le. split; lra.
Qed.

Lemma draws_planes x : engine_value x -> let '(u1, s1) := draw x in let '(u2, s2) := draw s1 in let '(u3, s3) := draw s2 in on_planes (val u1) (val u2) (val u3).
Proof.
  intros Hx. pose proof (run_value x 1 Hx) as A1. pose proof (run_value x 2 Hx) as A2. pose proof (run_value x 3 Hx) as A3. pose proof (run_value x 4 Hx) as A4. pose proof (run_value x 5 Hx) as A5. pose proof (run_value x 6 Hx) as A6.
  unfold draw. cbv zeta. cbn [Nat.iter nat_rect] in *. destruct (combination (next (next x))) as [k K].
  pose proof (digits_planes _ _ _ _ _ _ _ A1 A2 A3 A4 A5 A6 K) as D.
  destruct (fraction_ok _ _ A1 A2) as [[_ C1] F1]. destruct (fraction_ok _ _ A3 A4) as [[_ C2] F2]. destruct (fraction_ok _ _ A5 A6) as [[_ C3] F3].
  revert K D C1 F1 C2 F2 C3 F3. generalize (val (fraction (next x) (next (next x)))) as u1. generalize (val (fraction (next (next (next x))) (next (next (next (next x)))))) as u2. generalize (val (fraction (next (next (next (next (next x))))) (next (next (next (next (next (next x)))))))) as u3.
  generalize (digits (next x) (next (next x))) as d1. generalize (digits (next (next (next x))) (next (next (next (next x))))) as d2. generalize (digits (next (next (next (next (next x))))) (next (next (next (next (next (next x))))))) as d3.
  intros d3 d2 d1 u3 u2 u1 _ D C1 F1 C2 F2 C3 F3. exists k.
  assert (powerRZ 2 (-50) = / 1125899906842624) as P by (rewrite two_p; reflexivity). rewrite P in *. apply Rabs_le_inv in D, F1, F2, F3.
  assert (Rabs (-218 * u1 + 573 * u2 - 777 * u3 - IZR k) <= / 500000) as M by (apply Rabs_le; lra). split; [|exact M]. apply Rabs_le_inv in M.
  assert (IZR k < 574 /\ -996 < IZR k) as [Q1 Q2] by lra. apply lt_IZR in Q1. apply lt_IZR in Q2. lia.
Qed.

Definition unit_box : box PrimFloat.float := mkBox (mkV3 0 0 0)%float (mkV3 1 1 1)%float.
Lemma unit_draw u : canonical u -> val (u * (1 - 0) + 0)%float = val u.
Proof.
  intros [Nu Hu]. destruct zero_val as [N0 V0], one_val as [N1 V1]. change (1 - 0)%float with 1%float.
  assert (2 <= bpow radix2 1023) as W by (change 2 with (bpow radix2 1); apply bpow_le; lia).
  destruct (f_mul u 1 Nu N1) as [N2 V2]; [rewrite V1, Rmult_1_r, Rabs_pos_eq; lra|]. rewrite V1, Rmult_1_r, rnd_val in V2.
  destruct (f_add (u * 1)%float 0 N2 N0) as [N3 V3]; [rewrite V2, V0, Rplus_0_r, Rabs_pos_eq; lra|]. rewrite V3, V0, Rplus_0_r, rnd_val, V2. reflexivity.
Qed.
Lemma points_planes (T : Trig PrimFloat.float) n seed p : In p (fst (points (box_point unit_box) n (seeded seed))) -> on_planes (val (vx p)) (val (vy p)) (val (vz p)).
Proof.
  intros Hp. destruct (points_from (box_point unit_box) (box_state unit_box) n _ (seeded_value seed) p Hp) as (x & Hx & ->).
  pose proof (draws_planes x Hx) as D. unfold box_point. pose proof (draw_canonical x Hx) as D1. destruct (draw x) as [u1 s1]. cbn [fst snd] in D1. pose proof (draw_canonical s1 (proj2 D1)) as D2. destruct (draw s1) as [u2 s2]. cbn [fst snd] in D2.
  pose proof (draw_canonical s2 (proj2 D2)) as D3. destruct (draw s2) as [u3 s3]. cbn [fst snd] in D3.
  change (fst (sample_point (sampler_box unit_box) u1 u2 u3, s3)) with (mkV3 (u1 * (1 - 0) + 0) (u2 * (1 - 0) + 0) (u3 * (1 - 0) + 0))%float. cbn [vx vy vz].
  rewrite !unit_draw; [exact D|apply D3|apply D2|apply D1].
Qed.

Lemma all_repeat (T : Trig PrimFloat.float) b s n seed : (snd (points (box_point b) n (seeded seed)) = seeded seed <-> (357913941 | Z.of_nat n)%Z) /\
  (snd (points (cyl_point s) n (seeded seed)) = seeded seed <-> (357913941 | Z.of_nat n)%Z).
Proof. split; apply points_repeat; try apply seeded_value; [apply box_state|apply cyl_state]. Qed.
Lemma all_few (T : Trig PrimFloat.float) b s : exists L M, Z.of_nat (length L) = 2147483646%Z /\ Z.of_nat (length M) = 2147483646%Z /\
  forall n seed p, (In p (fst (points (box_point b) n (seeded seed))) -> In p L) /\ (In p (fst (points (cyl_point s) n (seeded seed))) -> In p M).
Proof.
  destruct (few_points (box_point b) (box_state b)) as (L & HL & A). destruct (few_points (cyl_point s) (cyl_state s)) as (M & HM & B).
  exists L, M. split; [exact HL|]. split; [exact HM|]. intros n seed p. split; [apply A|apply B].
Qed.
