(** Examples for C99. *)

From Coq Require Import ZArith Reals Lra Lia Bool.
From Flocq Require Import Core.Core IEEE754.BinarySingleNaN IEEE754.PrimFloat.
From Coq Require Import Floats.
From Verif Require Import Base NumModel VecModel LinModel DistModel GeoSpec LinSpec DblSpec DblLemmas DblProofs DblExamples.
Local Open Scope R_scope.

Lemma not_negative x : PrimFloat.ltb (PrimFloat.sqrt x) 0 = false.
Proof.
  rewrite ltb_equiv, sqrt_equiv. replace (Prim2B 0) with (@B754_zero prec emax false) by (change 0%float with zero; rewrite zero_equiv, Prim2B_B2Prim; reflexivity).
  pose proof (Bsqrt_correct prec emax Hprec Hmax mode_NE (Prim2B x)) as (V & F & _).
  destruct (Prim2B x) as [[]|[]| |[] m e HB]; try reflexivity.
  rewrite Bltb_correct; [|exact F|reflexivity]. rewrite V. apply Rlt_bool_false. cbn [B2R].
  rewrite <- (round_0 radix2 (SpecFloat.fexp prec emax) (round_mode mode_NE)). apply round_le; [apply fexp_correct; exact Hprec|apply valid_rnd_round_mode|apply sqrt_pos].
Qed.
Lemma dist_not_negative (p q : V3 PrimFloat.float) : PrimFloat.ltb (dist_points p q) 0 = false.
Proof. apply not_negative. Qed.

Definition origin : V3 float := mkV3 0%float 0%float 0%float.
Definition at_x (x : float) : V3 float := mkV3 x 0%float 0%float.
Lemma at_val x m e : Prim2SF x = S754_finite false m e ->
  number3 (at_x x) /\ norm (val3 (at_x x)) = IZR (Zpos m) * bpow radix2 e /\ dist (val3 origin) (val3 (at_x x)) = IZR (Zpos m) * bpow radix2 e.
Proof.
  intros E. destruct (int_val x m e E) as [N V]. destruct zero_val as [Z W]. split; [repeat split; assumption|].
  assert (0 <= IZR (Z.pos m) * bpow radix2 e) as P by (apply Rmult_le_pos; [apply IZR_le; lia|apply bpow_ge_0]).
  unfold dist, norm, dot, psub, val3, origin, at_x. cbn [vx vy vz]. rewrite V, W. split.
  - transitivity (R_sqrt.sqrt ((IZR (Z.pos m) * bpow radix2 e) * (IZR (Z.pos m) * bpow radix2 e))); [f_equal; ring|apply sqrt_square, P].
  - transitivity (R_sqrt.sqrt ((IZR (Z.pos m) * bpow radix2 e) * (IZR (Z.pos m) * bpow radix2 e))); [f_equal; ring|apply sqrt_square, P].
Qed.
Lemma origin_number : number3 origin.
Proof. destruct zero_val. repeat split; assumption. Qed.
Lemma large_case : number3 (at_x 0x1p600%float) /\ dist (val3 origin) (val3 (at_x 0x1p600%float)) = powerRZ 2 600 /\
  dist_points origin (at_x 0x1p600%float) = infinity /\ to_dir (at_x 0x1p600%float) = origin.
Proof.
  destruct (at_val 0x1p600%float 4503599627370496 548 ltac:(vm_compute; reflexivity)) as (N & _ & D). split; [exact N|]. split.
  - rewrite D, two_p. change 600%Z with (52 + 548)%Z. rewrite bpow_plus. f_equal. 
  - split; vm_compute; reflexivity.
Qed.
Lemma small_case : number3 (at_x 0x1p-600%float) /\ dist (val3 origin) (val3 (at_x 0x1p-600%float)) = powerRZ 2 (-600) /\
  dist_points origin (at_x 0x1p-600%float) = 0%float /\ to_dir (at_x 0x1p-600%float) = mkV3 infinity nan nan /\
  pt_eq origin origin 0x1p-600%float = false.
Proof.
  destruct (at_val 0x1p-600%float 4503599627370496 (-652) ltac:(vm_compute; reflexivity)) as (N & _ & D). split; [exact N|]. split.
  - rewrite D, two_p. change (-600)%Z with (52 + -652)%Z. rewrite bpow_plus. f_equal.
  - repeat split; vm_compute; reflexivity.
Qed.

(** two corners of a unit cube at 3 10^8 *)
Definition corner1 : V3 float := mkV3 300000000%float 0%float 0%float.
Definition corner2 : V3 float := mkV3 300000001%float 1%float 1%float.
Lemma p_m500 : powerRZ 2 (-500) <= 1.
Proof. rewrite two_p. change 1 with (bpow radix2 0). apply bpow_le. lia. Qed.
Lemma corners_case : number3 corner1 /\ number3 corner2 /\ within3 (powerRZ 2 500) corner1 /\ within3 (powerRZ 2 500) corner2 /\ gap3 corner1 corner2 /\
  dist (val3 corner1) (val3 corner2) = R_sqrt.sqrt 3.
Proof.
  destruct near_vals as ((N0 & V0) & (N1 & V1) & _). destruct zero_val as [Z0 W0]. destruct one_val as [Z1 W1]. pose proof p_500. pose proof p_m500.
  unfold number3, within3, gap3, gap, dist, norm, dot, psub, val3, corner1, corner2. cbn [vx vy vz]. rewrite V0, V1, W0, W1.
  repeat split; try assumption; try (rewrite Rabs_pos_eq; lra); try (right; rewrite Rabs_pos_eq; lra). f_equal. ring.
Qed.
Lemma two_val : number 2%float /\ val 2 = 2.
Proof.
  destruct (int_val 2%float 4503599627370496 (-51) ltac:(vm_compute; reflexivity)) as [N V]. split; [exact N|]. rewrite V.
  change (bpow radix2 (-51)) with (/ 2251799813685248). lra.
Qed.
Lemma corners_eps : number 1%float /\ number 2%float /\ powerRZ 2 (-500) <= val 1%float <= powerRZ 2 500 /\ powerRZ 2 (-500) <= val 2%float <= powerRZ 2 500 /\
  (1 + powerRZ 2 (-50)) * val 1%float <= R_sqrt.sqrt 3 <= (1 - powerRZ 2 (-50)) * val 2%float.
Proof.
  destruct one_val as [Z1 W1]. destruct two_val as [Z2 W2]. rewrite W1, W2. pose proof p_500. pose proof p_m500.
  split; [assumption|]. split; [assumption|]. split; [lra|]. split; [lra|]. rewrite two_p. change (bpow radix2 (-50)) with (/ 1125899906842624). split.
  - rewrite <- (sqrt_square ((1 + / 1125899906842624) * 1)) by lra. apply sqrt_le_1_alt. lra.
  - rewrite <- (sqrt_square ((1 - / 1125899906842624) * 2)) by lra. apply sqrt_le_1_alt. lra.
Qed.
Lemma dir_case : number3 corner2 /\ within3 (powerRZ 2 500) corner2 /\ sizable3 corner2 /\ norm (val3 corner2) <> 0.
Proof.
  destruct corners_case as (_ & N & _ & W & _). split; [exact N|]. split; [exact W|].
  destruct near_vals as (_ & (N1 & V1) & _). destruct one_val as [Z1 W1]. pose proof p_m500.
  unfold sizable3, sizable, norm, dot, val3, corner2. cbn [vx vy vz]. rewrite V1, W1.
  split; [repeat split; right; rewrite Rabs_pos_eq; lra|]. apply Rgt_not_eq, sqrt_lt_R0. lra.
Qed.
