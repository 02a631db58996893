(** Examples for C119: numbers of corners from 4 to 9, and logarithms that are rounded. *)

From Coq Require Import ZArith Reals Lra Lia Psatz Bool List.
From Flocq Require Import Core.Core.
From Coq Require Import Floats.
From Verif Require Import Base NumModel VecModel RoundModel PolyModel DistModel IntModel SampModel DomModel RngModel GeoSpec DblSpec DomSpec RngSpec DblLemmas DblProofs DblLen DblExamples LinDblBase LinDblExamples RndDblProofs RndDblExamples
  TrigDblSpec TrigDblExamples AgDblProofs DomProofs RngProofs DrawModel DrawSpec DrawProofs DrawDbl.
Import ListNotations.
Local Open Scope R_scope.

(** appl/example4/example4.cc:128: numbers of corners, for the seed 1 *)
Lemma corners_1 : draw_ints 4 9 3 8 (seeded 1) = Ok ([4; 4; 8; 6; 7; 5; 4; 8]%Z, 1457850878%Z).
Proof. vm_compute. reflexivity. Qed.
Lemma enough_fuel : exists fuel, (2147483646 <= Z.of_nat fuel)%Z.
Proof. exists (Z.to_nat 2147483646). rewrite Z2Nat.id by lia. lia. Qed.
Lemma rounded_log : accurate_log (rounded ln).
Proof.
  intros r N [R0 R1]. unfold rounded.
  assert (bpow radix2 (-1074) <= val r) as Rl. { apply generic_format_ge_bpow with fex; [intros e; unfold fex, FLT_exp; lia|exact R0|apply val_format]. }
  assert (- 800 <= ln (val r)) as L1.
  { apply Rle_trans with (ln (bpow radix2 (-1074))).
    - rewrite bpow_exp, ln_exp. change (IZR radix2) with 2. pose proof ln2_le. lra.
    - destruct (Rle_lt_or_eq_dec _ _ Rl) as [K|K]; [left; apply ln_increasing; [apply bpow_gt_0|exact K]|rewrite K; right; reflexivity]. }
  assert (ln (val r) <= val r - 1) as L2. { pose proof (exp_ineq1_le (ln (val r))) as E. rewrite exp_ln in E by exact R0. lra. }
  destruct (to_float_val (ln (val r))) as [Nf Vf]. { apply Rle_trans with (bpow radix2 10); [|apply bpow_le; lia]. change (bpow radix2 10) with 1024. apply Rabs_le. lra. }
  split; [exact Nf|]. rewrite Vf. destruct (Rle_lt_or_eq_dec _ _ R1) as [K|K].
  - pose proof (canonical_le r (conj N (conj (Rlt_le _ _ R0) K))) as C. pose proof U_pos as [U0 U1].
    eapply Rle_trans; [apply rel_any|].
    + rewrite Rabs_left by lra. apply Rle_trans with U; [|lra]. change U with (bpow radix2 (-53)). apply bpow_le. lia.
    + apply Rmult_le_compat_r; [apply Rabs_pos|]. rewrite two_p. change U with (bpow radix2 (-53)). apply bpow_le. lia.
  - rewrite K, ln_1, rnd_0, Rminus_0_r, Rabs_R0. lra.
Qed.
(** a mean of 3 and a standard deviation of 1 *)
Lemma three_one : number 3%float /\ number 1%float /\ powerRZ 2 (-900) <= 3 <= powerRZ 2 900 /\ Rabs (val 3%float) <= 3 /\ Rabs (val 1%float) <= 3.
Proof.
  destruct v3 as [A B], one_val as [C D]. rewrite B, D, !Rabs_pos_eq, !two_p by lra. repeat split; try assumption; try lra.
  - apply Rle_trans with (bpow radix2 0); [apply bpow_le; lia|cbn; lra].
  - apply Rle_trans with (bpow radix2 2); [cbn; lra|apply bpow_le; lia].
Qed.
Lemma three_seven : number 3%float /\ number 7%float /\ val 3%float <= val 7%float /\ Rabs (val 3%float) <= powerRZ 2 1021 /\ Rabs (val 7%float) <= powerRZ 2 1021.
Proof.
  destruct v3 as [A B], v7 as [C D]. rewrite B, D, !Rabs_pos_eq, !two_p by lra. assert (7 <= bpow radix2 1021) by (apply Rle_trans with (bpow radix2 3); [cbn; lra|apply bpow_le; lia]). repeat split; try assumption; lra.
Qed.
(** sizes from [5000000, 5000001) *)
Lemma upper_end : fst (draw_real 5000000%float 5000001%float (seeded 671875339)) = 5000001%float.
Proof. vm_compute. reflexivity. Qed.
Lemma corners_range : (0 <= 9 - 4 <= 2147483645)%Z /\ (4 <= 9 <= 9)%Z.
Proof. lia. Qed.
Lemma corners_one : engine_value 1 /\ draw_int 4 9 1 1 = Ok (4%Z, next 1).
Proof. split; [unfold engine_value; lia|vm_compute; reflexivity]. Qed.
(** a mean of -13 and a standard deviation of 1 *)
Lemma minus13 : number (-13)%float /\ val (-13)%float = -13.
Proof.
  destruct (int_val 13%float 7318349394477056 (-49) ltac:(vm_compute; reflexivity)) as [N V]. change (bpow radix2 (-49)) with (/ 562949953421312) in V. assert (val 13%float = 13) as V' by (rewrite V; lra).
  assert ((-13)%float = (0 - 13)%float) as -> by (vm_compute; reflexivity). destruct zero_val as [N0 V0].
  destruct (f_sub 0%float 13%float N0 N) as [A B]. { rewrite V0, V', Rabs_left by lra. pose proof big. lra. } split; [exact A|]. rewrite B, V0, Rminus_0_l, rnd_opp, rnd_val, V'. reflexivity.
Qed.
Lemma far_mean : number (-13)%float /\ number 1%float /\ powerRZ 2 (-900) <= 16 <= powerRZ 2 900 /\ Rabs (val (-13)%float) <= 16 /\ Rabs (val 1%float) <= 16 /\ val (-13)%float < - (122 / 10 * Rabs (val 1%float) + powerRZ 2 (-48) * 16).
Proof.
  destruct minus13 as [A B], one_val as [C D]. assert (powerRZ 2 (-48) = / 281474976710656) as -> by (rewrite two_p; reflexivity). rewrite B, D, Rabs_R1, (Rabs_left (-13)), !two_p by lra. repeat split; try assumption; try lra.
  - apply Rle_trans with (bpow radix2 0); [apply bpow_le; lia|cbn; lra].
  - apply Rle_trans with (bpow radix2 4); [cbn; lra|apply bpow_le; lia].
Qed.
Lemma three_one' : 0 <= val 3%float <= powerRZ 2 900 /\ powerRZ 2 (-900) <= val 1%float <= powerRZ 2 900.
Proof.
  destruct v3 as [A B], one_val as [C D]. rewrite B, D, !two_p. repeat split; try lra.
  - apply Rle_trans with (bpow radix2 2); [cbn; lra|apply bpow_le; lia].
  - apply Rle_trans with (bpow radix2 0); [apply bpow_le; lia|cbn; lra].
  - apply Rle_trans with (bpow radix2 2); [cbn; lra|apply bpow_le; lia].
Qed.
