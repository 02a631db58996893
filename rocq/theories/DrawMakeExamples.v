(** Concrete cases for C119 and C120: a box, cylinders of the heights 5 and -1 and lengths around 30. *)

From Coq Require Import ZArith Reals Lra Lia Psatz Bool List.
From Flocq Require Import Core.Core IEEE754.BinarySingleNaN IEEE754.PrimFloat.
From Coq Require Import Floats.
From Verif Require Import Base NumModel VecModel LinModel RoundModel PolyModel DistModel IntModel SampModel DomModel RngModel DrawModel DrawMakeModel GeoSpec DblSpec LinDblSpec TrigDblSpec RngSpec DrawSpec DblLemmas DblProofs DblExamples LinDblBase LinDblExamples RndDblExamples SpDblProofs
  TrigDblExamples PtDblExamples RngExamples RngHolExamples DrawExamples DrawMake.
Import ListNotations.
Local Open Scope R_scope.

(** a cylinder below its bottom: the height is -1 *)
Definition sunk : cyl float := mkCyl (-1)%float (make_top_disk pd_circle (-1)%float) pd_circle.
Lemma sunk_made : make_cyl_disk pd_circle (-1)%float = Ok sunk.
Proof. reflexivity. Qed.
Lemma minus1 : number (-1)%float /\ val (-1)%float = -1.
Proof. destruct one_val as [N V]. destruct (f_opp 1%float N) as [A B]. rewrite V in B. split; [exact A|exact B]. Qed.
Lemma seven_small : number 7%float /\ Rabs (val 7%float) <= powerRZ 2 500.
Proof. destruct v7 as [N V]. split; [exact N|]. rewrite V, two_p, Rabs_pos_eq by lra. apply Rle_trans with (bpow radix2 3); [change (bpow radix2 3) with 8; lra|apply bpow_le; lia]. Qed.
Lemma sunk_open (T : Trig float) : accurate T -> make_ranges (sampler_cyl sunk) = UB.
Proof.
  intros HT. destruct minus1 as [N V], seven_small as [N7 B7]. destruct (cyl_made T sunk HT N7 B7 N) as [[_ L]|[E _]]; [|exact E]. change (c_h sunk) with (-1)%float in L. lra.
Qed.
Lemma drum_small : number (cyl_radius drum) /\ Rabs (val (cyl_radius drum)) <= powerRZ 2 500 /\ number (c_h drum) /\ 0 <= val (c_h drum).
Proof. change (cyl_radius drum) with 7%float. change (c_h drum) with 5%float. destruct v5 as [N V]. rewrite V. split; [exact (proj1 seven_small)|]. split; [exact (proj2 seven_small)|]. split; [exact N|lra]. Qed.
Lemma small_box : number 3%float /\ number 7%float /\ make_box 3%float 3%float 3%float 7%float 7%float 7%float = Ok (mkBox (mkV3 3 3 3)%float (mkV3 7 7 7)%float).
Proof. split; [exact (proj1 v3)|]. split; [exact (proj1 v7)|reflexivity]. Qed.
Lemma wrong_order : number 0.5%float /\ number 0x1.999999999999ap-4%float /\ val 0x1.999999999999ap-4%float <= val 0.5%float /\ Rabs (val 0.5%float) <= powerRZ 2 1021 /\ Rabs (val 0x1.999999999999ap-4%float) <= powerRZ 2 1021 /\ engine_value 1.
Proof.
  destruct (int_val 0.5%float 4503599627370496 (-53) ltac:(vm_compute; reflexivity)) as [N V]. destruct (int_val 0x1.999999999999ap-4%float 7205759403792794 (-56) ltac:(vm_compute; reflexivity)) as [N' V'].
  rewrite V, V', two_p. change (bpow radix2 (-53)) with (/ 9007199254740992). change (bpow radix2 (-56)) with (/ 72057594037927936).
  assert (1 <= bpow radix2 1021) by (change 1 with (bpow radix2 0); apply bpow_le; lia). split; [exact N|]. split; [exact N'|]. split; [lra|]. split; [rewrite Rabs_pos_eq; lra|]. split; [rewrite Rabs_pos_eq; lra|]. unfold engine_value. lia.
Qed.
(** mean 60, standard deviation 3, at least 12 *)
Lemma v60 : number 60%float /\ val 60%float = 60.
Proof. destruct (int_val 60%float 8444249301319680 (-47) ltac:(vm_compute; reflexivity)) as [N V]. split; [exact N|]. rewrite V. change (bpow radix2 (-47)) with (/ 140737488355328). lra. Qed.
Lemma wide_mean : number 60%float /\ number 3%float /\ number 12%float /\ powerRZ 2 (-900) <= 64 <= powerRZ 2 900 /\ Rabs (val 60%float) <= 64 /\ Rabs (val 3%float) <= 64 /\
  val 12%float + 122 / 10 * Rabs (val 3%float) + powerRZ 2 (-48) * 64 <= val 60%float.
Proof.
  destruct v60 as [A B], v3 as [C D], v12 as [E F]. rewrite B, D, F. split; [exact A|]. split; [exact C|]. split; [exact E|].
  assert (powerRZ 2 (-48) = / 281474976710656) as -> by (rewrite two_p; reflexivity). rewrite !two_p, !Rabs_pos_eq by lra. repeat split; try lra.
  - apply Rle_trans with (bpow radix2 0); [apply bpow_le; lia|change (bpow radix2 0) with 1; lra].
  - change 64 with (bpow radix2 6). apply bpow_le; lia.
Qed.
Lemma tube_small : make_hollow pt1 pd_n 3%float 7%float 5%float = Ok tube /\ sampler_hollow (H0 := rounded_trig) tube = Ok (tube_sampler (H := rounded_trig)) /\ number 3%float /\ number 7%float /\ number 5%float /\ - val 7%float <= val 3%float /\ val 7%float <= powerRZ 2 500.
Proof.
  destruct tube_made as (A & _ & B), v3 as [N3 V3'], v5 as [N5 _], seven_small as [N7 B7]. split; [exact A|]. split; [exact B|]. split; [exact N3|]. split; [exact N7|]. split; [exact N5|]. rewrite V3'. apply Rabs_le_inv in B7 as B8. rewrite (proj2 v7) in *. lra.
Qed.
(** a hollow cylinder with the inner radius -7 and the outer radius 3 *)
Definition inside_out : hollow float := mkHollow (make_circle pt1 pd_n (-7)%float) (make_circle (vadd pt1 (vscale pd_n 5%float)) pd_n (-7)%float) 3%float 5%float.
Definition inside_bot : ell float := let b := make_circle pt1 (e_n (h_bot inside_out)) 3%float in make_ell pt1 (e_maj b) (e_min b) 3%float 3%float.
Lemma inside_made (T : Trig float) : make_hollow pt1 pd_n (-7)%float 3%float 5%float = Ok inside_out /\
  exists s, sampler_hollow inside_out = Ok s /\ make_ranges s = UB.
Proof. split; [reflexivity|]. exists (CylSampler inside_bot (49, 9)%float (0%float, (nlit 2 1 * npi)%num) (0, 5)%float). split; reflexivity. Qed.
(** lengths from 3 to 7, at least 3 *)
Lemma lengths_37 : number 3%float /\ number 7%float /\ val 3%float <= val 3%float /\ val 3%float <= val 7%float /\ Rabs (val 3%float) <= powerRZ 2 1021 /\ Rabs (val 7%float) <= powerRZ 2 1021.
Proof.
  destruct v3 as [N V], v7 as [N' V']. rewrite V, V', two_p, !Rabs_pos_eq by lra. assert (8 <= bpow radix2 1021) by (change 8 with (bpow radix2 3); apply bpow_le; lia). repeat split; try assumption; lra.
Qed.
