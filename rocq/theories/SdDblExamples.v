(** Examples for C114: a vector turned about an oblique axis, and a disk whose first draws are unusable. *)

From Coq Require Import ZArith Reals List Lra Lia Psatz Bool.
From Flocq Require Import Core.Core IEEE754.BinarySingleNaN IEEE754.PrimFloat.
From Coq Require Import Floats.
From Verif Require Import Base NumModel VecModel LinModel RoundModel SampModel GeoSpec SampSpec DblSpec GeoLemmas DblLemmas DblProofs DblExamples
  LinDblSpec LinDblBase LinDblFoot LinDblProofs LinDblExamples RndDblSpec RndDblProofs RndDblExamples TrigDblSpec TrigDblExamples PtDblSpec SdDblSpec SdDblProofs SdDblDisk SdDblFrame.
Import ListNotations.
Local Open Scope R_scope.

(** ** The oblique axis *)
Definition sd_axis : V3 PrimFloat.float := to_dir pt3.
Definition sd_unit : pt := pscale (/ norm (val3 sd_axis)) (val3 sd_axis).
Lemma sd_unit_is : unit3 sd_unit /\ dist (val3 sd_axis) sd_unit <= powerRZ 2 (-50).
Proof.
  destruct (dir_norm sd_axis made_dir) as (P & _). destruct (unit_of (val3 sd_axis) P) as (A & B & _). split; [exact A|].
  unfold dist, sd_unit. rewrite B. exact (proj2 made_dir).
Qed.
Lemma usual_of (t : PrimFloat.float) k : number t /\ val t = k -> Rabs k <= 1048576 -> usual_angle t.
Proof. intros [N V] B. split; [exact N|]. rewrite V, two_p. exact B. Qed.
Lemma sd_angles : usual_angle 1%float /\ usual_angle 3%float /\ usual_angle 4%float.
Proof. split; [|split]; (eapply usual_of; [exact one_val || exact v3 || exact v4|rewrite Rabs_pos_eq; lra]). Qed.

(** ** The disk: the major axis is drawn as -1 and 7, the minor axis as 0 and 12 *)
Definition sd_neg1 : PrimFloat.float := (-1)%float.
Definition sd_maj : draws PrimFloat.float := fun i => match i with O => sd_neg1 | _ => 7%float end.
Definition sd_min : draws PrimFloat.float := fun i => match i with O => 0%float | _ => 12%float end.
Lemma neg1 : number sd_neg1 /\ val sd_neg1 = -1.
Proof.
  assert (sd_neg1 = (0 - 1)%float) as -> by (vm_compute; reflexivity). destruct zero_val as [N0 V0], one_val as [N1 V1].
  destruct (ex_sub0l 0%float 1%float 1 (conj N0 V0) (conj N1 V1) ltac:(rewrite Rabs_R1; lra)) as [A B]. split; [exact A|]. rewrite B. lra.
Qed.
Lemma sd_numbers : (forall i, number (sd_maj i)) /\ (forall i, number (sd_min i)) /\ (forall i, val (sd_maj i) <= 12) /\ (forall i, val (sd_min i) <= 12).
Proof.
  destruct neg1 as [A B], v7 as [C D], v12 as [E F], zero_val as [G H].
  split; [|split; [|split]]; intros [|i]; cbn [sd_maj sd_min]; try assumption; rewrite ?B, ?D, ?F, ?H; lra.
Qed.
Lemma sd_samples (T : Trig PrimFloat.float) : exists e, sample_disk sd_maj sd_min 1%float 3%float 4%float pt1 5 = Ok e /\ e_a e = 7%float /\ e_b e = 7%float.
Proof.
  unfold sample_disk.
  assert (draw_until (fun a => negb (a <=? n0)%num) sd_maj 0 5 = Ok (7%float, 2%nat)) as -> by (vm_compute; reflexivity).
  assert (draw_until (fun a => negb (a <=? n0)%num) sd_min 0 5 = Ok (12%float, 2%nat)) as -> by (vm_compute; reflexivity).
  cbn [obind fst]. eexists. split; [reflexivity|]. split; reflexivity.
Qed.
Lemma sd_centre : point_upto 12 pt1.
Proof. exact (proj1 (proj2 pts_upto)). Qed.
