(** Examples for C108: an ellipse, a circle with an oblique normal, an arc that passes the angle zero and draws in between. *)

From Coq Require Import ZArith Reals List Lra Lia Psatz Bool.
From Flocq Require Import Core.Core IEEE754.BinarySingleNaN IEEE754.PrimFloat.
From Coq Require Import Floats.
From Verif Require Import Base NumModel VecModel LinModel RoundModel SampModel GeoSpec DblSpec GeoLemmas DblLemmas DblProofs DblExamples
  LinDblSpec LinDblBase LinDblFoot LinDblProofs LinDblExamples RndDblSpec RndDblProofs RndDblExamples TrigDblSpec TrigDblExamples PtDblSpec PtDblProofs FrDblProofs.
Local Open Scope R_scope.

Definition pd_n : V3 PrimFloat.float := to_dir pt3.
Definition pd_circle : ell PrimFloat.float := make_circle pt1 pd_n 7%float.
Definition pd_ell : ell PrimFloat.float := make_ell pt2 axis_x axis_z 7%float 3%float.
Definition pd_arc : arc PrimFloat.float := mkArc pd_ell pt0 pt0 5%float 1%float false.

Lemma v1h : number 0.5%float /\ val 0.5%float = / 2.
Proof. destruct (int_val 0.5%float 4503599627370496 (-53) ltac:(vm_compute; reflexivity)) as [N V]. split; [exact N|]. rewrite V. change (bpow radix2 (-53)) with (/ 9007199254740992). lra. Qed.
Lemma plain_by (x : PrimFloat.float) : number x -> PrimFloat.leb 0x1p-100%float x = true -> plain x.
Proof.
  intros N L. destruct (int_val 0x1p-100%float 4503599627370496 (-152) ltac:(vm_compute; reflexivity)) as [Nc Vc].
  apply (proj1 (f_leb _ _ Nc N)) in L. rewrite Vc in L. right. rewrite two_p. change 4503599627370496 with (bpow radix2 52) in L. rewrite <- bpow_plus in L.
  change (52 + -152)%Z with (-100)%Z in L. eapply Rle_trans; [exact L|apply Rle_abs].
Qed.
Lemma plain_0 : plain 0%float.
Proof. left. exact (proj2 zero_val). Qed.
Lemma plain_1 : plain 1%float.
Proof. apply plain_by; [exact (proj1 one_val)|vm_compute; reflexivity]. Qed.
Lemma plain_axes : plain3 axis_x /\ plain3 axis_z.
Proof. split; (split; [|split]); (exact plain_0 || exact plain_1). Qed.
Lemma pd_n_plain : plain3 pd_n.
Proof. destruct made_dir as [(A & B & C) _]. split; [|split]; (apply plain_by; [assumption|vm_compute; reflexivity]). Qed.
Lemma p47 : 0 <= powerRZ 2 (-47).
Proof. rewrite two_p. apply bpow_ge_0. Qed.
Lemma axes_dot : Rabs (dot (val3 axis_x) (val3 axis_z)) <= powerRZ 2 (-47).
Proof.
  destruct zero_val as [N0 V0], one_val as [N1 V1]. unfold dot, val3, axis_x, axis_z. cbn [vx vy vz]. rewrite V0, V1.
  replace (1 * 0 + 0 * 0 + 0 * 1) with 0 by ring. rewrite Rabs_R0. exact p47.
Qed.
Lemma pd_frames : frame (powerRZ 2 (-47)) (e_maj pd_circle) (e_min pd_circle) (e_n pd_circle) /\ frame (powerRZ 2 (-47)) (e_maj pd_ell) (e_min pd_ell) (e_n pd_ell).
Proof.
  split.
  - exact (proj1 (circle_frame pt1 pd_n 7%float made_dir pd_n_plain)).
  - exact (proj1 (made_frame pt2 axis_x axis_z 7%float 3%float (proj1 axis_dir) (proj2 axis_dir) (proj1 plain_axes) (proj2 plain_axes) axes_dot)).
Qed.
Lemma pd_upto : ellipse_upto 12 pd_circle /\ ellipse_upto 12 pd_ell.
Proof.
  destruct pd_frames as [(A & B & C & _) (D & E & F & _)]. destruct pts_upto as (_ & P1 & P2 & _). destruct rd_radii as (R7 & R3 & _).
  split; (split; [assumption|split; [assumption|split; [assumption|split; [assumption|split; assumption]]]]).
Qed.
Lemma pd_draws : (number 12%float /\ 0 <= val 12%float <= 7 * 7) /\ (number 3%float /\ Rabs (val 3%float) <= powerRZ 2 20) /\ (number 4%float /\ 0 <= val 4%float <= 5).
Proof.
  destruct v12 as [N12 V12], v3 as [N3 V3'], v4 as [N4 V4]. rewrite V12, V3', V4, two_p. change (bpow radix2 20) with 1048576. rewrite Rabs_pos_eq by lra.
  repeat split; try assumption; lra.
Qed.
Lemma pd_angles : (number (a_s pd_arc) /\ 0 <= val (a_s pd_arc) <= 7) /\ (number (a_t pd_arc) /\ 0 <= val (a_t pd_arc) <= 7) /\ (number 0.5%float /\ 0 <= val 0.5%float <= 1).
Proof.
  unfold pd_arc. cbn [a_s a_t]. destruct v5 as [N5 V5], one_val as [N1 V1], v1h as [NH VH]. rewrite V5, V1, VH. repeat split; try assumption; lra.
Qed.
Lemma pd_arc_angle : arc_angle (val (a_s pd_arc)) (val (a_t pd_arc)) (val 0.5%float) = 3 + PI.
Proof.
  unfold pd_arc, arc_angle. cbn [a_s a_t]. rewrite (proj2 v5), (proj2 one_val), (proj2 v1h). destruct (Rlt_dec 5 1); lra.
Qed.
