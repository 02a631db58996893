(** Proofs for C120: angles in degrees, and the normal distributions of the example applications. *)

From Coq Require Import ZArith Reals Lra Lia Psatz Bool List.
From Flocq Require Import Core.Core IEEE754.BinarySingleNaN IEEE754.PrimFloat.
From Coq Require Import Floats.
From Verif Require Import Base NumModel VecModel LinModel RoundModel PolyModel SampModel DrawMakeModel DrawRadModel GeoSpec DblSpec LinDblSpec TrigDblSpec DblLemmas DblProofs DblLen DblExamples LinDblBase LinDblExamples RndDblExamples TrigDblExamples DrawMake.
Import ListNotations.
Local Open Scope R_scope.

Lemma v180 : number (nlit 180 1 : PrimFloat.float) /\ val (nlit 180 1 : PrimFloat.float) = 180.
Proof. change (nlit 180 1 : PrimFloat.float) with 180%float. destruct (int_val 180%float 6333186975989760 (-45) ltac:(vm_compute; reflexivity)) as [N V]. split; [exact N|]. rewrite V. change (bpow radix2 (-45)) with (/ 35184372088832). lra. Qed.
Lemma radians (T : Trig PrimFloat.float) : accurate T -> forall d, number d -> powerRZ 2 (-900) <= Rabs (val d) <= powerRZ 2 900 ->
  number (to_radians d) /\ Rabs (val (to_radians d) - val d * PI / 180) <= powerRZ 2 (-53) * Rabs (val d).
Proof.
  intros ((Np & Ep) & _) d Nd B. rewrite two_p in Ep. rewrite (two_p (-900)), (two_p 900) in B. assert (powerRZ 2 (-53) = U) as -> by (rewrite two_p; change (bpow radix2 (-53)) with (/ 9007199254740992); unfold U; lra).
  assert (bpow radix2 (-52) = 2 * U) as E52 by (change (bpow radix2 (-52)) with (/ 4503599627370496); unfold U; lra). rewrite E52 in Ep. set (x := val d) in *. set (a := Rabs x) in *.
  pose proof U_pos as UP. assert (U <= / 1000000) as U1 by (unfold U; lra). pose proof PI2_3_2 as P1. pose proof PI_4 as P2. destruct v180 as [N180 V180].
  assert (bpow radix2 (-1000) <= bpow radix2 (-900) * bpow radix2 (-10)) as W1 by (rewrite <- bpow_plus; apply bpow_le; lia). change (bpow radix2 (-10)) with (/ 1024) in W1.
  assert (bpow radix2 3 * bpow radix2 900 <= bpow radix2 1023) as W2 by (rewrite <- bpow_plus; apply bpow_le; lia). change (bpow radix2 3) with 8 in W2. pose proof (bpow_gt_0 radix2 (-900)) as Q0.
  assert (0 <= a) as A0 by apply Rabs_pos. apply Rabs_le_inv in Ep.
  assert (Rabs (x * val npi) <= 5 * a) as B1. { rewrite Rabs_mult. fold a. rewrite Rmult_comm. apply Rmult_le_compat_r; [exact A0|]. apply Rabs_le. lra. }
  destruct (f_mul d npi Nd Np) as [N1 V1]; [fold x; lra|]. fold x in V1. pose proof (rnd_err (x * val npi) (5 * a) ltac:(lra) B1) as E1. rewrite <- V1 in E1. set (y := (d * npi)%float) in *.
  assert (Rabs (val y) <= 6 * a) as By. { replace (val y) with ((val y - x * val npi) + x * val npi) by ring. eapply Rle_trans; [apply Rabs_triang|]. nra. }
  assert (Rabs (val y / 180) <= 6 * a / 180) as B2. { unfold Rdiv. rewrite Rabs_mult, (Rabs_pos_eq (/ 180)) by lra. lra. }
  destruct (f_div y (nlit 180 1) N1 N180) as [N2 V2]; [rewrite V180; lra|rewrite V180; lra|]. rewrite V180 in V2.
  pose proof (rnd_err (val y / 180) (6 * a / 180) ltac:(lra) B2) as E2. rewrite <- V2 in E2. unfold to_radians. cbn [nmul ndiv F_num]. fold y. split; [exact N2|].
  replace (val (y / nlit 180 1)%float - x * PI / 180) with ((val (y / nlit 180 1)%float - val y / 180) + (val y - x * val npi) / 180 + x * (val npi - PI) / 180) by field.
  assert (Rabs ((val y - x * val npi) / 180) <= U * (5 * a) / 180) as E3. { unfold Rdiv. rewrite Rabs_mult, (Rabs_pos_eq (/ 180)) by lra. apply Rmult_le_compat_r; lra. }
  assert (Rabs (x * (val npi - PI) / 180) <= a * (2 * U) / 180) as E4. { unfold Rdiv. rewrite !Rabs_mult, (Rabs_pos_eq (/ 180)) by lra. apply Rmult_le_compat_r; [lra|]. apply Rmult_le_compat_l; [exact A0|]. apply Rabs_le. lra. }
  eapply Rle_trans; [apply Rabs_triang|]. eapply Rle_trans; [apply Rplus_le_compat_r, Rabs_triang|]. assert (0 <= U * a) by nra. lra.
Qed.

(** ** The distributions of the examples *)
Definition size_ok (d : PrimFloat.float) : Prop := number d /\ 1 <= val d <= 64.
Lemma sizes : size_ok 5%float /\ size_ok 7.5%float /\ size_ok 10%float /\ size_ok 6.5%float /\ size_ok 4.5%float.
Proof.
  destruct v5 as [N5 V5]. destruct (int_val 7.5%float 8444249301319680 (-50) ltac:(vm_compute; reflexivity)) as [A VA]. destruct (int_val 10%float 5629499534213120 (-49) ltac:(vm_compute; reflexivity)) as [B VB].
  destruct (int_val 6.5%float 7318349394477056 (-50) ltac:(vm_compute; reflexivity)) as [C VC]. destruct (int_val 4.5%float 5066549580791808 (-50) ltac:(vm_compute; reflexivity)) as [D VD].
  change (bpow radix2 (-50)) with (/ 1125899906842624) in *. change (bpow radix2 (-49)) with (/ 562949953421312) in *. unfold size_ok. rewrite V5, VA, VB, VC, VD. repeat split; try assumption; lra.
Qed.
Lemma angle_made (T : Trig PrimFloat.float) m s : accurate T -> size_ok s -> make_angle (m, s) = Ok (to_radians m, to_radians s).
Proof.
  intros HT [N B]. assert (powerRZ 2 (-900) <= Rabs (val s) <= powerRZ 2 900) as W.
  { rewrite (two_p (-900)), (two_p 900), Rabs_pos_eq by lra. split; [apply Rle_trans with (bpow radix2 0); [apply bpow_le; lia|change (bpow radix2 0) with 1; lra]|apply Rle_trans with (bpow radix2 6); [change (bpow radix2 6) with 64; lra|apply bpow_le; lia]]. }
  destruct (radians T HT s N W) as [Nr Er]. apply Rabs_le_inv in Er. rewrite two_p in Er. change (bpow radix2 (-53)) with (/ 9007199254740992) in Er. rewrite Rabs_pos_eq in Er by lra. pose proof PI2_3_2.
  unfold make_angle. cbn [fst snd]. destruct (make_normal_iff (to_radians m) (to_radians s) Nr) as [[E _]|[_ K]]; [exact E|]. exfalso. nra.
Qed.
Lemma normals_made (T : Trig PrimFloat.float) : accurate T ->
  Forall (fun r => make_angle r = Ok (to_radians (fst r), to_radians (snd r))) (degrees1 ++ degrees2 ++ degrees3 ++ degrees4) /\ Forall (fun r => make_normal (fst r) (snd r) = Ok r) axes3.
Proof.
  intros HT. destruct sizes as (S1 & S2 & S3 & _). split; [|repeat constructor].
  unfold degrees1, degrees2, degrees3, degrees4. cbn [app]. repeat (constructor; [apply (angle_made T _ _ HT); assumption|]). constructor.
Qed.
Lemma five_ok : number 5%float /\ powerRZ 2 (-900) <= Rabs (val 5%float) <= powerRZ 2 900.
Proof.
  destruct v5 as [N V]. split; [exact N|]. rewrite V, (two_p (-900)), (two_p 900), Rabs_pos_eq by lra. split; [apply Rle_trans with (bpow radix2 0); [apply bpow_le; lia|change (bpow radix2 0) with 1; lra]|apply Rle_trans with (bpow radix2 6); [change (bpow radix2 6) with 64; lra|apply bpow_le; lia]].
Qed.
