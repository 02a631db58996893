(** Examples for C103. *)

From Coq Require Import ZArith Reals Lra Lia Bool.
From Flocq Require Import Core.Core IEEE754.BinarySingleNaN IEEE754.PrimFloat.
From Coq Require Import Floats.
From Verif Require Import Base NumModel VecModel LinModel RoundModel PolyModel DistModel IntModel SampModel DomModel GeoSpec LinSpec DblSpec DomSpec
  DblLemmas DblProofs DblLen DblExamples DblEq DblRange DomProofs.
Local Open Scope R_scope.

(** the upper end of a range can be drawn *)
Definition last : float := 0x1.fffffffffffffp-1%float.
Lemma half_num : number 0.5%float /\ val 0.5%float = / 2.
Proof.
  destruct (int_val 0.5%float 4503599627370496 (-53) ltac:(vm_compute; reflexivity)) as [N V]. split; [exact N|]. rewrite V.
  change (bpow radix2 (-53)) with (/ 9007199254740992). lra.
Qed.
Lemma last_val : number last /\ val last = 1 - U.
Proof.
  destruct (int_val last 9007199254740991 (-53) ltac:(vm_compute; reflexivity)) as [N V]. split; [exact N|]. rewrite V.
  change (bpow radix2 (-53)) with U. unfold U. lra.
Qed.
Lemma last_canonical : canonical last.
Proof. destruct last_val as [N V]. split; [exact N|]. rewrite V. unfold U. lra. Qed.
Lemma half_canonical : canonical 0.5%float.
Proof. destruct half_num as [N V]. split; [exact N|]. rewrite V. lra. Qed.
Lemma zero_canonical : canonical 0%float.
Proof. destruct zero_val as [N V]. split; [exact N|]. rewrite V. lra. Qed.
Lemma end_drawn : uniform (1%float, 2%float) last = 2%float.
Proof. vm_compute. reflexivity. Qed.
Lemma p_1021 : 4000000000 <= powerRZ 2 1021.
Proof. eapply Rle_trans; [apply p_500|]. rewrite !two_p. apply bpow_le. lia. Qed.
Lemma near_sample : box_number near1 /\ ordered near1 /\ within_box (powerRZ 2 1021) near1 /\ canonical 0 /\ canonical 0.5%float /\ canonical last.
Proof.
  destruct near_is as [-> _]. destruct near_vals as ((N0 & V0) & (N1 & V1) & (N2 & V2)). destruct zero_val as [Z0 W0]. destruct one_val as [Z1 W1]. pose proof p_1021.
  split; [|split; [|split; [|split; [exact zero_canonical|split; [exact half_canonical|exact last_canonical]]]]].
  - unfold box_number, number3. cbn [b_min b_max vx vy vz]. repeat split; assumption.
  - unfold ordered. cbn [b_min b_max vx vy vz]. rewrite V0, V1, W0, W1. lra.
  - unfold within_box, within3. cbn [b_min b_max vx vy vz]. rewrite V0, V1, W0, W1. repeat split; rewrite Rabs_pos_eq; lra.
Qed.
(** boxes as large as the range of doubles *)
Definition huge : box float := mkBox (mkV3 (-0x1p1023) (-0x1p1023) (-0x1p1023))%float (mkV3 0x1p1023 0x1p1023 0x1p1023)%float.
Lemma huge_vals : number 0x1p1023%float /\ val 0x1p1023%float = powerRZ 2 1023 /\ number (-0x1p1023)%float /\ val (-0x1p1023)%float = - powerRZ 2 1023.
Proof.
  destruct (int_val 0x1p1023%float 4503599627370496 971 ltac:(vm_compute; reflexivity)) as [N V]. split; [exact N|].
  assert (IZR 4503599627370496 * bpow radix2 971 = powerRZ 2 1023) as E by (rewrite two_p; change 1023%Z with (52 + 971)%Z; rewrite bpow_plus; reflexivity).
  split; [rewrite V; exact E|]. rewrite number_SF, val_SF. replace (Prim2SF (-0x1p1023)) with (S754_finite true 4503599627370496 971) by (vm_compute; reflexivity).
  split; [reflexivity|]. rewrite <- E. unfold SF2R, F2R. cbn [Defs.Fnum Defs.Fexp cond_Zopp]. rewrite opp_IZR. ring.
Qed.
Lemma huge_case (T : Trig float) : box_number huge /\ ordered huge /\
  let p := sample_point (sampler_box huge) 0%float 0%float 0%float in
  p = mkV3 nan nan nan /\ box_contains_default huge p = false.
Proof.
  destruct huge_vals as (N & V & N' & V'). assert (0 <= powerRZ 2 1023) as P by (rewrite two_p; apply bpow_ge_0).
  unfold huge, box_number, number3, ordered. cbn [b_min b_max vx vy vz]. rewrite V, V'.
  split; [repeat split; assumption|]. split; [lra|]. split; vm_compute; reflexivity.
Qed.

(** spheres *)
Definition ball : sphere float := mkSphere (mkV3 300000000 0 0)%float 2%float.
Definition ball_pt : V3 float := mkV3 300000002%float 0%float 0%float.
Lemma ball_case : number3 (sp_c ball) /\ number3 ball_pt /\ number (sp_r ball) /\ within3 (powerRZ 2 500) (sp_c ball) /\ within3 (powerRZ 2 500) ball_pt /\
  gap3 (sp_c ball) ball_pt /\ powerRZ 2 (-400) <= val (sp_r ball) <= powerRZ 2 400 /\ dist (val3 (sp_c ball)) (val3 ball_pt) = val (sp_r ball).
Proof.
  destruct near_vals as ((N0 & V0) & (N1 & V1) & (N2 & V2)). destruct zero_val as [Z0 W0]. pose proof p_500.
  destruct (int_val 2%float 4503599627370496 (-51) ltac:(vm_compute; reflexivity)) as [M2 E2].
  assert (val 2%float = 2) as T2 by (rewrite E2; change (bpow radix2 (-51)) with (/ 2251799813685248); lra).
  unfold ball, ball_pt, number3, within3, gap3, gap, dist, norm, dot, psub, val3. cbn [sp_c sp_r vx vy vz]. rewrite V0, V2, W0, T2.
  split; [auto|]. split; [auto|]. split; [exact M2|]. split; [repeat split; rewrite Rabs_pos_eq; lra|]. split; [repeat split; rewrite Rabs_pos_eq; lra|].
  split.
  { split; [right; rewrite Rabs_pos_eq by lra; pose proof p_m500; lra|]. split; left; lra. }
  split.
  { pose proof p_400. split; [lra|]. rewrite two_p. change 2 with (bpow radix2 1). apply bpow_le. lia. }
  replace ((300000000 - 300000002) * (300000000 - 300000002) + (0 - 0) * (0 - 0) + (0 - 0) * (0 - 0)) with (2 * 2) by ring. apply sqrt_square. lra.
Qed.

(** a cylinder of radius 1 and height 5, and a point in it *)
Definition base : ell float := make_ell (mkV3 100000 100000 100000)%float (mkV3 (-0.8) 0.6 0)%float (mkV3 0 0 1)%float 1%float 1%float.
Definition shaft : cyl float := mkCyl 5%float (make_top_disk base 5%float) base.
Definition shaft_pt : V3 float := mkV3 0x1.869ff9eb89c11p+16%float 0x1.86a1a1ba542acp+16%float 0x1.869ff004aa7fdp+16%float.
Lemma shaft_made : make_cyl_disk base 5%float = Ok shaft.
Proof. vm_compute. reflexivity. Qed.
Lemma shaft_top : e_c (c_top shaft) = mkV3 100003%float 100004%float 100000%float.
Proof. vm_compute. reflexivity. Qed.
Lemma shaft_case : number3 (e_c (c_bot shaft)) /\ number3 (e_c (c_top shaft)) /\ number3 shaft_pt /\
  dist (val3 (e_c (c_bot shaft))) (val3 (e_c (c_top shaft))) = 5 /\ val (cyl_radius shaft) = 1 /\
  below_surface (8 / 1000000000000) (val3 (e_c (c_bot shaft))) (val3 (e_c (c_top shaft))) (val (cyl_radius shaft)) (val3 shaft_pt) /\
  cyl_contains_default shaft shaft_pt = false.
Proof.
  rewrite shaft_top. change (e_c (c_bot shaft)) with (mkV3 100000%float 100000%float 100000%float). change (cyl_radius shaft) with 1%float.
  destruct one_val as [Z1 W1]. rewrite W1.
  destruct (int_val 100000%float 6871947673600000 (-36) ltac:(vm_compute; reflexivity)) as [Na Va].
  destruct (int_val 100003%float 6872153832030208 (-36) ltac:(vm_compute; reflexivity)) as [Nb Vb].
  destruct (int_val 100004%float 6872222551506944 (-36) ltac:(vm_compute; reflexivity)) as [Nc Vc].
  destruct (int_val 0x1.869ff9eb89c11p+16%float 6871946041531409 (-36) ltac:(vm_compute; reflexivity)) as [Nx Vx].
  destruct (int_val 0x1.86a1a1ba542acp+16%float 6872059806565036 (-36) ltac:(vm_compute; reflexivity)) as [Ny Vy].
  destruct (int_val 0x1.869ff004aa7fdp+16%float 6871943383525373 (-36) ltac:(vm_compute; reflexivity)) as [Nz Vz].
  change (bpow radix2 (-36)) with (/ 68719476736) in *.
  assert (val 100000 = 100000) as A by (rewrite Va; lra). assert (val 100003 = 100003) as B by (rewrite Vb; lra). assert (val 100004 = 100004) as C by (rewrite Vc; lra).
  unfold number3, val3, shaft_pt. cbn [vx vy vz]. rewrite A, B, C, Vx, Vy, Vz.
  split; [auto|]. split; [auto|]. split; [auto|]. split.
  { unfold dist, norm, dot, psub. cbn [vx vy vz]. replace ((100000 - 100003) * (100000 - 100003) + (100000 - 100004) * (100000 - 100004) + (100000 - 100000) * (100000 - 100000)) with (5 * 5) by ring. apply sqrt_square. lra. }
  split; [reflexivity|]. split; [|vm_compute; reflexivity].
  set (t := 443635654371 / 1717986918400).
  exists (mkV3 (100000 + 3 * t) (100000 + 4 * t) 100000). split; [|split].
  - exists t. split; [unfold t; lra|]. unfold padd, pscale. cbn [vx vy vz]. f_equal; ring.
  - unfold dot, psub, t. cbn [vx vy vz]. lra.
  - unfold dist, norm, dot, psub, t. cbn [vx vy vz]. rewrite <- (sqrt_square (1 - 8 / 1000000000000)) by lra. apply sqrt_le_1_alt. lra.
Qed.

(** a hollow cylinder *)
Definition pipe : hollow float := mkHollow (make_circle (mkV3 0 0 0)%float (mkV3 0 0 1)%float 1%float) (make_circle (mkV3 0 0 3)%float (mkV3 0 0 1)%float 1%float) 2%float 3%float.
Lemma pipe_case (T : Trig float) : make_hollow (mkV3 0 0 0)%float (mkV3 0 0 1)%float 1%float 2%float 3%float = Ok pipe /\ (exists s, sampler_hollow pipe = Ok s) /\
  number (hollow_inner pipe) /\ number (h_outer pipe) /\ val (hollow_inner pipe) = 1 /\ val (h_outer pipe) = 2 /\ canonical 0.5%float.
Proof.
  destruct one_val as [Z1 W1]. destruct (int_val 2%float 4503599627370496 (-51) ltac:(vm_compute; reflexivity)) as [M2 E2].
  split; [vm_compute; reflexivity|]. split; [vm_compute; eexists; reflexivity|].
  split; [exact Z1|]. split; [exact M2|]. split; [exact W1|]. split; [|exact half_canonical].
  change (h_outer pipe) with 2%float. rewrite E2; change (bpow radix2 (-51)) with (/ 2251799813685248); lra.
Qed.
