(** Examples for C106. *)

From Coq Require Import ZArith Reals Lra Lia Psatz Bool.
From Flocq Require Import Core.Core IEEE754.BinarySingleNaN IEEE754.PrimFloat.
From Coq Require Import Floats.
From Verif Require Import Base NumModel VecModel LinModel RoundModel PolyModel DistModel GeoSpec LinSpec DblSpec GeoLemmas
  DblLemmas DblProofs DblLen DblExamples DblEq LinDblSpec LinDblBase LinDblFoot LinDblProofs LinDblSeg LinDblDist LinDblExamples DomSpec DomExamples RndDblSpec RndDblProofs RndDblTol.
Local Open Scope R_scope.

(** a ball, a cylinder and a pipe of height 5 around the axis from pt0 to pt1, and a point over pt1 *)
Definition rd_ball : sphere float := mkSphere pt0 7%float.
Definition rd_base : ell float := make_ell pt0 (mkV3 (-0x1.999999999999ap-1) 0x1.3333333333333p-1 0)%float (mkV3 0 0 1)%float 7%float 7%float.
Definition rd_cyl : cyl float := mkCyl 5%float (make_top_disk rd_base 5%float) rd_base.
Definition rd_ring (c : V3 float) (r : float) : ell float := make_circle c (mkV3 0x1.3333333333333p-1 0x1.999999999999ap-1 0)%float r.
Definition rd_pipe : hollow float := mkHollow (rd_ring pt0 3%float) (rd_ring pt1 3%float) 7%float 5%float.
Definition rd_over : V3 float := mkV3 3%float 4%float 4%float.
Lemma rd_made : make_cyl_disk rd_base 5%float = Ok rd_cyl /\ make_hollow pt0 (mkV3 0x1.3333333333333p-1 0x1.999999999999ap-1 0)%float 3%float 7%float 5%float = Ok rd_pipe.
Proof. split; vm_compute; reflexivity. Qed.
Lemma rd_ends : e_c (c_bot rd_cyl) = pt0 /\ e_c (c_top rd_cyl) = pt1 /\ e_c (h_bot rd_pipe) = pt0 /\ e_c (h_top rd_pipe) = pt1.
Proof. repeat split; vm_compute; reflexivity. Qed.
Lemma rd_axis : axis_upto 12 pt0 pt1.
Proof.
  destruct pts_upto as (A & B & _). destruct seg_case_d as (_ & G & H & _). exact (conj A (conj B (conj G H))).
Qed.
Lemma v5 : number 5%float /\ val 5%float = 5.
Proof. destruct (int_val 5%float 5629499534213120 (-50) ltac:(vm_compute; reflexivity)) as [N V]. split; [exact N|]. rewrite V. change (bpow radix2 (-50)) with (/ 1125899906842624). lra. Qed.
Lemma rd_radii : radius_upto 12 7%float /\ radius_upto 12 3%float /\ lengths_upto 12 7%float 5%float /\ powerRZ 2 (-300) <= val 7%float.
Proof.
  destruct v7 as [N7 V7], v3 as [N3 V3'], v5 as [N5 V5]. destruct p_400 as (_ & _ & P). unfold lengths_upto, radius_upto. rewrite V7, V3', V5.
  repeat split; try assumption; lra.
Qed.
Lemma rd_over_upto : point_upto 12 rd_over /\ val3 rd_over = mkV3 3 4 4.
Proof.
  destruct v3 as [N3 V3'], v4 as [N4 V4]. unfold point_upto, number3, within3, val3, rd_over. cbn [vx vy vz]. rewrite V3', V4.
  assert (forall x, 0 <= x <= 12 -> Rabs x <= 12) as K by (intros x H; rewrite Rabs_pos_eq; lra).
  split; [|reflexivity]. repeat split; try assumption; apply K; lra.
Qed.
(** pt1 is the foot of pt1, of rd_over and of pt3 *)
Lemma rd_foot p : p = pt1 \/ p = rd_over \/ p = pt3 -> foot (val3 pt0) (val3 pt1) (val3 p) (val3 pt1).
Proof.
  intros H. split.
  - exists 1. vals. unfold padd, pscale, psub. cbn [vx vy vz]. f_equal; ring.
  - destruct H as [ -> | [ -> | -> ] ]; [|rewrite (proj2 rd_over_upto)|]; vals; unfold dot, psub; cbn [vx vy vz]; ring.
Qed.
Lemma norm_axis z : 0 <= z -> norm (mkV3 0 0 z) = z.
Proof. intros H. unfold norm, dot. cbn [vx vy vz]. replace (0 * 0 + 0 * 0 + z * z) with (z * z) by ring. apply sqrt_square. exact H. Qed.
Lemma rd_dists : dist (val3 pt1) (val3 pt1) = 0 /\ dist (val3 rd_over) (val3 pt1) = 4 /\ dist (val3 pt3) (val3 pt1) = 12.
Proof.
  rewrite (proj2 rd_over_upto). vals. unfold dist, psub. cbn [vx vy vz]. split; [|split].
  - replace (mkV3 (3 - 3) (4 - 4) (0 - 0)) with (mkV3 0 0 0) by (f_equal; ring). apply norm_axis. lra.
  - replace (mkV3 (3 - 3) (4 - 4) (4 - 0)) with (mkV3 0 0 4) by (f_equal; ring). apply norm_axis. lra.
  - replace (mkV3 (3 - 3) (4 - 4) (12 - 0)) with (mkV3 0 0 12) by (f_equal; ring). apply norm_axis. lra.
Qed.
Lemma rd_on : dist_to (on_segment (val3 pt0) (val3 pt1)) (val3 pt1) 0.
Proof.
  split; [exists (val3 pt1); split|intros z _; apply norm_nonneg].
  - exists 1. split; [lra|]. vals. unfold padd, pscale, psub. cbn [vx vy vz]. f_equal; ring.
  - exact (proj1 rd_dists).
Qed.
Lemma rd_widened : 7 <= widened (val 7%float) (val 0x1p-10%float) <= 8.
Proof.
  rewrite (proj2 v7), (proj2 vmilli). unfold widened. split.
  - rewrite <- (sqrt_square 7) at 1 by lra. apply sqrt_le_1; lra.
  - rewrite <- (sqrt_square 8) by lra. apply sqrt_le_1; lra.
Qed.
Lemma rd_rho : powerRZ 2 (-42) * 12 <= / 1000000 /\ powerRZ 2 (-51) * 12 <= / 1000000 /\ 0 <= powerRZ 2 (-50) <= / 1000000.
Proof. rewrite !two_p. change (bpow radix2 (-42)) with (/ 4398046511104). change (bpow radix2 (-51)) with (/ 2251799813685248). change (bpow radix2 (-50)) with (/ 1125899906842624). lra. Qed.
(** both answers occur *)
Lemma rd_answers : (cyl_contains rd_cyl rd_over 0x1p-10%float = true /\ cyl_contains rd_cyl pt3 0x1p-10%float = false) /\
  (hollow_contains rd_pipe rd_over 0x1p-10%float = true /\ hollow_contains rd_pipe pt1 0x1p-10%float = false) /\
  (sphere_contains rd_ball pt1 0x1p-10%float = true /\ sphere_contains rd_ball pt3 0x1p-10%float = false).
Proof. repeat split; vm_compute; reflexivity. Qed.

(** a pipe of inner radius 1, outer radius 2 and height 5, and a point in it *)
Definition far_pipe : hollow float := mkHollow (rd_ring (mkV3 100000 100000 100000)%float 1%float) (rd_ring (mkV3 100003 100004 100000)%float 1%float) 2%float 5%float.
Definition far_pt : V3 float := mkV3 0x1.86a167b432624p+16%float 0x1.86a034f3c8804p+16%float 0x1.869ffdf1cde6dp+16%float.
Lemma far_made : make_hollow (mkV3 100000 100000 100000)%float (mkV3 0x1.3333333333333p-1 0x1.999999999999ap-1 0)%float 1%float 2%float 5%float = Ok far_pipe.
Proof. vm_compute. reflexivity. Qed.
Lemma far_case : number3 (e_c (h_bot far_pipe)) /\ number3 (e_c (h_top far_pipe)) /\ number3 far_pt /\
  dist (val3 (e_c (h_bot far_pipe))) (val3 (e_c (h_top far_pipe))) = 5 /\ val (hollow_inner far_pipe) = 1 /\ val (h_outer far_pipe) = 2 /\
  beyond_wall (8 / 1000000000000) (val3 (e_c (h_bot far_pipe))) (val3 (e_c (h_top far_pipe))) (val (hollow_inner far_pipe)) (val3 far_pt) /\
  below_surface (1 / 2) (val3 (e_c (h_bot far_pipe))) (val3 (e_c (h_top far_pipe))) (val (h_outer far_pipe)) (val3 far_pt) /\
  hollow_contains_default far_pipe far_pt = false.
Proof.
  change (e_c (h_top far_pipe)) with (mkV3 100003%float 100004%float 100000%float). change (e_c (h_bot far_pipe)) with (mkV3 100000%float 100000%float 100000%float).
  change (hollow_inner far_pipe) with 1%float. change (h_outer far_pipe) with 2%float. destruct one_val as [Z1 W1]. rewrite W1.
  destruct (int_val 2%float 4503599627370496 (-51) ltac:(vm_compute; reflexivity)) as [_ E2].
  assert (val 2%float = 2) as T2 by (rewrite E2; change (bpow radix2 (-51)) with (/ 2251799813685248); lra). rewrite T2.
  destruct (int_val 100000%float 6871947673600000 (-36) ltac:(vm_compute; reflexivity)) as [Na Va].
  destruct (int_val 100003%float 6872153832030208 (-36) ltac:(vm_compute; reflexivity)) as [Nb Vb].
  destruct (int_val 100004%float 6872222551506944 (-36) ltac:(vm_compute; reflexivity)) as [Nc Vc].
  destruct (int_val 0x1.86a167b432624p+16%float 6872044230878756 (-36) ltac:(vm_compute; reflexivity)) as [Nx Vx].
  destruct (int_val 0x1.86a034f3c8804p+16%float 6871961887868932 (-36) ltac:(vm_compute; reflexivity)) as [Ny Vy].
  destruct (int_val 0x1.869ffdf1cde6dp+16%float 6871947121843821 (-36) ltac:(vm_compute; reflexivity)) as [Nz Vz].
  change (bpow radix2 (-36)) with (/ 68719476736) in *.
  assert (val 100000 = 100000) as A by (rewrite Va; lra). assert (val 100003 = 100003) as B by (rewrite Vb; lra). assert (val 100004 = 100004) as C by (rewrite Vc; lra).
  unfold number3, val3, far_pt. cbn [vx vy vz]. rewrite A, B, C, Vx, Vy, Vz.
  split; [auto|]. split; [auto|]. split; [auto|]. split.
  { unfold dist, norm, dot, psub. cbn [vx vy vz]. replace ((100000 - 100003) * (100000 - 100003) + (100000 - 100004) * (100000 - 100004) + (100000 - 100000) * (100000 - 100000)) with (5 * 5) by ring. apply sqrt_square. lra. }
  split; [reflexivity|]. split; [reflexivity|]. set (t := 86632227999 / 429496729600). assert (on_segment (mkV3 100000 100000 100000) (mkV3 100003 100004 100000) (mkV3 (100000 + 3 * t) (100000 + 4 * t) 100000)) as On.
  { exists t. split; [unfold t; lra|]. unfold padd, pscale, psub. cbn [vx vy vz]. f_equal; ring. }
  split; [|split; [|vm_compute; reflexivity]]; exists (mkV3 (100000 + 3 * t) (100000 + 4 * t) 100000); (split; [exact On|split]).
  - unfold dot, psub, t. cbn [vx vy vz]. lra.
  - unfold dist, norm, dot, psub, t. cbn [vx vy vz]. rewrite <- (sqrt_square (1 + 8 / 1000000000000)) by lra. apply sqrt_le_1_alt. lra.
  - unfold dot, psub, t. cbn [vx vy vz]. lra.
  - unfold dist, norm, dot, psub, t. cbn [vx vy vz]. rewrite <- (sqrt_square (2 - 1 / 2)) by lra. apply sqrt_le_1_alt. lra.
Qed.
