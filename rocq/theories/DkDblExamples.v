(** Examples for C110: a disk with the half axes 7 and 3, a circle with the radius 7, and a disk that does not contain a
    point of its rim. *)

From Coq Require Import ZArith Reals List Lra Lia Psatz Bool.
From Flocq Require Import Core.Core IEEE754.BinarySingleNaN IEEE754.PrimFloat.
From Coq Require Import Floats.
From Verif Require Import Base NumModel VecModel LinModel RoundModel GeoSpec LinSpec RoundSpec DblSpec GeoLemmas DblLemmas DblProofs DblExamples
  LinDblSpec LinDblBase LinDblFoot LinDblProofs LinDblExamples RndDblSpec RndDblProofs RndDblExamples TrigDblSpec TrigDblExamples PtDblSpec PtDblProofs FrDblProofs PtDblExamples
  DkDblSpec DkDblProofs DkDblTrip.
Local Open Scope R_scope.

Definition dk : ell PrimFloat.float := make_ell pt0 axis_z axis_x 7%float 3%float.
Definition dk_circle : ell PrimFloat.float := make_ell pt0 axis_z axis_x 7%float 7%float.
Definition dk_in : V3 PrimFloat.float := mkV3 0%float 0%float 3%float.
Definition dk_rim : V3 PrimFloat.float := mkV3 3%float 0%float 0%float.
Definition dk_top : V3 PrimFloat.float := mkV3 0%float 0%float 7%float.
Definition dk_out : V3 PrimFloat.float := mkV3 12%float 0%float 0%float.

Lemma dk_points : point_upto 12 dk_in /\ point_upto 12 dk_rim /\ point_upto 12 dk_top /\ point_upto 12 dk_out /\ point_upto 12 pt1.
Proof.
  destruct zero_val as [N0 V0], v3 as [N3 V3'], v7 as [N7 V7], v12 as [N12 V12]. assert (forall x, 0 <= x <= 12 -> Rabs x <= 12) as K by (intros x H; rewrite Rabs_pos_eq; lra).
  split; [|split; [|split; [|split]]]; try exact (proj1 (proj2 pts_upto)); unfold point_upto, number3, within3, dk_in, dk_rim, dk_top, dk_out; cbn [vx vy vz]; rewrite ?V0, ?V3', ?V7, ?V12; repeat split; try assumption; apply K; lra.
Qed.
Lemma dk_dot : Rabs (dot (val3 axis_z) (val3 axis_x)) <= powerRZ 2 (-47).
Proof. replace (dot (val3 axis_z) (val3 axis_x)) with (dot (val3 axis_x) (val3 axis_z)) by (unfold dot; ring). exact axes_dot. Qed.
Lemma dk_frames : frame (powerRZ 2 (-47)) (e_maj dk) (e_min dk) (e_n dk) /\ frame (powerRZ 2 (-47)) (e_maj dk_circle) (e_min dk_circle) (e_n dk_circle).
Proof.
  split; [exact (proj1 (made_frame pt0 axis_z axis_x 7%float 3%float (proj2 axis_dir) (proj1 axis_dir) (proj2 plain_axes) (proj1 plain_axes) dk_dot))|
    exact (proj1 (made_frame pt0 axis_z axis_x 7%float 7%float (proj2 axis_dir) (proj1 axis_dir) (proj2 plain_axes) (proj1 plain_axes) dk_dot))].
Qed.
Lemma dk_upto : ellipse_upto 12 dk /\ ellipse_upto 12 dk_circle.
Proof.
  destruct dk_frames as [(A & B & C & _) (D & E & F & _)]. destruct pts_upto as (P0 & _). destruct rd_radii as (R7 & R3 & _).
  split; (split; [assumption|split; [assumption|split; [assumption|split; [assumption|split; assumption]]]]).
Qed.
Lemma dk_axes : axes_from 3 12 dk /\ axes_from 7 12 dk_circle.
Proof.
  unfold axes_from, dk, dk_circle, make_ell. cbn [e_a e_b]. rewrite (proj2 v7), (proj2 v3), two_p. change (bpow radix2 (-40)) with (/ 1099511627776). repeat split; lra.
Qed.
Lemma dk_normal : val3 (e_n dk) = mkV3 0 1 0 /\ val3 (e_n dk_circle) = mkV3 0 1 0.
Proof.
  assert (e_n dk = mkV3 0 1 0)%float as E1 by (vm_compute; reflexivity). assert (e_n dk_circle = mkV3 0 1 0)%float as E2 by (vm_compute; reflexivity).
  rewrite E1, E2. unfold val3. cbn [vx vy vz]. rewrite (proj2 zero_val), (proj2 one_val). auto.
Qed.
Lemma plane_y e (p : V3 PrimFloat.float) D : val3 (e_n e) = mkV3 0 1 0 -> e_c e = pt0 -> val (vy p) = D -> 0 <= D -> dist_to (in_plane e) (val3 p) D.
Proof.
  intros En Ec Hy H. unfold in_plane. destruct (plane_has (val3 (e_c e)) (val3 (e_n e)) (val3 p)) as (D' & HD & E).
  - rewrite En. unfold norm, dot. cbn [vx vy vz]. replace (0 * 0 + 1 * 1 + 0 * 0) with 1 by ring. rewrite sqrt_1. lra.
  - assert (D' = D) as <-; [|exact HD]. rewrite En, Ec in E. unfold norm, dot, psub, val3, pt0 in E. cbn [vx vy vz] in E. rewrite Hy, (proj2 zero_val) in E.
    replace (0 * 0 + 1 * 1 + 0 * 0) with 1 in E by ring. rewrite sqrt_1 in E. replace (0 * (val (vx p) - 0) + 1 * (D - 0) + 0 * (val (vz p) - 0)) with D in E by ring. rewrite (Rabs_pos_eq D) in E by lra. lra.
Qed.
Lemma dk_dists : dist_to (in_plane dk) (val3 dk_in) 0 /\ dist_to (in_plane dk) (val3 dk_rim) 0 /\ dist_to (in_plane dk) (val3 dk_out) 0 /\ dist_to (in_plane dk) (val3 pt1) 4 /\
  dist_to (in_plane dk_circle) (val3 dk_top) 0 /\ dist_to (in_plane dk_circle) (val3 dk_out) 0.
Proof.
  destruct dk_normal as [E1 E2]. destruct zero_val as [_ V0]. destruct v4 as [_ V4].
  repeat split; try (apply plane_y; [assumption|reflexivity| |lra]; unfold dk_in, dk_rim, dk_out, dk_top, pt1; cbn [vy]; assumption).
Qed.
Lemma dk_factor (p : V3 PrimFloat.float) x z k : val (vx p) = x -> val (vz p) = z -> 0 <= k -> k * k = (z / 7) ^ 2 + (x / 3) ^ 2 -> ell_factor dk p k.
Proof.
  intros Hx Hz K0 K. split; [exact K0|]. rewrite K. unfold dk, make_ell. cbn [e_c e_maj e_min e_a e_b]. unfold dot, psub, val3, pt0, axis_z, axis_x. cbn [vx vy vz].
  rewrite (proj2 zero_val), (proj2 one_val), (proj2 v7), (proj2 v3), Hx, Hz. field.
Qed.
Lemma dk_factors : ell_factor dk dk_in (3 / 7) /\ ell_factor dk dk_rim 1 /\ ell_factor dk dk_out 4 /\ ell_factor dk pt1 1.
Proof.
  destruct zero_val as [_ V0], v3 as [_ V3'], v12 as [_ V12].
  split; [|split; [|split]].
  - apply (dk_factor _ 0 3); [exact V0|exact V3'|lra|field].
  - apply (dk_factor _ 3 0); [exact V3'|exact V0|lra|field].
  - apply (dk_factor _ 12 0); [exact V12|exact V0|lra|field].
  - apply (dk_factor _ 3 0); [exact V3'|exact V0|lra|field].
Qed.
Lemma dk_gaps : dist (val3 dk_top) (val3 (e_c dk_circle)) = 7 /\ dist (val3 dk_out) (val3 (e_c dk_circle)) = 12.
Proof.
  unfold dist, norm, dot, psub, val3, dk_top, dk_out, dk_circle, make_ell, pt0. cbn [e_c vx vy vz]. rewrite (proj2 zero_val), (proj2 v7), (proj2 v12). split.
  - replace ((0 - 0) * (0 - 0) + (0 - 0) * (0 - 0) + (7 - 0) * (7 - 0)) with (7 * 7) by ring. apply sqrt_square. lra.
  - replace ((12 - 0) * (12 - 0) + (0 - 0) * (0 - 0) + (0 - 0) * (0 - 0)) with (12 * 12) by ring. apply sqrt_square. lra.
Qed.
(** what is returned for them *)
Lemma dk_answers : (disk_contains dk dk_in 0x1p-10%float true = true /\ disk_contains dk dk_out 0x1p-10%float true = false /\ disk_contains dk pt1 0x1p-10%float true = false /\ disk_contains dk pt1 0x1p-10%float false = true) /\
  (ell_contains dk dk_rim 0x1p-10%float true = true /\ ell_contains dk dk_out 0x1p-10%float true = false) /\
  (circle_contains dk_circle dk_top 0x1p-10%float = true /\ circle_contains dk_circle dk_out 0x1p-10%float = false).
Proof. vm_compute. auto 10. Qed.
Lemma dk_bounds : powerRZ 2 (-47) * 12 <= / 1000000 /\ powerRZ 2 (-46) * 12 / 3 * ((1 + 4) * (1 + 4)) <= / 1000000 /\ 0 <= powerRZ 2 (-46) /\ 0 < powerRZ 2 (-50) <= / 1000000 /\ 1 <= widened 1 (val 0x1p-10%float) <= 2.
Proof.
  rewrite !two_p. change (bpow radix2 (-47)) with (/ 140737488355328). change (bpow radix2 (-46)) with (/ 70368744177664). change (bpow radix2 (-50)) with (/ 1125899906842624).
  repeat split; try lra; unfold widened; rewrite (proj2 vmilli).
  - rewrite <- sqrt_1 at 1. apply sqrt_le_1_alt. lra.
  - apply Rle_trans with (R_sqrt.sqrt (2 * 2)); [apply sqrt_le_1_alt; lra|rewrite sqrt_square; lra].
Qed.
Lemma disk_case : let t := 0x1p-10%float in let lo := 1 - powerRZ 2 (-50) in let hi := 1 + powerRZ 2 (-50) in let rho := powerRZ 2 (-47) * 12 in let w := widened 1 (val t) in
  (0 + rho < val t /\ 3 / 7 + rho / 3 <= lo * w) /\ hi * w + rho / 3 <= 4 /\ val t + rho <= 4.
Proof.
  destruct dk_bounds as (B1 & _ & B3 & B4 & B5). cbv zeta. rewrite (proj2 vmilli) in *. set (rho := powerRZ 2 (-47) * 12) in *. set (w := widened 1 (/ 1024)) in *. set (g := powerRZ 2 (-50)) in *.
  assert (g * w <= / 1000000 * 2) by (apply Rmult_le_compat; lra). assert (0 <= rho) by (unfold rho; pose proof p47; lra). repeat split; lra.
Qed.
Lemma ellipse_case : let t := 0x1p-10%float in let s := fun k => powerRZ 2 (-46) * 12 / 3 * ((1 + k) * (1 + k)) in
  (Rabs (1 * 1 - 1) + s 1 < val t) /\ val t + s 4 <= Rabs (4 * 4 - 1).
Proof.
  destruct dk_bounds as (_ & B2 & B3 & _). cbv zeta. rewrite (proj2 vmilli). replace (1 * 1 - 1) with 0 by ring. rewrite Rabs_R0, Rabs_pos_eq by lra. split; lra.
Qed.
Lemma circle_case : let t := 0x1p-10%float in let rho := powerRZ 2 (-47) * 12 in let G := fun p => Rabs (dist (val3 p) (val3 (e_c dk_circle)) - val (e_a dk_circle)) in
  G dk_top + rho < val t /\ val t + rho <= G dk_out.
Proof.
  destruct dk_bounds as (B1 & _). cbv zeta. destruct dk_gaps as [-> ->]. unfold dk_circle, make_ell. cbn [e_a]. rewrite (proj2 v7), (proj2 vmilli). replace (7 - 7) with 0 by ring. rewrite Rabs_R0, Rabs_pos_eq by lra. split; lra.
Qed.
(** the bound 48 includes the points that are returned *)
Lemma wider M N (e : ell PrimFloat.float) : M <= N -> ellipse_upto M e -> ellipse_upto N e.
Proof.
  intros L ((Nc & c1 & c2 & c3) & D1 & D2 & D3 & (Ra & A1 & A2) & (Rb & B1 & B2)).
  split; [split; [exact Nc|]; unfold within3; repeat split; eapply Rle_trans; eassumption|]. split; [exact D1|]. split; [exact D2|]. split; [exact D3|]. split; (split; [assumption|lra]).
Qed.
Lemma dk_trip (T : Trig PrimFloat.float) : accurate T -> moderate 48 /\ (ellipse_upto 48 dk /\ ellipse_upto 48 dk_circle) /\ axes_from 3 48 dk /\ powerRZ 2 (-40) * 48 <= val (e_a dk_circle) /\
  (forall x, number x -> 0 <= val x <= 1 -> within3 48 (ell_point dk x) /\ within3 48 (ell_point dk_circle x)) /\
  powerRZ 2 (-42) * 48 <= val 0x1p-10%float /\ powerRZ 2 (-42) * 48 / 3 <= val 0x1p-10%float /\ powerRZ 2 (-42) * 48 / 3 <= val 0x1p-10%float * val 0x1p-10%float.
Proof.
  intros HT. destruct dk_upto as [U1 U2]. destruct p_400 as (P1 & P2 & _). split; [split; lra|]. split; [split; apply (wider 12); try lra; assumption|].
  unfold axes_from, dk_circle, dk, make_ell. cbn [e_a e_b]. rewrite (proj2 v7), (proj2 v3), (proj2 vmilli), !two_p. change (bpow radix2 (-40)) with (/ 1099511627776). change (bpow radix2 (-42)) with (/ 4398046511104).
  split; [repeat split; lra|]. split; [lra|]. split; [|repeat split; lra]. intros x Nx Bx.
  pose proof (trip_within T 12 dk x HT moderate_12 U1 Nx Bx) as [_ W1]. pose proof (trip_within T 12 dk_circle x HT moderate_12 U2 Nx Bx) as [_ W2]. replace (4 * 12) with 48 in W1, W2 by ring. auto.
Qed.

(** a disk with the radius 0.7 one kilometre away from the origin *)
Definition far_disk : ell PrimFloat.float := make_ell (mkV3 1000 0 0)%float axis_x (mkV3 0 1 0)%float 0x1.6666666666666p-1%float 0x1.6666666666666p-1%float.
Lemma far_rim (T : Trig PrimFloat.float) : ncos 0%float = 1%float -> nsin 0%float = 0%float ->
  disk_contains_default far_disk (ell_angle_point (disk_ellipse far_disk) 0%float) true = false /\ disk_contains_default far_disk (ell_angle_point (disk_ellipse far_disk) 0%float) false = false /\
  ell_contains_default (disk_ellipse far_disk) (ell_angle_point (disk_ellipse far_disk) 0%float) true = true.
Proof. intros C S. unfold ell_angle_point. rewrite C, S. vm_compute. auto. Qed.
Lemma far_frame : val3 (e_c far_disk) = mkV3 1000 0 0 /\ val3 (e_maj far_disk) = mkV3 1 0 0 /\ val3 (e_min far_disk) = mkV3 0 1 0 /\ val3 (e_n far_disk) = mkV3 0 0 1 /\ e_b far_disk = e_a far_disk /\ Rabs (val (e_a far_disk) - 7 / 10) <= powerRZ 2 (-53).
Proof.
  assert (e_n far_disk = mkV3 0 0 1)%float as E by (vm_compute; reflexivity). rewrite E. unfold far_disk, make_ell. cbn [e_c e_maj e_min e_a e_b]. unfold val3, axis_x. cbn [vx vy vz].
  destruct (int_val 1000%float 8796093022208000 (-43) ltac:(vm_compute; reflexivity)) as [_ V1].
  destruct (int_val 0x1.6666666666666p-1%float 6305039478318694 (-53) ltac:(vm_compute; reflexivity)) as [_ V7].
  rewrite V1, V7, (proj2 zero_val), (proj2 one_val), two_p. change (bpow radix2 (-43)) with (/ 8796093022208). change (bpow radix2 (-53)) with (/ 9007199254740992).
  repeat split; try (f_equal; lra). apply Rabs_le. lra.
Qed.
(** the C library's cosine of 0 is 1, and its sine of 0 is 0; so it is for correctly rounded functions *)
Lemma rounded_zero : rounded cos 0%float = 1%float /\ rounded sin 0%float = 0%float.
Proof.
  unfold rounded. rewrite (proj2 zero_val), cos_0, sin_0. split.
  - destruct (to_float_val 1) as [N V]. { rewrite Rabs_R1. change 1 with (bpow radix2 0). apply bpow_le. lia. }
    destruct one_val as [N1 V1]. assert (rnd 1 = 1) as R1 by (rewrite <- V1; apply rnd_val). rewrite R1 in V.
    rewrite <- (B2Prim_Prim2B (to_float 1)), <- (B2Prim_Prim2B 1%float). f_equal. unfold number, val in *.
    apply B2R_inj; [| |rewrite V, V1; reflexivity]; (destruct (Prim2B _) as [s|s| |s m e B]; try discriminate; try reflexivity; cbn in *; lra).
  - unfold to_float. rewrite rnd_0, scaled_mantissa_0. change 0 with (IZR 0). rewrite Ztrunc_IZR.
    assert (forall e, BinarySingleNaN.binary_normalize prec emax Hprec Hmax mode_NE 0 e false = B754_zero false) as E by reflexivity. rewrite E. vm_compute. reflexivity.
Qed.

(** an exact disk and a point with the factor 5/4 *)
Definition exact_disk : ell R := mkEll (mkV3 1 2 3) (mkV3 1 0 0) (mkV3 0 1 0) (mkV3 0 0 1) 4 2.
Lemma exact_case : ell_ok exact_disk /\ on_plane (e_c exact_disk) (e_n exact_disk) (mkV3 4 4 3) /\
  factor (e_c exact_disk) (e_maj exact_disk) (e_min exact_disk) (e_a exact_disk) (e_b exact_disk) (mkV3 4 4 3) (5 / 4).
Proof.
  unfold ell_ok, ortho_basis, unit3, ortho, on_plane, factor, exact_disk, det3, dot, psub, cross. cbn [e_c e_maj e_min e_n e_a e_b vx vy vz]. unfold vsub, padd. cbn [vx vy vz].
  repeat split; try lra; try (cbn; f_equal; lra).
Qed.
