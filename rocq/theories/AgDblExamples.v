(** Examples for C112: an ellipse with the half axes 10 and 5, an arc of it that passes the angle zero, and an arc of a unit
    circle that does not contain its first point. *)

From Coq Require Import ZArith Reals List Lra Lia Psatz Bool.
From Flocq Require Import Core.Core IEEE754.BinarySingleNaN IEEE754.PrimFloat.
From Coq Require Import Floats.
From Verif Require Import Base NumModel VecModel LinModel RoundModel GeoSpec LinSpec RoundSpec DblSpec GeoLemmas EllProofs DblLemmas DblProofs DblExamples
  LinDblSpec LinDblBase LinDblFoot LinDblProofs LinDblExamples RndDblSpec RndDblProofs RndDblExamples TrigDblSpec TrigDblExamples PtDblSpec PtDblProofs FrDblProofs PtDblExamples
  DkDblSpec DkDblProofs DkDblTrip DkDblExamples AgDblSpec AgDblReal AgDblProofs AgDblPoint AgDblArc.
Local Open Scope R_scope.

Lemma rounded_atan : accurate_atan rounded_trig.
Proof.
  intros x _. cbn [natan rounded_trig]. unfold rounded. pose proof (atan_bound (val x)) as B. pose proof pi_le as P.
  destruct (to_float_err (atan (val x)) 2) as [N E]; [lra|apply Rabs_le; lra|]. split; [exact N|]. replace (powerRZ 2 (-52)) with (powerRZ 2 (-53) * 2); [exact E|].
  rewrite !two_p. change (bpow radix2 (-52)) with (/ 4503599627370496). change (bpow radix2 (-53)) with (/ 9007199254740992). lra.
Qed.
Definition ag : ell PrimFloat.float := make_ell pt0 axis_z axis_x 10%float 5%float.
Definition ag_arc : arc PrimFloat.float := mkArc ag pt0 pt0 5%float 1%float false.
Definition ag_p : V3 PrimFloat.float := mkV3 4%float 0%float 6%float.
Definition ag_q : V3 PrimFloat.float := mkV3 4%float 0%float (-6)%float.
Definition ag_top : V3 PrimFloat.float := mkV3 0%float 0%float 10%float.
Lemma v10 : number 10%float /\ val 10%float = 10.
Proof. destruct (int_val 10%float 5629499534213120 (-49) ltac:(vm_compute; reflexivity)) as [N V]. split; [exact N|]. rewrite V. change (bpow radix2 (-49)) with (/ 562949953421312). lra. Qed.
Lemma v6 : number 6%float /\ val 6%float = 6.
Proof. destruct (int_val 6%float 6755399441055744 (-50) ltac:(vm_compute; reflexivity)) as [N V]. split; [exact N|]. rewrite V. change (bpow radix2 (-50)) with (/ 1125899906842624). lra. Qed.
Lemma vm6 : number (-6)%float /\ val (-6)%float = -6.
Proof.
  assert (Prim2SF (-6)%float = S754_finite true 6755399441055744 (-50)) as E by (vm_compute; reflexivity).
  rewrite number_SF, val_SF, E. split; [reflexivity|]. unfold SF2R, F2R. cbn [cond_Zopp Fnum Fexp Z.opp]. change (bpow radix2 (-50)) with (/ 1125899906842624). lra.
Qed.
Lemma ag_points : point_upto 48 ag_p /\ point_upto 48 ag_q /\ point_upto 48 ag_top.
Proof.
  destruct zero_val as [N0 V0], v4 as [N4 V4], v6 as [N6 V6], vm6 as [Nm6 Vm6], v10 as [N10 V10].
  unfold point_upto, number3, within3, ag_p, ag_q, ag_top. cbn [vx vy vz]. rewrite V0, V4, V6, Vm6, V10. repeat split; try assumption; apply Rabs_le; lra.
Qed.
Lemma ag_frame : frame (powerRZ 2 (-47)) (e_maj ag) (e_min ag) (e_n ag).
Proof. exact (proj1 (made_frame pt0 axis_z axis_x 10%float 5%float (proj2 axis_dir) (proj1 axis_dir) (proj2 plain_axes) (proj1 plain_axes) dk_dot)). Qed.
Lemma ag_upto : ellipse_upto 12 ag.
Proof.
  destruct ag_frame as (A & B & C & _). destruct pts_upto as (P0 & _). destruct v10 as [N10 V10], v5 as [N5 V5].
  split; [assumption|split; [assumption|split; [assumption|split; [assumption|]]]]. unfold ag, make_ell, radius_upto. cbn [e_a e_b]. rewrite V10, V5. repeat split; try assumption; lra.
Qed.
Lemma moderate_48 : moderate 48.
Proof. destruct p_400 as (P1 & P2 & _). split; lra. Qed.
Lemma ag_round : round_ellipse 5 48 ag.
Proof.
  split; [apply (wider 12); [lra|exact ag_upto]|]. split; [exact ag_frame|]. rewrite two_p. change (bpow radix2 (-18)) with (/ 262144). unfold ag, make_ell. cbn [e_a e_b]. rewrite (proj2 v10), (proj2 v5). lra.
Qed.
Lemma ag_true phi : true_point ag phi = mkV3 (5 * sin phi) 0 (10 * cos phi).
Proof.
  assert (val3 (e_n ag) = mkV3 0 1 0) as En. { assert (e_n ag = mkV3 0 1 0)%float as E by (vm_compute; reflexivity). rewrite E. unfold val3. cbn [vx vy vz]. rewrite (proj2 zero_val), (proj2 one_val). reflexivity. }
  unfold true_point. rewrite En. unfold ag, make_ell. cbn [e_c e_maj e_min e_a e_b]. rewrite (proj2 v10), (proj2 v5). unfold frame_point, padd, pscale, val3, pt0, axis_z, axis_x. cbn [vx vy vz]. rewrite (proj2 zero_val), (proj2 one_val). f_equal; ring.
Qed.
Lemma off_big d phi : d <= / 2 -> / 2 <= Rabs (cos phi) -> / 2 <= Rabs (sin phi) -> off d phi.
Proof. intros. split; lra. Qed.
(** the angle of ag_p: its cosine is 3/5 and its sine is 4/5 *)
Lemma ag_angles : exists phi psi, ((0 <= phi < 2 * PI /\ cos phi = 3 / 5 /\ sin phi = 4 / 5) /\ (0 <= psi < 2 * PI /\ cos psi = - (3 / 5) /\ sin psi = 4 / 5)) /\
  dist (val3 ag_p) (true_point ag phi) = 0 /\ dist (val3 ag_q) (true_point ag psi) = 0 /\ dist (val3 ag_top) (true_point ag 0) = 0 /\ off (powerRZ 2 (-22)) phi /\ off (powerRZ 2 (-22)) psi /\
  phi <= 96 / 100 /\ 158 / 100 <= psi <= 4.
Proof.
  destruct (unit_circle_angle (3 / 5) (4 / 5) ltac:(lra)) as (phi & P1 & P2 & P3). destruct (unit_circle_angle (- (3 / 5)) (4 / 5) ltac:(lra)) as (psi & Q1 & Q2 & Q3).
  exists phi, psi. assert (powerRZ 2 (-22) = / 4194304) as E22 by (rewrite two_p; reflexivity). pose proof pi_le as BP.
  assert (forall x, norm (mkV3 0 0 0) = x -> x = 0) as Z. { intros x <-. unfold norm, dot. cbn [vx vy vz]. replace (0 * 0 + 0 * 0 + 0 * 0) with 0 by ring. apply sqrt_0. }
  split; [split; (split; [assumption|split; symmetry; assumption])|].
  split; [|split; [|split; [|split; [|split]]]].
  - rewrite ag_true, <- P2, <- P3. apply Z. unfold dist, psub, val3, ag_p. cbn [vx vy vz]. rewrite (proj2 zero_val), (proj2 v4), (proj2 v6). f_equal. f_equal; field.
  - rewrite ag_true, <- Q2, <- Q3. apply Z. unfold dist, psub, val3, ag_q. cbn [vx vy vz]. rewrite (proj2 zero_val), (proj2 v4), (proj2 vm6). f_equal. f_equal; field.
  - rewrite ag_true, cos_0, sin_0. apply Z. unfold dist, psub, val3, ag_top. cbn [vx vy vz]. rewrite (proj2 zero_val), (proj2 v10). f_equal. f_equal; field.
  - unfold off. rewrite <- P2, <- P3, E22, !Rabs_pos_eq by lra. lra.
  - unfold off. rewrite <- Q2, <- Q3, E22, Rabs_Ropp, !Rabs_pos_eq by lra. lra.
  - assert (forall x, 0 <= x < 2 * PI -> 0 < sin x -> 0 < x < PI) as H.
    { intros x Bx Sx. split.
      - destruct (Req_dec x 0) as [->|n]; [rewrite sin_0 in Sx; lra|lra].
      - apply Rnot_le_lt. intros L. destruct (Req_dec x PI) as [->|n]; [rewrite sin_PI in Sx; lra|]. pose proof (proj2 (sin_sign x Bx) ltac:(lra)). lra. }
    pose proof (H phi P1 ltac:(lra)) as B1. pose proof (H psi Q1 ltac:(lra)) as B2.
    split.
    + (* tan (phi / 2) = 1 / 2, so phi = 2 atan (1 / 2) *)
      assert (phi = 2 * atan (/ 2)) as E.
      { assert (cos (phi / 2) > 0) as C by (apply cos_gt_0; lra).
        assert (tan (phi / 2) = / 2) as T2. { unfold tan. pose proof (cos_2a_cos (phi / 2)) as C2. pose proof (sin_2a (phi / 2)) as S2. replace (2 * (phi / 2)) with phi in C2, S2 by field. rewrite <- P2 in C2. rewrite <- P3 in S2.
          apply (Rmult_eq_reg_r (2 * cos (phi / 2) * cos (phi / 2))); [|nra]. field_simplify; nra. }
        rewrite <- T2, atan_tan by lra. field. }
      rewrite E. assert (atan (/ 2) <= 48 / 100); [|lra].
      (* the tangent of the half is 1 / (2 + sqrt 5), bounded by the chord *)
      assert (atan (/ 2) = atan (/ 4) + atan (2 / 9)) as ->.
      { pose proof (atan_bound (/ 2)). pose proof (atan_bound (/ 4)). destruct (atan_sgn (/ 2)) as [A1 _]. destruct (atan_sgn (/ 4)) as [A2 _]. specialize (A1 ltac:(lra)). specialize (A2 ltac:(lra)).
        rewrite (atan_sub_correct (/ 2) (/ 4)); [|lra|lra|apply atan_bound]. f_equal. f_equal. unfold atan_sub. field. }
      pose proof (atan_lip (/ 4) 0) as L1. pose proof (atan_lip (2 / 9) 0) as L2. rewrite atan_0, !Rminus_0_r in L1, L2. rewrite (Rabs_pos_eq (/ 4)) in L1 by lra. rewrite (Rabs_pos_eq (2 / 9)) in L2 by lra. apply Rabs_def2_le in L1, L2. lra.
    + split; [|lra]. assert (PI / 2 < psi) as L. { apply Rnot_le_lt. intros L. pose proof (cos_ge_0 psi ltac:(lra) ltac:(lra)). lra. }
      pose proof PI2_3_2. assert (PI / 2 < psi) by exact L. pose proof (small_sin (psi - PI / 2) (/ 1000000)) as S.
      destruct (Rle_or_lt (158 / 100) psi) as [OK|Bad]; [exact OK|]. exfalso.
      assert (sin (psi - PI / 2) = 3 / 5) as S3. { rewrite <- (Ropp_involutive (3 / 5)), Q2, cos_half, <- sin_neg. f_equal. ring. }
      pose proof (trig_lip (psi - PI / 2) 0) as [_ L2]. rewrite sin_0, S3, !Rminus_0_r in L2. rewrite !Rabs_pos_eq in L2 by lra. lra.
Qed.
Lemma ag_tol : val 0x1p-10%float <= 1 /\ let rho := 3 * (0 / 5) + powerRZ 2 (-44) * 48 / 5 in 0 <= rho <= / 1000000 /\
  powerRZ 2 (-42) * 48 <= val 0x1p-10%float /\ powerRZ 2 (-42) * 48 / 5 <= val 0x1p-10%float /\ powerRZ 2 (-42) * 48 <= powerRZ 2 (-24) /\ powerRZ 2 (-42) * 48 / 5 <= powerRZ 2 (-24).
Proof.
  cbv zeta. rewrite (proj2 vmilli), !two_p. change (bpow radix2 (-44)) with (/ 17592186044416). change (bpow radix2 (-42)) with (/ 4398046511104). change (bpow radix2 (-24)) with (/ 16777216). repeat split; lra.
Qed.
Lemma ag_between phi psi : phi <= 96 / 100 -> 158 / 100 <= psi <= 4 -> let rho := 3 * (0 / 5) + powerRZ 2 (-44) * 48 / 5 in
  between (val 0x1p-10%float - rho) (val (a_s ag_arc)) (val (a_t ag_arc)) phi /\ ~ between (val 0x1p-10%float + rho) (val (a_s ag_arc)) (val (a_t ag_arc)) psi.
Proof.
  intros H1 H2. cbv zeta. destruct ag_tol as (_ & T & _). set (rho := 3 * (0 / 5) + powerRZ 2 (-44) * 48 / 5) in *. unfold between, ag_arc. cbn [a_s a_t]. rewrite (proj2 v5), (proj2 one_val), (proj2 vmilli).
  destruct (Rlt_dec 1 5) as [_|n]; [|exfalso; lra]. split; [right; lra|lra].
Qed.
Lemma ag_arc_angles : (number (a_s ag_arc) /\ 0 <= val (a_s ag_arc) <= 2 * PI) /\ (number (a_t ag_arc) /\ 0 <= val (a_t ag_arc) <= 2 * PI) /\ val (a_s ag_arc) <> val (a_t ag_arc) /\
  arc_angle (val (a_s ag_arc)) (val (a_t ag_arc)) (val 0.5%float) = 3 + PI /\ off (powerRZ 2 (-22)) (3 + PI).
Proof.
  destruct v5 as [N5 V5], one_val as [N1 V1]. pose proof pi_le as BP. pose proof PI2_3_2. unfold ag_arc. cbn [a_s a_t]. rewrite V5, V1. repeat split; try assumption; try lra.
  - unfold arc_angle. rewrite (proj2 v1h). destruct (Rlt_dec 5 1); lra.
  - rewrite neg_cos, Rabs_Ropp, two_p. change (bpow radix2 (-22)) with (/ 4194304). apply Rnot_lt_le. intros L.
    replace (cos 3) with (- cos (PI - 3)) in L by (rewrite cos_minus, cos_PI, sin_PI; ring). rewrite Rabs_Ropp, cos_half in L. pose proof (small_sin (PI / 2 - (PI - 3)) (/ 4194304) ltac:(lra) ltac:(lra) ltac:(lra)) as S. apply Rabs_def2_le in S. lra.
  - rewrite neg_sin, Rabs_Ropp, two_p. change (bpow radix2 (-22)) with (/ 4194304). apply Rnot_lt_le. intros L. rewrite <- sin_PI_x in L.
    pose proof (small_sin (PI - 3) (/ 4194304) ltac:(lra) ltac:(lra) ltac:(lra)) as S. apply Rabs_def2_le in S.
    pose proof (PI_2_3_7_ineq 1) as [L2 _]. unfold tg_alt, PI_2_3_7_tg, Ratan_seq in L2. cbn in L2. lra.
Qed.
(** points close to the ellipse are not far away *)
Lemma near_within M (e : ell PrimFloat.float) (p : V3 PrimFloat.float) theta : 0 < M -> ellipse_upto M e -> dist (val3 p) (true_point e theta) <= / 1000 * M -> within3 (4 * M) p.
Proof.
  intros M0 ((_ & c1 & c2 & c3) & Du & Dv & Dw & (_ & A1 & A2) & (_ & B1 & B2)) Ep.
  destruct (comp_dir _ Du) as (u1 & u2 & u3). destruct (comp_dir _ Dv) as (v1 & v2 & v3).
  assert (Rabs (cos theta) <= 1 /\ Rabs (sin theta) <= 1) as [A B] by (split; apply Rabs_le; [destruct (COS_bound theta)|destruct (SIN_bound theta)]; lra).
  unfold true_point in Ep. set (X := val (e_a e) * cos theta) in *. set (Y := val (e_b e) * sin theta) in *.
  assert (Rabs X <= M /\ Rabs Y <= M) as [BX BY].
  { unfold X, Y. rewrite !Rabs_mult, (Rabs_pos_eq (val (e_a e))), (Rabs_pos_eq (val (e_b e))) by lra. pose proof (Rabs_pos (cos theta)). pose proof (Rabs_pos (sin theta)). split; rewrite <- (Rmult_1_r M); apply Rmult_le_compat; lra. }
  assert (forall z s, Rabs z <= M -> Rabs s <= 1001 / 1000 -> Rabs (z * s) <= 1001 / 1000 * M) as PB. { intros z s Hz Hs. rewrite Rabs_mult, Rmult_comm. apply Rmult_le_compat; try apply Rabs_pos; assumption. }
  unfold dist in Ep. set (q := psub (val3 p) _) in Ep. destruct (comp_norm q) as (q1 & q2 & q3).
  assert (forall cc uu vv ww qq pp, qq = pp - (cc + (X * uu + (Y * vv + 0 * ww))) -> Rabs cc <= M -> Rabs uu <= 1001 / 1000 -> Rabs vv <= 1001 / 1000 -> Rabs qq <= norm q -> Rabs pp <= 4 * M) as G.
  { intros cc uu vv ww qq pp E C1 C2 C3 C4. pose proof (PB X uu BX C2) as P1. pose proof (PB Y vv BY C3) as P2. apply Rabs_def2_le in C1, P1, P2, C4. apply Rabs_le. lra. }
  unfold within3. split; [|split].
  - exact (G (val (vx (e_c e))) (val (vx (e_maj e))) (val (vx (e_min e))) (val (vx (e_n e))) (vx q) (val (vx p)) eq_refl c1 u1 v1 q1).
  - exact (G (val (vy (e_c e))) (val (vy (e_maj e))) (val (vy (e_min e))) (val (vy (e_n e))) (vy q) (val (vy p)) eq_refl c2 u2 v2 q2).
  - exact (G (val (vz (e_c e))) (val (vz (e_maj e))) (val (vz (e_min e))) (val (vz (e_n e))) (vz q) (val (vz p)) eq_refl c3 u3 v3 q3).
Qed.
Lemma ag_within (T : Trig PrimFloat.float) : accurate T -> (forall x, number x -> 0 <= val x <= 1 -> within3 48 (arc_point ag_arc x) /\ within3 48 (ell_point ag x)).
Proof.
  intros HT x Nx Bx. destruct ag_arc_angles as ((Ns & Bs) & (Nt & Bt) & _). pose proof pi_le as BP. replace 48 with (4 * 12) by ring. split.
  - destruct (arc_point_dbl T 12 ag_arc x HT moderate_12 ag_upto Ns ltac:(lra) Nt ltac:(lra) Nx Bx) as [_ E]. cbv zeta in E. eapply near_within; [lra|exact ag_upto|]. eapply Rle_trans; [exact E|]. rewrite two_p. change (bpow radix2 (-45)) with (/ 35184372088832). lra.
  - destruct (ell_point_dbl T 12 ag x HT moderate_12 ag_upto Nx Bx) as [_ E]. eapply near_within; [lra|exact ag_upto|]. eapply Rle_trans; [exact E|]. rewrite two_p. change (bpow radix2 (-46)) with (/ 70368744177664). lra.
Qed.
(** the point of the ellipse at the parameter 1/8, and its angle *)
Lemma veighth : number 0x1p-3%float /\ val 0x1p-3%float = / 8.
Proof. destruct (int_val 0x1p-3%float 4503599627370496 (-55) ltac:(vm_compute; reflexivity)) as [N V]. split; [exact N|]. rewrite V. change (bpow radix2 (-55)) with (/ 36028797018963968). lra. Qed.
Lemma ag_eighth : (number 0x1p-3%float /\ 0 <= val 0x1p-3%float <= 1) /\ off (powerRZ 2 (-22)) (2 * PI * val 0x1p-3%float).
Proof.
  destruct veighth as [N V]. rewrite V. split; [split; [exact N|lra]|]. replace (2 * PI * / 8) with (PI / 4) by field. unfold off. rewrite cos_PI4, sin_PI4, two_p. change (bpow radix2 (-22)) with (/ 4194304).
  assert (/ 2 <= 1 / R_sqrt.sqrt 2) as S. { assert (0 < R_sqrt.sqrt 2 <= 2) as B. { split; [apply sqrt_lt_R0; lra|]. apply Rle_trans with (R_sqrt.sqrt (2 * 2)); [apply sqrt_le_1_alt; lra|rewrite sqrt_square; lra]. } unfold Rdiv. rewrite Rmult_1_l. apply Rinv_le_contravar; lra. }
  rewrite Rabs_pos_eq by lra. lra.
Qed.

(** ** An arc that does not contain its first point *)
Definition uc : ell PrimFloat.float := make_ell pt0 (to_dir (mkV3 3 4 0)%float) (to_dir (mkV3 (-4) 3 0)%float) 1%float 1%float.
Definition uc_s : V3 PrimFloat.float := (mkV3 0x1.3333308401553p-1 0x1.99999b9cfefc9p-1 0)%float.
Definition uc_t : V3 PrimFloat.float := (mkV3 0x1.3333199998fffp-1 0x1.9999accccc000p-1 0)%float.
Lemma uc_angles (T : Trig PrimFloat.float) : ell_get_angle uc uc_s true = Ok (natan 0x1.ad7f29ac00026p-24%float) /\ ell_get_angle uc uc_t true = Ok (natan 0x1.0000000040800p-20%float).
Proof. split; vm_compute; reflexivity. Qed.
Lemma uc_made (T : Trig PrimFloat.float) : library_values T -> make_arc uc uc_s uc_t = Ok (mkArc uc uc_s uc_t 0x1.ad7f29ac0000dp-24%float 0x1.00000000402abp-20%float false).
Proof.
  intros (L1 & L2 & _). unfold make_arc. replace (pt_eq uc_s uc_t _) with false by (vm_compute; reflexivity). destruct (uc_angles T) as [-> ->]. cbn [obind]. rewrite L1, L2. reflexivity.
Qed.
Lemma uc_first (T : Trig PrimFloat.float) : library_values T -> let c := mkArc uc uc_s uc_t 0x1.ad7f29ac0000dp-24%float 0x1.00000000402abp-20%float false in
  arc_contains_default c (arc_point c 0%float) true = Ok false /\ arc_contains_default c (arc_point c 0%float) false = Ok false /\ arc_contains_default c uc_s true = Ok true /\
  ell_contains uc (arc_point c 0%float) angular true = true.
Proof.
  intros (L1 & L2 & L3 & L4). cbv zeta. set (c := mkArc _ _ _ _ _ _).
  assert (arc_point c 0%float = mkV3 0x1.3333308401554p-1 0x1.99999b9cfefc9p-1 0)%float as ->.
  { unfold arc_point. replace ((a_s c + arc_delta c * (0%float : PrimFloat.float))%num) with 0x1.ad7f29ac0000dp-24%float by (vm_compute; reflexivity). unfold ell_angle_point. rewrite L3, L4. vm_compute. reflexivity. }
  split; [vm_compute; reflexivity|]. split; [vm_compute; reflexivity|]. split; [|vm_compute; reflexivity].
  unfold arc_contains_default, arc_contains. replace (true && negb (ell_contains (a_ell c) uc_s angular true))%bool with false by (vm_compute; reflexivity).
  rewrite (proj1 (uc_angles T) : ell_get_angle (a_ell c) uc_s true = _). cbn [obind]. rewrite L1. vm_compute. reflexivity.
Qed.
(** accurate functions with these values exist: correctly rounded ones, except at these three arguments *)
Lemma small_trig x : 0 < x <= / 1000 -> (x - x * x * x <= sin x <= x) /\ (1 - x * x / 2 <= cos x <= 1 - x * x / 2 + x * x * x * x).
Proof.
  intros H. pose proof PI2_3_2. destruct (sin_bound x 0 ltac:(lra) ltac:(lra)) as [S _]. destruct (pre_cos_bound x 0 ltac:(lra) ltac:(lra)) as [C1 C2]. pose proof (sin_lt_x x ltac:(lra)).
  unfold sin_approx, cos_approx, sin_term, cos_term in *. cbn in S, C1, C2. assert (0 < x * x) by nra. assert (0 < x * x * x) by nra. assert (0 < x * x * x * x) by nra.
  split; split; lra.
Qed.
Lemma small_atan z : 0 < z <= / 1000 -> z - z * z * z <= atan z <= z.
Proof.
  intros H. assert (0 < atan z <= z) as B. { split; [rewrite <- atan_0; apply atan_increasing; lra|]. pose proof (atan_lip z 0) as L. rewrite atan_0, !Rminus_0_r in L. rewrite (Rabs_pos_eq z) in L by lra. apply Rabs_def2_le in L. lra. }
  split; [|lra]. destruct (small_trig (atan z) ltac:(lra)) as [[_ S] [C _]]. assert (0 < cos (atan z)) by nra. assert (sin (atan z) = z * cos (atan z)) as E.
  { rewrite <- (atan_right_inv z) at 2. unfold tan. field. lra. }
  rewrite E in S. set (a := atan z) in *. assert (a * a <= z * z) by nra. assert (z * (1 - z * z / 2) <= z * cos a) by nra. assert (0 <= z * z * z) by nra. nra.
Qed.
Lemma lib_vals : let s x m e := number x /\ val x = IZR m * bpow radix2 e in
  s 0x1.ad7f29ac00026p-24%float 7555786372808742%Z (-76)%Z /\ s 0x1.ad7f29ac0000dp-24%float 7555786372808717%Z (-76)%Z /\ s 0x1.0000000040800p-20%float 4503599627634688%Z (-72)%Z /\
  s 0x1.00000000402abp-20%float 4503599627633323%Z (-72)%Z /\ s 0x1.fffffffffffd3p-1%float 9007199254740947%Z (-53)%Z /\ s 0x1.ad7f29ac00000p-24%float 7555786372808704%Z (-76)%Z.
Proof. cbv zeta. repeat split; (apply int_val || eapply int_val); vm_compute; reflexivity. Qed.
Definition library_trig : Trig PrimFloat.float :=
  mkTrig _ (@npi _ rounded_trig)
    (fun x => if Req_EM_T (val x) (val 0x1.ad7f29ac0000dp-24%float) then 0x1.fffffffffffd3p-1%float else @ncos _ rounded_trig x)
    (fun x => if Req_EM_T (val x) (val 0x1.ad7f29ac0000dp-24%float) then 0x1.ad7f29ac00000p-24%float else @nsin _ rounded_trig x)
    (@nacos _ rounded_trig)
    (fun x => if Req_EM_T (val x) (val 0x1.ad7f29ac00026p-24%float) then 0x1.ad7f29ac0000dp-24%float else
              if Req_EM_T (val x) (val 0x1.0000000040800p-20%float) then 0x1.00000000402abp-20%float else @natan _ rounded_trig x).
Lemma library_ok : accurate library_trig /\ accurate_atan library_trig /\ library_values library_trig.
Proof.
  destruct rounded_accurate as (A1 & A2 & A3 & A4). pose proof rounded_atan as A5.
  destruct lib_vals as ((N1 & V1) & (N2 & V2) & (N3 & V3) & (N4 & V4) & (N5 & V5) & (N6 & V6)).
  change (bpow radix2 (-76)) with (/ 75557863725914323419136) in *. change (bpow radix2 (-72)) with (/ 4722366482869645213696) in *. change (bpow radix2 (-53)) with (/ 9007199254740992) in *.
  split; [|split].
  - split; [exact A1|]. split; [|split; [exact A3|exact A4]]. intros x Nx Bx. destruct (A2 x Nx Bx) as [P Q]. unfold library_trig. cbn [ncos nsin].
    destruct (Req_EM_T (val x) (val 0x1.ad7f29ac0000dp-24%float)) as [E|_]; [|split; assumption]. rewrite E, two_p. change (bpow radix2 (-53)) with (/ 9007199254740992).
    destruct (small_trig (val 0x1.ad7f29ac0000dp-24%float)) as [[S1 S2] [C1 C2]]; [rewrite V2; lra|]. rewrite V2 in *. split; (split; [assumption|]). all: [> rewrite V5 | rewrite V6]; apply Rabs_le; lra.
  - intros x Nx. destruct (A5 x Nx) as [P Q]. unfold library_trig. cbn [natan]. rewrite two_p. change (bpow radix2 (-52)) with (/ 4503599627370496).
    destruct (Req_EM_T (val x) (val 0x1.ad7f29ac00026p-24%float)) as [E|_].
    + split; [assumption|]. rewrite E. destruct (small_atan (val 0x1.ad7f29ac00026p-24%float)) as [S1 S2]; [rewrite V1; lra|]. rewrite V1 in *. rewrite V2. apply Rabs_le. lra.
    + destruct (Req_EM_T (val x) (val 0x1.0000000040800p-20%float)) as [E|_].
      * split; [assumption|]. rewrite E. destruct (small_atan (val 0x1.0000000040800p-20%float)) as [S1 S2]; [rewrite V3; lra|]. rewrite V3 in *. rewrite V4. apply Rabs_le. lra.
      * split; [exact P|]. rewrite two_p in Q. exact Q.
  - unfold library_values, library_trig. cbn [ncos nsin natan]. repeat split.
    + destruct Req_EM_T; [reflexivity|congruence].
    + destruct Req_EM_T as [E|_]; [exfalso; rewrite V1, V3 in E; lra|]. destruct Req_EM_T; [reflexivity|congruence].
    + destruct Req_EM_T; [reflexivity|congruence].
    + destruct Req_EM_T; [reflexivity|congruence].
Qed.
Lemma ag_bounds : let t := powerRZ 2 (-24) in let s := val 0x1p-10%float in
  (2 * 0 + powerRZ 2 (-45) * 48 <= t /\ 4 * (0 / 5) + powerRZ 2 (-43) * 48 / 5 <= t) /\ (2 * 0 + powerRZ 2 (-45) * 48 <= s /\ 4 * (0 / 5) + powerRZ 2 (-43) * 48 / 5 <= s).
Proof.
  cbv zeta. rewrite (proj2 vmilli), !two_p. change (bpow radix2 (-45)) with (/ 35184372088832). change (bpow radix2 (-43)) with (/ 8796093022208). change (bpow radix2 (-24)) with (/ 16777216). repeat split; lra.
Qed.
