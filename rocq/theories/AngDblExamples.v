(** Examples for C107: two disks at a right angle, and two disks that are almost parallel. *)

From Coq Require Import ZArith Reals List Lra Lia Psatz Bool.
From Flocq Require Import Core.Core IEEE754.BinarySingleNaN IEEE754.PrimFloat.
From Coq Require Import Floats.
From Verif Require Import Base ConstraintsModel NumModel VecModel LinModel RoundModel PolyModel DistModel IntModel AngModel CylIntModel EvalModel
  GeoSpec AngSpec DblSpec GeoLemmas DblLemmas DblProofs DblLen DblExamples LinDblSpec LinDblBase LinDblFoot LinDblProofs LinDblExamples RndDblProofs
  TrigDblSpec TrigDblExamples AngDblSpec AngDblProofs.
Import ListNotations.
Local Open Scope R_scope.

(** disks of radius one around the origin that contain the first coordinate axis *)
Definition o3 : V3 PrimFloat.float := mkV3 0%float 0%float 0%float.
Definition turned (y z : PrimFloat.float) : ell PrimFloat.float := make_ell o3 axis_x (to_dir (mkV3 0%float y z)) 1%float 1%float.
Definition flat_disk : ell PrimFloat.float := turned 1%float 0%float.
Definition wall_disk : ell PrimFloat.float := turned 0%float 1%float.
Definition tilt1 : ell PrimFloat.float := turned 4%float 7%float.
Definition tilt2 : ell PrimFloat.float := turned 4%float 0x1.c00001p2%float.

(** what OpenCascade returns for them: they have a diameter in common *)
Definition cube : box PrimFloat.float := mkBox (mkV3 (-1) (-1) (-1))%float (mkV3 1 1 1)%float.
Definition diam : V3 PrimFloat.float * V3 PrimFloat.float := (mkV3 (-1)%float 0%float 0%float, axis_x).
Definition diam_kernel : IntModel.kernel PrimFloat.float :=
  IntModel.mkKernel _ (fun _ _ _ => Some (mkLine o3 axis_x)) (fun _ _ => None) (fun _ _ _ => []) (fun _ _ _ => [diam]) (fun _ _ _ => [])
    (fun _ => cube) (fun _ => cube).
Definition diam_ops (C : cyl_kernel PrimFloat.float) : ent_ops PrimFloat.float :=
  mkEntOps _ diam_kernel C (fun _ _ => Ok 0%float) (fun _ _ => Ok 0%float) (fun _ _ => Ok 0%float) (fun _ => Ok 0%float).
Definition diam_piece : ent_piece (A := PrimFloat.float) := PSegment (fst diam) (snd diam).

Section Cases.
Context (T : Trig PrimFloat.float).
Hypothesis HT : accurate T.

Lemma conf_ang : number (angular : PrimFloat.float) /\ / 100000000000 <= val (angular : PrimFloat.float) <= / 1000000000.
Proof.
  assert (Prim2SF (angular : PrimFloat.float) = S754_finite false 7737125245533627 (-86)) as E by (vm_compute; reflexivity).
  destruct (int_val _ _ _ E) as [N V]. split; [exact N|]. rewrite V. change (bpow radix2 (-86)) with (/ 77371252455336267181195264). lra.
Qed.
Lemma p_51 : powerRZ 2 (-51) <= / 1000000000000000.
Proof. rewrite two_p. change (bpow radix2 (-51)) with (/ 2251799813685248). lra. Qed.

Lemma acos_zero : number (nacos 0%float) /\ Rabs (val (nacos 0%float) - PI / 2) <= powerRZ 2 (-51).
Proof.
  destruct HT as (_ & _ & Ac & _). destruct zero_val as [N0 V0]. destruct (Ac 0%float N0) as [N V]; [rewrite V0, Rabs_R0; lra|].
  rewrite V0, acos_0 in V. auto.
Qed.
Lemma acos_one : number (nacos 1%float) /\ Rabs (val (nacos 1%float)) <= powerRZ 2 (-51).
Proof.
  destruct HT as (_ & _ & Ac & _). destruct one_val as [N0 V0]. destruct (Ac 1%float N0) as [N V]; [rewrite V0, Rabs_R1; lra|].
  rewrite V0, acos_1, Rminus_0_r in V. auto.
Qed.
(** the axis is perpendicular to the normals *)
Lemma right_normal (n : V3 PrimFloat.float) : (sprod axis_x n / (vlen axis_x * vlen n))%float = 0%float -> gp_normal axis_x n angular = true.
Proof.
  intros E. unfold gp_normal, gp_angle. cbn [ndiv nmul nsub nltb nleb nopp F_num]. rewrite E.
  destruct acos_zero as [NA VA]. destruct HT as ((NP & VP) & _). pose proof PI2_3_2. pose proof PI_4. pose proof p_51 as P51.
  assert (powerRZ 2 (-52) <= powerRZ 2 (-51)) as P52 by (rewrite !two_p; apply bpow_le; lia).
  assert (number (2 / 1)%float /\ val (2 / 1)%float = 2) as [N2 V2].
  { assert (Prim2SF (2 / 1)%float = S754_finite false 4503599627370496 (-51)) as E2 by (vm_compute; reflexivity).
    destruct (int_val _ _ _ E2) as [N V]. split; [exact N|]. rewrite V. change (bpow radix2 (-51)) with (/ 2251799813685248). lra. }
  change (nlit 2 1 : PrimFloat.float) with (2 / 1)%float.
  assert (4 <= bpow radix2 1000) as Z1 by (change 4 with (bpow radix2 2); apply bpow_le; lia).
  assert (bpow radix2 (-1000) <= 1) as Z2 by (change 1 with (bpow radix2 0); apply bpow_le; lia).
  assert (bpow radix2 1000 <= bpow radix2 1023) as Z3 by (apply bpow_le; lia).
  apply Rabs_def2_le in VP. apply Rabs_def2_le in VA.
  destruct (f_div npi (2 / 1)%float NP N2) as [ND VD]; [rewrite V2; lra|rewrite V2; apply Rabs_le; lra|].
  rewrite V2 in VD. pose proof (rnd_err (val npi / 2) 4 ltac:(lra) ltac:(apply Rabs_le; lra)) as ED. rewrite <- VD in ED. apply Rabs_def2_le in ED.
  destruct (sub_err (npi / (2 / 1))%float (nacos 0%float) 1 ND NA Z2 ltac:(lra)) as [NS ES].
  { unfold U in ED. apply Rabs_le. lra. }
  set (a := (npi / (2 / 1) - nacos 0)%float) in *. apply Rabs_def2_le in ES. unfold U in ED, ES.
  destruct conf_ang as [NG VG]. destruct zero_val as [N0 V0]. change (n0 : PrimFloat.float) with (0 / 1)%float.
  assert ((0 / 1)%float = 0%float) as -> by (vm_compute; reflexivity).
  destruct (PrimFloat.ltb a 0) eqn:L.
  - assert (number (- a)%float /\ val (- a)%float = - val a) as [NO VO].
    { unfold number, val in *. rewrite opp_equiv, is_finite_Bopp, B2R_Bopp. auto. }
    apply (proj2 (f_leb _ _ NO NG)). rewrite VO. lra.
  - apply (proj2 (f_leb _ _ NS NG)). lra.
Qed.
Lemma same_parallel : gp_parallel axis_x axis_x angular = true.
Proof.
  unfold gp_parallel, gp_angle. cbn [ndiv nmul nsub nltb nleb nopp F_num].
  assert ((sprod axis_x axis_x / (vlen axis_x * vlen axis_x))%float = 1%float) as -> by (vm_compute; reflexivity).
  destruct acos_one as [N V]. apply orb_true_iff. left. destruct conf_ang as [NG VG]. apply (proj2 (f_leb _ _ N NG)). pose proof p_51.
  apply Rabs_def2_le in V. lra.
Qed.
Lemma right_not_parallel : gp_parallel (e_n flat_disk) (e_n wall_disk) angular = false.
Proof.
  unfold gp_parallel, gp_angle. cbn [ndiv nmul nsub nltb nleb nopp F_num].
  assert ((sprod (e_n flat_disk) (e_n wall_disk) / (vlen (e_n flat_disk) * vlen (e_n wall_disk)))%float = 0%float) as -> by (vm_compute; reflexivity).
  destruct acos_zero as [NA VA]. destruct HT as ((NP & VP) & _). destruct conf_ang as [NG VG]. pose proof PI2_3_2. pose proof PI_4. pose proof p_51 as P51.
  assert (powerRZ 2 (-52) <= powerRZ 2 (-51)) as P52 by (rewrite !two_p; apply bpow_le; lia).
  assert (4 <= bpow radix2 1000) as Z1 by (change 4 with (bpow radix2 2); apply bpow_le; lia).
  assert (bpow radix2 (-1000) <= 1) as Z2 by (change 1 with (bpow radix2 0); apply bpow_le; lia).
  apply Rabs_def2_le in VP. apply Rabs_def2_le in VA.
  destruct (sub_err npi (nacos 0%float) 3 NP NA ltac:(lra) ltac:(lra)) as [NS ES]; [apply Rabs_le; lra|].
  apply Rabs_def2_le in ES. unfold U in ES. apply orb_false_iff. split; apply f_leb_false; try assumption; lra.
Qed.
Lemma nan_leb (x : PrimFloat.float) : PrimFloat.leb nan x = false.
Proof. rewrite leb_spec. cbn. reflexivity. Qed.
Lemma tilt_not_parallel : gp_parallel (e_n tilt1) (e_n tilt2) angular = false.
Proof.
  unfold gp_parallel, gp_angle. cbn [ndiv nmul nsub nltb nleb nopp F_num].
  set (q := (sprod (e_n tilt1) (e_n tilt2) / (vlen (e_n tilt1) * vlen (e_n tilt2)))%float).
  assert (Prim2SF q = S754_finite false 4503599627370497 (-52)) as E by (vm_compute; reflexivity). destruct (int_val _ _ _ E) as [N V].
  destruct HT as (_ & _ & _ & An). rewrite (An q N).
  - rewrite nan_leb. cbn [orb]. assert ((npi - nan)%float = nan) as ->; [|apply nan_leb].
    apply Prim2SF_inj. rewrite sub_spec. destruct (Prim2SF npi); reflexivity.
  - rewrite V. change (bpow radix2 (-52)) with (/ 4503599627370496). rewrite Rabs_pos_eq; lra.
Qed.

(** the intersection: the diameter *)
Lemma diam_inter C (d1 d2 : ell PrimFloat.float) : e_c d1 = o3 -> e_c d2 = o3 -> e_a d1 = 1%float -> e_a d2 = 1%float ->
  gp_parallel (e_n d1) (e_n d2) angular = false -> gp_normal axis_x (e_n d1) angular = true -> gp_normal axis_x (e_n d2) angular = true ->
  (forall d, d = d1 \/ d = d2 -> PrimFloat.ltb 0x1p-10%float (vlen (vec_to o3 (plane_proj (ell_plane d) o3))) = false) ->
  ent_intersect_eps (diam_ops C) (EFace (FDisk d1)) (EFace (FDisk d2)) 0x1p-10%float = Ok [diam_piece].
Proof.
  intros C1 C2 A1 A2 P G1 G2 V. unfold ent_intersect_eps, int_faces, diam_ops. cbn [eo_int diam_kernel k_face_box].
  assert (do_intersect cube cube 0x1p-10%float = true) as -> by (vm_compute; reflexivity). cbn [negb].
  unfold disk_disk, planar_planar, plane_plane. cbn [face_plane ell_plane plane_basis pl_n k_plane_plane].
  change (pl_n (ell_plane d1)) with (e_n d1). change (pl_n (ell_plane d2)) with (e_n d2). rewrite P. cbn [obind l_sup l_dir].
  change (k_plane_plane diam_kernel (ell_plane d1) (ell_plane d2) 0x1p-10%float) with (Some (mkLine o3 axis_x)). cbn [obind l_sup l_dir].
  assert (to_dir axis_x = axis_x) as -> by (vm_compute; reflexivity).
  assert (forall d c, d = d1 \/ d = d2 -> e_c d = o3 -> gp_normal axis_x (e_n d) angular = true ->
    planar_line diam_kernel (FDisk d) (mkLine o3 axis_x) c confusion 0x1p-10%float = Ok (IsSeg (mkSeg (fst diam) (snd diam)))) as K.
  { intros d c Hd Hc Hn. unfold planar_line, plane_line. cbn [face_plane l_dir l_sup]. change (pl_n (ell_plane d)) with (e_n d). rewrite Hn. cbn [negb].
    cbn [nltb F_num]. rewrite (V d Hd). cbn [obind k_common diam_kernel]. reflexivity. }
  rewrite (K d1 _ (or_introl eq_refl) C1 G1), (K d2 _ (or_intror eq_refl) C2 G2). cbn [obind].
  unfold seg_seg. cbn [s_src s_tgt].
  assert (to_dir (vec_to (fst diam) (snd diam)) = axis_x) as -> by (vm_compute; reflexivity). rewrite same_parallel.
  assert (line_contains (seg_line (mkSeg (fst diam) (snd diam))) (fst diam) 0x1p-10%float = true) as -> by (vm_compute; reflexivity). cbn [negb].
  assert (seg_contains (mkSeg (fst diam) (snd diam)) (fst diam) 0x1p-10%float false = true) as -> by (vm_compute; reflexivity).
  assert (seg_contains (mkSeg (fst diam) (snd diam)) (snd diam) 0x1p-10%float false = true) as -> by (vm_compute; reflexivity).
  cbn [andb obind of_isect s_src s_tgt]. reflexivity.
Qed.
Lemma right_inter C : ent_intersect_eps (diam_ops C) (EFace (FDisk flat_disk)) (EFace (FDisk wall_disk)) 0x1p-10%float = Ok [diam_piece].
Proof.
  apply diam_inter; try (vm_compute; reflexivity); [exact right_not_parallel|apply right_normal; vm_compute; reflexivity..|].
  intros d [->| ->]; vm_compute; reflexivity.
Qed.
Lemma tilt_inter C : ent_intersect_eps (diam_ops C) (EFace (FDisk tilt1)) (EFace (FDisk tilt2)) 0x1p-10%float = Ok [diam_piece].
Proof.
  apply diam_inter; try (vm_compute; reflexivity); [exact tilt_not_parallel|apply right_normal; vm_compute; reflexivity..|].
  intros d [->| ->]; vm_compute; reflexivity.
Qed.
(** the angle is not a number: every minimum is respected *)
Lemma tilt_accepted C top m : ent_evaluate top (diam_ops C) (angle_only 0x1p-10%float m) (EFace (FDisk tilt1)) (EFace (FDisk tilt2)) = Ok true.
Proof.
  rewrite (angle_evaluate T top _ _ _ _ m _ (tilt_inter C)) by (right; eexists; eexists; reflexivity).
  unfold plane_angle. set (q := plane_cos _ _).
  assert (Prim2SF q = S754_finite false 4503599627370497 (-52)) as E by (vm_compute; reflexivity). destruct (int_val _ _ _ E) as [N V].
  destruct HT as (_ & _ & _ & An). rewrite (An q N), nan_ltb; [reflexivity|].
  rewrite V. change (bpow radix2 (-52)) with (/ 4503599627370496). rewrite Rabs_pos_eq; lra.
Qed.
End Cases.

(** ** The directions *)
Lemma sqrt_near q d : 0 <= q -> Rabs (q - 1) <= d -> Rabs (R_sqrt.sqrt q - 1) <= d.
Proof.
  intros Hq Hd. pose proof (sqrt_pos q) as S. pose proof (sqrt_sqrt q Hq) as E. set (r := R_sqrt.sqrt q) in *.
  apply Rle_trans with (Rabs (q - 1)); [|exact Hd]. replace (q - 1) with ((r - 1) * (r + 1)) by (rewrite <- E; ring).
  rewrite Rabs_mult, (Rabs_pos_eq (r + 1)) by lra. pose proof (Rabs_pos (r - 1)). nra.
Qed.
Lemma neg_val x m e : Prim2SF x = S754_finite true m e -> number x /\ val x = - (IZR (Zpos m) * bpow radix2 e).
Proof. intros E. rewrite number_SF, val_SF, E. split; [reflexivity|]. unfold SF2R, F2R. cbn [cond_Zopp Fnum Fexp]. change (- Z.pos m)%Z with (Z.opp (Z.pos m)). rewrite opp_IZR. ring. Qed.
Lemma tilt_vals : number3 (e_n tilt1) /\ number3 (e_n tilt2) /\
  val3 (e_n tilt1) = mkV3 0 (- (7820438982677407 / 9007199254740992)) (8937644551631322 / 18014398509481984) /\
  val3 (e_n tilt2) = mkV3 0 (- (7820439048243574 / 9007199254740992)) (8937644322149733 / 18014398509481984).
Proof.
  assert (vx (e_n tilt1) = 0%float) as X1 by (vm_compute; reflexivity). assert (vx (e_n tilt2) = 0%float) as X2 by (vm_compute; reflexivity).
  destruct zero_val as [N0 V0].
  destruct (neg_val (vy (e_n tilt1)) 7820438982677407 (-53) ltac:(vm_compute; reflexivity)) as [Y1 W1].
  destruct (neg_val (vy (e_n tilt2)) 7820439048243574 (-53) ltac:(vm_compute; reflexivity)) as [Y2 W2].
  destruct (int_val (vz (e_n tilt1)) 8937644551631322 (-54) ltac:(vm_compute; reflexivity)) as [Z1 Q1].
  destruct (int_val (vz (e_n tilt2)) 8937644322149733 (-54) ltac:(vm_compute; reflexivity)) as [Z2 Q2].
  change (bpow radix2 (-53)) with (/ 9007199254740992) in *. change (bpow radix2 (-54)) with (/ 18014398509481984) in *.
  unfold number3, val3. rewrite X1, X2, V0, W1, W2, Q1, Q2. repeat split; assumption.
Qed.
Lemma tilt_dirs : direction (e_n tilt1) /\ direction (e_n tilt2).
Proof.
  destruct tilt_vals as (N1 & N2 & E1 & E2). split; (split; [assumption|]); [rewrite E1|rewrite E2]; unfold norm, dot; cbn [vx vy vz];
    rewrite two_p; change (bpow radix2 (-50)) with (/ 1125899906842624); apply sqrt_near; try lra; apply Rabs_le; lra.
Qed.
(** their angle is above 10^-8 *)
Lemma tilt_angle theta : angle_between (val3 (e_n tilt1)) (val3 (e_n tilt2)) theta -> / 100000000 < theta.
Proof.
  destruct tilt_vals as (_ & _ & E1 & E2). rewrite E1, E2. intros [Ht Hc].
  assert ((cos theta * cos theta) * (dot (mkV3 0 (- (7820438982677407 / 9007199254740992)) (8937644551631322 / 18014398509481984)) (mkV3 0 (- (7820438982677407 / 9007199254740992)) (8937644551631322 / 18014398509481984)) *
     dot (mkV3 0 (- (7820439048243574 / 9007199254740992)) (8937644322149733 / 18014398509481984)) (mkV3 0 (- (7820439048243574 / 9007199254740992)) (8937644322149733 / 18014398509481984))) =
     dot (mkV3 0 (- (7820438982677407 / 9007199254740992)) (8937644551631322 / 18014398509481984)) (mkV3 0 (- (7820439048243574 / 9007199254740992)) (8937644322149733 / 18014398509481984)) *
     dot (mkV3 0 (- (7820438982677407 / 9007199254740992)) (8937644551631322 / 18014398509481984)) (mkV3 0 (- (7820439048243574 / 9007199254740992)) (8937644322149733 / 18014398509481984))) as S.
  { set (u := mkV3 0 (- (7820438982677407 / 9007199254740992)) _) in *. set (v := mkV3 0 (- (7820439048243574 / 9007199254740992)) _) in *.
    change (dot u v * dot u v) with (Rsqr (dot u v)). rewrite (Rsqr_abs (dot u v)). rewrite <- Hc. rewrite <- !norm_sq. unfold Rsqr. ring. }
  clear Hc. unfold dot in S. cbn [vx vy vz] in S. pose proof (sin2_cos2 theta) as SC. unfold Rsqr in SC.
  assert (/ 10000000000000000 < sin theta * sin theta) as B by lra.
  pose proof PI_RGT_0. assert (0 <= sin theta) as S0 by (apply sin_ge_0; lra).
  assert (/ 100000000 < sin theta) as B'. { apply Rnot_le_lt. intros L. assert (sin theta * sin theta <= / 100000000 * / 100000000) by (apply Rmult_le_compat; lra). lra. }
  destruct (Rle_lt_or_eq_dec 0 theta (proj1 Ht)) as [L|L]; [|rewrite <- L, sin_0 in B'; lra].
  pose proof (sin_lt_x theta L). lra.
Qed.
Lemma tilt_exists : exists theta, angle_between (val3 (e_n tilt1)) (val3 (e_n tilt2)) theta.
Proof.
  destruct tilt_dirs as [D1 D2]. destruct (dir_norm _ D1) as (P1 & _ & _). destruct (dir_norm _ D2) as (P2 & _ & _).
  set (u := val3 (e_n tilt1)) in *. set (v := val3 (e_n tilt2)) in *. pose proof (cauchy_norm u v) as C.
  assert (0 < norm u * norm v) as P by (apply Rmult_lt_0_compat; assumption).
  assert (0 <= Rabs (dot u v) / (norm u * norm v) <= 1) as B.
  { split; [apply Rmult_le_pos; [apply Rabs_pos|apply Rlt_le, Rinv_0_lt_compat, P]|]. apply (Rmult_le_reg_r (norm u * norm v)); [exact P|]. unfold Rdiv. rewrite Rmult_assoc, Rinv_l, Rmult_1_r, Rmult_1_l by lra. exact C. }
  exists (acos (Rabs (dot u v) / (norm u * norm v))). split; [apply acos_quarter, B|]. rewrite cos_acos by lra. field. lra.
Qed.
Lemma right_dirs : e_n flat_disk = mkV3 0%float 0%float 1%float /\ e_n wall_disk = mkV3 0%float (-1)%float 0%float.
Proof. split; vm_compute; reflexivity. Qed.
Lemma m1_val : number (-1)%float /\ val (-1)%float = -1.
Proof.
  destruct (neg_val (-1)%float 4503599627370496 (-52) ltac:(vm_compute; reflexivity)) as [N V]. split; [exact N|]. rewrite V. change (bpow radix2 (-52)) with (/ 4503599627370496). lra.
Qed.
Lemma right_case : direction (e_n flat_disk) /\ direction (e_n wall_disk) /\ angle_between (val3 (e_n flat_disk)) (val3 (e_n wall_disk)) (PI / 2) /\
  number 1%float /\ val 1%float + powerRZ 2 (-22) <= PI / 2 /\ number 2%float /\ powerRZ 2 (-22) < PI / 2 /\ PI / 2 + powerRZ 2 (-22) < val 2%float.
Proof.
  destruct right_dirs as [-> ->]. destruct m1_val as [NM VM]. destruct zero_val as [N0 V0]. destruct one_val as [N1 V1].
  assert (number 2%float /\ val 2%float = 2) as [N2 V2].
  { destruct (int_val 2%float 4503599627370496 (-51) ltac:(vm_compute; reflexivity)) as [N V]. split; [exact N|]. rewrite V. change (bpow radix2 (-51)) with (/ 2251799813685248). lra. }
  pose proof PI2_3_2 as P1.
  assert (PI < 36 / 10) as P2. { pose proof (PI_ineq 1) as [_ L1]. cbn in L1. unfold tg_alt, PI_tg in L1. cbn in L1. lra. }
  rewrite !two_p. unfold direction, number3, val3. rewrite two_p. cbn [vx vy vz]. rewrite V0, V1, VM, V2. change (bpow radix2 (-22)) with (/ 4194304). change (bpow radix2 (-50)) with (/ 1125899906842624).
  repeat split; try assumption; try lra.
  - unfold norm, dot. cbn [vx vy vz]. apply sqrt_near; [lra|]. apply Rabs_le. lra.
  - unfold norm, dot. cbn [vx vy vz]. apply sqrt_near; [lra|]. apply Rabs_le. lra.
  - rewrite cos_PI2. unfold dot. cbn [vx vy vz]. replace (0 * 0 + 0 * -1 + 1 * 0) with 0 by ring. rewrite Rabs_R0. ring.
Qed.
Definition no_cyl : cyl_kernel PrimFloat.float := mkCylKernel _ (fun _ _ _ => 0%nat) (fun _ _ _ => []) (fun _ _ _ => []) (fun _ _ _ => []) (fun _ => cube).
Lemma small_angle_lemma : exists (d1 d2 : ell PrimFloat.float) theta, direction (e_n d1) /\ direction (e_n d2) /\
  angle_between (val3 (e_n d1)) (val3 (e_n d2)) theta /\ / 100000000 < theta /\
  forall (T : Trig PrimFloat.float), accurate T -> exists O i e, crossing i /\ ent_intersect_eps O (EFace (FDisk d1)) (EFace (FDisk d2)) e = Ok [i] /\
  forall top m, ent_evaluate top O (angle_only e m) (EFace (FDisk d1)) (EFace (FDisk d2)) = Ok true.
Proof.
  destruct tilt_exists as [theta Ht]. exists tilt1, tilt2, theta. split; [apply tilt_dirs|]. split; [apply tilt_dirs|]. split; [exact Ht|]. split; [apply tilt_angle, Ht|].
  intros T HT. exists (diam_ops no_cyl), diam_piece, 0x1p-10%float. split; [right; eexists; eexists; reflexivity|]. split; [apply tilt_inter, HT|].
  intros top m. apply tilt_accepted, HT.
Qed.
