(** Examples for C113. *)

From Coq Require Import ZArith Reals List Lra Lia Psatz Bool.
From Flocq Require Import Core.Core IEEE754.BinarySingleNaN IEEE754.PrimFloat.
From Coq Require Import Floats.
From Verif Require Import Base NumModel VecModel LinModel RoundModel PolyModel DistModel IntModel GeoSpec LinSpec DblSpec GeoLemmas
  DblLemmas DblProofs DblLen DblExamples DblEq LinDblSpec LinDblBase LinDblFoot LinDblProofs LinDblSeg LinDblDist LinDblExamples
  RndDblProofs TrigDblSpec TrigDblExamples PtDblSpec PtDblExamples DkDblSpec DkDblExamples AngDblExamples IxDblSpec IxDblProofs IxDblPlane.
Import ListNotations.
Local Open Scope R_scope.

(** two bars that cross, one above them and one along the first *)
Definition bar : segment PrimFloat.float := mkSeg (mkV3 0 3 0)%float (mkV3 7 3 0)%float.
Definition pole : segment PrimFloat.float := mkSeg (mkV3 3 0 0)%float (mkV3 3 7 0)%float.
Definition above : segment PrimFloat.float := mkSeg (mkV3 3 0 4)%float (mkV3 3 7 4)%float.
Definition along : segment PrimFloat.float := mkSeg (mkV3 3 3 0)%float (mkV3 12 3 0)%float.
Definition knot : V3 PrimFloat.float := mkV3 3%float 3%float 0%float.
Definition split (p : V3 PrimFloat.float) (s1 s2 : segment PrimFloat.float) : list (V3 PrimFloat.float * V3 PrimFloat.float) :=
  [(s_src s1, p); (p, s_tgt s1); (s_src s2, p); (p, s_tgt s2)].
Definition ix_kernel (es : list (V3 PrimFloat.float * V3 PrimFloat.float)) : kernel PrimFloat.float :=
  mkKernel _ (fun _ _ _ => Some (mkLine pt0 axis_x)) (fun _ _ => Some pt1) (fun _ _ _ => es) (fun _ _ _ => []) (fun _ _ _ => [])
    (fun _ => mkBox pt0 pt0) (fun _ => mkBox pt0 pt0).

Lemma upto_12 (x y z : PrimFloat.float) : (x = 0 \/ x = 3 \/ x = 4 \/ x = 7 \/ x = 12)%float -> (y = 0 \/ y = 3 \/ y = 4 \/ y = 7 \/ y = 12)%float ->
  (z = 0 \/ z = 3 \/ z = 4 \/ z = 7 \/ z = 12)%float -> point_upto 12 (mkV3 x y z).
Proof.
  assert (forall c, (c = 0 \/ c = 3 \/ c = 4 \/ c = 7 \/ c = 12)%float -> number c /\ Rabs (val c) <= 12) as K.
  { destruct zero_val as [N0 V0], v3 as [N3 V3'], v4 as [N4 V4], v7 as [N7 V7], v12 as [N12 V12].
    intros c [-> | [-> | [-> | [-> | ->]]]]; (split; [assumption|]); rewrite ?V0, ?V3', ?V4, ?V7, ?V12; rewrite Rabs_pos_eq; lra. }
  intros A B C. destruct (K _ A), (K _ B), (K _ C). unfold point_upto, number3, within3. cbn [vx vy vz]. tauto.
Qed.
Lemma diff_gap (x y : R) : x = y \/ 1 <= Rabs (x - y) -> x = y \/ powerRZ 2 (-500) <= Rabs (x - y).
Proof.
  assert (powerRZ 2 (-500) <= 1) as P by (rewrite two_p; change 1 with (bpow radix2 0); apply bpow_le; lia).
  intros [H|H]; [left; exact H|right; lra].
Qed.
Ltac small := unfold val3; cbn [vx vy vz s_src s_tgt]; rewrite ?(proj2 zero_val), ?(proj2 one_val), ?(proj2 v3), ?(proj2 v4), ?(proj2 v7), ?(proj2 v12).
Ltac gap_12 := unfold gap3, gap; small; repeat split; first [left; lra|right; apply Rle_trans with 1; [rewrite two_p; change 1 with (bpow radix2 0); apply bpow_le; lia|first [rewrite Rabs_pos_eq; lra|rewrite Rabs_left1; lra]]].
Lemma bar_upto : segment_upto 12 bar.
Proof. unfold segment_upto, bar. cbn [s_src s_tgt]. split; [apply upto_12; tauto|]. split; [apply upto_12; tauto|]. split; [gap_12|]. small. intros E. injection E. lra. Qed.
Lemma pole_upto : segment_upto 12 pole.
Proof. unfold segment_upto, pole. cbn [s_src s_tgt]. split; [apply upto_12; tauto|]. split; [apply upto_12; tauto|]. split; [gap_12|]. small. intros E. injection E. lra. Qed.
Lemma above_upto : segment_upto 12 above.
Proof. unfold segment_upto, above. cbn [s_src s_tgt]. split; [apply upto_12; tauto|]. split; [apply upto_12; tauto|]. split; [gap_12|]. small. intros E. injection E. lra. Qed.
Lemma along_upto : segment_upto 12 along.
Proof. unfold segment_upto, along. cbn [s_src s_tgt]. split; [apply upto_12; tauto|]. split; [apply upto_12; tauto|]. split; [gap_12|]. small. intros E. injection E. lra. Qed.
Lemma split_upto M p s1 s2 q : point_upto M p -> segment_upto M s1 -> segment_upto M s2 -> vertex_of (split p s1 s2) q -> point_upto M q.
Proof.
  intros Hp (A & B & _) (C & D & _) (a & b & I & E). unfold split in I. cbn [In] in I.
  repeat destruct I as [[= <- <-]|I]; try contradiction; destruct E as [-> | ->]; assumption.
Qed.
Lemma knot_upto : point_upto 12 knot.
Proof. apply upto_12; tauto. Qed.
Lemma some_upto (x : V3 PrimFloat.float) M q : point_upto M x -> Some x = Some q -> point_upto M q.
Proof. intros H [= <-]. exact H. Qed.
Lemma none_upto M q : vertex_of [] q -> point_upto M q.
Proof. intros (a & b & [] & _). Qed.
Lemma aligned_along : aligned 0 bar along.
Proof.
  unfold aligned, bar, along. small. cbv zeta. unfold norm, dot, cross, psub. cbn [vx vy vz].
  cbn [nsub nmul R_num]. match goal with |- R_sqrt.sqrt ?x <= _ => replace x with 0 by ring end. rewrite sqrt_0. lra.
Qed.

Section Right.
Context (T : Trig PrimFloat.float).
Hypothesis HT : accurate T.
Lemma cos_zero (a b : V3 PrimFloat.float) : (sprod a b / (vlen a * vlen b))%float = 0%float -> gp_parallel a b angular = false.
Proof.
  intros E. unfold gp_parallel, gp_angle. cbn [ndiv nmul nsub nltb nleb nopp F_num]. rewrite E.
  destruct (acos_zero T HT) as [NA VA]. destruct HT as ((NP & VP) & _). destruct conf_ang as [NG VG]. pose proof PI2_3_2. pose proof PI_4. pose proof p_51 as P51.
  assert (powerRZ 2 (-52) <= powerRZ 2 (-51)) as P52 by (rewrite !two_p; apply bpow_le; lia).
  assert (4 <= bpow radix2 1000) as Z1 by (change 4 with (bpow radix2 2); apply bpow_le; lia).
  assert (bpow radix2 (-1000) <= 1) as Z2 by (change 1 with (bpow radix2 0); apply bpow_le; lia).
  apply Rabs_def2_le in VP. apply Rabs_def2_le in VA.
  destruct (sub_err npi (nacos 0%float) 3 NP NA ltac:(lra) ltac:(lra)) as [NS ES]; [apply Rabs_le; lra|].
  apply Rabs_def2_le in ES. unfold U in ES. apply orb_false_iff. split; apply f_leb_false; try assumption; lra.
Qed.
Lemma cos_one (a b : V3 PrimFloat.float) : (sprod a b / (vlen a * vlen b))%float = 1%float -> gp_parallel a b angular = true.
Proof.
  intros E. unfold gp_parallel, gp_angle. cbn [ndiv nmul nsub nltb nleb nopp F_num]. rewrite E.
  destruct (acos_one T HT) as [N V]. apply orb_true_iff. left. destruct conf_ang as [NG VG]. apply (proj2 (f_leb _ _ N NG)). pose proof p_51.
  apply Rabs_def2_le in V. lra.
Qed.
Lemma upright (a b : V3 PrimFloat.float) : (sprod a b / (vlen a * vlen b))%float = 1%float -> gp_normal a b angular = false.
Proof.
  intros E. unfold gp_normal, gp_angle. cbn [ndiv nmul nsub nltb nleb nopp F_num]. rewrite E.
  destruct (acos_one T HT) as [NA VA]. destruct HT as ((NP & VP) & _). pose proof PI2_3_2. pose proof PI_4. pose proof p_51 as P51.
  assert (powerRZ 2 (-52) <= powerRZ 2 (-51)) as P52 by (rewrite !two_p; apply bpow_le; lia).
  assert (number (2 / 1)%float /\ val (2 / 1)%float = 2) as [N2 V2].
  { assert (Prim2SF (2 / 1)%float = S754_finite false 4503599627370496 (-51)) as E2 by (vm_compute; reflexivity).
    destruct (int_val _ _ _ E2) as [N V]. split; [exact N|]. rewrite V. change (bpow radix2 (-51)) with (/ 2251799813685248). lra. }
  change (nlit 2 1 : PrimFloat.float) with (2 / 1)%float.
  assert (4 <= bpow radix2 1000) as Z1 by (change 4 with (bpow radix2 2); apply bpow_le; lia).
  assert (bpow radix2 (-1000) <= 1) as Z2 by (change 1 with (bpow radix2 0); apply bpow_le; lia).
  assert (bpow radix2 1000 <= bpow radix2 1023) as Z3 by (apply bpow_le; lia).
  apply Rabs_def2_le in VP. apply Rabs_def2_le in VA.
  destruct (f_div npi (2 / 1)%float NP N2) as [ND VD]; [rewrite V2; lra|rewrite V2; apply Rabs_le; lra|].
  rewrite V2 in VD. pose proof (rnd_err (val npi / 2) 4 ltac:(lra) ltac:(apply Rabs_le; lra)) as ED. rewrite <- VD in ED. apply Rabs_def2_le in ED.
  destruct (sub_err (npi / (2 / 1))%float (nacos 1%float) 3 ND NA ltac:(lra) ltac:(lra)) as [NS ES].
  { unfold U in ED. apply Rabs_le. lra. }
  set (a' := (npi / (2 / 1) - nacos 1)%float) in *. apply Rabs_def2_le in ES. unfold U in ED, ES.
  destruct conf_ang as [NG VG]. destruct zero_val as [N0 V0]. change (n0 : PrimFloat.float) with (0 / 1)%float.
  assert ((0 / 1)%float = 0%float) as -> by (vm_compute; reflexivity).
  destruct (PrimFloat.ltb a' 0) eqn:L.
  - apply (f_ltb _ _ NS N0) in L. rewrite V0 in L. lra.
  - apply f_leb_false; try assumption. lra.
Qed.

Lemma cross_found : seg_seg (ix_kernel (split knot bar pole)) bar pole 0x1p-10%float = Ok (IsPoint knot).
Proof. unfold seg_seg. cbv zeta. rewrite cos_zero by (vm_compute; reflexivity). vm_compute. reflexivity. Qed.
Lemma overlap_found : seg_seg (ix_kernel []) bar along 0x1p-10%float = Ok (IsSeg (mkSeg (s_src along) (s_tgt bar))).
Proof.
  unfold seg_seg. cbv zeta. rewrite cos_one by (vm_compute; reflexivity).
  assert (line_contains (seg_line bar) (s_src along) 0x1p-10%float = true) as -> by (vm_compute; reflexivity). cbn [negb].
  assert (seg_contains bar (s_src along) 0x1p-10%float false = true) as -> by (vm_compute; reflexivity).
  assert (seg_contains bar (s_tgt along) 0x1p-10%float false = false) as -> by (vm_compute; reflexivity).
  assert (seg_contains along (s_src bar) 0x1p-10%float false = false) as -> by (vm_compute; reflexivity).
  assert (seg_contains along (s_tgt bar) 0x1p-10%float false = true) as -> by (vm_compute; reflexivity). reflexivity.
Qed.
Lemma above_missed : seg_seg (ix_kernel []) bar above 0x1p-10%float = Ok IsEmpty.
Proof. unfold seg_seg. cbv zeta. rewrite cos_zero by (vm_compute; reflexivity). vm_compute. reflexivity. Qed.

Definition ground : plane PrimFloat.float := mkPlane pt0 axis_x (mkV3 0 1 0)%float axis_z.
Lemma pierced K : k_plane_line K ground (mkLine pt3 axis_z) = Some pt1 -> plane_line K ground (mkLine pt3 axis_z) 0x1p-10%float = Ok (IsPoint pt1).
Proof.
  intros E. unfold plane_line. cbn [l_dir ground pl_n]. rewrite upright by (vm_compute; reflexivity). cbn [negb]. fold ground. rewrite E.
  assert (plane_contains ground pt1 0x1p-10%float = true) as -> by (vm_compute; reflexivity). reflexivity.
Qed.
Lemma inside K : plane_line K ground (mkLine pt1 axis_x) 0x1p-10%float = Ok (IsLine (mkLine pt1 axis_x)).
Proof.
  unfold plane_line. cbn [l_dir ground pl_n]. rewrite (right_normal T HT) by (vm_compute; reflexivity). cbn [negb l_sup]. fold ground. cbv zeta.
  assert (nltb 0x1p-10%float (vlen (vec_to pt1 (plane_proj ground pt1))) = false) as -> by (vm_compute; reflexivity). reflexivity.
Qed.
Lemma not_pierced : plane_line (mkKernel _ (fun _ _ _ => None) (fun _ _ => None) (fun _ _ _ => []) (fun _ _ _ => []) (fun _ _ _ => []) (fun _ => mkBox pt0 pt0) (fun _ => mkBox pt0 pt0))
  ground (mkLine pt3 axis_z) 0x1p-10%float = Throw RuntimeError.
Proof. unfold plane_line. cbn [l_dir ground pl_n]. rewrite upright by (vm_compute; reflexivity). reflexivity. Qed.
Definition roof : plane PrimFloat.float := mkPlane pt3 axis_x (mkV3 0 1 0)%float axis_z.
Lemma apart K : plane_plane K ground roof 0x1p-10%float = Ok IsEmpty.
Proof.
  unfold plane_plane. cbn [ground roof pl_n pl_sup]. rewrite cos_one by (vm_compute; reflexivity). fold ground.
  assert (plane_contains ground pt3 0x1p-10%float = false) as -> by (vm_compute; reflexivity). reflexivity.
Qed.
Lemma planes_upto : plane_upto 12 ground /\ plane_upto 12 roof.
Proof. destruct pts_upto as (A & _ & _ & B), axis_dir as [_ C]. split; split; assumption. Qed.
(** a line through a disk *)
Definition needle : line PrimFloat.float := mkLine (mkV3 0 12 3)%float (mkV3 0 1 0)%float.
Definition pin_kernel : kernel PrimFloat.float :=
  mkKernel _ (fun _ _ _ => None) (fun _ _ => Some dk_in) (fun _ _ _ => []) (fun _ _ _ => []) (fun _ _ _ => []) (fun _ => mkBox pt0 pt0) (fun _ => mkBox pt0 pt0).
Lemma needle_crosses : gp_normal (l_dir needle) (e_n dk) angular = false.
Proof. apply upright. vm_compute. reflexivity. Qed.
Lemma pinned : int_face_line pin_kernel (FDisk dk) needle 0x1p-10%float = Ok (IsPoint dk_in).
Proof.
  unfold int_face_line, planar_line, plane_line. cbn [face_plane]. change (pl_n (ell_plane dk)) with (e_n dk). rewrite needle_crosses. cbn [negb pin_kernel k_plane_line].
  assert (plane_contains (ell_plane dk) dk_in 0x1p-10%float = true) as -> by (vm_compute; reflexivity). cbn [obind face_contains].
  assert (disk_contains dk dk_in confusion false = true) as -> by (vm_compute; reflexivity). reflexivity.
Qed.
Lemma needle_upto : point_upto 12 (l_sup needle).
Proof. apply upto_12; tauto. Qed.
End Right.
(** the distance of the upper bar from the line of the first *)
Lemma above_dist : dist_to (on_line (val3 (s_src bar)) (psub (val3 (s_tgt bar)) (val3 (s_src bar)))) (val3 (s_src above)) 5.
Proof.
  unfold bar, above. small. split.
  - exists (mkV3 3 3 0). split.
    + exists (3 / 7). unfold padd, pscale, psub. cbn [vx vy vz]. f_equal; field.
    + unfold dist, norm, dot, psub. cbn [vx vy vz]. match goal with |- R_sqrt.sqrt ?x = _ => replace x with (5 * 5) by ring end. apply sqrt_square. lra.
  - intros y (k & ->). unfold dist, norm, dot, psub, padd, pscale. cbn [vx vy vz]. rewrite <- (sqrt_square 5) at 1 by lra. apply sqrt_le_1_alt.
    pose proof (Rle_0_sqr (3 - 7 * k)) as Q. unfold Rsqr in Q. lra.
Qed.

(** ** Two cracks of 1.4 mm in a survey: the coordinates are those of a map in metres *)
Definition crack1 : segment PrimFloat.float := mkSeg (mkV3 500000 5400000 100)%float (mkV3 0x1.e848001000010p+18 0x1.4997000100001p+22 100)%float.
Definition crack2 : segment PrimFloat.float := mkSeg (mkV3 0x1.e848001000010p+18 5400000 100)%float (mkV3 500000 0x1.4997000100001p+22 100)%float.
Definition meet : V3 PrimFloat.float := mkV3 0x1.e848000800008p+18%float 0x1.4997000080000p+22%float 100%float.
Definition crack_eps : PrimFloat.float := (confusion * seg_len crack1)%float.
Lemma crack_default : (confusion * seg_len crack2)%float = crack_eps.
Proof. vm_compute. reflexivity. Qed.
(** what OpenCascade may return: the cracks are divided where they meet, up to the rounding of the coordinates *)
Definition survey_kernel : kernel PrimFloat.float :=
  mkKernel _ (fun _ _ _ => None) (fun _ _ => None) (fun s1 s2 _ => split meet s1 s2) (fun _ _ _ => []) (fun _ _ _ => [])
    (fun _ => mkBox (mkV3 500000 5400000 100)%float (mkV3 0x1.e848001000010p+18 0x1.4997000100001p+22 100)%float)
    (fun _ => mkBox (mkV3 500000 5400000 100)%float (mkV3 0x1.e848001000010p+18 0x1.4997000100001p+22 100)%float).
Definition crossing : pt := mkV3 (500000 + 1048577 / 2147483648) (5400000 + 1048577 / 2147483648) 100.
Lemma crack_vals : val3 (s_src crack1) = mkV3 500000 5400000 100 /\ val3 (s_tgt crack1) = mkV3 (500000 + 1048577 / 1073741824) (5400000 + 1048577 / 1073741824) 100 /\
  val3 (s_src crack2) = mkV3 (500000 + 1048577 / 1073741824) 5400000 100 /\ val3 (s_tgt crack2) = mkV3 500000 (5400000 + 1048577 / 1073741824) 100 /\
  val3 meet = mkV3 (500000 + 1048577 / 2147483648) (5400000 + 1048576 / 2147483648) 100 /\
  number3 (s_src crack1) /\ number3 (s_tgt crack1) /\ number3 (s_src crack2) /\ number3 (s_tgt crack2) /\ number3 meet.
Proof.
  destruct (int_val 500000%float 8589934592000000 (-34) ltac:(vm_compute; reflexivity)) as [N1 V1].
  destruct (int_val 5400000%float 5798205849600000 (-30) ltac:(vm_compute; reflexivity)) as [N2 V2].
  destruct (int_val 100%float 7036874417766400 (-46) ltac:(vm_compute; reflexivity)) as [N3 V3'].
  destruct (int_val 0x1.e848001000010p+18%float (8589934592000000 + 16 * 1048577) (-34) ltac:(vm_compute; reflexivity)) as [N4 V4].
  destruct (int_val 0x1.4997000100001p+22%float (5798205849600000 + 1048577) (-30) ltac:(vm_compute; reflexivity)) as [N5 V5].
  destruct (int_val 0x1.e848000800008p+18%float (8589934592000000 + 8 * 1048577) (-34) ltac:(vm_compute; reflexivity)) as [N6 V6].
  destruct (int_val 0x1.4997000080000p+22%float (5798205849600000 + 524288) (-30) ltac:(vm_compute; reflexivity)) as [N7 V7].
  change (bpow radix2 (-34)) with (/ 17179869184) in *. change (bpow radix2 (-30)) with (/ 1073741824) in *. change (bpow radix2 (-46)) with (/ 70368744177664) in *.
  cbv [Pos.mul Pos.add Pos.succ Pos.add_carry] in V4, V5, V6, V7.
  unfold val3, number3, crack1, crack2, meet. cbn [s_src s_tgt vx vy vz]. rewrite V1, V2, V3', V4, V5, V6, V7.
  repeat match goal with |- _ /\ _ => split end; try assumption; f_equal; lra.
Qed.
(** the cracks cross in the middle *)
Lemma cracks_cross : seg_pts crack1 crossing /\ seg_pts crack2 crossing.
Proof.
  destruct crack_vals as (A & B & C & D & _). unfold seg_pts. rewrite A, B, C, D.
  split; exists (1 / 2); (split; [lra|]); unfold crossing, padd, pscale; cbn [vx vy vz]; f_equal; lra.
Qed.
(** the returned vertex is the crossing up to half a unit in the last place of its coordinates *)
Lemma meet_rounded : dist (val3 meet) crossing = / 2147483648.
Proof.
  destruct crack_vals as (_ & _ & _ & _ & -> & _).
  unfold dist, norm, dot, psub, crossing. cbn [vx vy vz]. rewrite <- (sqrt_square (/ 2147483648)) by lra. f_equal. field.
Qed.
Lemma cracks_throw (T : Trig PrimFloat.float) : accurate T -> int_segs survey_kernel crack1 crack2 crack_eps = Throw RuntimeError.
Proof.
  intros HT. unfold int_segs. assert (do_intersect (k_seg_box survey_kernel crack1) (k_seg_box survey_kernel crack2) crack_eps = true) as -> by (vm_compute; reflexivity). cbn [negb].
  unfold seg_seg. cbv zeta. rewrite (cos_zero T HT) by (vm_compute; reflexivity).
  change (k_fragment survey_kernel crack1 crack2 _) with (split meet crack1 crack2).
  assert (first_on_both crack1 crack2 crack_eps (split meet crack1 crack2) = None) as -> by (vm_compute; reflexivity). reflexivity.
Qed.
Lemma cracks_seg_throw (T : Trig PrimFloat.float) : accurate T -> seg_seg survey_kernel crack1 crack2 crack_eps = Throw RuntimeError.
Proof.
  intros HT. unfold seg_seg. cbv zeta. rewrite (cos_zero T HT) by (vm_compute; reflexivity).
  change (k_fragment survey_kernel crack1 crack2 _) with (split meet crack1 crack2).
  assert (first_on_both crack1 crack2 crack_eps (split meet crack1 crack2) = None) as -> by (vm_compute; reflexivity). reflexivity.
Qed.
Lemma crack_tol : tolerance crack_eps /\ val crack_eps <= / 5000000000.
Proof.
  assert (exists m, Prim2SF crack_eps = S754_finite false m (-85) /\ (4503599627370496 <= Z.pos m <= 7000000000000000)%Z) as (m & E & B) by (eexists; split; [vm_compute; reflexivity|lia]).
  destruct (int_val _ _ _ E) as [N V]. change (bpow radix2 (-85)) with (/ 38685626227668133590597632) in V. destruct B as [B1 B2]. apply IZR_le in B1. apply IZR_le in B2.
  split; [split; [exact N|]|].
  - rewrite V. unfold moderate. rewrite !two_p.
    assert (bpow radix2 (-400) <= bpow radix2 (-60)) as P by (apply bpow_le; lia). assert (bpow radix2 0 <= bpow radix2 400) as Q by (apply bpow_le; lia).
    change (bpow radix2 (-60)) with (/ 1152921504606846976) in P. change (bpow radix2 0) with 1 in Q. lra.
  - rewrite V. lra.
Qed.
Lemma moderate_23 : moderate 8388608.
Proof. unfold moderate. rewrite !two_p. change 8388608 with (bpow radix2 23). split; apply bpow_le; lia. Qed.
Lemma cracks_upto : segment_upto 8388608 crack1 /\ segment_upto 8388608 crack2 /\ point_upto 8388608 meet.
Proof.
  destruct crack_vals as (A & B & C & D & E & N1 & N2 & N3 & N4 & N5).
  assert (forall p x y z, number3 p -> val3 p = mkV3 x y z -> 0 <= x <= 8388608 -> 0 <= y <= 8388608 -> 0 <= z <= 8388608 -> point_upto 8388608 p) as K.
  { intros p x y z N V X Y Z. split; [exact N|]. injection V as V1 V2 V3'. unfold within3. rewrite V1, V2, V3'. repeat split; rewrite Rabs_pos_eq; lra. }
  assert (forall p q x y z x' y' z', val3 p = mkV3 x y z -> val3 q = mkV3 x' y' z' -> (x' = x \/ / 1024 <= Rabs (x' - x)) -> (y' = y \/ / 1024 <= Rabs (y' - y)) -> z' = z -> gap3 p q) as G.
  { intros p q x y z x' y' z' V W X Y Z. injection V as V1 V2 V3'. injection W as W1 W2 W3. unfold gap3, gap. rewrite V1, V2, V3', W1, W2, W3.
    assert (powerRZ 2 (-500) <= / 1024) as P by (rewrite two_p; change (/ 1024) with (bpow radix2 (-10)); apply bpow_le; lia). rewrite Z. split; [|split]; [destruct X as [X|X]|destruct Y as [Y|Y]|]; first [left; lra|right; lra]. }
  unfold segment_upto. split; [|split].
  - split; [exact (K _ _ _ _ N1 A ltac:(lra) ltac:(lra) ltac:(lra))|]. split; [exact (K _ _ _ _ N2 B ltac:(lra) ltac:(lra) ltac:(lra))|]. split.
    + apply (G _ _ _ _ _ _ _ _ A B); [right|right|lra]; rewrite Rabs_pos_eq; lra.
    + rewrite A, B. intros X. injection X. lra.
  - split; [exact (K _ _ _ _ N3 C ltac:(lra) ltac:(lra) ltac:(lra))|]. split; [exact (K _ _ _ _ N4 D ltac:(lra) ltac:(lra) ltac:(lra))|]. split.
    + apply (G _ _ _ _ _ _ _ _ C D); [right; rewrite Rabs_left1; lra|right; rewrite Rabs_pos_eq; lra|lra].
    + rewrite C, D. intros X. injection X. lra.
  - exact (K _ _ _ _ N5 E ltac:(lra) ltac:(lra) ltac:(lra)).
Qed.
