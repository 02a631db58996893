(** Examples for C104. *)

From Coq Require Import ZArith Reals Lra Lia Psatz Bool.
From Flocq Require Import Core.Core IEEE754.BinarySingleNaN IEEE754.PrimFloat.
From Coq Require Import Floats.
From Verif Require Import Base NumModel VecModel LinModel RoundModel PolyModel DistModel GeoSpec LinSpec DblSpec GeoLemmas
  DblLemmas DblProofs DblLen DblExamples DblEq LinDblSpec LinDblBase LinDblFoot LinDblProofs LinDblSeg LinDblDist.
Local Open Scope R_scope.

(** small integers *)
Lemma v3 : number 3%float /\ val 3%float = 3.
Proof. destruct (int_val 3%float 6755399441055744 (-51) ltac:(vm_compute; reflexivity)) as [N V]. split; [exact N|]. rewrite V. change (bpow radix2 (-51)) with (/ 2251799813685248). lra. Qed.
Lemma v4 : number 4%float /\ val 4%float = 4.
Proof. destruct (int_val 4%float 4503599627370496 (-50) ltac:(vm_compute; reflexivity)) as [N V]. split; [exact N|]. rewrite V. change (bpow radix2 (-50)) with (/ 1125899906842624). lra. Qed.
Lemma v7 : number 7%float /\ val 7%float = 7.
Proof. destruct (int_val 7%float 7881299347898368 (-50) ltac:(vm_compute; reflexivity)) as [N V]. split; [exact N|]. rewrite V. change (bpow radix2 (-50)) with (/ 1125899906842624). lra. Qed.
Lemma v12 : number 12%float /\ val 12%float = 12.
Proof. destruct (int_val 12%float 6755399441055744 (-49) ltac:(vm_compute; reflexivity)) as [N V]. split; [exact N|]. rewrite V. change (bpow radix2 (-49)) with (/ 562949953421312). lra. Qed.
Lemma vmilli : number 0x1p-10%float /\ val 0x1p-10%float = / 1024.
Proof. destruct (int_val 0x1p-10%float 4503599627370496 (-62) ltac:(vm_compute; reflexivity)) as [N V]. split; [exact N|]. rewrite V. change (bpow radix2 (-62)) with (/ 4611686018427387904). lra. Qed.
Lemma p_400 : powerRZ 2 (-400) <= / 1024 /\ 1024 <= powerRZ 2 400 /\ powerRZ 2 (-300) <= 1.
Proof.
  rewrite !two_p. change (/ 1024) with (bpow radix2 (-10)). change 1024 with (bpow radix2 10). change 1 with (bpow radix2 0). repeat split; apply bpow_le; lia.
Qed.
Lemma moderate_12 : moderate 12.
Proof. destruct p_400 as (A & B & _). split; lra. Qed.
Lemma tol_milli : tolerance 0x1p-10%float.
Proof. destruct vmilli as [N V]. split; [exact N|]. rewrite V. destruct p_400 as (A & B & _). split; lra. Qed.
Definition pt0 : V3 float := mkV3 0%float 0%float 0%float.
Definition pt1 : V3 float := mkV3 3%float 4%float 0%float.
Definition pt2 : V3 float := mkV3 7%float 7%float 0%float.
Definition pt3 : V3 float := mkV3 3%float 4%float 12%float.
Definition axis_x : V3 float := mkV3 1%float 0%float 0%float.
Definition axis_z : V3 float := mkV3 0%float 0%float 1%float.
Ltac vals := unfold val3, pt0, pt1, pt2, pt3, axis_x, axis_z; cbn [vx vy vz];
  rewrite ?(proj2 zero_val), ?(proj2 one_val), ?(proj2 v3), ?(proj2 v4), ?(proj2 v7), ?(proj2 v12).
Lemma pts_upto : point_upto 12 pt0 /\ point_upto 12 pt1 /\ point_upto 12 pt2 /\ point_upto 12 pt3.
Proof.
  destruct zero_val as [N0 V0], v3 as [N3 V3'], v4 as [N4 V4], v7 as [N7 V7], v12 as [N12 V12].
  unfold point_upto, number3, within3, pt0, pt1, pt2, pt3. cbn [vx vy vz]. rewrite V0, V3', V4, V7, V12.
  assert (forall x, 0 <= x <= 12 -> Rabs x <= 12) as K by (intros x H; rewrite Rabs_pos_eq; lra).
  repeat split; try assumption; apply K; lra.
Qed.
Lemma axis_dir : direction axis_x /\ direction axis_z.
Proof.
  destruct zero_val as [N0 V0], one_val as [N1 V1]. assert (0 <= powerRZ 2 (-50)) as P by (rewrite two_p; apply bpow_ge_0).
  split; (split; [unfold number3; cbn [vx vy vz]; repeat split; assumption|]).
  - replace (norm (val3 axis_x)) with 1; [rewrite Rminus_diag_eq, Rabs_R0 by reflexivity; exact P|]. vals. unfold norm, dot. cbn [vx vy vz]. replace (1 * 1 + 0 * 0 + 0 * 0) with 1 by ring. symmetry. apply sqrt_1.
  - replace (norm (val3 axis_z)) with 1; [rewrite Rminus_diag_eq, Rabs_R0 by reflexivity; exact P|]. vals. unfold norm, dot. cbn [vx vy vz]. replace (0 * 0 + 0 * 0 + 1 * 1) with 1 by ring. symmetry. apply sqrt_1.
Qed.
(** directions made by the library *)
Lemma made_dir : direction (to_dir pt3).
Proof.
  destruct (dir_lemma pt3) as (N & _ & _ & _ & E).
  - exact (proj1 (proj2 (proj2 (proj2 pts_upto)))).
  - destruct pts_upto as (_ & _ & _ & [_ (A & B & C)]). pose proof p_500. repeat split; lra.
  - assert (powerRZ 2 (-500) <= 1) as P by (rewrite two_p; change 1 with (bpow radix2 0); apply bpow_le; lia).
    unfold sizable3, sizable. vals. split; [|split]; right; rewrite Rabs_pos_eq; lra.
  - replace (norm (val3 pt3)) with 13; [lra|]. vals. unfold norm, dot. cbn [vx vy vz]. symmetry. replace (3 * 3 + 4 * 4 + 12 * 12) with (13 * 13) by ring. apply sqrt_square. lra.
  - split; assumption.
Qed.

Lemma line_case_d : dist_to (on_line (val3 pt0) (val3 axis_x)) (val3 pt1) 4.
Proof.
  vals. split.
  - exists (mkV3 3 0 0). split; [exists 3; unfold padd, pscale; cbn [vx vy vz]; f_equal; ring|]. unfold dist, norm, dot, psub. cbn [vx vy vz].
    replace ((3 - 3) * (3 - 3) + (4 - 0) * (4 - 0) + (0 - 0) * (0 - 0)) with (4 * 4) by ring. apply sqrt_square. lra.
  - intros y (k & ->). unfold dist, norm, dot, psub, padd, pscale. cbn [vx vy vz]. rewrite <- (sqrt_square 4) at 1 by lra. apply sqrt_le_1_alt.
    pose proof (Rle_0_sqr (3 - k)) as Q. unfold Rsqr in Q. lra.
Qed.
Lemma plane_case_d : dist_to (on_plane (val3 pt0) (val3 axis_z)) (val3 pt3) 12.
Proof.
  vals. split.
  - exists (mkV3 3 4 0). split; [unfold on_plane, dot, psub; cbn [vx vy vz]; ring|]. unfold dist, norm, dot, psub. cbn [vx vy vz].
    replace ((3 - 3) * (3 - 3) + (4 - 4) * (4 - 4) + (12 - 0) * (12 - 0)) with (12 * 12) by ring. apply sqrt_square. lra.
  - intros [y1 y2 y3] H. unfold on_plane, dot, psub in H. cbn [vx vy vz] in H. assert (y3 = 0) as -> by lra.
    unfold dist, norm, dot, psub. cbn [vx vy vz]. rewrite <- (sqrt_square 12) at 1 by lra. apply sqrt_le_1_alt.
    pose proof (Rle_0_sqr (3 - y1)) as Q. pose proof (Rle_0_sqr (4 - y2)) as Q'. unfold Rsqr in Q, Q'. lra.
Qed.
Lemma seg_case_d : dist_to (on_segment (val3 pt0) (val3 pt1)) (val3 pt2) 5 /\ gap3 pt0 pt1 /\ val3 pt0 <> val3 pt1 /\ norm (psub (val3 pt1) (val3 pt0)) = 5.
Proof.
  split; [|split; [|split]].
  - vals. split.
    + exists (mkV3 3 4 0). split; [exists 1; split; [lra|]; unfold padd, pscale; cbn [vx vy vz]; f_equal; ring|]. unfold dist, norm, dot, psub. cbn [vx vy vz].
      replace ((7 - 3) * (7 - 3) + (7 - 4) * (7 - 4) + (0 - 0) * (0 - 0)) with (5 * 5) by ring. apply sqrt_square. lra.
    + intros y (k & Hk & ->). unfold dist, norm, dot, psub, padd, pscale. cbn [vx vy vz]. rewrite <- (sqrt_square 5) at 1 by lra. apply sqrt_le_1_alt. nra.
  - assert (powerRZ 2 (-500) <= 1) as P by (rewrite two_p; change 1 with (bpow radix2 0); apply bpow_le; lia).
    unfold gap3, gap. vals. split; [|split]; [right; rewrite Rabs_pos_eq; lra..|left; ring].
  - vals. intros E. injection E as E1 _. lra.
  - vals. unfold norm, dot, psub. cbn [vx vy vz]. replace ((3 - 0) * (3 - 0) + (4 - 0) * (4 - 0) + (0 - 0) * (0 - 0)) with (5 * 5) by ring. apply sqrt_square. lra.
Qed.
Lemma seg_dist_case : powerRZ 2 (-42) * 12 <= 5 / 10000000 /\ powerRZ 2 (-300) <= 5.
Proof. destruct p_400 as (_ & _ & A). rewrite (two_p (-42)). change (bpow radix2 (-42)) with (/ 4398046511104). split; lra. Qed.

(** a short segment far from the origin does not contain its own points *)
Definition far_seg : segment float := mkSeg (mkV3 20000000000 30000000000 10000000000)%float (mkV3 20000000000 30000000001 10000000001)%float.
Lemma far_not_contained : seg_contains_default far_seg (seg_point far_seg 0x1.999999999999ap-4%float) true = false.
Proof. vm_compute. reflexivity. Qed.
(** and their distance to it is wrong *)
Definition far_seg' : segment float := mkSeg (mkV3 2000000000 3000000000 1000000000)%float (mkV3 2000000001 3000000001 1000000001)%float.
Definition far_pt : V3 float := seg_point far_seg' 0x1.3333333333333p-2%float.
Lemma vfar : val 2000000000%float = 2000000000 /\ val 3000000000%float = 3000000000 /\ val 1000000000%float = 1000000000 /\
  val 2000000001%float = 2000000001 /\ val 3000000001%float = 3000000001 /\ val 1000000001%float = 1000000001.
Proof.
  destruct (int_val 2000000000%float 8388608000000000 (-22) ltac:(vm_compute; reflexivity)) as [_ V1].
  destruct (int_val 3000000000%float 6291456000000000 (-21) ltac:(vm_compute; reflexivity)) as [_ V2].
  destruct (int_val 1000000000%float 8388608000000000 (-23) ltac:(vm_compute; reflexivity)) as [_ V3'].
  destruct (int_val 2000000001%float 8388608004194304 (-22) ltac:(vm_compute; reflexivity)) as [_ V4].
  destruct (int_val 3000000001%float 6291456002097152 (-21) ltac:(vm_compute; reflexivity)) as [_ V5].
  destruct (int_val 1000000001%float 8388608008388608 (-23) ltac:(vm_compute; reflexivity)) as [_ V6].
  rewrite V1, V2, V3', V4, V5, V6. change (bpow radix2 (-22)) with (/ 4194304). change (bpow radix2 (-21)) with (/ 2097152). change (bpow radix2 (-23)) with (/ 8388608). lra.
Qed.
Lemma far_distance : (exists y, on_segment (val3 (s_src far_seg')) (val3 (s_tgt far_seg')) y /\ dist (val3 far_pt) y <= / 1000000) /\
  / 2 < val (dist_segment far_pt far_seg').
Proof.
  split.
  - destruct vfar as (V1 & V2 & V3' & V4 & V5 & V6).
    destruct (int_val (vx far_pt) 8388608001258291 (-22) ltac:(vm_compute; reflexivity)) as [_ P1].
    destruct (int_val (vy far_pt) 6291456000629146 (-21) ltac:(vm_compute; reflexivity)) as [_ P2].
    destruct (int_val (vz far_pt) 8388608002516582 (-23) ltac:(vm_compute; reflexivity)) as [_ P3].
    change (bpow radix2 (-22)) with (/ 4194304) in P1. change (bpow radix2 (-21)) with (/ 2097152) in P2. change (bpow radix2 (-23)) with (/ 8388608) in P3.
    exists (mkV3 (2000000000 + 3 / 10) (3000000000 + 3 / 10) (1000000000 + 3 / 10)). split.
    + exists (3 / 10). split; [lra|]. unfold far_seg', val3, padd, pscale. cbn [s_src s_tgt vx vy vz]. rewrite V1, V2, V3', V4, V5, V6. f_equal; lra.
    + unfold dist. eapply Rle_trans; [apply (norm_le _ (/ 2000000))|lra]; unfold psub, val3; cbn [vx vy vz]; rewrite ?P1, ?P2, ?P3; apply Rabs_le; lra.
  - assert (Prim2SF (dist_segment far_pt far_seg') = S754_finite false 4680278518872811 (-53)) as E by (vm_compute; reflexivity).
    destruct (int_val _ _ _ E) as [_ V]. rewrite V. change (bpow radix2 (-53)) with (/ 9007199254740992). lra.
Qed.
