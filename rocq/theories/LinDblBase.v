(** Rounding errors of the operations on vectors, as multiples of a bound for the coordinates. *)

From Coq Require Import ZArith Reals Floats Lra Lia Psatz Bool.
From Flocq Require Import Core.Core IEEE754.BinarySingleNaN IEEE754.PrimFloat Relative.
From Verif Require Import Base NumModel VecModel LinModel DistModel GeoSpec LinSpec DblSpec
  DblLemmas DblProofs DblLen DblEq.
Local Open Scope R_scope.

Lemma Rabs_def2_le x a : Rabs x <= a -> - a <= x <= a.
Proof. intros H. apply Rabs_le_inv in H. exact H. Qed.
(** the error of a rounding, for numbers up to B *)
Lemma rnd_err x B : bpow radix2 (-1000) <= B -> Rabs x <= B -> Rabs (rnd x - x) <= U * B.
Proof.
  intros HB Hx. pose proof (error_le_half_ulp radix2 fex (fun z => negb (Z.even z)) x) as E. fold (rnd x) in E.
  pose proof (ulp_rel x) as R. rewrite Rabs_pos_eq in R by apply ulp_ge_0.
  assert (bpow radix2 (-1074) <= bpow radix2 (-52) * B) as K.
  { apply Rle_trans with (bpow radix2 (-52) * bpow radix2 (-1000)); [rewrite <- bpow_plus; apply bpow_le; lia|]. apply Rmult_le_compat_l; [apply bpow_ge_0|exact HB]. }
  assert (Rabs x * bpow radix2 (-52) <= bpow radix2 (-52) * B) as K'.
  { rewrite Rmult_comm. apply Rmult_le_compat_l; [apply bpow_ge_0|exact Hx]. }
  assert (ulp radix2 fex x <= bpow radix2 (-52) * B) as L by (eapply Rle_trans; [exact R|]; apply Rmax_lub; assumption).
  change (bpow radix2 (-52)) with (/ 4503599627370496) in L. unfold U. lra.
Qed.
Section Ops.
Variables (x y : PrimFloat.float) (B : R).
Hypotheses (Nx : number x) (Ny : number y) (B0 : bpow radix2 (-1000) <= B) (B1 : B <= bpow radix2 1000).
Let top : B <= bpow radix2 1023.
Proof. eapply Rle_trans; [exact B1|]. apply bpow_le. lia. Qed.
Lemma add_err : Rabs (val x + val y) <= B -> number (x + y)%float /\ Rabs (val (x + y)%float - (val x + val y)) <= U * B.
Proof. intros H. destruct (f_add x y Nx Ny) as [N V]; [lra|]. rewrite V. split; [exact N|]. apply rnd_err; assumption. Qed.
Lemma sub_err : Rabs (val x - val y) <= B -> number (x - y)%float /\ Rabs (val (x - y)%float - (val x - val y)) <= U * B.
Proof. intros H. destruct (f_sub x y Nx Ny) as [N V]; [lra|]. rewrite V. split; [exact N|]. apply rnd_err; assumption. Qed.
Lemma mul_err : Rabs (val x * val y) <= B -> number (x * y)%float /\ Rabs (val (x * y)%float - val x * val y) <= U * B.
Proof. intros H. destruct (f_mul x y Nx Ny) as [N V]; [lra|]. rewrite V. split; [exact N|]. apply rnd_err; assumption. Qed.
End Ops.
Lemma zero_add (x : PrimFloat.float) : number x -> Rabs (val x) <= bpow radix2 1000 -> number (nlit 0 1 + x)%float /\ val (nlit 0 1 + x)%float = val x.
Proof.
  intros N H. destruct n0_val as [N0 V0]. destruct (f_add (nlit 0 1) x N0 N) as [Ns Vs].
  { rewrite V0, Rplus_0_l. eapply Rle_trans; [exact H|]. apply bpow_le. lia. }
  split; [exact Ns|]. rewrite Vs, V0, Rplus_0_l. apply rnd_val.
Qed.
Lemma prod_le a b A B : Rabs a <= A -> Rabs b <= B -> Rabs (a * b) <= A * B.
Proof. intros Ha Hb. rewrite Rabs_mult. apply Rmult_le_compat; try apply Rabs_pos; assumption. Qed.
Lemma prod_err a b b' A E : Rabs a <= A -> Rabs (b - b') <= E -> Rabs (a * b - a * b') <= A * E.
Proof. intros Ha Hb. replace (a * b - a * b') with (a * (b - b')) by ring. apply prod_le; assumption. Qed.
Lemma U_pos : 0 < U < / 1000000.
Proof. unfold U. lra. Qed.

(** bounds for the coordinates *)
Definition sized (M : R) : Prop := bpow radix2 (-900) <= M <= bpow radix2 900.
Lemma sized_pos M : sized M -> 0 < M.
Proof. intros [H _]. pose proof (bpow_gt_0 radix2 (-900)). lra. Qed.
Lemma sized_scale c M : / 1000 <= c <= 1000 -> sized M -> bpow radix2 (-1000) <= c * M <= bpow radix2 1000.
Proof.
  intros Hc [L H]. pose proof (bpow_gt_0 radix2 (-900)) as P. pose proof (bpow_gt_0 radix2 900) as P'.
  assert (bpow radix2 (-1000) <= / 1000 * bpow radix2 (-900)) as K1.
  { change (-1000)%Z with (-10 + -990)%Z. rewrite bpow_plus. change (bpow radix2 (-10)) with (/ 1024).
    assert (bpow radix2 (-990) <= bpow radix2 (-900)) by (apply bpow_le; lia). pose proof (bpow_gt_0 radix2 (-990)). lra. }
  assert (1000 * bpow radix2 900 <= bpow radix2 1000) as K2.
  { change (bpow radix2 1000) with (bpow radix2 (10 + 990)). rewrite bpow_plus. change (bpow radix2 10) with 1024. assert (bpow radix2 900 <= bpow radix2 990) by (apply bpow_le; lia). lra. }
  split.
  - eapply Rle_trans; [exact K1|]. apply Rmult_le_compat; lra.
  - eapply Rle_trans; [|exact K2]. apply Rmult_le_compat; lra.
Qed.

(** the scalar product *)
Lemma sprod_err (a b : V3 PrimFloat.float) B : number3 a -> number3 b -> bpow radix2 (-1000) <= B -> 4 * B <= bpow radix2 1000 ->
  Rabs (val (vx a) * val (vx b)) <= B -> Rabs (val (vy a) * val (vy b)) <= B -> Rabs (val (vz a) * val (vz b)) <= B ->
  number (sprod a b) /\ Rabs (val (sprod a b) - dot (val3 a) (val3 b)) <= 9 * U * B.
Proof.
  destruct a as [ax ay az], b as [bx by_ bz]. intros (Nx & Ny & Nz) (Nx' & Ny' & Nz') B0 B1 H1 H2 H3. unfold sprod, dot, val3. cbn [vx vy vz nadd nmul F_num] in *.
  pose proof U_pos. pose proof (bpow_gt_0 radix2 (-1000)) as P.
  destruct (mul_err ax bx B Nx Nx' B0 ltac:(lra) H1) as [M1 E1]. destruct (mul_err ay by_ B Ny Ny' B0 ltac:(lra) H2) as [M2 E2]. destruct (mul_err az bz B Nz Nz' B0 ltac:(lra) H3) as [M3 E3].
  set (q1 := (ax * bx)%float) in *. set (q2 := (ay * by_)%float) in *. set (q3 := (az * bz)%float) in *.
  assert (U * B <= / 1000000 * B) as UB by (apply Rmult_le_compat_r; lra). assert (0 <= U * B) as UB0 by (apply Rmult_le_pos; lra).
  set (e := U * B) in *.
  apply Rabs_def2_le in H1. apply Rabs_def2_le in H2. apply Rabs_def2_le in H3. apply Rabs_def2_le in E1. apply Rabs_def2_le in E2. apply Rabs_def2_le in E3.
  destruct (zero_add q1 M1) as [N0 V0]; [apply Rabs_le; lra|].
  set (s0 := (nlit 0 1 + q1)%float) in *.
  destruct (add_err s0 q2 (2001 / 1000 * B) N0 M2 ltac:(lra) ltac:(lra)) as [N1 V1]; [rewrite V0; apply Rabs_le; lra|].
  set (s1 := (s0 + q2)%float) in *. rewrite V0 in V1. apply Rabs_def2_le in V1. replace (U * (2001 / 1000 * B)) with (2001 / 1000 * e) in V1 by (unfold e; ring).
  destruct (add_err s1 q3 (3003 / 1000 * B) N1 M3 ltac:(lra) ltac:(lra)) as [N2 V2]; [apply Rabs_le; lra|].
  set (s2 := (s1 + q3)%float) in *. apply Rabs_def2_le in V2. replace (U * (3003 / 1000 * B)) with (3003 / 1000 * e) in V2 by (unfold e; ring).
  split; [exact N2|]. replace (9 * U * B) with (9 * e) by (unfold e; ring). apply Rabs_le. lra.
Qed.
