(** Areas of triangles and their sums, in double precision. *)

From Coq Require Import ZArith Reals Floats List Lra Lia Psatz Bool.
From Flocq Require Import Core.Core IEEE754.BinarySingleNaN IEEE754.PrimFloat Relative.
From Verif Require Import Base NumModel VecModel LinModel PolyModel GeoSpec PolySpec DblSpec GeoLemmas
  DblLemmas DblProofs DblLen DblEq LinDblSpec LinDblBase LinDblFoot LinDblProofs LinDblDist TriDblSpec.
Import ListNotations.
Local Open Scope R_scope.

Lemma S_facts S : medium S -> 0 < S /\ bpow radix2 (-400) <= S * S <= bpow radix2 400.
Proof.
  unfold medium. rewrite !two_p. intros [A B]. pose proof (bpow_gt_0 radix2 (-200)) as P. split; [lra|].
  change (-400)%Z with (-200 + -200)%Z. change 400%Z with (200 + 200)%Z. rewrite !bpow_plus. split; apply Rmult_le_compat; lra.
Qed.
Lemma SS_sized k S : 1 / 1000 <= k <= 1000000 -> medium S -> bpow radix2 (-1000) <= k * (S * S) /\ k * (S * S) <= bpow radix2 1000.
Proof.
  intros Hk HS. destruct (S_facts S HS) as (S0 & A & B). pose proof (bpow_gt_0 radix2 (-400)) as P. split.
  - apply Rle_trans with (bpow radix2 (-10) * bpow radix2 (-400)); [rewrite <- bpow_plus; apply bpow_le; lia|]. apply Rmult_le_compat; try apply bpow_ge_0; [|exact A].
    change (bpow radix2 (-10)) with (/ 1024). lra.
  - apply Rle_trans with (bpow radix2 20 * bpow radix2 400); [|rewrite <- bpow_plus; apply bpow_le; lia]. change (bpow radix2 20) with 1048576. apply Rmult_le_compat; lra.
Qed.
Lemma S_sized k S : 1 / 1000 <= k <= 1000 -> medium S -> bpow radix2 (-1000) <= k * S /\ k * S <= bpow radix2 1000.
Proof.
  unfold medium. rewrite !two_p. intros Hk [A B]. pose proof (bpow_gt_0 radix2 (-200)) as P. split.
  - apply Rle_trans with (bpow radix2 (-10) * bpow radix2 (-200)); [rewrite <- bpow_plus; apply bpow_le; lia|]. apply Rmult_le_compat; try apply bpow_ge_0; [|exact A].
    change (bpow radix2 (-10)) with (/ 1024). lra.
  - apply Rle_trans with (bpow radix2 20 * bpow radix2 200); [|rewrite <- bpow_plus; apply bpow_le; lia]. change (bpow radix2 20) with 1048576. apply Rmult_le_compat; lra.
Qed.

Section Area.
Variables (S : R).
Hypothesis HS : medium S.
Let Q := S * S.
Lemma US_small : 0 < S /\ 0 < Q /\ 0 <= U * S <= / 1000000 * S /\ 0 <= U * Q <= / 1000000 * Q.
Proof.
  destruct (S_facts S HS) as (S0 & A & _). pose proof (bpow_gt_0 radix2 (-400)) as P. fold Q in A. pose proof U_pos. split; [exact S0|]. split; [lra|].
  split; (split; [apply Rmult_le_pos; lra|apply Rmult_le_compat_r; lra]).
Qed.
(** one difference of coordinates *)
Lemma diff_err (x y : PrimFloat.float) : number x -> number y -> Rabs (val x - val y) <= S ->
  number (x - y)%float /\ Rabs (val (x - y)%float - (val x - val y)) <= U * S /\ Rabs (val (x - y)%float) <= 1001 / 1000 * S.
Proof.
  intros Nx Ny H. destruct (S_sized 1 S ltac:(lra) HS) as [A B]. rewrite Rmult_1_l in A, B. destruct (sub_err x y S Nx Ny A B H) as [N E]. split; [exact N|]. split; [exact E|].
  destruct US_small as (_ & _ & US & _). apply Rabs_def2_le in E. apply Rabs_def2_le in H. apply Rabs_le. lra.
Qed.
(** one coordinate of the vector product *)
Lemma minor_err (a b c d : PrimFloat.float) A B C D : number a -> number b -> number c -> number d ->
  Rabs (val a - A) <= U * S -> Rabs (val b - B) <= U * S -> Rabs (val c - C) <= U * S -> Rabs (val d - D) <= U * S ->
  Rabs (val a) <= 1001 / 1000 * S -> Rabs (val b) <= 1001 / 1000 * S -> Rabs (val c) <= 1001 / 1000 * S -> Rabs (val d) <= 1001 / 1000 * S ->
  Rabs A <= S -> Rabs B <= S -> Rabs C <= S -> Rabs D <= S ->
  number (a * b - c * d)%float /\ Rabs (val (a * b - c * d)%float - (A * B - C * D)) <= 81 / 10 * (U * Q).
Proof.
  intros Na Nb Nc Nd Ea Eb Ec Ed Ba Bb Bc Bd BA BB BC BD. destruct US_small as (S0 & Q0 & US & UQ).
  assert (K : forall x y X Y, number x -> number y -> Rabs (val x - X) <= U * S -> Rabs (val y - Y) <= U * S -> Rabs (val x) <= 1001 / 1000 * S -> Rabs (val y) <= 1001 / 1000 * S ->
     Rabs X <= S -> Rabs Y <= S -> number (x * y)%float /\ Rabs (val (x * y)%float - X * Y) <= 301 / 100 * (U * Q) /\ Rabs (val (x * y)%float) <= 1003 / 1000 * Q).
  { intros x y X Y Nx Ny Ex Ey Bx By BX BY. destruct (SS_sized (10025 / 10000) S ltac:(lra) HS) as [L1 L2]. fold Q in L1, L2.
    assert (Rabs (val x * val y) <= 10025 / 10000 * Q) as P by (pose proof (prod_le _ _ _ _ Bx By) as P; replace (1001 / 1000 * S * (1001 / 1000 * S)) with (1002001 / 1000000 * Q) in P by (unfold Q; field); lra).
    destruct (mul_err x y (10025 / 10000 * Q) Nx Ny L1 L2 P) as [N E]. split; [exact N|].
    assert (Rabs (val x * val y - X * Y) <= 2002 / 1000 * (U * Q)) as E2.
    { replace (val x * val y - X * Y) with (val x * (val y - Y) + (val x - X) * Y) by ring. eapply Rle_trans; [apply Rabs_triang|].
      pose proof (prod_le _ _ _ _ Bx Ey) as P1. pose proof (prod_le _ _ _ _ Ex BY) as P2. replace (1001 / 1000 * S * (U * S)) with (1001 / 1000 * (U * Q)) in P1 by (unfold Q; field). replace (U * S * S) with (U * Q) in P2 by (unfold Q; ring). lra. }
    replace (U * (10025 / 10000 * Q)) with (10025 / 10000 * (U * Q)) in E by ring.
    apply Rabs_def2_le in E. apply Rabs_def2_le in E2. apply Rabs_def2_le in P. split; apply Rabs_le; lra. }
  destruct (K a b A B Na Nb Ea Eb Ba Bb BA BB) as (N1 & E1 & B1). destruct (K c d C D Nc Nd Ec Ed Bc Bd BC BD) as (N2 & E2 & B2). clear K.
  destruct (SS_sized (2006 / 1000) S ltac:(lra) HS) as [L1 L2]. fold Q in L1, L2. set (x := (a * b)%float) in *. set (y := (c * d)%float) in *.
  apply Rabs_def2_le in B1. apply Rabs_def2_le in B2. apply Rabs_def2_le in E1. apply Rabs_def2_le in E2.
  destruct (sub_err x y (2006 / 1000 * Q) N1 N2 L1 L2) as [N E]; [apply Rabs_le; lra|]. split; [exact N|].
  replace (U * (2006 / 1000 * Q)) with (2006 / 1000 * (U * Q)) in E by ring. apply Rabs_def2_le in E. apply Rabs_le. lra.
Qed.
Variables (p q r : V3 PrimFloat.float).
Hypothesis HP : spread S [p; q; r].
Lemma area_bound : 0 <= triangle_area (val3 p) (val3 q) (val3 r) <= 15 / 10 * Q.
Proof.
  destruct HP as [_ HD]. destruct (HD q p) as (X1 & X2 & X3); [cbn; auto..|]. destruct (HD r p) as (Y1 & Y2 & Y3); [cbn; auto..|].
  destruct US_small as (S0 & Q0 & _). unfold triangle_area. set (c := xprod _ _). pose proof (norm_nonneg c). split; [lra|].
  assert (norm c * norm c <= (3 * Q) * (3 * Q)) as K.
  { set (u := psub (val3 q) (val3 p)) in *. set (v := psub (val3 r) (val3 p)) in *.
    assert (norm c * norm c = dot u u * dot v v - dot u v * dot u v) as -> by (rewrite norm_sq; unfold c, xprod, dot; cbn [vx vy vz]; ring).
    assert (forall x, Rabs x <= S -> x * x <= Q) as K1 by (intros x Hx; rewrite <- (Rabs_pos_eq (x * x)) by apply Rle_0_sqr; apply prod_le; assumption).
    assert (dot u u <= 3 * Q) as Hu by (pose proof (K1 _ X1); pose proof (K1 _ X2); pose proof (K1 _ X3); unfold u, dot, psub, val3; cbn [vx vy vz]; lra).
    assert (dot v v <= 3 * Q) as Hv by (pose proof (K1 _ Y1); pose proof (K1 _ Y2); pose proof (K1 _ Y3); unfold v, dot, psub, val3; cbn [vx vy vz]; lra).
    pose proof (dot_nonneg u). pose proof (dot_nonneg v). pose proof (Rle_0_sqr (dot u v)) as P. unfold Rsqr in P.
    assert (dot u u * dot v v <= 3 * Q * (3 * Q)) by (apply Rmult_le_compat; assumption). lra. }
  assert (norm c <= 3 * Q); [|lra]. apply Rsqr_incr_0; [exact K|assumption|lra].
Qed.
Lemma area_err : number (t_area (make_tri p q r)) /\ Rabs (val (t_area (make_tri p q r)) - triangle_area (val3 p) (val3 q) (val3 r)) <= 17 * (U * Q).
Proof.
  pose proof area_bound as AB. destruct HP as [HN HD]. destruct (HN p ltac:(cbn; auto)) as (P1 & P2 & P3). destruct (HN q ltac:(cbn; auto)) as (Q1 & Q2 & Q3). destruct (HN r ltac:(cbn; auto)) as (R1 & R2 & R3).
  destruct (HD q p ltac:(cbn; auto) ltac:(cbn; auto)) as (X1 & X2 & X3). destruct (HD r p ltac:(cbn; auto) ltac:(cbn; auto)) as (Y1 & Y2 & Y3).
  destruct US_small as (S0 & Q0 & US & UQ).
  destruct (diff_err _ _ Q1 P1 X1) as (Na1 & Ea1 & Ba1). destruct (diff_err _ _ Q2 P2 X2) as (Na2 & Ea2 & Ba2). destruct (diff_err _ _ Q3 P3 X3) as (Na3 & Ea3 & Ba3).
  destruct (diff_err _ _ R1 P1 Y1) as (Nb1 & Eb1 & Bb1). destruct (diff_err _ _ R2 P2 Y2) as (Nb2 & Eb2 & Bb2). destruct (diff_err _ _ R3 P3 Y3) as (Nb3 & Eb3 & Bb3).
  destruct (minor_err _ _ _ _ _ _ _ _ Na2 Nb3 Na3 Nb2 Ea2 Eb3 Ea3 Eb2 Ba2 Bb3 Ba3 Bb2 X2 Y3 X3 Y2) as [N1 E1].
  destruct (minor_err _ _ _ _ _ _ _ _ Na3 Nb1 Na1 Nb3 Ea3 Eb1 Ea1 Eb3 Ba3 Bb1 Ba1 Bb3 X3 Y1 X1 Y3) as [N2 E2].
  destruct (minor_err _ _ _ _ _ _ _ _ Na1 Nb2 Na2 Nb1 Ea1 Eb2 Ea2 Eb1 Ba1 Bb2 Ba2 Bb1 X1 Y2 X2 Y1) as [N3 E3].
  unfold make_tri. cbn [t_area]. set (c := cross (vec_to p q) (vec_to p r)). set (C := xprod (psub (val3 q) (val3 p)) (psub (val3 r) (val3 p))).
  assert (norm (psub (val3 c) C) <= 141 / 10 * (U * Q)) as EC.
  { eapply Rle_trans; [apply (norm_le _ (81 / 10 * (U * Q))); unfold psub, val3, c, cross, vec_to, C, xprod, psub, val3; cbn [vx vy vz nsub nmul F_num]; assumption|]. lra. }
  assert (number3 c) as Nc by (unfold number3, c, cross, vec_to; cbn [vx vy vz nsub nmul F_num]; auto).
  unfold triangle_area in *. fold C in AB. fold C. pose proof (norm_dif (val3 c) C) as ND. set (n := norm C) in *.
  assert (norm (val3 c) <= 301 / 100 * Q) as Bn by (apply Rabs_def2_le in ND; lra).
  destruct (S_facts S HS) as (_ & L1 & L2). fold Q in L1, L2.
  assert (within3 (bpow radix2 450) c) as Bc.
  { assert (301 / 100 * Q <= bpow radix2 450) as K.
    { change 450%Z with (50 + 400)%Z. rewrite bpow_plus. change (bpow radix2 50) with 1125899906842624. apply Rmult_le_compat; lra. }
    destruct (comp_norm (val3 c)) as (A & B & D). unfold val3 in A, B, D at 1. cbn [vx vy vz] in A, B, D. fold (val3 c) in *. repeat split; lra. }
  destruct (vlen_mixed c Nc Bc) as (Nl & Pl & El). set (l := vlen c) in *.
  assert (bpow radix2 (-500) <= / 100 * (U * Q)) as T.
  { apply Rle_trans with (bpow radix2 (-7) * (bpow radix2 (-53) * bpow radix2 (-400))); [rewrite <- !bpow_plus; apply bpow_le; lia|].
    change (bpow radix2 (-53)) with U. apply Rmult_le_compat; [apply bpow_ge_0|apply Rmult_le_pos; [unfold U; lra|apply bpow_ge_0]|change (bpow radix2 (-7)) with (/ 128); lra|]. apply Rmult_le_compat_l; [unfold U; lra|exact L1]. }
  assert (Rabs (val l - n) <= 292 / 10 * (U * Q)) as El2.
  { assert (5 * U * norm (val3 c) <= 1505 / 100 * (U * Q)) by (unfold U in *; lra). apply Rabs_def2_le in El. apply Rabs_def2_le in ND. apply Rabs_le. lra. }
  assert (number (nlit 1 2 : PrimFloat.float) /\ val (nlit 1 2 : PrimFloat.float) = / 2) as [Nh Vh].
  { rewrite number_SF, val_SF. replace (Prim2SF (nlit 1 2)) with (S754_finite false 4503599627370496 (-53)) by (vm_compute; reflexivity).
    split; [reflexivity|]. cbn [BinarySingleNaN.SF2R cond_Zopp]. unfold F2R. cbn [Fnum Fexp]. change (bpow radix2 (-53)) with (/ 9007199254740992). lra. }
  destruct (SS_sized (16 / 10) S ltac:(lra) HS) as [K1 K2]. fold Q in K1, K2. apply Rabs_def2_le in El2.
  destruct (mul_err (nlit 1 2) l (16 / 10 * Q) Nh Nl K1 K2) as [Nm Em]; [rewrite Vh; apply Rabs_le; lra|]. rewrite Vh in Em.
  split; [exact Nm|]. cbn [nmul F_num]. replace (U * (16 / 10 * Q)) with (16 / 10 * (U * Q)) in Em by ring. apply Rabs_def2_le in Em. apply Rabs_le. lra.
Qed.
End Area.
